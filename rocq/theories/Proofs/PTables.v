(** Proofs about the fixed-layout tables. *)
From Verif.Model Require Import MTag MFixed MTables.
From Verif.Spec Require Import SBase STables.
From Verif.Proofs Require Import PBase PTag PFixed PCodec.

Lemma rg_u8 v : in_range U8 v -> reads de_u8 (ser_u8 v) v.
Proof. unfold in_range; intros; apply reads_u8; lia. Qed.
Lemma rg_u16 v : in_range U16 v -> reads de_u16 (ser_u16 v) v.
Proof. unfold in_range; intros; apply reads_u16; lia. Qed.
Lemma rg_i16 v : in_range I16 v -> reads de_i16 (ser_i16 v) v.
Proof. unfold in_range; intros; apply reads_i16; lia. Qed.
Lemma rg_u32 v : in_range U32 v -> reads de_u32 (ser_u32 v) v.
Proof. unfold in_range; intros; apply reads_u32; lia. Qed.
Lemma rg_i32 v : in_range I32 v -> reads de_i32 (ser_i32 v) v.
Proof. unfold in_range; intros; apply reads_i32; lia. Qed.

Lemma rg_fixed x : fixed_value x -> reads de_fixed (ser_fixed x) x.
Proof.
  intros (p & Hp & Hx & Ha). unfold ser_fixed, de_fixed. rewrite Ha. rewrite Hx at 1.
  apply (reads_map _ fixed_from_packed). now apply rg_i32.
Qed.

Lemma rg_date d : date_ok d -> reads de_date (ser_date d) d.
Proof.
  intros [Hr Hn]. destruct d as [s n]; cbn in *; subst n. unfold ser_date, de_date; cbn [dt_secs].
  eapply reads_bind'; [symmetry; apply app_nil_r| |].
  - apply reads_i64. unfold chrono_min, chrono_max in Hr. change (2 ^ 63) with 9223372036854775808. lia.
  - cbn beta. unfold chrono_min, chrono_max in *.
    replace ((-8332550092800 <=? s) && (s <=? 8212381257599)) with true by lia. apply reads_pret.
Qed.

Lemma rg_tag t : good_tag t -> reads de_tag (ser_tag t) t.
Proof. exact (reads_tag t). Qed.

Ltac rec_leaf :=
  first [ apply rg_u16 | apply rg_i16 | apply rg_u32 | apply rg_u8 | apply rg_i32
        | apply rg_fixed | apply rg_date | apply rg_tag ]; assumption.
Ltac rec_reads x :=
  destruct x; intros H; repeat match goal with H : _ /\ _ |- _ => destruct H end;
  repeat (eapply reads_bind; [rec_leaf|]); apply reads_pret.

Lemma reads_head_tbl x : head_tbl_ok x -> reads de_head_tbl (ser_head_tbl x) x.
Proof. unfold head_tbl_ok, de_head_tbl, ser_head_tbl; cbn [concat]. rec_reads x. Qed.
Lemma reads_hhea x : hhea_ok x -> reads de_hhea (ser_hhea x) x.
Proof. unfold hhea_ok, de_hhea, ser_hhea; cbn [concat]. rec_reads x. Qed.
Lemma reads_maxp10 x : maxp10_ok x -> reads de_maxp10 (ser_maxp10 x) x.
Proof. unfold maxp10_ok, de_maxp10, ser_maxp10; cbn [concat]. rec_reads x. Qed.
Lemma reads_axis_record x : axis_record_ok x -> reads de_axis_record (ser_axis_record x) x.
Proof. unfold axis_record_ok, de_axis_record, ser_axis_record; cbn [concat]. rec_reads x. Qed.
Lemma reads_fvarcore x : fvarcore_ok x -> reads de_fvarcore (ser_fvarcore x) x.
Proof. unfold fvarcore_ok, de_fvarcore, ser_fvarcore; cbn [concat]. rec_reads x. Qed.
Lemma reads_gasp_record x : gasp_record_ok x -> reads de_gasp_record (ser_gasp_record x) x.
Proof. unfold gasp_record_ok, de_gasp_record, ser_gasp_record; cbn [concat]. rec_reads x. Qed.
Lemma reads_panose x : panose_ok x -> reads de_panose (ser_panose x) x.
Proof. unfold panose_ok, de_panose, ser_panose; cbn [concat]. rec_reads x. Qed.
Ltac rec_leaf ::=
  first [ apply rg_u16 | apply rg_i16 | apply rg_u32 | apply rg_u8 | apply rg_i32
        | apply rg_fixed | apply rg_date | apply rg_tag | apply reads_panose ]; assumption.
Lemma reads_os2core x : os2core_ok x -> reads de_os2core (ser_os2core x) x.
Proof. unfold os2core_ok, de_os2core, ser_os2core; cbn [concat]. rec_reads x. Qed.
Lemma reads_os2v1 x : os2v1_ok x -> reads de_os2v1 (ser_os2v1 x) x.
Proof. unfold os2v1_ok, de_os2v1, ser_os2v1; cbn [concat]. rec_reads x. Qed.
Lemma reads_os2v2 x : os2v2_ok x -> reads de_os2v2 (ser_os2v2 x) x.
Proof. unfold os2v2_ok, de_os2v2, ser_os2v2; cbn [concat]. rec_reads x. Qed.
Lemma reads_os2v5 x : os2v5_ok x -> reads de_os2v5 (ser_os2v5 x) x.
Proof. unfold os2v5_ok, de_os2v5, ser_os2v5; cbn [concat]. rec_reads x. Qed.


(** ** maxp *)
Lemma reads_maxp m bs : maxp_ok m -> ser_maxp m = Ok bs -> reads de_maxp bs m.
Proof.
  destruct m as [v t]. unfold maxp_ok, ser_maxp, ser_version16dot16; cbn [mx_table mx_version].
  destruct t as [n|t]; intros [-> Ht].
  - change (chk_u 8 (32768 / 65536)) with (@Ok Z 0). cbn [rbind].
    intros Hs; apply Ok_inj in Hs; subst bs. unfold de_maxp.
    eapply reads_bind; [apply (reads_i32 0x5000); lia|]. cbn beta.
    change (0x5000 =? 0x5000) with true. cbn iota.
    apply (reads_map _ (fun n => mk_maxp 32768 (Maxp05 n))). now apply rg_u16.
  - change (chk_u 8 (65536 / 65536)) with (@Ok Z 1). cbn [rbind].
    intros Hs; apply Ok_inj in Hs; subst bs. unfold de_maxp.
    eapply reads_bind; [apply (reads_i32 0x10000); lia|]. cbn beta.
    change (0x10000 =? 0x5000) with false. change (0x10000 =? 0x10000) with true. cbn iota.
    apply (reads_map _ (fun n => mk_maxp 65536 (Maxp10 n))). now apply reads_maxp10.
Qed.

Lemma ser_maxp_ok m : maxp_ok m -> exists bs, ser_maxp m = Ok bs.
Proof.
  destruct m as [v [n|t]]; unfold maxp_ok; cbn [mx_table mx_version]; intros [-> _];
  eexists; reflexivity.
Qed.

Lemma de_maxp_ok_version r m r' : de_maxp r = Ok (m, r') ->
  match mx_table m with Maxp05 _ => mx_version m = 32768 | Maxp10 _ => mx_version m = 65536 end.
Proof.
  unfold de_maxp, pbind. destruct (de_i32 r) as [[v r1]| |]; try discriminate.
  destruct (v =? 20480); [|destruct (v =? 65536)]; try discriminate.
  - destruct (de_u16 r1) as [[n r2]| |]; try discriminate. intros E.
    unfold pret in E. injection E as <- <-. reflexivity.
  - destruct (de_maxp10 r1) as [[n r2]| |]; try discriminate. intros E.
    unfold pret in E. injection E as <- <-. reflexivity.
Qed.

Lemma num_glyphs_set m n : num_glyphs (set_num_glyphs m n) = n.
Proof. destruct m as [v [k|t]]; reflexivity. Qed.

(** ** gasp *)
Lemma ser_gasp_ok g : exists bs, ser_gasp g = Ok bs.
Proof.
  unfold ser_gasp, ser_counted. rewrite (rmapM_Ok _ ser_gasp_record) by reflexivity.
  cbn [rbind]. eauto.
Qed.
Lemma reads_gasp g bs : gasp_ok g -> ser_gasp g = Ok bs -> reads de_gasp bs g.
Proof.
  destruct g as [v rs]. intros (Hv & Hf & Hl); cbn [ga_version ga_ranges] in *. unfold ser_gasp; cbn [ga_version ga_ranges].
  destruct (ser_counted _ rs) as [b| |] eqn:E; cbn [rbind]; try discriminate.
  intros Hs; apply Ok_inj in Hs; subst bs. unfold de_gasp.
  eapply reads_bind; [now apply rg_u16|]. cbn beta.
  apply (reads_map _ (fun rs => mk_gasp v rs)).
  eapply reads_counted16; [|lia|exact E].
  intros a c Ha Hs; apply Ok_inj in Hs; subst c. apply reads_gasp_record.
  rewrite Forall_forall in Hf. auto.
Qed.

(** ** Reading a sequence up to the end of the input *)
Lemma concat_ne {A} (f : A -> list Z) l : (forall a, In a l -> f a <> []) ->
  (length l <= length (concat (map f l)))%nat.
Proof.
  induction l as [|a l IH]; intros H; cbn [map concat length]; [lia|].
  rewrite app_length. pose proof (H a (or_introl eq_refl)).
  destruct (f a) eqn:E; [congruence|]. cbn [length].
  assert (length l <= length (concat (map f l)))%nat by (apply IH; intros; apply H; now right). lia.
Qed.

Lemma de_vec_fuel_exact {A} (p : parser A) (f : A -> list Z) l tl : forall fuel r,
  Forall (fun a => reads p (f a) a) l ->
  rest r = concat (map f l) ++ tl ->
  p (adv r (length (concat (map f l)))) = Err ->
  (length l < fuel)%nat ->
  de_vec_fuel p fuel r = Ok (l, adv r (length (concat (map f l)))).
Proof.
  induction l as [|a l IH]; intros fuel r Hf Hr He Hfu; cbn [map concat length] in *.
  - destruct fuel; [lia|]. cbn [de_vec_fuel].
    assert (Ha: adv r 0 = r) by (unfold adv; destruct r; cbn; f_equal; lia).
    rewrite Ha in *. now rewrite He.
  - destruct fuel; [lia|]. cbn [de_vec_fuel]. inversion Hf as [|? ? Ha Hl]; subst.
    rewrite <- app_assoc in Hr. rewrite (Ha r _ Hr). cbn iota beta.
    rewrite (IH fuel (adv r (length (f a)))).
    + now rewrite adv_adv, <- app_length.
    + exact Hl.
    + now rewrite rest_adv, Hr, skipn_app_exact.
    + rewrite adv_adv, <- app_length. exact He.
    + lia.
Qed.

Lemma de_vec_exact {A} (p : parser A) (f : A -> list Z) l tl r :
  Forall (fun a => reads p (f a) a) l -> (forall a, In a l -> f a <> []) ->
  rest r = concat (map f l) ++ tl ->
  p (adv r (length (concat (map f l)))) = Err ->
  de_vec p r = Ok (l, adv r (length (concat (map f l)))).
Proof.
  intros Hf Hne Hr He. unfold de_vec. eapply de_vec_fuel_exact; eauto.
  pose proof (concat_ne f l Hne).
  assert (Hlen := f_equal (@length Z) Hr). rewrite rest_length, app_length in Hlen. lia.
Qed.

Lemma prim_eof t r : (length (rest r) < prim_width t)%nat -> de_prim t r = Err.
Proof.
  intros H. apply prim_short. rewrite rest_length in H. rewrite width_eq. lia.
Qed.

(** ** cvt, fpgm, prep *)
Lemma de_cvt_loop_ser v : forall fuel r,
  Forall (in_range I16) v -> rest r = ser_cvt v -> (rd_ptr r <= length (rd_input r))%nat ->
  (length v <= fuel)%nat ->
  de_cvt_loop fuel r = Ok (v, adv r (length (ser_cvt v))).
Proof.
  induction v as [|x v IH]; intros fuel r Hf Hr Hp Hfu.
  - assert (H0 := f_equal (@length Z) Hr). rewrite rest_length in H0. cbn in H0.
    destruct fuel; cbn [de_cvt_loop]; replace (rd_ptr r <? length (rd_input r))%nat with false by lia;
      cbn; unfold adv; rewrite Nat.add_0_r; now destruct r.
  - assert (H0 := f_equal (@length Z) Hr). rewrite rest_length in H0.
    unfold ser_cvt in H0; cbn [map concat] in H0. rewrite app_length in H0.
    change (length (ser_i16 x)) with 2%nat in H0.
    destruct fuel as [|fuel]; [cbn in Hfu; lia|]. cbn [de_cvt_loop].
    replace (rd_ptr r <? length (rd_input r))%nat with true by lia.
    inversion Hf as [|? ? Hx Hv]; subst.
    unfold pbind. unfold ser_cvt in Hr; cbn [map concat] in Hr.
    rewrite (rg_i16 x Hx r _ Hr).
    rewrite (IH fuel (adv r (length (ser_i16 x)))).
    + unfold pret. do 2 f_equal. rewrite adv_adv. unfold ser_cvt; cbn [map concat].
      now rewrite app_length.
    + exact Hv.
    + rewrite rest_adv, Hr. apply skipn_app_exact.
    + change (length (ser_i16 x)) with 2%nat. cbn. lia.
    + cbn in Hfu; lia.
Qed.

Lemma cvt_roundtrip v : Forall (in_range I16) v -> from_bytes de_cvt (ser_cvt v) = Ok v.
Proof.
  intros Hf. unfold from_bytes, de_cvt.
  rewrite (de_cvt_loop_ser v); [reflexivity|exact Hf|reflexivity|cbn; lia|].
  cbn [rd_new rd_input rd_ptr]. rewrite Nat.sub_0_r.
  unfold ser_cvt. apply concat_ne. intros a _. discriminate.
Qed.

Lemma de_cvt_loop_any : forall fuel r,
  Forall byte (rd_input r) -> (rd_ptr r <= length (rd_input r))%nat -> (length (rest r) <= fuel)%nat ->
  match de_cvt_loop fuel r with
  | Ok (v, _) => Forall (in_range I16) v /\ ser_cvt v = rest r
  | Err => Nat.odd (length (rest r)) = true
  | Panic => False
  end.
Proof.
  induction fuel as [|k IH]; intros r Hb Hp Hfu; cbn [de_cvt_loop]; rewrite rest_length in Hfu.
  - replace (rd_ptr r <? length (rd_input r))%nat with false by lia. split; [constructor|].
    unfold rest. rewrite skipn_all2 by lia. reflexivity.
  - destruct (Nat.ltb_spec (rd_ptr r) (length (rd_input r))) as [Hlt|Hge].
    2:{ split; [constructor|]. unfold rest. rewrite skipn_all2 by lia. reflexivity. }
    destruct (Nat.eq_dec (rd_ptr r + 1) (length (rd_input r))) as [E1|N1].
    + unfold pbind. change (de_i16 r) with (de_prim I16 r). rewrite prim_short by (cbn; lia). rewrite rest_length.
      replace (length (rd_input r) - rd_ptr r)%nat with 1%nat by lia. reflexivity.
    + assert (Hc: exists a b tl, rest r = a :: b :: tl).
      { assert (Hl := rest_length r). destruct (rest r) as [|a [|b tl]]; cbn in Hl; try lia. eauto. }
      destruct Hc as (a & b & tl & Hr).
      assert (Hba: Forall byte (rest r)).
      { unfold rest. rewrite <- (firstn_skipn (rd_ptr r)) in Hb. apply Forall_app in Hb. tauto. }
      rewrite Hr in Hba. inversion Hba as [|? ? B1 Hb1]; subst. inversion Hb1 as [|? ? B2 _]; subst.
      destruct (prim_bytes_roundtrip I16 [] [a; b] [] [] eq_refl) as (v & Hv & Hs & _).
      { constructor; [unfold is_byte, byte in *; lia|constructor; [unfold is_byte, byte in *; lia|constructor]]. }
      unfold pbind.
      rewrite (rg_i16 v Hv r tl) by (change (ser_i16 v) with (ser_prim I16 v); now rewrite Hs, Hr).
      change (length (ser_i16 v)) with 2%nat.
      assert (Hp2: (rd_ptr (adv r 2) <= length (rd_input (adv r 2)))%nat) by (cbn; lia).
      assert (Hl2: (length (rest (adv r 2)) <= k)%nat) by (rewrite rest_length; cbn; lia).
      specialize (IH (adv r 2) Hb Hp2 Hl2).
      assert (Hr2: rest (adv r 2) = tl) by now rewrite rest_adv, Hr.
      destruct (de_cvt_loop k (adv r 2)) as [[vs r']| |]; unfold pret.
      * destruct IH as [IH1 IH2]. split; [constructor; assumption|].
        unfold ser_cvt; cbn [map concat]. fold (ser_cvt vs). rewrite IH2, Hr2.
        change (ser_i16 v) with (ser_prim I16 v). now rewrite Hs, Hr.
      * rewrite Hr2 in IH. rewrite Hr. cbn [length]. rewrite Nat.odd_succ_succ. exact IH.
      * exact IH.
Qed.

(** Every even-length byte string is a cvt table and is written back as it was;
    odd lengths are rejected. *)
Lemma cvt_bytes data : Forall is_byte data ->
  match from_bytes de_cvt data with
  | Ok v => Forall (in_range I16) v /\ ser_cvt v = data
  | Err => Nat.odd (length data) = true
  | Panic => False
  end.
Proof.
  intros Hb. unfold from_bytes, de_cvt.
  assert (H := de_cvt_loop_any (length (rd_input (rd_new data)) - rd_ptr (rd_new data)) (rd_new data)).
  assert (Hb' : Forall byte (rd_input (rd_new data))) by (now apply is_byte_byte).
  specialize (H Hb' ltac:(cbn; lia) ltac:(rewrite rest_length; lia)).
  destruct (de_cvt_loop _ _) as [[v r]| |]; exact H.
Qed.

Lemma fpgm_roundtrip v : Forall is_byte v -> from_bytes de_fpgm (ser_fpgm v) = Ok v.
Proof.
  intros H. unfold from_bytes, de_fpgm; cbn. f_equal. unfold ser_fpgm.
  induction H as [|a l Ha Hl IH]; cbn [map concat]; auto.
  rewrite IH, ser_u8_byte by (unfold is_byte in Ha; lia). reflexivity.
Qed.

(** ** OS/2 *)
Lemma opt_ok_range t (P : Prop) o : opt_ok t P o -> P -> in_range t (unwrap_or o 0).
Proof. destruct o; cbn; tauto. Qed.
Lemma opt_ok_back t (b : bool) (P : Prop) o : opt_ok t P o -> (b = true <-> P) ->
  o = if b then Some (unwrap_or o 0) else None.
Proof. destruct o, b; cbn; intuition congruence. Qed.
Lemma reads_os2 o : os2_ok o -> reads de_os2 (ser_os2 o) o.
Proof.
  destruct o as [core c1 c2 x h d b mc lo up].
  unfold os2_ok; cbn [os_core os_ulCodePageRange1 os_ulCodePageRange2 os_sxHeight os_sCapHeight
    os_usDefaultChar os_usBreakChar os_usMaxContext os_usLowerOpticalPointSize os_usUpperOpticalPointSize].
  intros (Hc & H1 & H2 & H3 & H4 & H5 & H6 & H7 & H8 & H9).
  unfold de_os2, ser_os2; cbn [os_core os_ulCodePageRange1 os_ulCodePageRange2 os_sxHeight os_sCapHeight
    os_usDefaultChar os_usBreakChar os_usMaxContext os_usLowerOpticalPointSize os_usUpperOpticalPointSize].
  eapply reads_bind; [now apply reads_os2core|]. cbn beta.
  assert (Hv: in_range U16 (oc_version core)) by apply Hc.
  set (v := oc_version core) in *.
  eapply reads_bind with (a := if v >? 0 then Some (mk_os2v1 (unwrap_or c1 0) (unwrap_or c2 0)) else None).
  { destruct (v >? 0) eqn:E; [|apply reads_pret].
    apply (reads_map _ Some). apply reads_os2v1. unfold os2v1_ok; cbn [o1_ulCodePageRange1 o1_ulCodePageRange2].
    split; eapply opt_ok_range; eauto; lia. }
  cbn beta.
  eapply reads_bind with (a := if v >? 1 then Some (mk_os2v2 (unwrap_or x 0) (unwrap_or h 0)
       (unwrap_or d 0) (unwrap_or b 0) (unwrap_or mc 0)) else None).
  { destruct (v >? 1) eqn:E; [|apply reads_pret].
    apply (reads_map _ Some). apply reads_os2v2. unfold os2v2_ok; cbn [o2_sxHeight o2_sCapHeight o2_usDefaultChar o2_usBreakChar o2_usMaxContext].
    split; [|split; [|split; [|split]]]; eapply opt_ok_range; eauto; lia. }
  cbn beta.
  eapply reads_bind' with (a := if v >? 4 then Some (mk_os2v5 (unwrap_or lo 0) (unwrap_or up 0)) else None);
    [symmetry; apply app_nil_r| |].
  { destruct (v >? 4) eqn:E; [|apply reads_pret].
    apply (reads_map _ Some). apply reads_os2v5. unfold os2v5_ok; cbn [o5_usLowerOpticalPointSize o5_usUpperOpticalPointSize].
    split; eapply opt_ok_range; eauto; lia. }
  cbn beta.
  match goal with |- reads (pret ?a) _ ?b => replace a with b; [apply reads_pret|] end.
  assert (B0: (v >? 0) = true <-> 1 <= v) by lia. assert (B1: (v >? 1) = true <-> 2 <= v) by lia.
  assert (B4: (v >? 4) = true <-> 5 <= v) by lia.
  f_equal.
  - rewrite (opt_ok_back _ _ _ _ H1 B0) at 1. now destruct (v >? 0).
  - rewrite (opt_ok_back _ _ _ _ H2 B0) at 1. now destruct (v >? 0).
  - rewrite (opt_ok_back _ _ _ _ H3 B1) at 1. now destruct (v >? 1).
  - rewrite (opt_ok_back _ _ _ _ H4 B1) at 1. now destruct (v >? 1).
  - rewrite (opt_ok_back _ _ _ _ H5 B1) at 1. now destruct (v >? 1).
  - rewrite (opt_ok_back _ _ _ _ H6 B1) at 1. now destruct (v >? 1).
  - rewrite (opt_ok_back _ _ _ _ H7 B1) at 1. now destruct (v >? 1).
  - rewrite (opt_ok_back _ _ _ _ H8 B4) at 1. now destruct (v >? 4).
  - rewrite (opt_ok_back _ _ _ _ H9 B4) at 1. now destruct (v >? 4).
Qed.

(** ** fvar *)
Lemma rec_len_fvarcore c : length (ser_fvarcore c) = 16%nat.
Proof. reflexivity. Qed.

Definition strip_flags (i : instance_record) : instance_record :=
  mk_instance (in_subfamilyNameID i) 0 (in_coordinates i) (in_postscriptNameID i).

Lemma reads_instance n ps i bs : instance_ok n ps i -> ser_instance ps i = Ok bs ->
  reads (de_instance (Z.of_nat n) ps) bs (strip_flags i).
Proof.
  destruct i as [s fl co p]. unfold instance_ok, ser_instance, de_instance, strip_flags;
    cbn [in_subfamilyNameID in_flags in_coordinates in_postscriptNameID].
  intros (Hs & Hl & Hf & Hp).
  assert (Hps: exists pb, (if ps then n0 <- unwrap p;; Ok (ser_u16 n0) else Ok []) = Ok pb /\
     reads (if ps then (x <-- de_u16 ;; pret (Some x)) else pret None) pb p).
  { destruct p as [pn|]; [destruct Hp as [-> Hp]|subst ps].
    - exists (ser_u16 pn). split; [reflexivity|]. apply (reads_map _ Some). now apply rg_u16.
    - exists []. split; [reflexivity|apply reads_pret]. }
  destruct Hps as (pb & E & Hpb). rewrite E. cbn [rbind]. intros E2; apply Ok_inj in E2; subst bs.
  eapply reads_bind; [now apply rg_u16|]. cbn beta.
  eapply reads_bind; [apply reads_u16; lia|]. cbn beta.
  rewrite Nat2Z.id. rewrite <- Hl. eapply reads_bind.
  { apply reads_counted. eapply Forall_impl; [|exact Hf]. intros a. apply rg_fixed. }
  cbn beta.
  apply (reads_map _ (fun q => mk_instance s 0 co q)). exact Hpb.
Qed.

Lemma ser_instance_ok n ps i : instance_ok n ps i -> exists bs, ser_instance ps i = Ok bs.
Proof.
  destruct i as [s fl co p]. unfold instance_ok, ser_instance;
    cbn [in_subfamilyNameID in_flags in_coordinates in_postscriptNameID].
  intros (Hs & Hl & Hf & Hp). destruct p as [pn|].
  - destruct Hp as [-> Hp]. eexists; reflexivity.
  - subst ps. eexists; reflexivity.
Qed.

Lemma fvar_roundtrip f ps :
  Forall axis_record_ok (fv_axes f) ->
  Forall (instance_ok (length (fv_axes f)) ps) (fv_instances f) ->
  Z.of_nat (length (fv_axes f)) <= 16382 ->
  Z.of_nat (length (fv_instances f)) <= 65535 ->
  exists bs, ser_fvar f = Ok bs /\
    forall post, from_bytes de_fvar (bs ++ post) = Ok (mk_fvar (fv_axes f) (map strip_flags (fv_instances f))).
Proof.
  destruct f as [axes insts]; cbn [fv_axes fv_instances]. intros Ha Hi Hna Hni.
  set (has := existsb (fun x => is_some (in_postscriptNameID x)) insts).
  assert (Hhas: insts <> [] -> has = ps).
  { intros Hne. destruct insts as [|i0 il]; [congruence|]. subst has. destruct ps.
    - apply existsb_exists. exists i0. split; [now left|]. inversion Hi as [|? ? H0 _]; subst.
      destruct H0 as (_ & _ & _ & H0). destruct (in_postscriptNameID i0); [reflexivity|discriminate].
    - apply not_true_is_false. intros Hex. apply existsb_exists in Hex. destruct Hex as (x & Hx & Hsx).
      rewrite Forall_forall in Hi. destruct (Hi x Hx) as (_ & _ & _ & H0).
      destruct (in_postscriptNameID x); [destruct H0; discriminate|discriminate]. }
  assert (Hall: has && negb (forallb (fun x => is_some (in_postscriptNameID x)) insts) = false).
  { destruct insts as [|i0 il] eqn:Ei; [reflexivity|]. rewrite Hhas by discriminate.
    destruct ps; [|reflexivity]. cbn [andb]. apply negb_false_iff. apply forallb_forall.
    intros x Hx. rewrite Forall_forall in Hi. destruct (Hi x Hx) as (_ & _ & _ & H0).
    destruct (in_postscriptNameID x); [reflexivity|discriminate]. }
  unfold ser_fvar; cbn [fv_axes fv_instances]. fold has. rewrite Hall. clearbody has.
  assert (Hi': Forall (instance_ok (length axes) has) insts).
  { destruct insts as [|i0 l]; [constructor|]. now rewrite (Hhas ltac:(discriminate)). }
  assert (Hb: exists bl, rmapM (ser_instance has) insts = Ok bl).
  { clear - Hi'. induction Hi' as [|i l H1 H2 [bl IH]]; [now exists []|].
    destruct (ser_instance_ok _ _ _ H1) as [b Hb]. exists (b :: bl). cbn [rmapM].
    now rewrite Hb, IH. }
  destruct Hb as [bl Hbl]. rewrite Hbl. cbn [rbind].
  eexists. split; [reflexivity|]. intros post.
  set (core := mk_fvarcore _ _ _ _ _ _ _ _).
  assert (Hcore: fvarcore_ok core).
  { unfold core, fvarcore_ok; cbn [fc_majorVersion fc_minorVersion fc_axesArrayOffset fc_reserved fc_axisCount fc_axisSize fc_instanceCount fc_instanceSize].
    rewrite !u16_id by (destruct has; lia). unfold in_range.
    repeat split; destruct has; lia. }
  unfold from_bytes, de_fvar.
  rewrite (reads_fvarcore core Hcore (rd_push (rd_new _)) (concat (map ser_axis_record axes) ++ concat bl ++ post)).
  2:{ unfold rest; cbn [rd_push rd_new rd_ptr rd_input skipn]. now rewrite <- !app_assoc. }
  cbn [adv rd_push rd_new rd_input rd_ptr rd_stack top_of_table].
  change (0 + Z.to_nat (fc_axesArrayOffset core))%nat with 16%nat.
  set (r2 := mkrd _ 16 _).
  assert (Hr2: rest r2 = (concat (map ser_axis_record axes) ++ concat bl) ++ post).
  { unfold rest, r2; cbn [rd_ptr rd_input]. rewrite <- !app_assoc.
    exact (skipn_app_exact (ser_fvarcore core) _). }
  match goal with |- context [?p r2] =>
    assert (Hp: reads p (concat (map ser_axis_record axes) ++ concat bl) (mk_fvar axes (map strip_flags insts)));
    [|now rewrite (Hp r2 post Hr2)] end.
  assert (Hac: fc_axisCount core = Z.of_nat (length axes)) by (cbn; apply u16_id; lia).
  assert (Hic: fc_instanceCount core = Z.of_nat (length insts)) by (cbn; apply u16_id; lia).
  assert (His: fc_instanceSize core = Z.of_nat (length axes) * 4 + (if has then 6 else 4)) by (cbn [core fc_instanceSize]; apply u16_id; destruct has; lia).
  rewrite Hac, Hic, His, !Nat2Z.id.
  eapply reads_bind.
  { apply reads_counted. eapply Forall_impl; [|exact Ha]. intros a; apply reads_axis_record. }
  cbn beta. apply (reads_map _ (fun x => mk_fvar axes x)).
  rewrite <- (map_length strip_flags insts). apply reads_counted2.
  apply rmapM_inv in Hbl.
  clear - Hbl Hi' Hna. induction Hbl as [|i b l bl Hb Hbl IH]; cbn [map]; [constructor|].
  inversion Hi' as [|? ? H1 H2]; subst. constructor; [|now apply IH].
  unfold chk_u. change (2 ^ 16) with 65536.
  replace ((0 <=? Z.of_nat (length axes) * 4) && (Z.of_nat (length axes) * 4 <? 65536)) with true by lia.
  cbn [rbind].
  replace ((0 <=? Z.of_nat (length axes) * 4 + 6) && (Z.of_nat (length axes) * 4 + 6 <? 65536)) with true by lia.
  replace (Z.of_nat (length axes) * 4 + (if has then 6 else 4) =? Z.of_nat (length axes) * 4 + 6) with has by (destruct has; lia).
  exact (reads_instance (length axes) has i b H1 Hb).
Qed.

(** ** Statements used by the property file *)
Lemma head_rb x : head_tbl_ok x -> reads_back de_head_tbl (ser_head_tbl x) x.
Proof. intros; apply reads_reads_back; now apply reads_head_tbl. Qed.
Lemma hhea_rb x : hhea_ok x -> reads_back de_hhea (ser_hhea x) x.
Proof. intros; apply reads_reads_back; now apply reads_hhea. Qed.
Lemma maxp_rb m : maxp_ok m -> exists bs, ser_maxp m = Ok bs /\ reads_back de_maxp bs m.
Proof.
  intros H. destruct (ser_maxp_ok m H) as [bs E]. exists bs. split; [exact E|].
  apply reads_reads_back. eapply reads_maxp; eauto.
Qed.
Lemma maxp_version_needed m bs : ser_maxp m = Ok bs -> from_bytes de_maxp bs = Ok m ->
  match mx_table m with Maxp05 _ => mx_version m = 32768 | Maxp10 _ => mx_version m = 65536 end.
Proof.
  intros _. unfold from_bytes. destruct (de_maxp (rd_new bs)) as [[m' r]| |] eqn:E; try discriminate.
  intros H; apply Ok_inj in H; subst m'. eapply de_maxp_ok_version; eauto.
Qed.
Lemma gasp_rb g : gasp_ok g -> exists bs, ser_gasp g = Ok bs /\ reads_back de_gasp bs g.
Proof.
  intros H. destruct (ser_gasp_ok g) as [bs E]. exists bs. split; [exact E|].
  apply reads_reads_back. eapply reads_gasp; eauto.
Qed.
Lemma os2_rb o : os2_ok o -> reads_back de_os2 (ser_os2 o) o.
Proof. intros; apply reads_reads_back; now apply reads_os2. Qed.

Definition head0 (d : date) : head_tbl :=
  mk_head_tbl 1 0 (fixed_from_packed 65536) 0 0x5F0F3CF5 3 1000 d (mk_date 3600000000 0) 0 0 0 0 0 6 2 0 0.

Lemma head_fraction_refuted : exists h h' : head_tbl,
  from_bytes de_head_tbl (ser_head_tbl h) = Ok h' /\ h' <> h /\
  dt_nanos (hd_created h) = 500000000.
Proof.
  exists (head0 (mk_date 3600000000 500000000)), (head0 (mk_date 3600000000 0)).
  split; [vm_compute; reflexivity|]. split; [|reflexivity].
  intros E. apply (f_equal (fun h => dt_nanos (hd_created h))) in E. vm_compute in E. discriminate.
Qed.

Lemma head_date_abort : exists bs, length bs = 54%nat /\ Forall is_byte bs /\
  from_bytes de_head_tbl bs = Panic.
Proof.
  exists (ser_head_tbl (head0 (mk_date (2 ^ 62) 0))). split; [vm_compute; reflexivity|].
  split; [|vm_compute; reflexivity].
  apply is_byte_byte. unfold ser_head_tbl; cbn [concat].
  repeat (apply Forall_app; split); try apply be_bytes_byte. constructor.
Qed.

Definition core0 (v : Z) : os2core :=
  mk_os2core v 500 400 5 0 0 0 0 0 0 0 0 0 0 0 0 (mk_panose 0 0 0 0 0 0 0 0 0 0)
   0 0 0 0 [32;32;32;32] 0 0 0 0 0 0 0 0.
Lemma os2_missing_refuted : exists o o', from_bytes de_os2 (ser_os2 o) = Ok o' /\ o <> o' /\
  os_ulCodePageRange1 o = None /\ os_ulCodePageRange1 o' = Some 0.
Proof.
  exists (mk_os2 (core0 1) None None None None None None None None None),
         (mk_os2 (core0 1) (Some 0) (Some 0) None None None None None None None).
  split; [vm_compute; reflexivity|]. repeat split. discriminate.
Qed.

Lemma fvar_flags_refuted : exists f f' bs, ser_fvar f = Ok bs /\ from_bytes de_fvar bs = Ok f' /\ f' <> f.
Proof.
  exists (mk_fvar [] [mk_instance 256 1 [] None]), (mk_fvar [] [mk_instance 256 0 [] None]).
  eexists. split; [reflexivity|]. split; [vm_compute; reflexivity|]. discriminate.
Qed.

Lemma fvar_mixed_ps f : (exists i, In i (fv_instances f) /\ in_postscriptNameID i <> None) ->
  (exists i, In i (fv_instances f) /\ in_postscriptNameID i = None) -> ser_fvar f = Err.
Proof.
  intros (i & Hi & Hs) (j & Hj & Hn). unfold ser_fvar.
  replace (existsb _ _) with true; [replace (forallb _ _) with false; [reflexivity|]|].
  - symmetry. apply not_true_is_false. intros Hf. rewrite forallb_forall in Hf.
    specialize (Hf j Hj). now rewrite Hn in Hf.
  - symmetry. apply existsb_exists. exists i. split; [exact Hi|]. now destruct (in_postscriptNameID i).
Qed.

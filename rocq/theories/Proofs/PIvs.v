(** Item variation stores. *)
From Coq Require Import List ZArith Lia Bool.
Import ListNotations.
From Verif.Model Require Import MBase MFixed MPacked MOffset MLayout MLow MIvs.
From Verif.Spec Require Import SBase SGlyph SPacked SOffset SLayout SContext SIvs.
From Verif.Proofs Require Import PBase PCodec PFixed PGlyphFmt PPoints POffset PPart PLow PVarStore.
Open Scope Z_scope.

Lemma part_vec32 {A} (p : parser A) os vs : Forall2 (fun o v => decodes p o v) os vs -> countable os ->
  part (de_vec32 p) (links32 os) (map Some vs).
Proof.
  intros H Hc. unfold de_vec32, de_counted16, links32. eapply part_bind.
  - apply part_word. unfold countable, is_u16 in *. lia.
  - apply part_group. rewrite Nat2Z.id. replace (length os) with (length (map (@Some A) vs)) by (rewrite map_length; symmetry; eapply F2_len; eassumption).
    replace (map link32 os) with (concat (map (fun o => [link32 o]) os)) by (clear; induction os; cbn; [reflexivity|now rewrite IHos]).
    apply part_counted2. clear Hc. induction H as [|o v os vs H1 H2 IH]; cbn [map]; constructor; [|exact IH]. now apply part_off32.
Qed.

(** ** Regions *)
Lemma axis_pack a : f2dot14_value (ra_start a) /\ f2dot14_value (ra_peak a) /\ f2dot14_value (ra_end a) -> exists p, axis_packed a p.
Proof. destruct a as [s m e]. cbn [ra_start ra_peak ra_end]. intros ((p & Hp & ->) & (q & Hq & ->) & (r & Hr & ->)). exists (p, q, r). cbn. auto. Qed.
Lemma Forall_exists {A B} (R : A -> B -> Prop) l : Forall (fun a => exists b, R a b) l -> exists bs, Forall2 R l bs.
Proof. induction 1 as [|a l (b & H) F (bs & IH)]; [exists []; constructor|exists (b :: bs); now constructor]. Qed.
Lemma regions_pack rs : Forall (fun r => Forall (fun a => f2dot14_value (ra_start a) /\ f2dot14_value (ra_peak a) /\ f2dot14_value (ra_end a)) r) rs ->
  exists ps, regions_packed rs ps.
Proof.
  intros H. apply Forall_exists. eapply Forall_impl; [|exact H]. intros r Hr. apply Forall_exists. eapply Forall_impl; [|exact Hr]. intros a. apply axis_pack.
Qed.
Lemma ser_packed p : in_range I16 p -> ser_f2dot14 (f2dot14_from_packed p) = Ok (word p).
Proof. intros H. cbn in H. unfold ser_f2dot14. rewrite f2dot14_packed_id by lia. now rewrite word_i16. Qed.
Lemma axis_ser a p : axis_packed a p -> ser_region_axis a = Ok (range_words p).
Proof. destruct p as [[s m] e]. intros (H1 & H2 & H3 & ->). unfold ser_region_axis. cbn [ra_start ra_peak ra_end]. rewrite !ser_packed by assumption. reflexivity. Qed.
Lemma reads_packed p : in_range I16 p -> reads de_f2dot14 (word p) (f2dot14_from_packed p).
Proof. intros H. cbn in H. unfold de_f2dot14. apply (reads_map _ f2dot14_from_packed). rewrite word_i16. apply reads_i16. lia. Qed.
Lemma axis_reads a p : axis_packed a p -> reads de_region_axis (range_words p) a.
Proof.
  destruct p as [[s m] e]. intros (H1 & H2 & H3 & ->). unfold de_region_axis, range_words. cbn [fst snd].
  eapply reads_bind; [now apply reads_packed|]. eapply reads_bind; [now apply reads_packed|]. eapply reads_bind'; [symmetry; apply app_nil_r|now apply reads_packed|]. apply reads_pret.
Qed.
Lemma rmapM_F2 {A B C} (f : A -> res C) (R : A -> B -> Prop) (g : B -> C) l l' : (forall a b, R a b -> f a = Ok (g b)) -> Forall2 R l l' -> rmapM f l = Ok (map g l').
Proof. intros H. induction 1 as [|a b l l' E F IH]; [reflexivity|]. cbn [rmapM map]. rewrite (H _ _ E). cbn [rbind]. now rewrite IH. Qed.
Lemma reads_counted_F2 {A B} (p : parser A) (R : A -> B -> Prop) (enc : B -> list Z) l l' : (forall a b, R a b -> reads p (enc b) a) -> Forall2 R l l' ->
  reads (de_counted p (length l)) (concat (map enc l')) l.
Proof.
  intros H. induction 1 as [|a b l l' E F IH]; [exact (reads_pret [])|]. cbn [length de_counted map concat].
  eapply reads_bind; [exact (H _ _ E)|]. apply (reads_map _ (fun l => a :: l)). exact IH.
Qed.
Lemma regions_ser axes rs ps : countable rs -> regions_packed rs ps ->
  ser_region_list (mk_region_list axes (u16 (Z.of_nat (length rs))) rs) = Ok (regions_bytes axes ps).
Proof.
  intros Hc H. unfold ser_region_list. cbn [rl_axes rl_count rl_regions].
  rewrite (rmapM_F2 _ (Forall2 axis_packed) (fun r => concat (map range_words r)) rs ps); [| |exact H].
  - cbn [rbind]. unfold regions_bytes. unfold countable in Hc. rewrite u16_id by lia. rewrite !word_u16. now rewrite <- (F2_len _ _ _ H).
  - intros r p F. rewrite (rmapM_F2 _ axis_packed range_words r p axis_ser F). reflexivity.
Qed.
Lemma regions_read axes rs ps : is_u16 axes -> countable rs -> Forall (fun r => Z.of_nat (length r) = axes) rs -> regions_packed rs ps ->
  reads de_region_list (regions_bytes axes ps) (mk_region_list axes (Z.of_nat (length rs)) rs).
Proof.
  intros Ha Hc Hr H. unfold regions_bytes, de_region_list. rewrite !word_u16, <- (F2_len _ _ _ H). unfold is_u16, countable in *.
  eapply reads_bind; [apply reads_u16; lia|]. eapply reads_bind; [apply reads_u16; lia|]. cbn beta. rewrite Nat2Z.id.
  eapply reads_bind'; [symmetry; apply app_nil_r| |apply reads_pret].
  apply (reads_counted_F2 _ (fun r p => Z.of_nat (length r) = axes /\ Forall2 axis_packed r p)).
  - intros r p [<- F]. rewrite Nat2Z.id. now apply (reads_counted_F2 _ axis_packed); [exact axis_reads|].
  - clear -Hr H. induction H as [|r p rs ps E F IH]; [constructor|]. inversion Hr; subst. constructor; auto.
Qed.

(** ** Writing *)
Lemma blob_ok {A} (ser : A -> res (list Z)) a bs : ser a = Ok bs -> blob ser a = Ok (raw bs).
Proof. unfold blob. now intros ->. Qed.
Lemma vec32_ok {A} (enc : A -> res obj) l os : countable l -> rmapM enc l = Ok os -> vec32_enc enc l = Ok (links32 os).
Proof.
  intros Hc H. unfold vec32_enc. rewrite H. cbn [rbind]. rewrite len_word by exact Hc. unfold links32. apply rmapM_inv in H. now rewrite (F2_len _ _ _ H).
Qed.
Definition as_format1 (s : ivs) : ivs := mk_ivs 1 (vs_axes s) (vs_regions s) (vs_data s).
Lemma ivs_written s : store_ok s -> store_shape s -> exists o, ivs_file (as_format1 s) o /\ ivs_ser s = to_bytes o.
Proof.
  intros Hs [H1 H2]. pose proof Hs as (Ha & Hr & Hd & Hc & Hv). destruct (regions_pack _ Hc) as [ps Hps].
  assert (E: rmapM (blob ser_ivd) (vs_data s) = Ok (map (fun d => raw (ivd_encoding (length (iv_regions d)) d)) (vs_data s))).
  { apply rmapM_Ok. intros d Hi. rewrite Forall_forall in Hv, H2. apply blob_ok. apply ivd_written; auto. }
  eexists. split.
  - apply (ivs_table (as_format1 s) ps (map (fun d => raw (ivd_encoding (length (iv_regions d)) d)) (vs_data s))).
    + cbn. unfold is_u16. lia.
    + exact Hs.
    + split; assumption.
    + exact Hps.
    + cbn [as_format1 vs_data]. clear -H2. induction H2 as [|d l Hd H2 IH]; [constructor|]. cbn [map]. constructor; [|exact IH].
      exists (length (iv_regions d)). split; [lia|]. split; [|reflexivity]. eapply Forall_impl; [|exact Hd]. cbn beta. intros row Hrow. rewrite skipn_all2 by lia. constructor.
  - unfold ivs_ser, ivs_enc. rewrite (blob_ok _ _ _ (regions_ser _ _ _ Hr Hps)). cbn [rbind]. rewrite (vec32_ok _ _ _ Hd E). cbn [rbind as_format1 vs_format vs_axes].
    rewrite <- word_u16. reflexivity.
Qed.

(** ** Reading *)
Lemma rmapM_unwrap_Some {A} (l : list A) : rmapM unwrap (map Some l) = Ok l.
Proof. induction l as [|a l IH]; [reflexivity|]. cbn [map rmapM unwrap rbind]. now rewrite IH. Qed.
Lemma part_lift {A} (r : res A) v : r = Ok v -> part (plift r) [] v.
Proof. intros ->. apply part_pret. Qed.
Lemma ivs_part s o : ivs_file s o -> part ivs_de o s.
Proof.
  destruct 1 as [ps ds Hf Hs [H1 H2] Hps Hd]. pose proof Hs as (Ha & Hr & Hn & Hc & Hv). unfold ivs_de.
  eapply part_bind; [now apply part_word|].
  eapply part_bind; [apply part_off32; apply decodes_reads; eapply regions_read; eassumption|]. cbn beta.
  eapply part_bind'; [symmetry; apply app_nil_r|apply part_vec32|].
  - instantiate (1 := vs_data s). apply Forall2_flip.
    assert (X: Forall (fun d => ivd_ok d /\ rectangular d) (vs_data s)). { rewrite Forall_forall in *. auto. }
    clear -Hd X. induction Hd as [|d o l os (short & A & B & ->) F IH]; [constructor|]. inversion X; subst. constructor; [|now apply IH].
    apply decodes_reads. now apply ivd_reads.
  - eapply Forall2_countable; eassumption.
  - apply part_lift. cbn [unwrap rbind]. rewrite rmapM_unwrap_Some. cbn [rbind rl_axes rl_regions]. now destruct s.
Qed.
Lemma ivs_read s o buf : ivs_file s o -> stored 65536 buf 0 0 o -> from_bytes ivs_de buf = Ok s.
Proof. intros F S. unfold from_bytes, rd_new. now rewrite (ivs_part s o F _ _ _ _ S). Qed.

(** ** Only stores of the right shape are ever read *)
Lemma counted_length {A} (p : parser A) n : forall r l r', de_counted p n r = Ok (l, r') -> length l = n.
Proof.
  induction n as [|n IH]; intros r l r' H; cbn [de_counted] in H; [unfold pret in H; apply Ok_inj in H; now injection H as <- _|].
  unfold pbind in H. destruct (p r) as [[x r1]| |]; try discriminate. destruct (de_counted p n r1) as [[xs r2]| |] eqn:E; try discriminate.
  unfold pret in H. apply Ok_inj in H. injection H as <- _. cbn. f_equal. eapply IH; exact E.
Qed.
Lemma ivd_rectangular r v r' : de_ivd r = Ok (v, r') -> rectangular v.
Proof.
  unfold de_ivd, pbind. intros H.
  destruct (de_u16 r) as [[items r1]| |]; try discriminate. destruct (de_u16 r1) as [[short r2]| |]; try discriminate.
  destruct (de_counted16 de_u16 r2) as [[regs r3]| |]; try discriminate.
  destruct (de_counted (de_row short 0 (length regs)) (Z.to_nat items) r3) as [[rows r4]| |] eqn:E; try discriminate.
  unfold pret in H. apply Ok_inj in H. apply (f_equal fst) in H. cbn [fst] in H. subst v. unfold rectangular. cbn [iv_regions iv_deltas].
  eapply counted_all; [|exact E]. intros x y z. apply row_len.
Qed.
Lemma region_list_shape r v r' : de_region_list r = Ok (v, r') -> Forall (fun x => length x = Z.to_nat (rl_axes v)) (rl_regions v).
Proof.
  unfold de_region_list, pbind. intros H.
  destruct (de_u16 r) as [[axes r1]| |] eqn:Ea; try discriminate. destruct (de_u16 r1) as [[count r2]| |]; try discriminate.
  destruct (de_counted (de_counted de_region_axis (Z.to_nat axes)) (Z.to_nat count) r2) as [[rows r4]| |] eqn:E; try discriminate.
  unfold pret in H. apply Ok_inj in H. apply (f_equal fst) in H. cbn [fst] in H. subst v. cbn [rl_regions rl_axes].
  eapply counted_all; [|exact E]. intros x y z Hy. exact (counted_length _ _ _ _ _ Hy).
Qed.
Lemma de_offset_inv {A} w (p : parser A) (P : A -> Prop) r x r' : (forall r v r', p r = Ok (v, r') -> P v) -> de_offset w p r = Ok (Some x, r') -> P x.
Proof.
  intros Hp H. unfold de_offset, pbind in H. destruct ((if w then de_u32 else de_u16) r) as [[off r1]| |]; try discriminate.
  destruct (off =? 0); [unfold pret in H; apply Ok_inj in H; discriminate|].
  destruct (unwrap (try_u 16 off)); try discriminate. destruct (follow_offset r1 a) as [r2| |]; try discriminate.
  destruct (p r2) as [[y r3]| |] eqn:E; try discriminate. apply Ok_inj in H. apply (f_equal fst) in H. cbn [fst] in H. injection H as ->. eapply Hp; exact E.
Qed.
Lemma ivs_read_shape bs s : 0 <= vs_axes s -> from_bytes ivs_de bs = Ok s -> store_shape s.
Proof.
  intros Hn.
  unfold from_bytes, ivs_de, pbind. intros H. destruct (de_u16 (rd_new bs)) as [[f r1]| |]; try discriminate.
  destruct (de_off32 de_region_list r1) as [[rl r2]| |] eqn:E1; try discriminate. destruct (de_vec32 de_ivd r2) as [[ds r3]| |] eqn:E2; try discriminate.
  unfold plift in H. destruct rl as [rl|]; cbn [unwrap rbind] in H; [|discriminate]. destruct (rmapM unwrap ds) as [l| |] eqn:E3; cbn [rbind] in H; try discriminate.
  apply Ok_inj in H. subst s. split; cbn [vs_regions vs_axes vs_data].
  - pose proof (de_offset_inv true _ (fun v => Forall (fun x => length x = Z.to_nat (rl_axes v)) (rl_regions v)) _ _ _ region_list_shape E1) as X. cbn beta in X.
    cbn [vs_axes] in Hn. eapply Forall_impl; [|exact X]. cbn beta. intros; lia.
  - unfold de_vec32, de_counted16, pbind in E2. destruct (de_u16 r2) as [[n r4]| |]; try discriminate.
    assert (F: Forall (fun o => match o with Some v => rectangular v | None => True end) ds).
    { eapply counted_all; [|exact E2]. intros r [v|] r' Hv; [|exact I]. exact (de_offset_inv true _ _ _ _ _ ivd_rectangular Hv). }
    apply rmapM_inv in E3. clear -E3 F. induction E3 as [|o d os ds H _ IH]; [constructor|]. inversion F; subst. constructor; [|auto].
    destruct o as [o|]; [|discriminate]. apply Ok_inj in H. now subst.
Qed.

Lemma kids_raw bs : kids (raw bs) = [].
Proof.
  unfold kids, directs, raw. rewrite !map_map. induction bs as [|b bs IH]; [reflexivity|]. cbn [map concat app]. exact IH.
Qed.
Lemma reachable_raw bs : reachable (raw bs).
Proof. constructor. intros j k t H. rewrite kids_raw in H. now destruct j. Qed.
Lemma directs_app a b : directs (a ++ b) = directs a ++ directs b.
Proof. unfold directs. now rewrite map_app, concat_app. Qed.
Lemma group_kids_raw bs : concat (map group_kids (raw bs)) = [].
Proof. unfold raw. rewrite map_map. now induction bs. Qed.
Lemma directs_raw bs : directs (raw bs) = [].
Proof. unfold directs, raw. rewrite map_map. now induction bs. Qed.
Lemma directs_links os : directs (map link32 os) = map (fun o => (Off32, Some o)) os.
Proof. unfold directs. rewrite map_map. now induction os as [|o os IH]; [|cbn [map concat app link32]; f_equal]. Qed.
Lemma group_kids_links os : concat (map group_kids (map link32 os)) = [].
Proof. rewrite map_map. now induction os. Qed.
Lemma ivs_kids f r ds : kids (raw f ++ [link32 r] ++ links32 ds) = map (fun o => (Off32, Some o)) (r :: ds).
Proof.
  unfold kids, links32. rewrite !directs_app, !directs_raw, !map_app, !concat_app, !group_kids_raw. cbn [app].
  change (directs [link32 r]) with [(Off32, Some r)]. unfold directs at 1. cbn [map concat app group_kids link32]. rewrite directs_links, group_kids_links. now rewrite !app_nil_r.
Qed.
Lemma ivs_reachable s o : ivs_file s o -> reachable o.
Proof.
  destruct 1 as [ps ds _ _ _ _ Hd]. constructor. rewrite ivs_kids. intros j k t H. apply nth_error_In in H. apply in_map_iff in H as (x & E & Hx).
  injection E as <- <-. split; [discriminate|]. destruct Hx as [<-|Hx]; [apply reachable_raw|].
  clear -Hd Hx. induction Hd as [|d o l os (sh & _ & _ & ->) F IH]; [destruct Hx|]. destruct Hx as [<-|Hx]; [apply reachable_raw|auto].
Qed.
Lemma ivs_total s o : ivs_file s o -> ivs_ser s = to_bytes o -> Z.of_nat (total o) < 2 ^ 32 -> exists bs, ivs_ser s = Ok bs.
Proof. intros F E H. rewrite E. apply to_bytes_iff; [exact H|]. eapply ivs_reachable; exact F. Qed.
Lemma ivs_first s o bs : ivs_enc s = Ok o -> to_bytes o = Ok bs -> Z.of_nat (length bs) < 2 ^ 32 -> forall x, from_bytes ivs_de bs = Ok x -> vs_format x = 1.
Proof.
  intros E H L x Hx. pose proof (to_bytes_length _ _ H) as Hl. rewrite Hl in L. pose proof (to_bytes_stored _ _ L H) as St.
  unfold ivs_enc in E. destruct (blob ser_region_list _) as [rl| |]; cbn [rbind] in E; try discriminate. destruct (vec32_enc _ _) as [ds| |]; cbn [rbind] in E; try discriminate.
  apply Ok_inj in E. subst o. apply stored_app in St as [St _]. apply stored_raw in St.
  unfold from_bytes, ivs_de, pbind, rd_new in Hx. rewrite (at_pos_reads _ _ 1 _ _ [0%nat] (reads_u16 1 ltac:(lia)) St) in Hx.
  destruct (de_off32 de_region_list _) as [[r r2]| |]; try discriminate. destruct (de_vec32 de_ivd r2) as [[d r3]| |]; try discriminate.
  unfold plift in Hx. destruct (unwrap r); cbn [rbind] in Hx; try discriminate. destruct (rmapM unwrap d); cbn [rbind] in Hx; try discriminate.
  apply Ok_inj in Hx. now subst x.
Qed.
Lemma ivs_iff s bs : store_ok s -> ivs_ser s = Ok bs -> Z.of_nat (length bs) < 65536 ->
  (from_bytes ivs_de bs = Ok s <-> vs_format s = 1 /\ store_shape s).
Proof.
  intros Hs E L. split.
  - intros R. unfold ivs_ser in E. destruct (ivs_enc s) as [o| |] eqn:Eo; cbn [rbind] in E; try discriminate. split.
    + apply (ivs_first s o bs Eo E ltac:(lia) s R).
    + apply (ivs_read_shape bs); [|exact R]. destruct Hs as (Ha & _). unfold is_u16 in Ha. lia.
  - intros [Hf Hsh]. destruct (ivs_written s Hs Hsh) as (o & F & Eo). rewrite E in Eo. symmetry in Eo.
    replace s with (as_format1 s) by (destruct s; cbn in *; now subst).
    apply (ivs_read (as_format1 s) o bs F). apply to_bytes_readable; auto; rewrite <- (to_bytes_length _ _ Eo); [lia|now right].
Qed.

(** ** What cannot be read or written *)
Lemma far_region_list buf off : at_pos buf 0 (word 1) -> at_pos buf 2 (be_bytes 4 off) -> 65536 <= off < 2 ^ 32 -> from_bytes ivs_de buf = Panic.
Proof.
  intros H1 H2 Ho. unfold from_bytes, ivs_de, pbind, rd_new. rewrite word_u16 in H1. rewrite (at_pos_reads _ _ 1 _ _ [0%nat] (reads_u16 1 ltac:(lia)) H1).
  unfold de_off32, de_offset, pbind. change (0 + length (ser_u16 1))%nat with 2%nat.
  rewrite (at_pos_reads de_u32 _ off _ _ [0%nat] (reads_u32 off ltac:(lia)) H2). replace (off =? 0) with false by lia.
  unfold try_u. change (2 ^ 16) with 65536. replace ((0 <=? off) && (off <? 65536)) with false by lia. reflexivity.
Qed.
Lemma axis_wide a : f2dot14_as_packed (ra_start a) = None \/ f2dot14_as_packed (ra_peak a) = None \/ f2dot14_as_packed (ra_end a) = None ->
  forall bs, ser_region_axis a <> Ok bs.
Proof.
  unfold ser_region_axis, ser_f2dot14. intros H bs. destruct (f2dot14_as_packed (ra_start a)); cbn [rbind]; [|discriminate].
  destruct (f2dot14_as_packed (ra_peak a)); cbn [rbind]; [|discriminate]. destruct (f2dot14_as_packed (ra_end a)); cbn [rbind]; [|discriminate].
  destruct H as [H|[H|H]]; discriminate.
Qed.
Lemma rmapM_fails {A B} (f : A -> res B) l a : In a l -> (forall b, f a <> Ok b) -> forall bs, rmapM f l <> Ok bs.
Proof. intros Hi Hf bs H. apply rmapM_inv in H. induction H as [|x y l l' E F IH]; [destruct Hi|]. destruct Hi as [->|Hi]; [now apply (Hf y)|auto]. Qed.
Lemma wide_coordinate s r a : In r (vs_regions s) -> In a r ->
  f2dot14_as_packed (ra_start a) = None \/ f2dot14_as_packed (ra_peak a) = None \/ f2dot14_as_packed (ra_end a) = None -> ivs_ser s = Panic.
Proof.
  intros Hr Ha H. unfold ivs_ser, ivs_enc, blob.
  assert (X: forall bs, ser_region_list (mk_region_list (vs_axes s) (u16 (Z.of_nat (length (vs_regions s)))) (vs_regions s)) <> Ok bs).
  { intros bs E. unfold ser_region_list in E. cbn [rl_regions] in E. destruct (rmapM _ (vs_regions s)) as [l| |] eqn:Er; cbn [rbind] in E; try discriminate.
    revert Er. apply (rmapM_fails _ _ r Hr). intros b Eb. destruct (rmapM ser_region_axis r) as [x| |] eqn:Ex; try discriminate.
    revert Ex. apply (rmapM_fails _ _ a Ha). now apply axis_wide. }
  destruct (ser_region_list _) as [b| |]; [now elim (X b)|reflexivity|reflexivity].
Qed.

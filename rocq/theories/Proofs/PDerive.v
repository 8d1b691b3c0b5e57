(** Proofs about derived code. *)
From Coq Require Import String List ZArith Bool Lia.
Import ListNotations.
From Verif.Model Require Import MBase MTag MFixed MTables MPost MOffset MDerive.
From Verif.Spec Require Import SBase STables SOffset SDerive.
From Verif.Proofs Require Import PBase PTag PFixed PCodec PTables PPost POffset PPart.
Open Scope Z_scope.

Lemma shape_ind2 (P : shape -> Prop) :
  (forall c, P (Plain c)) -> (forall n, P (Foreign n)) -> (forall w t, P t -> P (Ref w t)) ->
  (forall w t, P t -> P (Many w t)) -> (forall t, P t -> P (Maybe t)) ->
  (forall e fs, Forall (fun f => P (snd f)) fs -> P (Rec e fs)) -> forall t, P t.
Proof.
  intros H1 H2 H3 H4 H5 H6. fix G 1. intros [c|n|w t|w t|t|e fs].
  - apply H1.
  - apply H2.
  - apply H3, G.
  - apply H4, G.
  - apply H5, G.
  - apply H6. induction fs as [|[b t] fs IH]; constructor; [apply G|exact IH].
Qed.

(** ** Plain values *)
Lemma number_be w z : number w z (be_bytes w z).
Proof.
  split; [apply be_bytes_length|]. split.
  - apply is_byte_byte, be_bytes_byte.
  - rewrite digits_value_eq, be_value_bytes, be_bytes_length.
    exists (z / 256 ^ Z.of_nat w). pose proof (Z.div_mod z (256 ^ Z.of_nat w)). lia.
Qed.
Lemma scalar_reads {F} c (v : value F) : scalar_ok c v ->
  exists bs, scalar_ser c v = Ok bs /\ reads (scalar_de c) bs v /\ scalar_layout c v bs.
Proof.
  destruct c, v; cbn [scalar_ok scalar_ser scalar_de scalar_layout]; try contradiction; intros H.
  - eexists. split; [reflexivity|]. split.
    + apply (reads_map (de_prim p) (fun z => VNum z)). apply reads_prim. now apply in_range_prim_ok.
    + rewrite width_eq. apply number_be.
  - assert (E: ser_u24 z = Ok (be_bytes 3 z)).
    { unfold ser_u24. change (2 ^ 24) with 16777216 in H. match goal with |- context [if ?b then _ else _] => destruct b eqn:B end; [lia|reflexivity]. }
    exists (be_bytes 3 z). split; [exact E|]. split; [|apply number_be].
    apply (reads_map de_u24 (fun z => VNum z)). apply reads_u24; [lia|exact E].
  - eexists. split; [reflexivity|]. split.
    + apply (reads_map de_tag (fun z => VTag z)). now apply rg_tag.
    + apply ser_tag_id. now apply valid_tag_bytes.
  - eexists. split; [reflexivity|]. split.
    + apply (reads_map de_fixed (fun z => VFloat z)). now apply rg_fixed.
    + destruct H as (p & Hp & Hx & Ha). exists p. split; [exact Hx|]. unfold ser_fixed. rewrite Ha. apply (number_be 4).
  - destruct H as (p & Hp & ->). exists (ser_i16 p).
    assert (E: ser_f2dot14 (f2dot14_from_packed p) = Ok (ser_i16 p)).
    { unfold ser_f2dot14. unfold in_range in Hp. rewrite f2dot14_packed_id by lia. reflexivity. }
    split; [exact E|]. split.
    + apply (reads_map de_f2dot14 (fun z => VFloat z)). unfold in_range in Hp. apply reads_f2dot14_packed; [lia|exact E].
    + exists p. split; [reflexivity|]. apply (number_be 2).
  - destruct H as [H1 H2]. exists [0; z / 65536; z mod 65536 * 160 / 65536; 0]. split; [|split; [|reflexivity]].
    + unfold ser_version16dot16, chk_u.
      assert (B: (0 <=? z / 65536) && (z / 65536 <? 2 ^ 8) = true).
      { change (2 ^ 8) with 256. assert (0 <= z / 65536 < 256) by (split; [apply Z.div_pos; lia|apply Z.div_lt_upper_bound; lia]). lia. }
      assert (M: 0 <= z / 65536 < 256) by (split; [apply Z.div_pos; lia|apply Z.div_lt_upper_bound; lia]).
      assert (N: 0 <= z mod 65536 * 160 / 65536 < 256).
      { pose proof (Z.mod_pos_bound z 65536 ltac:(lia)). split; [apply Z.div_pos; lia|apply Z.div_lt_upper_bound; lia]. }
      rewrite B. cbn [rbind concat]. rewrite (ser_u8_byte 0), (ser_u8_byte (z / 65536)), (ser_u8_byte (z mod 65536 * 160 / 65536)) by assumption || lia. reflexivity.
    + apply (reads_map de_version16dot16 (fun z => VNum z)). now apply reads_version.
  - eexists. split; [reflexivity|]. split.
    + apply (reads_map de_date (fun z => VDate z)). now apply rg_date.
    + apply (number_be 8).
Qed.

(** ** Reading without regard to the offset base *)
Definition anywhere {A} (p : parser A) (l : list item) (v : A) : Prop :=
  forall buf base pos stk, stored 65536 buf base pos l ->
    p (mkrd buf pos stk) = Ok (v, mkrd buf (pos + size l) stk).
Lemma anywhere_reads {A} (p : parser A) bs v : reads p bs v -> anywhere p (raw bs) v.
Proof. intros H buf base pos stk S. rewrite size_raw. apply stored_raw in S. now apply at_pos_reads. Qed.
Lemma anywhere_part {A} (p : parser A) l v : anywhere p l v -> part p l v.
Proof. intros H buf base pos stk S. now apply (H _ base). Qed.
Lemma anywhere_decodes {A} (p : parser A) l v : anywhere p l v -> decodes p l v.
Proof. intros H buf pos stk S. now apply (H _ pos). Qed.
Lemma anywhere_bind {A B} (p : parser A) (f : A -> parser B) l1 l2 a b :
  anywhere p l1 a -> anywhere (f a) l2 b -> anywhere (pbind p f) (l1 ++ l2) b.
Proof.
  intros Hp Hf buf base pos stk S. apply stored_app in S as [S1 S2]. unfold pbind.
  rewrite (Hp _ _ _ _ S1), (Hf _ _ _ _ S2), size_app. now rewrite Nat.add_assoc.
Qed.
Lemma anywhere_map {A B} (p : parser A) (f : A -> B) l a : anywhere p l a -> anywhere (pbind p (fun x => pret (f x))) l (f a).
Proof. intros H buf base pos stk S. unfold pbind. now rewrite (H _ base _ _ S). Qed.
Lemma anywhere_group {A} (p : parser A) g v : anywhere p g v -> anywhere p [IGroup g] v.
Proof.
  intros H buf base pos stk S. inversion S; subst. rewrite app_nil_r in *. rewrite (H _ _ _ _ ltac:(eassumption)).
  unfold size at 2. cbn. now rewrite Nat.add_0_r.
Qed.
Lemma anywhere_counted2 {A} (p : parser A) ls vs :
  Forall2 (fun l v => anywhere p l v) ls vs -> anywhere (de_counted p (List.length vs)) (concat ls) vs.
Proof.
  induction 1 as [|l v ls vs Hv Hvs IH]; cbn [List.length de_counted concat].
  - exact (anywhere_reads _ _ _ (reads_pret [])).
  - eapply anywhere_bind; [exact Hv|]. apply anywhere_map. exact IH.
Qed.

(** ** Counts *)
Lemma count_reads w n : fits_count w n -> reads (if w then de_u32 else de_u16) (count_ser w n) (Z.of_nat n).
Proof.
  unfold fits_count, count_ser. destruct w; intros H.
  - unfold u32, wrap_u. rewrite Z.mod_small by lia. apply reads_u32. change (2 ^ 32) with 4294967296 in H. lia.
  - unfold u16, wrap_u. rewrite Z.mod_small by lia. apply reads_u16. change (2 ^ 16) with 65536 in H. lia.
Qed.
Lemma count_number w n : fits_count w n -> number (if w then 4 else 2)%nat (Z.of_nat n) (count_ser w n).
Proof.
  unfold fits_count, count_ser. destruct w; intros H.
  - unfold u32, wrap_u. rewrite Z.mod_small by lia. apply (number_be 4).
  - unfold u16, wrap_u. rewrite Z.mod_small by lia. apply (number_be 2).
Qed.
Definition de_many {A} (w : bool) (p : parser A) : parser (list A) := if w then de_counted32 p else de_counted16 p.
Lemma de_many_eq {A} w (p : parser A) : de_many w p = pbind (if w then de_u32 else de_u16) (fun n => de_counted p (Z.to_nat n)).
Proof. destruct w; reflexivity. Qed.
Lemma part_many {A} w (p : parser A) ls vs : fits_count w (List.length vs) -> Forall2 (fun l v => part p l v) ls vs ->
  part (de_many w p) (raw (count_ser w (List.length vs)) ++ [IGroup (concat ls)]) vs.
Proof.
  intros Hc H. rewrite de_many_eq. eapply part_bind; [apply part_reads, count_reads, Hc|]. rewrite Nat2Z.id.
  apply part_group, part_counted2, H.
Qed.
Lemma anywhere_many {A} w (p : parser A) ls vs : fits_count w (List.length vs) -> Forall2 (fun l v => anywhere p l v) ls vs ->
  anywhere (de_many w p) (raw (count_ser w (List.length vs)) ++ [IGroup (concat ls)]) vs.
Proof.
  intros Hc H. rewrite de_many_eq. eapply anywhere_bind; [apply anywhere_reads, count_reads, Hc|]. rewrite Nat2Z.id.
  apply anywhere_group, anywhere_counted2, H.
Qed.

Section Derived.
Context {F : Type} (fenc : string -> F -> res obj) (fdec : string -> parser F) (fok : string -> F -> Prop).
Hypothesis foreign_ok : forall n x, fok n x -> exists o, fenc n x = Ok o /\ decodes (fdec n) o x.

Notation suits := (suits fok).
Notation enc := (enc fenc).
Notation dec := (dec fdec).

Fixpoint each (fs : list ((bool * bool) * shape)) (vs : list (value F)) : Prop :=
  match fs, vs with
  | [], [] => True
  | f :: fs', v :: vs' => suits (snd f) v /\ each fs' vs'
  | _, _ => False
  end.
Lemma suits_rec e fs v : suits (Rec e fs) v -> exists vs, v = VRec vs /\ each fs vs.
Proof. destruct v; try (intros []; fail). intros H. exists l. split; [reflexivity|exact H]. Qed.
Lemma suits_many w t v : suits (Many w t) v -> exists vs, v = VList vs /\ fits_count w (List.length vs) /\ Forall (suits t) vs.
Proof. destruct v; try (intros []; fail). intros H. exists l. split; [reflexivity|exact H]. Qed.
Lemma suits_ref w t v : suits (Ref w t) v -> exists o, v = VLink o /\ forall x, o = Some x -> suits t x.
Proof.
  destruct v; try (intros []; fail). intros H. exists o. split; [reflexivity|]. intros x ->. exact H.
Qed.

Lemma carried_flat fs : existsb (fun f : (bool * bool) * shape => refs (snd f)) fs = false -> carried fs = true.
Proof.
  intros H. unfold carried. rewrite H. cbn [negb orb]. rewrite andb_true_r. apply forallb_forall. intros f Hf. unfold listed.
  assert (E: refs (snd f) = false).
  { destruct (refs (snd f)) eqn:E; [|reflexivity]. rewrite <- H. symmetry. apply existsb_exists. exists f. now split. }
  now rewrite E.
Qed.

(** ** Writing always works *)
Lemma rmapM_ex (f : value F -> res (list item)) vs : Forall (fun v => exists l, f v = Ok l) vs -> exists ls, rmapM f vs = Ok ls.
Proof.
  induction 1 as [|v vs [l Hl] _ [ls IH]]; [exists []; reflexivity|]. exists (l :: ls). cbn [rmapM]. rewrite Hl. cbn [rbind]. now rewrite IH.
Qed.
(** Every structure that is met is carried. *)
Fixpoint all_carried (t : shape) : bool :=
  match t with
  | Plain _ | Foreign _ => true
  | Ref _ t' | Many _ t' | Maybe t' => all_carried t'
  | Rec _ fs => carried fs && forallb (fun f => all_carried (snd f)) fs
  end.
Lemma enc_fields_ok fs : Forall (fun f => forall v, suits (snd f) v -> exists l, enc (snd f) v = Ok l) fs -> forall vs, each fs vs ->
  exists l, enc_fields (map (fun f => enc (snd f)) fs) vs = Ok l.
Proof.
  induction 1 as [|f fs Hf _ IH]; intros [|v vs]; cbn [each]; try contradiction; [exists []; reflexivity|].
  intros [H1 H2]. destruct (Hf _ H1) as [a Ha]. destruct (IH _ H2) as [b Hb]. exists (a ++ b). cbn [map enc_fields]. rewrite Ha. cbn [rbind]. now rewrite Hb.
Qed.
Lemma enc_ok t : all_carried t = true -> forall v, suits t v -> exists l, enc t v = Ok l.
Proof.
  induction t as [c|n|w t IH|w t IH|t IH|e fs IH] using shape_ind2; intros Hc v Hv.
  - destruct (scalar_reads c v Hv) as (bs & E & _). exists (raw bs). cbn [MDerive.enc]. now rewrite E.
  - destruct v; try contradiction. destruct (foreign_ok _ _ Hv) as (o & E & _). exists o. exact E.
  - apply suits_ref in Hv as (o & -> & Ho). destruct o as [x|]; [|eexists; reflexivity].
    destruct (IH Hc x (Ho x eq_refl)) as [l E]. eexists. cbn [MDerive.enc]. rewrite E. reflexivity.
  - apply suits_many in Hv as (vs & -> & Hn & Hvs). destruct (rmapM_ex (enc t) vs) as [ls E].
    { eapply Forall_impl; [|exact Hvs]. intros x Hx. now apply IH. }
    eexists. cbn [MDerive.enc]. rewrite E. reflexivity.
  - destruct v; try contradiction. destruct o as [x|]; [|eexists; reflexivity].
    destruct (IH Hc x Hv) as [l E]. eexists. cbn [MDerive.enc]. rewrite E. reflexivity.
  - apply suits_rec in Hv as (vs & -> & Hvs). cbn [all_carried] in Hc. apply andb_prop in Hc as [Hc1 Hc2]. cbn [MDerive.enc]. rewrite Hc1.
    rewrite forallb_forall in Hc2. destruct (enc_fields_ok fs) with (vs := vs) as [l E]; [|exact Hvs|].
    + apply Forall_forall. rewrite Forall_forall in IH. intros f Hf. apply IH; auto.
    + rewrite E. eexists. reflexivity.
Qed.
Lemma sound_carried t : forall b, sound b t = true -> all_carried t = true.
Proof.
  induction t as [c|n|w t IH|w t IH|t IH|e fs IH] using shape_ind2; intros b H; cbn [sound all_carried] in *; try reflexivity.
  - apply andb_prop in H as [_ H]. eauto.
  - apply andb_prop in H as [H _]. eauto.
  - discriminate.
  - apply andb_prop in H as [H _]. apply andb_prop in H as [H ->]. cbn [andb]. apply forallb_forall. rewrite Forall_forall in IH. rewrite forallb_forall in H.
    intros f Hf. apply (IH f Hf false). now apply H.
Qed.
Lemma flat_carried t : refs t = false -> all_carried t = true.
Proof.
  induction t as [c|n|w t IH|w t IH|t IH|e fs IH] using shape_ind2; intros H; cbn [refs all_carried] in *; try discriminate; auto.
  rewrite (carried_flat fs H). cbn [andb]. apply forallb_forall. rewrite Forall_forall in IH. intros f Hf. apply IH; [exact Hf|].
  destruct (refs (snd f)) eqn:E; [|reflexivity]. rewrite <- H. symmetry. apply existsb_exists. exists f. now split.
Qed.

(** ** Reading *)
Lemma rmapM_F2 {A B} (f : A -> res B) l l' : rmapM f l = Ok l' -> Forall2 (fun a b => f a = Ok b) l l'.
Proof.
  revert l'. induction l as [|a l IH]; intros l'; cbn [rmapM].
  - intros E. apply Ok_inj in E. subst. constructor.
  - destruct (f a) as [b| |] eqn:E1; try discriminate. cbn [rbind]. destruct (rmapM f l) as [bs| |] eqn:E2; try discriminate. cbn [rbind].
    intros E. apply Ok_inj in E. subst. constructor; auto.
Qed.
Lemma F2_imp {A B} (P : A -> B -> Prop) (R : B -> A -> Prop) l l' : Forall2 P l l' -> (forall a b, In a l -> P a b -> R b a) -> Forall2 R l' l.
Proof. induction 1; intros G; constructor; [apply G; [now left|assumption]|]. apply IHForall2. intros. apply G; [now right|assumption]. Qed.

(** The fields: [k] offset bases are pushed on the way. *)
Lemma fields_anywhere fs : forall vs l,
  Forall (fun f => forall v l, suits (snd f) v -> enc (snd f) v = Ok l -> anywhere (dec (snd f)) l v) fs ->
  each fs vs -> enc_fields (map (fun f => enc (snd f)) fs) vs = Ok l ->
  forall buf base pos stk, stored 65536 buf base pos l ->
  exists top, List.length top = bases fs /\
    dec_fields (map (fun f => (f_base f, dec (snd f))) fs) (mkrd buf pos stk) = Ok (vs, mkrd buf (pos + size l) (top ++ stk)).
Proof.
  induction fs as [|f fs IH]; intros vs l Hf Hv He buf base pos stk S; destruct vs as [|v vs]; cbn [each] in Hv; try contradiction.
  - cbn [map enc_fields] in He. apply Ok_inj in He. subst l. exists []. split; [reflexivity|]. cbn [map dec_fields app]. unfold pret, size. cbn [map list_sum fold_right]. now rewrite Nat.add_0_r.
  - cbn [map enc_fields] in He. destruct (enc (snd f) v) as [a| |] eqn:E1; try discriminate. cbn [rbind] in He.
    destruct (enc_fields (map (fun f => enc (snd f)) fs) vs) as [b| |] eqn:E2; try discriminate. cbn [rbind] in He. apply Ok_inj in He. subst l.
    destruct Hv as [Hv1 Hv2]. inversion Hf as [|? ? Hf1 Hf2]; subst. apply stored_app in S as [S1 S2].
    cbn [map dec_fields]. pose (stk' := if f_base f then pos :: stk else stk).
    replace (if f_base f then rd_push (mkrd buf pos stk) else mkrd buf pos stk) with (mkrd buf pos stk') by (unfold stk'; destruct (f_base f); reflexivity).
    rewrite (Hf1 v a Hv1 E1 buf base pos stk' S1).
    destruct (IH vs b Hf2 Hv2 E2 buf base (pos + size a)%nat stk' S2) as (top & Ht & Er). rewrite Er.
    exists (top ++ if f_base f then [pos] else []). split.
    + unfold bases. cbn [filter]. rewrite app_length, Ht. unfold bases. destruct (f_base f); cbn [List.length]; lia.
    + rewrite size_app, Nat.add_assoc. unfold stk'. destruct (f_base f); rewrite <- app_assoc; reflexivity.
Qed.
Lemma fields_part fs : forall vs l,
  Forall (fun f => forall v l, suits (snd f) v -> enc (snd f) v = Ok l -> part (dec (snd f)) l v) fs ->
  each fs vs -> enc_fields (map (fun f => enc (snd f)) fs) vs = Ok l ->
  bases fs = 0%nat -> part (dec_fields (map (fun f => (f_base f, dec (snd f))) fs)) l vs.
Proof.
  induction fs as [|f fs IH]; intros vs l Hf Hv He Hb; destruct vs as [|v vs]; cbn [each] in Hv; try contradiction.
  - cbn [map enc_fields] in He. apply Ok_inj in He. subst l. apply part_pret.
  - cbn [map enc_fields] in He. destruct (enc (snd f) v) as [a| |] eqn:E1; try discriminate. cbn [rbind] in He.
    destruct (enc_fields (map (fun f => enc (snd f)) fs) vs) as [b| |] eqn:E2; try discriminate. cbn [rbind] in He. apply Ok_inj in He. subst l.
    destruct Hv as [Hv1 Hv2]. inversion Hf as [|? ? Hf1 Hf2]; subst. unfold bases in Hb. cbn [filter] in Hb.
    destruct (f_base f) eqn:Eb; [cbn [List.length] in Hb; lia|]. intros buf base pos stk S. apply stored_app in S as [S1 S2].
    cbn [map dec_fields]. rewrite Eb. rewrite (Hf1 v a Hv1 E1 _ _ _ _ S1).
    rewrite (IH vs b Hf2 Hv2 E2 Hb _ _ _ _ S2). now rewrite size_app, Nat.add_assoc.
Qed.
Lemma bases_none fs : bases fs = 0%nat <-> existsb f_base fs = false.
Proof.
  unfold bases. induction fs as [|f fs IH]; cbn [filter existsb]; [now split|]. destruct (f_base f); cbn [List.length orb]; [split; [lia|discriminate]|exact IH].
Qed.

Lemma flat_anywhere t : forall b, sound b t = true -> refs t = false -> forall v l, suits t v -> enc t v = Ok l -> anywhere (dec t) l v.
Proof.
  induction t as [c|n|w t IH|w t IH|t IH|e fs IH] using shape_ind2; intros b Hs Hr v l Hv He; cbn [refs] in Hr; try discriminate.
  - destruct (scalar_reads c v Hv) as (bs & E & R & _). cbn [MDerive.enc] in He. rewrite E in He. cbn [rbind] in He. apply Ok_inj in He. subst l.
    apply anywhere_reads. exact R.
  - apply suits_many in Hv as (vs & -> & Hn & Hvs). cbn [sound] in Hs. apply andb_prop in Hs as [Hs _].
    cbn [MDerive.enc] in He. destruct (rmapM (enc t) vs) as [ls| |] eqn:E; try discriminate. cbn [rbind] in He. apply Ok_inj in He. subst l.
    apply (anywhere_map (de_many w (dec t)) (fun l => VList l)). apply anywhere_many; [exact Hn|].
    apply rmapM_F2 in E. eapply F2_imp; [exact E|]. cbn beta. rewrite Forall_forall in Hvs. intros x lx Hx Ex. apply (IH false Hs Hr); auto.
  - apply suits_rec in Hv as (vs & -> & Hvs). cbn [sound] in Hs. rewrite Hr in Hs. apply andb_prop in Hs as [Hs Hb]. apply andb_prop in Hs as [Hs Hc].
    cbn [MDerive.enc] in He. rewrite Hc in He. destruct (enc_fields _ vs) as [l0| |] eqn:E; try discriminate. cbn [rbind] in He. apply Ok_inj in He. subst l.
    apply (anywhere_map (closing (existsb f_base fs) (dec_fields (map (fun f => (f_base f, dec (snd f))) fs))) (fun l => VRec l)). apply anywhere_group.
    intros buf base pos stk S. unfold closing.
    destruct (fields_anywhere fs vs l0) with (buf := buf) (base := base) (pos := pos) (stk := stk) as (top & Ht & Er); [| exact Hvs | exact E | exact S |].
    { rewrite Forall_forall in IH |- *. rewrite forallb_forall in Hs. intros f Hf. apply (IH f Hf false); [now apply Hs|].
      destruct (refs (snd f)) eqn:Ef; [|reflexivity]. rewrite <- Hr. symmetry. apply existsb_exists. exists f. now split. }
    rewrite Er. apply Nat.leb_le in Hb. destruct (existsb f_base fs) eqn:Ex.
    + assert (bases fs <> 0%nat) by (rewrite bases_none; congruence). destruct top as [|q [|q' top]]; cbn [List.length] in Ht; try lia. reflexivity.
    + apply bases_none in Ex. rewrite Ex in Ht. destruct top; [|cbn in Ht; lia]. reflexivity.
Qed.

Lemma sound_reads t : (sound false t = true -> forall v l, suits t v -> enc t v = Ok l -> part (dec t) l v) /\
  (sound true t = true -> forall v l, suits t v -> enc t v = Ok l -> decodes (dec t) l v).
Proof.
  induction t as [c|n|w t IH|w t IH|t IH|e fs IH] using shape_ind2.
  - split; intros Hs v l Hv He; [apply anywhere_part|apply anywhere_decodes]; eapply flat_anywhere; eauto.
  - split; intros Hs v l Hv He; [discriminate|]. destruct v; try contradiction. destruct (foreign_ok _ _ Hv) as (o & E & D).
    cbn [MDerive.enc] in He. rewrite E in He. apply Ok_inj in He. subst o. apply (decodes_map (fdec n) (fun x => VForeign x)). exact D.
  - split; intros Hs v l Hv He; [|discriminate]. apply suits_ref in Hv as (o & -> & Ho). cbn [sound negb andb] in Hs. destruct IH as [_ IH].
    destruct o as [x|]; cbn [MDerive.enc] in He.
    + destruct (enc t x) as [lx| |] eqn:E; try discriminate. cbn [rbind] in He. apply Ok_inj in He. subst l.
      apply (part_map (de_offset w (dec t)) (fun x => VLink x) _ (Some x)). apply de_offset_link; [destruct w; reflexivity|destruct w; discriminate|]. apply IH; auto.
    + apply Ok_inj in He. subst l. apply (part_map (de_offset w (dec t)) (fun x => VLink x) _ None). destruct w; [apply part_off32_null|apply part_off16_null].
  - assert (P: sound false t = true -> forall vs l, fits_count w (List.length vs) -> Forall (suits t) vs -> enc (Many w t) (VList vs) = Ok l -> part (dec (Many w t)) l (VList vs)).
    { intros Hs vs l Hn Hvs He. cbn [MDerive.enc] in He. destruct (rmapM (enc t) vs) as [ls| |] eqn:E; try discriminate. cbn [rbind] in He. apply Ok_inj in He. subst l.
      apply (part_map (de_many w (dec t)) (fun l => VList l)). apply part_many; [exact Hn|].
      apply rmapM_F2 in E. eapply F2_imp; [exact E|]. cbn beta. rewrite Forall_forall in Hvs. intros x lx Hx Ex. apply IH; auto. }
    split; intros Hs v l Hv He.
    + apply suits_many in Hv as (vs & -> & Hn & Hvs). cbn [sound negb orb] in Hs. rewrite andb_true_r in Hs. now apply P.
    + apply anywhere_decodes. cbn [sound negb orb] in Hs. pose proof Hs as Hs'. apply andb_prop in Hs as [Hs Hr]. apply negb_true_iff in Hr.
      eapply (flat_anywhere (Many w t) true); eauto.
  - split; discriminate.
  - split; intros Hs v l Hv He.
    + pose proof Hs as Hs'. cbn [sound] in Hs. apply andb_prop in Hs as [Hs Hb]. apply andb_prop in Hs as [Hs Hc].
      destruct (existsb (fun f => refs (snd f)) fs) eqn:Hr; [|apply anywhere_part; eapply flat_anywhere; eauto].
      apply Nat.eqb_eq in Hb. apply suits_rec in Hv as (vs & -> & Hvs).
      cbn [MDerive.enc] in He. rewrite Hc in He. destruct (enc_fields _ vs) as [l0| |] eqn:E; try discriminate. cbn [rbind] in He. apply Ok_inj in He. subst l.
      apply (part_map (closing (existsb f_base fs) (dec_fields (map (fun f => (f_base f, dec (snd f))) fs))) (fun l => VRec l)). apply part_group.
      intros buf base pos stk S. unfold closing. rewrite (proj1 (bases_none fs) Hb).
      rewrite (fields_part fs vs l0); [reflexivity| |exact Hvs|exact E|exact Hb|exact S].
      rewrite Forall_forall in IH |- *. rewrite forallb_forall in Hs. intros f Hf. apply (proj1 (IH f Hf)). now apply Hs.
    + pose proof Hs as Hs'. cbn [sound] in Hs. apply andb_prop in Hs as [Hs Hb]. apply andb_prop in Hs as [Hs Hc].
      destruct (existsb (fun f => refs (snd f)) fs) eqn:Hr; [|apply anywhere_decodes; eapply flat_anywhere; eauto].
      apply andb_prop in Hb as [Hb Hf0]. apply Nat.eqb_eq in Hb. apply suits_rec in Hv as (vs & -> & Hvs).
      cbn [MDerive.enc] in He. rewrite Hc in He. destruct (enc_fields _ vs) as [l0| |] eqn:E; try discriminate. cbn [rbind] in He. apply Ok_inj in He. subst l.
      apply (decodes_map (closing (existsb f_base fs) (dec_fields (map (fun f => (f_base f, dec (snd f))) fs))) (fun l => VRec l)).
      intros buf pos stk S. inversion S; subst. rewrite app_nil_r in *. match goal with H : stored _ _ _ _ l0 |- _ => rename H into S0 end.
      assert (Sz: size [IGroup l0] = size l0) by (unfold size at 1; cbn; now rewrite Nat.add_0_r). rewrite Sz.
      destruct fs as [|f fs]; [discriminate|]. destruct vs as [|v vs]; [contradiction|]. destruct Hvs as [Hv1 Hv2].
      cbn [map enc_fields] in E. destruct (enc (snd f) v) as [a| |] eqn:E1; try discriminate. cbn [rbind] in E.
      destruct (enc_fields (map (fun f => enc (snd f)) fs) vs) as [b| |] eqn:E2; try discriminate. cbn [rbind] in E. apply Ok_inj in E. subst l0.
      apply stored_app in S0 as [S1 S2]. inversion IH as [|? ? IH1 IH2]; subst. cbn [forallb] in Hs. apply andb_prop in Hs as [Hs1 Hs2].
      unfold closing. cbn [map dec_fields existsb]. rewrite Hf0. cbn [orb]. unfold rd_push. cbn [rd_input rd_ptr rd_stack].
      rewrite (proj1 IH1 Hs1 v a Hv1 E1 _ _ _ _ S1).
      rewrite (fields_part fs vs b); [|rewrite Forall_forall in IH2 |- *; rewrite forallb_forall in Hs2; intros g Hg; apply (proj1 (IH2 g Hg)); now apply Hs2
        |exact Hv2|exact E2|unfold bases in Hb |- *; cbn [filter] in Hb; rewrite Hf0 in Hb; cbn [List.length] in Hb; lia|exact S2].
      unfold rd_pop. cbn [rd_stack rd_input rd_ptr]. now rewrite size_app, Nat.add_assoc.
Qed.

Lemma derived_back t v o out : sound true t = true \/ sound false t = true -> suits t v -> enc t v = Ok o ->
  Z.of_nat (total o) < 2 ^ 32 -> narrow o = true \/ Z.of_nat (total o) < 65536 -> to_bytes o = Ok out ->
  from_bytes (dec t) out = Ok v.
Proof.
  intros Hs Hv He Ht Hn Ho. assert (S: stored 65536 out 0 0 o) by now apply to_bytes_readable.
  unfold from_bytes, rd_new. destruct Hs as [Hs|Hs].
  - now rewrite (proj2 (sound_reads t) Hs v o Hv He _ _ _ S).
  - now rewrite (proj1 (sound_reads t) Hs v o Hv He _ _ _ _ S).
Qed.
End Derived.

(** ** Without offsets *)
Inductive plainly_as : list item -> list Z -> Prop :=
| pa_nil : plainly_as [] []
| pa_byte b l bs : plainly_as l bs -> plainly_as (IB b :: l) (b :: bs)
| pa_group g l b bs : plainly_as g b -> plainly_as l bs -> plainly_as (IGroup g :: l) (b ++ bs).
Lemma pa_app l1 b1 l2 b2 : plainly_as l1 b1 -> plainly_as l2 b2 -> plainly_as (l1 ++ l2) (b1 ++ b2).
Proof. induction 1; intros H'; cbn [app]; [exact H'|constructor; auto|]. rewrite <- app_assoc. constructor; auto. Qed.
Lemma pa_raw bs : plainly_as (raw bs) bs.
Proof. induction bs; cbn; constructor; auto. Qed.
Lemma pa_one g b : plainly_as g b -> plainly_as [IGroup g] b.
Proof. intros H. rewrite <- (app_nil_r b). constructor; [exact H|constructor]. Qed.
Lemma pa_kids l bs : plainly_as l bs -> directs l = [] /\ concat (map group_kids l) = [].
Proof.
  induction 1 as [|b l bs H IH|g l b bs Hg [IHg1 IHg2] Hl [IHl1 IHl2]]; [now split|exact IH|]. split; [exact IHl1|].
  cbn [map concat]. change (group_kids (IGroup g)) with (directs g ++ concat (map group_kids g)). now rewrite IHg1, IHg2, IHl2.
Qed.
Lemma pa_emit val l bs : plainly_as l bs -> forall d gr, go val d gr l = Ok bs.
Proof.
  induction 1 as [|b l bs H IH|g l b bs Hg IHg Hl IHl]; intros d gr; cbn [go]; [reflexivity| |].
  - cbn [emit_item rbind]. rewrite IH. reflexivity.
  - rewrite emit_group, IHg. cbn [rbind]. rewrite IHl. reflexivity.
Qed.
Lemma rbind_Ok_l {A B} (a : A) (f : A -> res B) : rbind (Ok a) f = f a.
Proof. reflexivity. Qed.
Lemma pa_to_bytes (o : obj) bs : plainly_as o bs -> to_bytes o = Ok bs.
Proof.
  intros H. pose proof (pa_kids o bs H) as [K1 K2]. assert (K: kids o = []) by (unfold kids; now rewrite K1, K2).
  assert (N: node_kids (mk_node [] Off16 (Some (o : obj))) = []) by (unfold node_kids; cbn [nd_obj link_kids]; now rewrite K).
  unfold to_bytes. assert (T: traversal o = [mk_node [] Off16 (Some o)]).
  { unfold traversal, link_nodes. change (item_nodes (IRef Off16 (Some o))) with (S (list_sum (map item_nodes o))). cbn [visit]. rewrite N. destruct (list_sum _); reflexivity. }
  rewrite T. cbn [second_pass nd_path]. rewrite rbind_Ok_l, N. cbn [set_kids]. rewrite !rbind_Ok_l. cbn [app write_nodes nd_obj].
  unfold emit. rewrite emit_group, (pa_emit _ _ _ H). cbn [rbind]. now rewrite app_nil_r.
Qed.
Lemma pa_optional l bs : plainly_as l bs -> optional l = l.
Proof. induction 1 as [|b l bs H IH|g l b bs Hg IHg Hl IHl]; cbn [optional map]; [reflexivity| |]; f_equal; assumption. Qed.

Section Flat.
Context {F : Type} (fenc : string -> F -> res obj) (fok : string -> F -> Prop).
Lemma layout_rec e fs vs bs : layout (Rec e fs) (VRec vs : value F) bs = (fix each fs vs bs :=
         match fs, vs with
         | [], [] => bs = []
         | f :: fs', v :: vs' => exists b b', bs = b ++ b' /\ layout (snd f) v b /\ each fs' vs' b'
         | _, _ => False
         end) fs vs bs.
Proof. reflexivity. Qed.
Lemma flat_layout t : refs t = false -> forall v, suits fok t v ->
  exists o bs, enc fenc t v = Ok o /\ plainly_as o bs /\ layout t v bs.
Proof.
  induction t as [c|n|w t IH|w t IH|t IH|e fs IH] using shape_ind2; intros Hr v Hv; cbn [refs] in Hr; try discriminate.
  - destruct (scalar_reads c v Hv) as (bs & E & _ & L). exists (raw bs), bs. cbn [enc]. rewrite E. repeat split; [apply pa_raw|exact L].
  - apply suits_many in Hv as (vs & -> & Hn & Hvs).
    assert (G: exists ls b, rmapM (enc fenc t) vs = Ok ls /\ plainly_as (concat ls) b /\ split_in (layout t) vs b).
    { clear Hn. induction Hvs as [|x vs Hx _ (ls & b & E & P & S)]; [exists [], []; repeat split; constructor|].
      destruct (IH Hr x Hx) as (o & b0 & E0 & P0 & L0). exists (o :: ls), (b0 ++ b). cbn [rmapM]. rewrite E0. cbn [rbind]. rewrite E.
      split; [reflexivity|]. split; [cbn [concat]; now apply pa_app|]. now constructor. }
    destruct G as (ls & b & E & P & S). cbn [enc]. rewrite E. cbn [rbind]. eexists. eexists. split; [reflexivity|]. split.
    + apply pa_app; [apply pa_raw|]. apply pa_one. exact P.
    + cbn [layout]. exists (count_ser w (List.length vs)), b. split; [reflexivity|]. split; [now apply count_number|exact S].
  - destruct v; try contradiction. destruct o as [x|].
    + destruct (IH Hr x Hv) as (o & bs & E & P & L). exists o, bs. cbn [enc]. rewrite E. cbn [rbind]. rewrite (pa_optional _ _ P). auto.
    + exists [], []. repeat split; constructor.
  - apply suits_rec in Hv as (vs & -> & Hvs). cbn [enc]. rewrite (carried_flat fs Hr).
    assert (G: exists l bs, enc_fields (map (fun f => enc fenc (snd f)) fs) vs = Ok l /\ plainly_as l bs /\ layout (Rec e fs) (VRec vs) bs).
    { revert vs Hvs. induction IH as [|f fs Hf _ IHf]; intros [|v vs] Hvs; try contradiction; [exists [], []; repeat split; constructor|].
      cbn [existsb] in Hr. apply orb_false_elim in Hr as [Hr1 Hr2]. destruct Hvs as [Hv1 Hv2].
      destruct (Hf Hr1 v Hv1) as (o & b & E & P & L). destruct (IHf Hr2 vs Hv2) as (l & bs & E' & P' & L').
      exists (o ++ l), (b ++ bs). cbn [map enc_fields]. rewrite E. cbn [rbind]. rewrite E'. split; [reflexivity|]. split; [now apply pa_app|].
      exists b, bs. auto. }
    destruct G as (l & bs & E & P & L). rewrite E. cbn [rbind]. exists [IGroup l], bs. split; [reflexivity|]. split; [now apply pa_one|exact L].
Qed.
End Flat.

Lemma at_pos_split buf pos b1 b2 : at_pos buf pos (b1 ++ b2) -> at_pos buf pos b1 /\ at_pos buf (pos + List.length b1) b2.
Proof.
  intros (pre & post & E & L). split.
  - exists pre, (b2 ++ post). split; [now rewrite E, <- app_assoc|exact L].
  - exists (pre ++ b1), post. split; [now rewrite E, <- !app_assoc|]. rewrite app_length. lia.
Qed.
Lemma pa_length l bs : plainly_as l bs -> List.length bs = size l.
Proof.
  induction 1 as [|b l bs H IH|g l b bs Hg IHg Hl IHl]; [reflexivity|change (size (IB b :: l)) with (S (size l)); cbn; lia|].
  rewrite app_length. change (size (IGroup g :: l)) with (size g + size l)%nat. lia.
Qed.
Lemma pa_stored lim buf base l bs : plainly_as l bs -> forall l' pos, at_pos buf pos bs ->
  stored lim buf base (pos + List.length bs) l' -> stored lim buf base pos (l ++ l').
Proof.
  induction 1 as [|b l bs H IH|g l b bs Hg IHg Hl IHl]; intros l' pos Ha S.
  - cbn [List.length] in S. now rewrite Nat.add_0_r in S.
  - apply (at_pos_split buf pos [b] bs) in Ha as [A1 A2]. cbn [app]. constructor; [exact A1|]. apply IH; [exact A2|].
    cbn [List.length] in S. replace (pos + 1 + List.length bs)%nat with (pos + Datatypes.S (List.length bs))%nat by lia. exact S.
  - apply at_pos_split in Ha as [A1 A2]. cbn [app]. constructor. apply IHg; [exact A1|]. apply IHl; [exact A2|].
    rewrite app_length, Nat.add_assoc in S. exact S.
Qed.
(** A structure without offsets reads back wherever its bytes are. *)
Lemma flat_back {F} (fenc : string -> F -> res obj) (fdec : string -> parser F) (fok : string -> F -> Prop) t v : refs t = false ->
  sound false t = true \/ sound true t = true -> suits fok t v ->
  exists o bs, enc fenc t v = Ok o /\ to_bytes o = Ok bs /\ layout t v bs /\ reads_back (dec fdec t) bs v.
Proof.
  intros Hr Hs Hv. destruct (flat_layout fenc fok t Hr v Hv) as (o & bs & E & P & L). exists o, bs.
  split; [exact E|]. split; [now apply pa_to_bytes|]. split; [exact L|]. intros pre post stk.
  assert (A: anywhere (dec fdec t) o v) by (destruct Hs as [Hs|Hs]; eapply (flat_anywhere fenc fdec fok); eauto).
  rewrite (pa_length _ _ P). apply (A _ 0%nat). rewrite <- (app_nil_r o).
  assert (H: at_pos (pre ++ bs ++ post) (List.length pre) bs) by (exists pre, post; now split).
  eapply pa_stored; [exact P|exact H|]. constructor. rewrite !app_length. lia.
Qed.

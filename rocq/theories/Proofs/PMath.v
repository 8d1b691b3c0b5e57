(** Proofs about the mathematical typesetting table. *)
From Coq Require Import String List ZArith Lia Sorted.
Import ListNotations.
From Verif.Model Require Import MBase MMap MOffset MLayout MLow MMath.
From Verif.Spec Require Import SBase SGlyph SLayout SContext SGsub SStat SMath.
From Verif.Proofs Require Import PBase POffset PPart PMap PGlyphFmt PCover PDevice PLow PStat.
Open Scope Z_scope.

(** ** Reading at a place, with offsets from a base *)
Section At.
Variable buf : list Z.
Definition rds {A} (base : nat) (p : parser A) (bs : list Z) (x : A) : Prop :=
  forall pos stk, fnd buf pos bs -> p (mkrd buf pos (base :: stk)) = Ok (x, mkrd buf (pos + length bs) (base :: stk)).
Definition lands {A} (base : nat) (p : parser A) (R : Z -> A -> Prop) : Prop :=
  forall pos a, 0 <= pos -> R pos a -> (Z.to_nat pos <= length buf)%nat /\
    exists q, forall stk, p (mkrd buf (Z.to_nat pos) (base :: stk)) = Ok (a, mkrd buf q (base :: stk)).
Lemma rds_reads {A} base (p : parser A) bs x : bs <> [] -> reads p bs x -> rds base p bs x.
Proof.
  intros Hn H pos stk F. destruct (fnd_split _ _ _ F Hn) as (pre & post & E & L). apply (at_pos_reads _ _ _ _ _ _ H). now exists pre, post.
Qed.
Lemma rds_pret {A} base (x : A) : rds base (pret x) [] x.
Proof. intros pos stk _. cbn. now rewrite Nat.add_0_r. Qed.
Lemma rds_bind {A B} base (p : parser A) (f : A -> parser B) b1 b2 x y : rds base p b1 x -> rds base (f x) b2 y -> rds base (pbind p f) (b1 ++ b2) y.
Proof.
  intros Hp Hf pos stk F. apply fnd_app in F as [F1 F2]. unfold pbind. rewrite (Hp _ _ F1), (Hf _ _ F2). now rewrite app_length, Nat.add_assoc.
Qed.
Lemma rds_map {A B} base (p : parser A) (f : A -> B) bs x : rds base p bs x -> rds base (pbind p (fun a => pret (f a))) bs (f x).
Proof. intros H. rewrite <- (app_nil_r bs). eapply rds_bind; [exact H|]. apply rds_pret. Qed.
Lemma rds_u16 base v : is_u16 v -> rds base de_u16 (word v) v.
Proof. intros H. apply rds_reads; [discriminate|]. rewrite word_u16. apply reads_u16. unfold is_u16 in H. lia. Qed.
Lemma rds_i16 base v : is_i16 v -> rds base de_i16 (word v) v.
Proof. intros H. apply rds_reads; [discriminate|]. rewrite word_i16. apply reads_i16. unfold is_i16 in H. lia. Qed.
Lemma rds_counted {A} base (p : parser A) (R : A -> list Z -> Prop) l bss : (forall x b, R x b -> rds base p b x) -> Forall2 R l bss ->
  rds base (de_counted p (length l)) (concat bss) l.
Proof.
  intros Hp F. induction F as [|x b l bss H F IH]; cbn [length de_counted concat]; [apply rds_pret|].
  eapply rds_bind; [apply Hp; exact H|]. now apply rds_map.
Qed.
Lemma rds_counted16 {A} base (p : parser A) (R : A -> list Z -> Prop) l bs : (forall x b, R x b -> rds base p b x) -> counted_of R l bs -> rds base (de_counted16 p) bs l.
Proof.
  intros Hp (C & bss & F & ->). unfold de_counted16. eapply rds_bind; [apply rds_u16; unfold countable, is_u16 in *; lia|]. rewrite Nat2Z.id. eapply rds_counted; eauto.
Qed.
Lemma rds_pointer {A} base (p : parser A) (R : Z -> A -> Prop) bs x : lands base p R -> pointer (Some (Z.of_nat base)) R bs x -> rds base (de_off16 p) bs x.
Proof.
  intros Hl H pos stk F. unfold pointer in H. unfold de_off16, de_offset. destruct x as [a|].
  - destruct H as (b & off & E & Ho & -> & Hr). injection E as <-. unfold pbind. rewrite (rds_u16 base off ltac:(unfold is_u16; lia) pos stk F).
    replace (off =? 0) with false by lia. unfold try_u. change (2 ^ 16) with 65536. replace ((0 <=? off) && (off <? 65536))%bool with true by lia. cbn [unwrap].
    unfold follow_offset, top_of_table. cbn [rd_stack rbind rd_input]. assert (H0: 0 <= Z.of_nat base + off) by lia. destruct (Hl _ _ H0 Hr) as (L & q & Hq).
    replace (base + Z.to_nat off)%nat with (Z.to_nat (Z.of_nat base + off)) by lia.
    replace (length buf <? Z.to_nat (Z.of_nat base + off))%nat with false by (symmetry; apply Nat.ltb_ge; lia). cbn [rbind]. rewrite Hq. reflexivity.
  - subst. unfold pbind. rewrite (rds_u16 base 0 ltac:(unfold is_u16; lia) pos stk F). reflexivity.
Qed.
Lemma lands_rds {A} base (p : parser A) (R : Z -> A -> Prop) : (forall pos a, R pos a -> exists bs, bs <> [] /\ found buf pos bs /\ rds base p bs a) -> lands base p R.
Proof.
  intros H pos a Hp Hr. destruct (H _ _ Hr) as (bs & Hn & F & Hd). split.
  - destruct (fnd_len _ _ _ F) as [->|L]; [now elim Hn|lia].
  - eexists. intros stk. apply Hd. exact F.
Qed.
(** a table with its own base *)
Lemma lands_base {A} base (p : parser A) (R : Z -> A -> Prop) :
  (forall pos a, 0 <= pos -> R pos a -> exists bs, bs <> [] /\ found buf pos bs /\ rds (Z.to_nat pos) p bs a) -> lands base (with_base p) R.
Proof.
  intros H pos a Hp Hr. destruct (H _ _ Hp Hr) as (bs & Hn & F & Hd). split.
  - destruct (fnd_len _ _ _ F) as [->|L]; [now elim Hn|lia].
  - exists (Z.to_nat pos + length bs)%nat. intros stk. unfold with_base, rd_push. cbn [rd_input rd_ptr rd_stack]. rewrite (Hd _ _ F). reflexivity.
Qed.

(** ** The tables *)
Lemma pointer_nonempty {A} base (R : Z -> A -> Prop) bs x : pointer base R bs x -> bs <> [].
Proof. unfold pointer. destruct x; [intros (? & ? & _ & _ & -> & _)|intros ->]; discriminate. Qed.
Lemma app_nonempty {A} (a b : list A) : a <> [] -> a ++ b <> [].
Proof. now destruct a. Qed.
Lemma lands_cov base : lands base cov_de (coverage_at buf).
Proof.
  apply lands_rds. intros pos g (bs & F & C & N). exists bs. split; [destruct C; discriminate|]. split; [exact F|]. apply rds_reads; [destruct C; discriminate|]. now apply cov_every_read.
Qed.
Lemma lands_dev base : lands base dv_de (device_at buf).
Proof.
  apply lands_rds. intros pos d [(s & e & f & vs & pad & bs & F & Hf & Hs & Hv & Hb & ->)|(s & e & F & Hs & He & ->)].
  - assert (Hn: bs <> []) by (destruct Hb as (b & -> & _); discriminate). exists bs. split; [exact Hn|]. split; [exact F|]. apply rds_reads; [exact Hn|]. eapply dv_every_read; eauto.
  - eexists. split; [|split; [exact F|]]; [discriminate|]. apply rds_reads; [discriminate|]. now apply dv_variation_index.
Qed.
Lemma rds_value base v bs : value_rec buf (Some (Z.of_nat base)) v bs -> rds base mvalue_de bs v.
Proof.
  intros (Hv & p & Hp & ->). destruct v as [v d]. cbn [mv_value mv_device] in *. unfold mvalue_de. eapply rds_bind; [now apply rds_i16|].
  apply (rds_map _ _ (fun d => mk_mvalue v d)). eapply rds_pointer; [apply lands_dev|exact Hp].
Qed.
Lemma rds_fields base names vs bs : map fst vs = names -> value_recs buf (Some (Z.of_nat base)) (map snd vs) bs -> rds base (fields_de names) bs vs.
Proof.
  intros <- (bss & F & ->). revert bss F. induction vs as [|[n v] vs IH]; intros bss F; cbn [map] in F; inversion F as [|x b l bss' H F']; subst; cbn [map concat fields_de fst].
  - apply rds_pret.
  - eapply rds_bind; [apply rds_value; exact H|]. apply (rds_map _ _ (fun l => (n, v) :: l)). now apply IH.
Qed.
Lemma lands_constants base : lands base constants_de (constants_at Outer buf (Z.of_nat base)).
Proof.
  apply lands_rds. intros pos c (H1 & H2 & H3 & H4 & H5 & H6 & bs & Hb & F). destruct c as [a b c d vs e]. cbn [mc_script_percent mc_script_script_percent mc_formula_height mc_operator_height mc_values mc_raise_percent] in *.
  eexists. split; [|split; [exact F|]]; [discriminate|]. unfold constants_de.
  eapply rds_bind; [now apply rds_i16|]. eapply rds_bind; [now apply rds_i16|]. eapply rds_bind; [now apply rds_u16|]. eapply rds_bind; [now apply rds_u16|].
  eapply rds_bind; [eapply rds_fields; [exact H6|exact Hb]|]. apply (rds_map _ _ (fun e => mk_mconstants a b c d vs e)). now apply rds_i16.
Qed.
Lemma lands_per_glyph base : lands base per_glyph_de (per_glyph_at Outer buf (Z.of_nat base)).
Proof.
  apply lands_rds. intros pos [c vs] (p & bs & Hp & Hb & F). cbn [fst snd] in *. eexists. split; [|split; [exact F|]]; [apply app_nonempty; eapply pointer_nonempty; exact Hp|].
  unfold per_glyph_de. eapply rds_bind; [eapply rds_pointer; [apply lands_cov|exact Hp]|]. apply (rds_map _ _ (fun vs => (c, vs))).
  eapply rds_counted16; [|exact Hb]. intros x b H. now apply rds_value.
Qed.
Lemma rds_values base l bs : value_recs buf (Some (Z.of_nat base)) l bs -> rds base (de_counted mvalue_de (length l)) bs l.
Proof. intros (bss & F & ->). eapply rds_counted; [|exact F]. intros x b H. now apply rds_value. Qed.
Lemma lands_kern base : lands base kern_de (kern_at Outer buf (Z.of_nat base)).
Proof.
  apply lands_rds. intros pos [n hs ks] (E & C & L & bh & bk & Hh & Hk & F). cbn [mk_count mk_heights mk_kerns] in *. subst n.
  eexists. split; [|split; [exact F|]]; [discriminate|]. unfold kern_de. eapply rds_bind; [apply rds_u16; unfold countable, is_u16 in *; lia|]. rewrite Nat2Z.id.
  eapply rds_bind; [apply rds_values; exact Hh|]. change (1 + length hs)%nat with (S (length hs)). rewrite <- L. apply (rds_map _ _ (fun ks => mk_mkern (Z.of_nat (length hs)) hs ks)). now apply rds_values.
Qed.
Lemma rds_corners base c bs : corners Outer buf (Z.of_nat base) c bs -> rds base corners_de bs c.
Proof.
  intros (b1 & b2 & b3 & b4 & H1 & H2 & H3 & H4 & ->). destruct c as [c1 c2 c3 c4]. cbn [mk_tr mk_tl mk_br mk_bl] in *. unfold corners_de.
  do 3 (eapply rds_bind; [eapply rds_pointer; [apply lands_kern|eassumption]|]). apply (rds_map _ _ (fun d => mk_mcorners c1 c2 c3 d)). eapply rds_pointer; [apply lands_kern|eassumption].
Qed.
Lemma lands_kern_info base : lands base kern_info_de (kern_info_at Outer buf).
Proof.
  apply lands_base. intros pos [c ks] Hp (p & bs & H1 & H2 & F). cbn [fst snd] in *. rewrite <- (Z2Nat.id pos Hp) in H1, H2.
  eexists. split; [|split; [exact F|]]; [apply app_nonempty; eapply pointer_nonempty; exact H1|].
  eapply rds_bind; [eapply rds_pointer; [apply lands_cov|exact H1]|]. apply (rds_map _ _ (fun ks => (c, ks))). eapply rds_counted16; [|exact H2]. intros x b. apply rds_corners.
Qed.
Lemma lands_glyph_info base : lands base glyph_info_de (glyph_info_at Outer buf).
Proof.
  apply lands_base. intros pos [a b c d] Hp (b1 & b2 & b3 & b4 & H1 & H2 & H3 & H4 & F). cbn [gi_italics gi_accents gi_extended gi_kerns] in *.
  rewrite <- (Z2Nat.id pos Hp) in H1, H2, H3, H4. eexists. split; [|split; [exact F|]]; [apply app_nonempty; eapply pointer_nonempty; exact H1|].
  eapply rds_bind; [eapply rds_pointer; [apply lands_per_glyph|exact H1]|]. eapply rds_bind; [eapply rds_pointer; [apply lands_per_glyph|exact H2]|].
  eapply rds_bind; [eapply rds_pointer; [apply lands_cov|exact H3]|]. apply (rds_map _ _ (fun d => mk_mglyph_info a b c d)). eapply rds_pointer; [apply lands_kern_info|exact H4].
Qed.
Lemma rds_part base p bs : part_rec p bs -> rds base part_de bs p.
Proof.
  intros (H & ->). destruct p as [g s e a f]. cbn [mp_glyph mp_start mp_end mp_advance mp_flags] in *. unfold words. cbn [map concat]. rewrite app_nil_r.
  inversion H as [|? ? H1 Ha]; subst. inversion Ha as [|? ? H2 Hb]; subst. inversion Hb as [|? ? H3 Hc]; subst. inversion Hc as [|? ? H4 Hd]; subst. inversion Hd as [|? ? H5 _]; subst.
  unfold part_de. do 4 (eapply rds_bind; [apply rds_u16; assumption|]). apply (rds_map _ _ (fun f => mk_mpart g s e a f)). now apply rds_u16.
Qed.
Lemma lands_assembly base : lands base assembly_de (assembly_at Outer buf (Z.of_nat base)).
Proof.
  apply lands_rds. intros pos [i ps] (b1 & b2 & H1 & H2 & F). cbn [ma_italics ma_parts] in *. eexists. split; [|split; [exact F|]].
  - destruct H1 as (_ & p & _ & ->). discriminate.
  - unfold assembly_de. eapply rds_bind; [apply rds_value; exact H1|]. apply (rds_map _ _ (fun ps => mk_massembly i ps)). eapply rds_counted16; [|exact H2]. intros x b. apply rds_part.
Qed.
Lemma rds_variant base v bs : variant_rec v bs -> rds base variant_de bs v.
Proof. intros (H1 & H2 & ->). destruct v as [g a]. cbn [fst snd] in *. unfold variant_de. eapply rds_bind; [now apply rds_u16|]. apply (rds_map _ _ (fun a => (g, a))). now apply rds_u16. Qed.
Lemma lands_construction base : lands base construction_de (construction_at Outer buf).
Proof.
  apply lands_base. intros pos [a vs] Hp (b1 & b2 & H1 & H2 & F). cbn [mc_assembly mc_variants] in *. rewrite <- (Z2Nat.id pos Hp) in H1.
  eexists. split; [|split; [exact F|]]; [apply app_nonempty; eapply pointer_nonempty; exact H1|].
  eapply rds_bind; [eapply rds_pointer; [apply lands_assembly|exact H1]|]. apply (rds_map _ _ (fun vs => mk_mconstruction a vs)). eapply rds_counted16; [|exact H2]. intros x b. apply rds_variant.
Qed.
Lemma rds_constructions base l bs : constructions Outer buf (Z.of_nat base) l bs -> rds base (de_counted (de_off16 construction_de) (length l)) bs l.
Proof. intros (bss & F & ->). eapply rds_counted; [|exact F]. cbn beta. intros x b H. eapply rds_pointer; [apply lands_construction|exact H]. Qed.
Lemma lands_variants base : lands base variants_de (variants_at Outer buf).
Proof.
  apply lands_base. intros pos [o vc hc v h] Hp (H1 & Cv & Ch & b1 & b2 & b3 & b4 & P1 & P2 & P3 & P4 & F). cbn [mv_overlap mv_vcov mv_hcov mv_vert mv_horiz] in *.
  rewrite <- (Z2Nat.id pos Hp) in P1, P2, P3, P4. eexists. split; [|split; [exact F|]]; [discriminate|].
  eapply rds_bind; [now apply rds_u16|]. do 2 (eapply rds_bind; [eapply rds_pointer; [apply lands_cov|eassumption]|]).
  do 2 (eapply rds_bind; [apply rds_u16; unfold countable, is_u16 in *; lia|]). rewrite !Nat2Z.id. eapply rds_bind; [apply rds_constructions; exact P3|].
  apply (rds_map _ _ (fun h => mk_mvariants o vc hc v h)). now apply rds_constructions.
Qed.

(** ** The maps *)
Lemma assigns_unique {A} (l m : list (Z * A)) : assigns l m -> bm_of_list Z.ltb l = m.
Proof. intros [H1 H2]. now apply of_list_unique. Qed.
Lemma assigns_of_list {A} (l : list (Z * A)) : assigns l (bm_of_list Z.ltb l).
Proof. split; [apply of_list_keys|]. intros k v. apply in_of_list_Z. Qed.
Lemma collected_table {A} (t : option (option (list Z) * list A)) : collected t = bm_of_list Z.ltb (table_of t).
Proof. destruct t as [[c l]|]; reflexivity. Qed.
Lemma extended_unique g s : increasing s -> (forall x, In x s <-> In x g) -> bs_of_list g = s.
Proof.
  intros H1 H2. apply set_of_list. split; [exact H1|]. intros x. apply H2.
Qed.
Lemma math_reads t : math_file Outer buf t -> from_bytes math_read buf = Ok t.
Proof.
  intros [major minor b1 b2 b3 c g v [tc ti ta te tk to tv th] U1 U2 P1 P2 P3 F Ec Ei Ea E1 E2 Ek Eo Ev Eh]. cbn [mt_constants mt_italics mt_accents mt_extended mt_kerning mt_overlap mt_vertical mt_horizontal] in *.
  subst tc to. apply assigns_unique in Ei, Ea, Ek, Ev, Eh. apply (extended_unique _ _ E1) in E2. subst.
  assert (R: rds 0 math_read (word major ++ word minor ++ b1 ++ b2 ++ b3) (mk_math c
      (match g with Some g => collected (gi_italics g) | None => [] end) (match g with Some g => collected (gi_accents g) | None => [] end)
      (match g with Some g => bs_of_list (cov_or_nah (gi_extended g)) | None => [] end) (match g with Some g => collected (gi_kerns g) | None => [] end)
      (option_map mv_overlap v)
      (match v with Some v => bm_of_list Z.ltb (linked_only (zipped (mv_vcov v) (mv_vert v))) | None => [] end)
      (match v with Some v => bm_of_list Z.ltb (linked_only (zipped (mv_hcov v) (mv_horiz v))) | None => [] end))).
  { unfold math_read. do 2 (eapply rds_bind; [apply rds_u16; assumption|]). eapply rds_bind; [eapply rds_pointer; [apply (lands_constants 0)|exact P1]|].
    eapply rds_bind; [eapply rds_pointer; [apply lands_glyph_info|exact P2]|]. rewrite <- (app_nil_r b3). eapply rds_bind; [eapply rds_pointer; [apply lands_variants|exact P3]|]. apply rds_pret. }
  unfold from_bytes, rd_new. rewrite (R 0%nat [] F). f_equal. destruct g as [g|], v as [v|]; rewrite ?collected_table; reflexivity.
Qed.
End At.

(** Without constants nothing is read. *)
Lemma math_constants_needed buf t : from_bytes math_read buf = Ok t -> nth 4 buf 0 <> 0 \/ nth 5 buf 0 <> 0.
Proof.
  unfold from_bytes, math_read. intros H. destruct (Z.eq_dec (nth 4 buf 0) 0) as [E4|]; [|now left]. destruct (Z.eq_dec (nth 5 buf 0) 0) as [E5|]; [|now right]. exfalso.
  destruct buf as [|x0 [|x1 [|x2 [|x3 [|x4 [|x5 buf]]]]]]; try (cbn in H; discriminate). cbn [nth] in E4, E5. subst x4 x5.
  set (b := x0 :: x1 :: x2 :: x3 :: 0 :: 0 :: buf) in *.
  assert (X1: forall x : Z -> parser math, pbind de_u16 x (rd_new b) = x (be_value [x0; x1]) (mkrd b 2 [0%nat])) by reflexivity.
  assert (X2: forall x : Z -> parser math, pbind de_u16 x (mkrd b 2 [0%nat]) = x (be_value [x2; x3]) (mkrd b 4 [0%nat])) by reflexivity.
  assert (X3: forall x : option mconstants -> parser math, pbind (de_off16 constants_de) x (mkrd b 4 [0%nat]) = x None (mkrd b 6 [0%nat])) by reflexivity.
  destruct (pbind de_u16 _ (rd_new b)) as [[t' r]| |] eqn:E; try discriminate. rewrite X1, X2, X3 in E. unfold pbind in E.
  destruct (de_off16 glyph_info_de _) as [[g r1]| |]; try discriminate. destruct (de_off16 variants_de r1) as [[v r2]| |]; discriminate.
Qed.

(** ** Tables without the offsets in question *)
Section Mono.
Variable buf : list Z.
Variable o : origin.
Lemma pointer_mono {A} (base base' : option Z) (R R' : Z -> A -> Prop) bs x : (forall b, base = Some b -> base' = Some b) -> (forall pos a, R pos a -> R' pos a) ->
  pointer base R bs x -> pointer base' R' bs x.
Proof. intros Hb Hr. unfold pointer. destruct x; [|auto]. intros (b & off & E & Ho & E' & H). exists b, off. auto. Qed.
Lemma F2_mono {A B} (P P' : A -> B -> Prop) l l' : (forall a b, P a b -> P' a b) -> Forall2 P l l' -> Forall2 P' l l'.
Proof. intros H F. induction F; constructor; auto. Qed.
Lemma counted_mono {A} (P P' : A -> list Z -> Prop) l bs : (forall a b, P a b -> P' a b) -> counted_of P l bs -> counted_of P' l bs.
Proof. intros H (C & bss & F & E). split; [exact C|]. exists bss. split; [eapply F2_mono; eauto|exact E]. Qed.
Lemma unused_value out here v bs : value_rec buf (base_of Unused out here) v bs -> value_rec buf (base_of o out here) v bs.
Proof. intros (H & p & Hp & E). split; [exact H|]. exists p. split; [|exact E]. eapply pointer_mono; [| |exact Hp]; [discriminate|auto]. Qed.
Lemma unused_values out here l bs : value_recs buf (base_of Unused out here) l bs -> value_recs buf (base_of o out here) l bs.
Proof. intros (bss & F & E). exists bss. split; [|exact E]. eapply F2_mono; [|exact F]. intros. now apply unused_value. Qed.
Lemma unused_constants out pos c : constants_at Unused buf out pos c -> constants_at o buf out pos c.
Proof. intros (H1 & H2 & H3 & H4 & H5 & H6 & bs & Hb & F). repeat (split; [assumption|]). exists bs. split; [now apply unused_values|exact F]. Qed.
Lemma unused_per_glyph out pos t : per_glyph_at Unused buf out pos t -> per_glyph_at o buf out pos t.
Proof.
  intros (p & bs & Hp & Hb & F). exists p, bs. split; [eapply pointer_mono; [| |exact Hp]; [discriminate|auto]|]. split; [|exact F]. eapply counted_mono; [|exact Hb]. intros. now apply unused_value.
Qed.
Lemma unused_kern out pos k : kern_at Unused buf out pos k -> kern_at o buf out pos k.
Proof. intros (H1 & H2 & H3 & hs & ks & Hh & Hk & F). repeat (split; [assumption|]). exists hs, ks. split; [now apply unused_values|]. split; [now apply unused_values|exact F]. Qed.
Ltac same H := eapply pointer_mono; [| |exact H]; auto.
Lemma unused_corners base c bs : corners Unused buf base c bs -> corners o buf base c bs.
Proof.
  intros (b1 & b2 & b3 & b4 & H1 & H2 & H3 & H4 & E). pose proof (unused_kern base) as K. exists b1, b2, b3, b4. split; [same H1|]. split; [same H2|]. split; [same H3|]. split; [same H4|exact E].
Qed.
Lemma unused_kern_info pos t : kern_info_at Unused buf pos t -> kern_info_at o buf pos t.
Proof. intros (p & bs & Hp & Hb & F). exists p, bs. split; [same Hp|]. split; [|exact F]. eapply counted_mono; [|exact Hb]. apply unused_corners. Qed.
Lemma unused_glyph_info pos g : glyph_info_at Unused buf pos g -> glyph_info_at o buf pos g.
Proof.
  intros (b1 & b2 & b3 & b4 & H1 & H2 & H3 & H4 & F). pose proof (unused_per_glyph pos) as G. pose proof unused_kern_info as K. exists b1, b2, b3, b4.
  split; [same H1|]. split; [same H2|]. split; [same H3|]. split; [same H4|exact F].
Qed.
Lemma unused_assembly out pos a : assembly_at Unused buf out pos a -> assembly_at o buf out pos a.
Proof. intros (b1 & b2 & H1 & H2 & F). exists b1, b2. split; [now apply unused_value|]. split; [exact H2|exact F]. Qed.
Lemma unused_construction pos c : construction_at Unused buf pos c -> construction_at o buf pos c.
Proof. intros (b1 & b2 & H1 & H2 & F). pose proof (unused_assembly pos) as K. exists b1, b2. split; [same H1|]. split; [exact H2|exact F]. Qed.
Lemma unused_constructions base l bs : constructions Unused buf base l bs -> constructions o buf base l bs.
Proof. intros (bss & F & E). pose proof unused_construction as K. exists bss. split; [|exact E]. eapply F2_mono; [|exact F]. cbn beta. intros a b H. same H. Qed.
Lemma unused_variants pos v : variants_at Unused buf pos v -> variants_at o buf pos v.
Proof.
  intros (H1 & H2 & H3 & b1 & b2 & b3 & b4 & P1 & P2 & P3 & P4 & F). repeat (split; [assumption|]). exists b1, b2, b3, b4.
  split; [exact P1|]. split; [exact P2|]. split; [now apply unused_constructions|]. split; [now apply unused_constructions|exact F].
Qed.
Lemma unused_math t : math_file Unused buf t -> math_file o buf t.
Proof.
  intros [major minor b1 b2 b3 c g v t' U1 U2 P1 P2 P3 F Ec Ei Ea E1 E2 Ek Eo Ev Eh]. pose proof (unused_constants 0) as X. pose proof unused_glyph_info as Y. pose proof unused_variants as Z.
  eapply (math_file1 o buf major minor b1 b2 b3 c g v); auto; [same P1|same P2|same P3].
Qed.
End Mono.

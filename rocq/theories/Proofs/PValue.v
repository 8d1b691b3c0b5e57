(** Value records. *)
From Verif.Model Require Import MBase MGlyph MOffset MLayout MValue.
From Verif.Spec Require Import SBase SOffset SLayout SValue.
From Verif.Proofs Require Import PBase PCodec POffset PPart PTables PCover PDevice.

Lemma amount_drop o : amount (drop_zero o) = amount o.
Proof. destruct o as [z|]; [|reflexivity]. cbn. destruct (Z.eqb_spec z 0); subst; reflexivity. Qed.
Lemma amount_fill b o : amount (fill b o) = amount o.
Proof. destruct o as [z|]; [reflexivity|]. now destruct b. Qed.
Lemma simplify_adjustment v : adjustment (vr_simplify v) = adjustment v.
Proof. unfold adjustment, vr_simplify. cbn [vr_xpla vr_ypla vr_xadv vr_yadv vr_xplad vr_yplad vr_xadvd vr_yadvd]. now rewrite !amount_drop. Qed.
Lemma coerce_adjustment f v : adjustment (vr_coerce f v) = adjustment v.
Proof. unfold adjustment, vr_coerce. cbn [vr_xpla vr_ypla vr_xadv vr_yadv vr_xplad vr_yplad vr_xadvd vr_yadvd]. now rewrite !amount_fill. Qed.
Lemma drop_zero_not o : drop_zero o <> Some 0.
Proof. destruct o as [z|]; cbn; [|discriminate]. destruct (Z.eqb_spec z 0); congruence. Qed.
Lemma drop_zero_idem o : drop_zero (drop_zero o) = drop_zero o.
Proof. destruct o as [z|]; cbn; [|reflexivity]. destruct (Z.eqb_spec z 0) as [->|E]; [reflexivity|]. cbn. now destruct (Z.eqb_spec z 0). Qed.
Lemma simplify_no_zero v : ~ In (Some 0) (numbers (vr_simplify v)).
Proof. intros H. cbn in H. repeat (destruct H as [H|H]; [revert H; apply drop_zero_not|]). exact H. Qed.
Lemma simplify_idem v : vr_simplify (vr_simplify v) = vr_simplify v.
Proof. unfold vr_simplify. cbn. now rewrite !drop_zero_idem. Qed.
Lemma drop_zero_id o : o <> Some 0 -> drop_zero o = o.
Proof. destruct o as [z|]; [|reflexivity]. cbn. destruct (Z.eqb_spec z 0); congruence. Qed.

(** ** Flags *)
Definition flags8 (b0 b1 b2 b3 b4 b5 b6 b7 : bool) : Z := bit_number [b0; b1; b2; b3; b4; b5; b6; b7].
Lemma fields_flags8 v : bit_number (fields v) = flags8 (present (vr_xpla v)) (present (vr_ypla v)) (present (vr_xadv v)) (present (vr_yadv v))
   (present (vr_xplad v)) (present (vr_yplad v)) (present (vr_xadvd v)) (present (vr_yadvd v)).
Proof. reflexivity. Qed.
Lemma vr_flags_bits v : vr_flags v = flags8 (present (vr_xpla v)) (present (vr_ypla v)) (present (vr_xadv v)) (present (vr_yadv v))
   (present (vr_xplad v)) (present (vr_xplad v)) (present (vr_xadvd v)) (present (vr_yadvd v)).
Proof. destruct v as [a b c d e f g h]. destruct a, b, c, d, e, g, h; reflexivity. Qed.
Lemma contains_flags8 b0 b1 b2 b3 b4 b5 b6 b7 : let f := flags8 b0 b1 b2 b3 b4 b5 b6 b7 in
  contains f V_XPLA = b0 /\ contains f V_YPLA = b1 /\ contains f V_XADV = b2 /\ contains f V_YADV = b3 /\
  contains f V_XPLAD = b4 /\ contains f V_YPLAD = b5 /\ contains f V_XADVD = b6 /\ contains f V_YADVD = b7.
Proof. destruct b0, b1, b2, b3, b4, b5, b6, b7; repeat split; reflexivity. Qed.
Lemma flags8_inj b0 b1 b2 b3 b4 b5 b6 b7 c0 c1 c2 c3 c4 c5 c6 c7 :
  flags8 b0 b1 b2 b3 b4 b5 b6 b7 = flags8 c0 c1 c2 c3 c4 c5 c6 c7 ->
  b0 = c0 /\ b1 = c1 /\ b2 = c2 /\ b3 = c3 /\ b4 = c4 /\ b5 = c5 /\ b6 = c6 /\ b7 = c7.
Proof.
  intros E. pose proof (contains_flags8 b0 b1 b2 b3 b4 b5 b6 b7) as B. pose proof (contains_flags8 c0 c1 c2 c3 c4 c5 c6 c7) as C.
  cbv zeta in B, C. rewrite E in B. intuition congruence.
Qed.
Lemma lor_flags8 b0 b1 b2 b3 b4 b5 b6 b7 c0 c1 c2 c3 c4 c5 c6 c7 :
  Z.lor (flags8 b0 b1 b2 b3 b4 b5 b6 b7) (flags8 c0 c1 c2 c3 c4 c5 c6 c7) =
  flags8 (b0 || c0) (b1 || c1) (b2 || c2) (b3 || c3) (b4 || c4) (b5 || c5) (b6 || c6) (b7 || c7).
Proof.
  assert (S: forall b x c y, Z.lor ((if b : bool then 1 else 0) + 2 * x) ((if c : bool then 1 else 0) + 2 * y) = (if b || c then 1 else 0) + 2 * Z.lor x y).
  { intros b x c y. apply Z.bits_inj'. intros n Hn. rewrite Z.lor_spec. destruct (Z.eq_dec n 0) as [->|N].
    - rewrite !Z.bit0_odd, !Z.odd_add, !Z.odd_mul. now destruct b, c.
    - replace n with (Z.succ (n - 1)) by lia. assert (T: forall (b : bool) x, Z.testbit ((if b then 1 else 0) + 2 * x) (Z.succ (n - 1)) = Z.testbit x (n - 1)).
      { intros b' x'. destruct b'; [rewrite (Z.add_comm 1); apply Z.testbit_odd_succ; lia|apply Z.testbit_even_succ; lia]. }
      rewrite !T. now rewrite Z.lor_spec. }
  unfold flags8. cbn [bit_number]. now rewrite !S.
Qed.
Lemma flags_exact v : vr_flags v = bit_number (fields v) <-> placement_paired v.
Proof.
  rewrite fields_flags8, vr_flags_bits. unfold placement_paired. split; [intros E; apply flags8_inj in E; tauto|]. now intros ->.
Qed.

(** ** Coercion *)
Lemma present_fill b o : present (fill b o) = present o || b.
Proof. destruct o; [reflexivity|]. now destruct b. Qed.
Definition any_field (g : vrec -> bool) (vs : list vrec) : bool := existsb g vs.
Lemma highest_cons v vs : highest_format (v :: vs) = Z.lor (vr_flags v) (highest_format vs).
Proof.
  unfold highest_format. cbn [map]. destruct (map vr_flags vs) as [|f fs]; [now rewrite Z.lor_0_r|]. cbn [fold_left].
  assert (A: forall l x y, fold_left Z.lor l (Z.lor x y) = Z.lor x (fold_left Z.lor l y)).
  { induction l as [|z l IH]; intros x y; [reflexivity|]. cbn [fold_left]. now rewrite <- Z.lor_assoc, IH. }
  apply A.
Qed.
Lemma highest_bits vs : highest_format vs = flags8 (existsb (fun v => present (vr_xpla v)) vs) (existsb (fun v => present (vr_ypla v)) vs)
  (existsb (fun v => present (vr_xadv v)) vs) (existsb (fun v => present (vr_yadv v)) vs) (existsb (fun v => present (vr_xplad v)) vs)
  (existsb (fun v => present (vr_xplad v)) vs) (existsb (fun v => present (vr_xadvd v)) vs) (existsb (fun v => present (vr_yadvd v)) vs).
Proof. induction vs as [|v vs IH]; [reflexivity|]. rewrite highest_cons, vr_flags_bits, IH, lor_flags8. reflexivity. Qed.
Lemma existsb_absorb {A} (g : A -> bool) vs v : In v vs -> g v || existsb g vs = existsb g vs.
Proof.
  intros H. destruct (g v) eqn:E; [|reflexivity]. cbn. symmetry. apply existsb_exists. now exists v.
Qed.
Lemma coerced_numbers vs v : In v vs -> number_fields (vr_coerce (highest_format vs) v) =
  [existsb (fun v => present (vr_xpla v)) vs; existsb (fun v => present (vr_ypla v)) vs;
   existsb (fun v => present (vr_xadv v)) vs; existsb (fun v => present (vr_yadv v)) vs].
Proof.
  intros H. unfold number_fields, fields, vr_coerce. cbn [firstn vr_xpla vr_ypla vr_xadv vr_yadv]. rewrite highest_bits.
  match goal with |- context [flags8 ?a ?b ?c ?d ?e ?f ?g ?h] => destruct (contains_flags8 a b c d e f g h) as (-> & -> & -> & -> & _) end.
  rewrite !present_fill.
  rewrite (existsb_absorb (fun v => present (vr_xpla v)) vs v H), (existsb_absorb (fun v => present (vr_ypla v)) vs v H), (existsb_absorb (fun v => present (vr_xadv v)) vs v H), (existsb_absorb (fun v => present (vr_yadv v)) vs v H). reflexivity.
Qed.
Lemma all_same_spec {A} (eqb : A -> A -> bool) (Heq : forall a b, eqb a b = true <-> a = b) l :
  all_same eqb l = true <-> (forall a b, In a l -> In b l -> a = b).
Proof.
  destruct l as [|x l]; cbn [all_same]; [split; [intros _ a b []|reflexivity]|]. rewrite forallb_forall. split.
  - intros H a b Ha Hb. assert (E: forall a, In a (x :: l) -> a = x) by (intros a' [->|Hi]; [reflexivity|symmetry; apply Heq; now apply H]). now rewrite (E a Ha), (E b Hb).
  - intros H b Hb. apply Heq. apply H; [now left|now right].
Qed.
Lemma coerce_same_adjustments vs : map adjustment (coerce_same vs) = map adjustment vs.
Proof.
  unfold coerce_same. destruct (all_same _ _); [reflexivity|]. rewrite map_map. apply map_ext. intros v. apply coerce_adjustment.
Qed.
Lemma coerce_same_numbers vs v w : In v (coerce_same vs) -> In w (coerce_same vs) -> number_fields v = number_fields w.
Proof.
  unfold coerce_same. destruct (all_same Z.eqb (map vr_flags vs)) eqn:E.
  - intros Hv Hw. assert (F: vr_flags v = vr_flags w) by (apply (proj1 (all_same_spec Z.eqb Z.eqb_eq _) E); now apply in_map).
    rewrite !vr_flags_bits in F. apply flags8_inj in F as (E0 & E1 & E2 & E3 & _). unfold number_fields, fields. cbn [firstn]. congruence.
  - rewrite !in_map_iff. intros (v' & <- & Hv) (w' & <- & Hw). now rewrite !coerced_numbers.
Qed.
Lemma coerce_same_devices vs : map device_fields (coerce_same vs) = map device_fields vs.
Proof. unfold coerce_same. destruct (all_same _ _); [reflexivity|]. rewrite map_map. now apply map_ext. Qed.

(** ** Reading *)
Lemma vr_int_part (o : option Z) : number_ok o -> part (de_if (present o) de_i16) (vr_int o) o.
Proof.
  destruct o as [z|]; cbn [present de_if vr_int number_ok]; intros H; [|apply part_pret].
  apply (part_map de_i16 (fun z => Some z)). apply part_reads. apply reads_i16. unfold is_i16 in H. cbn. lia.
Qed.
Lemma part_optoff {A} (p : parser A) o x : decodes p o x -> part (de_off16 p) [IRef OptOff16 (Some o)] (Some x).
Proof. now apply de_offset_link. Qed.
Lemma part_optoff_null {A} (p : parser A) : part (de_off16 p) [IRef OptOff16 None] None.
Proof.
  intros buf base pos stk S. inversion S; subst. cbn [off_width] in *.
  exact (at_pos_reads (de_off16 p) _ _ _ _ (base :: stk) (de_offset_null p 2 (or_introl eq_refl)) ltac:(eassumption)).
Qed.
Lemma device_reads d bs : device_readable d -> dv_ser d = Ok bs -> reads dv_de bs d.
Proof.
  intros (f & Ef & Hf & Hs & Hv) Hw. assert (E: dv_fmt d = f) by (unfold dv_fmt; now rewrite Ef). destruct (dv_written_format d bs ltac:(lia) Hw) as (pad & Hb).
  pose proof (dv_every_read (dv_start d) (dv_end d) f (dv_values d) (repeat false pad) bs Hf Hs Hv) as R. rewrite E in Hb. specialize (R Hb).
  destruct d as [s e fm vs]. cbn in *. now subst fm.
Qed.
Lemma vr_dev_part o l : devices_ok o -> vr_dev o = Ok l -> part (de_if (present o) (de_off16 dv_de)) l o.
Proof.
  destruct o as [[d|]|]; cbn [present de_if vr_dev devices_ok]; intros H E.
  - destruct (dv_ser d) as [bs| |] eqn:Es; try discriminate. cbn [rbind] in E. apply Ok_inj in E. subst l.
    apply (part_map (de_off16 dv_de) (fun z => Some z)). apply part_optoff. apply decodes_reads. now apply device_reads.
  - apply Ok_inj in E. subst l. apply (part_map (de_off16 dv_de) (fun z => Some z)). apply part_optoff_null.
  - apply Ok_inj in E. subst l. apply part_pret.
Qed.
Lemma vr_enc_inv v l : vr_enc v = Ok l -> exists e f g h, vr_dev (vr_xplad v) = Ok e /\ vr_dev (vr_yplad v) = Ok f /\
  vr_dev (vr_xadvd v) = Ok g /\ vr_dev (vr_yadvd v) = Ok h /\
  l = vr_int (vr_xpla v) ++ vr_int (vr_ypla v) ++ vr_int (vr_xadv v) ++ vr_int (vr_yadv v) ++ e ++ f ++ g ++ h.
Proof.
  unfold vr_enc. destruct (vr_dev (vr_xplad v)) as [e| |]; try discriminate. cbn [rbind]. destruct (vr_dev (vr_yplad v)) as [f| |]; try discriminate. cbn [rbind].
  destruct (vr_dev (vr_xadvd v)) as [g| |]; try discriminate. cbn [rbind]. destruct (vr_dev (vr_yadvd v)) as [h| |]; try discriminate. cbn [rbind].
  intros E. apply Ok_inj in E. exists e, f, g, h. now rewrite <- E.
Qed.
Lemma vr_part v l : vrec_ok v -> vr_enc v = Ok l -> part (vr_de (bit_number (fields v))) l v.
Proof.
  intros (A & B & C & D & E & F & G & H) He. apply vr_enc_inv in He as (e & f & g & h & He & Hf & Hg & Hh & ->).
  rewrite fields_flags8. unfold vr_de.
  match goal with |- context [flags8 ?a ?b ?c ?d ?e ?f ?g ?h] => destruct (contains_flags8 a b c d e f g h) as (-> & -> & -> & -> & -> & -> & -> & ->) end.
  eapply part_bind; [now apply vr_int_part|]. eapply part_bind; [now apply vr_int_part|].
  eapply part_bind; [now apply vr_int_part|]. eapply part_bind; [now apply vr_int_part|].
  eapply part_bind; [now apply vr_dev_part|]. eapply part_bind; [now apply vr_dev_part|].
  eapply part_bind; [now apply vr_dev_part|]. eapply part_bind'; [symmetry; apply app_nil_r|now apply vr_dev_part|].
  destruct v. apply part_pret.
Qed.
Lemma de_if_present {A} b (p : parser A) r x r' : de_if b p r = Ok (x, r') -> present x = b.
Proof.
  unfold de_if. destruct b; unfold pbind, pret; [|intros [= <- <-]; reflexivity]. destruct (p r) as [[y r1]| |]; try discriminate. now intros [= <- <-].
Qed.
Lemma vr_de_fields b0 b1 b2 b3 b4 b5 b6 b7 r v r' : vr_de (flags8 b0 b1 b2 b3 b4 b5 b6 b7) r = Ok (v, r') -> fields v = [b0; b1; b2; b3; b4; b5; b6; b7].
Proof.
  unfold vr_de. destruct (contains_flags8 b0 b1 b2 b3 b4 b5 b6 b7) as (-> & -> & -> & -> & -> & -> & -> & ->).
  unfold pbind at 1. destruct (de_if b0 de_i16 r) as [[x0 r0]| |] eqn:E0; try discriminate.
  unfold pbind at 1. destruct (de_if b1 de_i16 r0) as [[x1 r1]| |] eqn:E1; try discriminate.
  unfold pbind at 1. destruct (de_if b2 de_i16 r1) as [[x2 r2]| |] eqn:E2; try discriminate.
  unfold pbind at 1. destruct (de_if b3 de_i16 r2) as [[x3 r3]| |] eqn:E3; try discriminate.
  unfold pbind at 1. destruct (de_if b4 (de_off16 dv_de) r3) as [[x4 r4]| |] eqn:E4; try discriminate.
  unfold pbind at 1. destruct (de_if b5 (de_off16 dv_de) r4) as [[x5 r5]| |] eqn:E5; try discriminate.
  unfold pbind at 1. destruct (de_if b6 (de_off16 dv_de) r5) as [[x6 r6]| |] eqn:E6; try discriminate.
  unfold pbind at 1. destruct (de_if b7 (de_off16 dv_de) r6) as [[x7 r7]| |] eqn:E7; try discriminate.
  unfold pret. intros [= <- <-]. unfold fields. cbn [vr_xpla vr_ypla vr_xadv vr_yadv vr_xplad vr_yplad vr_xadvd vr_yadvd].
  apply de_if_present in E0, E1, E2, E3, E4, E5, E6, E7. congruence.
Qed.
Lemma vr_own_flags v l buf base pos stk : vrec_ok v -> vr_enc v = Ok l -> stored 65536 buf base pos l ->
  (vr_de (vr_flags v) (mkrd buf pos (base :: stk)) = Ok (v, mkrd buf (pos + size l) (base :: stk)) <-> placement_paired v).
Proof.
  intros Hv He S. split.
  - rewrite vr_flags_bits. intros H. apply vr_de_fields in H. unfold fields in H. unfold placement_paired. congruence.
  - intros P. apply flags_exact in P. rewrite P. exact (vr_part v l Hv He buf base pos stk S).
Qed.

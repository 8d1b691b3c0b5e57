(** Inference and its optimizer, in the terms of the specification *)
From Coq Require Import List ZArith QArith Lia Bool Arith.
From Coq Require Import ZifyBool ZifyNat ZifyN.
Import ListNotations.
From Verif.Model Require Import MBase MFixed MFloat MFloat32 MPacked MGlyph MGlyf MIup.
From Verif.Spec Require Import SBase SFloat SGlyf SIup.
From Verif.Proofs Require Import PBase PFloat PFloat32 PIup PIupContour PIupOpt PIupDp PIupWhole.
From Verif.Proofs Require PCompile.
Open Scope Z_scope.
Ltac Zify.zify_post_hook ::= idtac.

Section Contour.
Variables (dl : list (option (Z * Z))) (cs : list (Z * Z)).
Hypothesis Hlen : length cs = length dl.
Hypothesis Hd : forall d, In (Some d) dl -> i16_pair d.
Variable i0 : nat.
Hypothesis T0 : touched dl i0.

Lemma ref_dat p c d : reference dl cs p c d -> tb dl p = true /\ c = cat cs p /\ d = dat dl p.
Proof using Type. clear.
  intros [C D]. apply touched_dat in D. destruct D as [T E]. split; [assumption|]. split; [|now symmetry].
  unfold cat. now rewrite (nth_error_nth _ _ (0, 0) C).
Qed.
Lemma dat_ref p : tb dl p = true -> reference dl cs p (cat cs p) (dat dl p).
Proof using Hlen. clear Hd T0.
  intros T. pose proof (tb_lt dl p T). split; [|now apply touched_dat]. unfold cat. apply nth_error_nth'. lia.
Qed.
Lemma none_untouched t : nth_error dl t = Some None -> (t < length dl)%nat /\ ~ touched dl t /\ tb dl t = false.
Proof using Type. clear.
  intros H. assert (t < length dl)%nat by (apply nth_error_Some; congruence). split; [assumption|].
  split; [intros (d & E); congruence|]. unfold tb. now rewrite (nth_error_nth _ _ None H).
Qed.
Lemma untouched_none t : (t < length dl)%nat -> tb dl t = false -> nth_error dl t = Some None.
Proof using Type. clear.
  intros L T. rewrite (nth_error_nth' dl None L). unfold tb in T. now destruct (nth t dl None).
Qed.
Lemma fits_safe : contour_fits dl cs <-> forallb (safeb dl cs) (seq 0 (length dl)) = true.
Proof using Hlen T0. clear Hd.
  rewrite forallb_forall. split.
  - intros F t Ht. apply in_seq in Ht. unfold safeb. destruct (tb dl t) eqn:T; [reflexivity|]. cbn [orb].
    assert (UT: ~ touched dl t) by (rewrite touched_tb; congruence).
    pose proof (neighbours_exist dl t i0 ltac:(lia) UT T0) as N. pose proof N as N0. destruct N0 as (a & b & _ & _ & _ & _ & TP & TQ & _).
    apply touched_tb in TP, TQ.
    destruct (F t _ _ _ _ _ _ (untouched_none t ltac:(lia) T) N (dat_ref _ TP) (dat_ref _ TQ)) as [F1 F2].
    unfold fits2b. apply (proj2 (fitsb_iff _ _ _ _)) in F1. apply (proj2 (fitsb_iff _ _ _ _)) in F2. now rewrite F1, F2.
  - intros F t p q c1 d1 c2 d2 U N R1 R2. destruct (none_untouched t U) as (L & UT & T).
    specialize (F t ltac:(apply in_seq; lia)). unfold safeb in F. rewrite T in F. cbn [orb] in F.
    destruct (neighbours_prv dl t p q L N) as [E1 E2]. rewrite E1, E2 in F.
    apply ref_dat in R1, R2. destruct R1 as (_ & -> & ->). destruct R2 as (_ & -> & ->).
    unfold fits2b in F. apply andb_prop in F. destruct F as [F1 F2]. split; now apply fitsb_iff.
Qed.
Lemma V_inferred : contour_fits dl cs -> contour_inferred dl cs (map (V dl cs) (seq 0 (length dl))).
Proof using Hlen T0. clear Hd.
  intros F. split; [now rewrite map_length, seq_length|].
  assert (NV: forall t, (t < length dl)%nat -> nth_error (map (V dl cs) (seq 0 (length dl))) t = Some (V dl cs t)).
  { intros t Ht. rewrite nth_error_map. rewrite (nth_error_nth' (seq 0 (length dl)) 0%nat) by (now rewrite seq_length).
    rewrite seq_nth by assumption. reflexivity. }
  split.
  - intros t d Hd. apply touched_dat in Hd. destruct Hd as [T E]. rewrite NV by (now apply tb_lt). unfold V. rewrite T. now rewrite E.
  - intros t x U X. destruct (none_untouched t U) as (L & UT & T).
    pose proof (neighbours_exist dl t i0 L UT T0) as N. pose proof N as N0. destruct N0 as (a & b & _ & _ & _ & _ & TP & TQ & _).
    apply touched_tb in TP, TQ. pose proof (dat_ref _ TP) as R1. pose proof (dat_ref _ TQ) as R2.
    exists (prv dl t), (nxt dl t), (cat cs (prv dl t)), (dat dl (prv dl t)), (cat cs (nxt dl t)), (dat dl (nxt dl t)), (V dl cs t).
    split; [assumption|]. split; [assumption|]. split; [assumption|]. split; [now apply NV|].
    destruct (F t _ _ _ _ _ _ U N R1 R2) as [F1 F2].
    unfold V. rewrite T. assert (EX: x = cat cs t) by (unfold cat; now rewrite (nth_error_nth _ _ (0, 0) X)). subst x.
    split; cbn [infer2 fst snd]; apply infer1_spec; assumption.
Qed.
Lemma contour_ok : contour_fits dl cs -> exists r, iup_contour (given dl) cs = Ok r /\ contour_inferred dl cs r.
Proof.
  intros F. exists (map (V dl cs) (seq 0 (length dl))). split; [|now apply V_inferred].
  rewrite iup_contour_eq by (auto; now apply (idx_touched dl i0)). apply fits_safe in F. now rewrite F.
Qed.
Lemma contour_panic : ~ contour_fits dl cs -> iup_contour (given dl) cs = Panic.
Proof.
  intros F. rewrite iup_contour_eq by (auto; now apply (idx_touched dl i0)). rewrite fits_safe in F.
  destruct (forallb _ _); [now destruct F|reflexivity].
Qed.
End Contour.

Theorem iup_spec dl cs i0 : length cs = length dl -> (forall d, In (Some d) dl -> i16_pair d) -> touched dl i0 ->
  (contour_fits dl cs -> exists r, iup_contour (given dl) cs = Ok r /\ contour_inferred dl cs r) /\
  (~ contour_fits dl cs -> iup_contour (given dl) cs = Panic).
Proof. intros L D T. split; [eapply contour_ok|eapply contour_panic]; eauto. Qed.
Theorem iup_none dl cs : length cs = length dl -> (forall t, ~ touched dl t) ->
  iup_contour (given dl) cs = Ok (repeat (0, 0) (length dl)).
Proof.
  intros L U. apply iup_contour_none; try assumption. now apply idx_untouched.
Qed.
Lemma list_ext {A} (a : list A) : forall b, (forall t, nth_error a t = nth_error b t) -> a = b.
Proof.
  induction a as [|x a IH]; intros [|y b] H; [reflexivity|specialize (H 0%nat); discriminate|specialize (H 0%nat); discriminate|].
  f_equal; [specialize (H 0%nat); cbn in H; congruence|]. apply IH. intros t. exact (H (S t)).
Qed.
(** A single given delta moves the whole contour. *)
Theorem iup_single dl cs i0 d0 : length cs = length dl -> i16_pair d0 -> nth_error dl i0 = Some (Some d0) ->
  (forall t, touched dl t -> t = i0) -> iup_contour (given dl) cs = Ok (repeat d0 (length dl)).
Proof.
  intros L D0 H0 U.
  assert (T0: touched dl i0) by (eexists; eassumption).
  assert (D: forall d, In (Some d) dl -> i16_pair d).
  { intros d Hd. apply In_nth_error in Hd. destruct Hd as (t & Ht). assert (t = i0) by (apply U; eexists; eassumption). subst t. congruence. }
  assert (N: forall t p q, neighbours dl t p q -> p = i0 /\ q = i0).
  { intros t p q (a & b & _ & _ & _ & _ & TP & TQ & _). split; now apply U. }
  assert (R: forall t p q c1 d1 c2 d2, neighbours dl t p q -> reference dl cs p c1 d1 -> reference dl cs q c2 d2 -> c1 = c2 /\ d1 = d0 /\ d2 = d0).
  { intros t p q c1 d1 c2 d2 Hn [C1 E1] [C2 E2]. destruct (N _ _ _ Hn) as [-> ->]. rewrite H0 in E1, E2. split; [congruence|]. split; congruence. }
  assert (F: contour_fits dl cs).
  { intros t p q c1 d1 c2 d2 _ Hn R1 R2. destruct (R _ _ _ _ _ _ _ Hn R1 R2) as (-> & -> & ->). split; now left. }
  destruct (contour_ok dl cs L D i0 T0 F) as (r & -> & LR & KR & IR). f_equal.
  change pt with (Z * Z)%type in *. apply list_ext. intros t. destruct (Nat.lt_ge_cases t (length dl)) as [Ht|Ht].
  - rewrite (nth_error_nth' (repeat d0 (length dl)) d0) by (now rewrite repeat_length). rewrite nth_repeat.
    destruct (nth_error dl t) as [[d|]|] eqn:E; [| |apply nth_error_None in E; lia].
    + rewrite (KR t d E). assert (t = i0) by (apply U; eexists; eassumption). subst t. congruence.
    + destruct (nth_error cs t) as [x|] eqn:X; [|apply nth_error_None in X; lia].
      destruct (IR t x E X) as (p & q & c1 & d1 & c2 & d2 & d & Hn & R1 & R2 & -> & I1 & I2).
      destruct (R _ _ _ _ _ _ _ Hn R1 R2) as (-> & -> & ->). destruct I1 as [I1 _], I2 as [I2 _].
      specialize (I1 eq_refl). specialize (I2 eq_refl). rewrite Z.eqb_refl in I1, I2. destruct d, d0. cbn in *. congruence.
  - rewrite (proj2 (nth_error_None r t)), (proj2 (nth_error_None (repeat d0 _) t)); [reflexivity|rewrite repeat_length; lia|lia].
Qed.

(** ** The optimizer on a whole glyph succeeds *)
Lemma slice_ok {A} (l : list A) a b : (a <= b <= length l)%nat -> slice l a b = Ok (firstn (b - a) (skipn a l)).
Proof. intros H. unfold slice. replace (_ && _) with true by lia. reflexivity. Qed.
Lemma part_all {A} (P : A -> Prop) k j l : Forall P l -> Forall P (firstn k (skipn j l)).
Proof. intros H. apply Forall_forall. intros x Hx. apply In_part in Hx. rewrite Forall_forall in H. now apply H. Qed.
Lemma opt_contours_runs xy cs : Forall small_pair xy -> Forall small_pair cs -> length xy = length cs -> Z.of_nat (length cs) < 2 ^ 64 ->
  forall sizes start, Forall (fun n => 1 <= n <= 8191) sizes ->
  Z.of_nat start + fold_right Z.add 0 sizes <= Z.of_nat (length cs) ->
  exists o, optimize_contours xy cs start (running (Z.of_nat start) sizes) = Ok o.
Proof.
  intros FX FC LX LC. change pt with (Z * Z)%type in *. induction sizes as [|m sizes IH]; intros start FS HS; [now exists []|].
  inversion FS as [|? ? M FS']; subst. cbn [fold_right] in HS. cbn [running optimize_contours].
  assert (SP: 0 <= fold_right Z.add 0 sizes).
  { clear -FS'. induction FS'; cbn [fold_right]; lia. }
  replace (Z.of_nat start + m - 1 + 1) with (Z.of_nat start + m) by lia.
  assert (E1: chk_u 64 (Z.of_nat start + m) = Ok (Z.of_nat start + m)) by (unfold chk_u; replace (_ && _) with true by lia; reflexivity).
  rewrite E1. cbn [rbind].
  change pt with (Z * Z)%type in *. rewrite !slice_ok by (change pt with (Z * Z)%type; lia). cbn [rbind].
  set (k := (Z.to_nat (Z.of_nat start + m) - start)%nat).
  assert (LD: length (firstn k (skipn start xy)) = k) by (rewrite firstn_length, skipn_length; lia).
  assert (LC': length (firstn k (skipn start cs)) = k) by (rewrite firstn_length, skipn_length; lia).
  destruct (optimize_runs (firstn k (skipn start xy)) (firstn k (skipn start cs)) (eq_trans LC' (eq_sym LD)) (part_all _ _ _ _ FX) (part_all _ _ _ _ FC) ltac:(rewrite LD; lia)) as (a & EA).
  change pt with (Z * Z)%type in *. rewrite EA. cbn [rbind].
  assert (FXi: Forall i16_pair (firstn k (skipn start xy))) by (eapply Forall_impl; [|apply part_all, FX]; apply small_i16).
  destruct (optimize_sound _ _ (eq_trans LC' (eq_sym LD)) FXi a EA) as (dl & -> & LA & _).
  rewrite given_length. change pt with (Z * Z)%type in *. rewrite LA, LD.
  assert (E2: chk_u 64 (Z.of_nat start + m - 1 - Z.of_nat start) = Ok (m - 1)) by (unfold chk_u; replace (_ && _) with true by lia; f_equal; lia).
  rewrite E2. cbn [rbind]. replace (Z.of_nat k =? m - 1 + 1) with true by lia.
  destruct (IH (Z.to_nat (Z.of_nat start + m)) FS' ltac:(lia)) as (r & ER). rewrite Z2Nat.id in ER by lia. rewrite ER. cbn [rbind]. eauto.
Qed.
Theorem optimize_glyph_runs g cs ends xy :
  gvar_coords_and_ends g = Ok (cs, ends) -> Z.of_nat (length cs) < 2 ^ 64 ->
  length xy = length cs -> Forall small_pair xy -> Forall small_pair cs ->
  Forall (fun c => 1 <= Z.of_nat (length c) <= 8191) (g_contours g) ->
  exists o, optimize_deltas (given (map Some xy)) g = Ok o.
Proof.
  intros EG LC LX FX FC FS.
  assert (LL: Z.of_nat (length (concat (g_contours g))) < 2 ^ 64).
  { unfold gvar_coords_and_ends in EG. destruct (contour_ends 0 (g_contours g)); try discriminate. cbn [rbind] in EG.
    destruct (_ =? _); [|discriminate]. injection EG as <- _. rewrite app_length, map_length in LC. lia. }
  destruct (PCompile.gvar_ends g LL) as [G1 _].
  specialize (G1 ltac:(destruct FS; [exact I|]; destruct x; [cbn in *; lia|discriminate])).
  unfold optimize_deltas. rewrite EG. cbn [rbind]. unfold iup_delta.
  replace (forallb _ (given (map Some xy))) with true.
  2:{ symmetry. apply forallb_forall. intros x Hx. unfold given in Hx. rewrite map_map in Hx. apply in_map_iff in Hx. destruct Hx as (y & <- & _). reflexivity. }
  rewrite (proj2 (iup_full xy)). cbn [rbind].
  rewrite EG in G1. apply Ok_inj in G1. injection G1 as EC EE.
  rewrite EE. apply (opt_contours_runs xy cs FX FC LX LC _ 0%nat).
  - apply Forall_app. split; [apply Forall_map, FS|]. apply Forall_forall. intros x Hx. apply repeat_spec in Hx. lia.
  - rewrite EC, !app_length, !map_length. cbn [length]. rewrite fold_right_app.
    assert (R: forall k, fold_right Z.add 0 (repeat 1 k) = Z.of_nat k) by (induction k; cbn [repeat fold_right]; lia). rewrite R.
    assert (S: forall l a, fold_right Z.add a (map (fun c : list point => Z.of_nat (length c)) l) = Z.of_nat (length (concat l)) + a).
    { induction l; intros; cbn [map fold_right concat]; [cbn; lia|]. rewrite IHl, app_length. lia. }
    rewrite S. lia.
Qed.

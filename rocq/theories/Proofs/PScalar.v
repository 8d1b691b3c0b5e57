(** Region scalars *)
From Coq Require Import List ZArith QArith Qabs Qpower Lia Lqa Bool.
From Coq Require Import ZifyBool ZifyNat ZifyN.
Import ListNotations.
From Verif.Model Require Import MBase MFixed MFloat MFloat32 MTag MMap MVarModel.
From Verif.Spec Require Import SFloat SVarModel.
From Verif.Proofs Require Import PBase PFloat PFloat32.
Open Scope Q_scope.

Definition uu : Q := Qpower 2 (-24).
Lemma uu_val : uu == 1 # 16777216. Proof. reflexivity. Qed.
Lemma val_dy0 : val dy0 == 0. Proof. reflexivity. Qed.
Lemma val_dy1 : val dy1 == 1. Proof. reflexivity. Qed.
Lemma val_EPS : val EPSILON == Qpower 2 (-23). Proof. reflexivity. Qed.
Lemma rep0 : representable 24 0. Proof. exists 0%Z, 0%Z. split; [reflexivity|reflexivity]. Qed.
Lemma rep1 : representable 24 1. Proof. exists 1%Z, 0%Z. split; [reflexivity|reflexivity]. Qed.

Lemma rnd_rel x : Qabs (val (rnd24 x) - val x) <= Qabs (val x) * uu.
Proof. rewrite rnd24_rndp. apply (rndp_rel 24). reflexivity. Qed.
Lemma rnd_pos x : 0 <= val x -> val x * (1 - uu) <= val (rnd24 x) /\ val (rnd24 x) <= val x * (1 + uu).
Proof.
  intros H. pose proof (rnd_rel x) as R. rewrite (Qabs_pos (val x)) in R by assumption.
  apply Qabs_Qle_condition in R. lra.
Qed.
Lemma rnd_neg x : val x <= 0 -> val x * (1 + uu) <= val (rnd24 x) /\ val (rnd24 x) <= val x * (1 - uu).
Proof.
  intros H. pose proof (rnd_rel x) as R. rewrite (Qabs_neg (val x)) in R by assumption.
  apply Qabs_Qle_condition in R. lra.
Qed.
Lemma rnd_mono x y : val x <= val y -> val (rnd24 x) <= val (rnd24 y).
Proof. intros H. rewrite !rnd24_rndp. apply rndp_mono; [reflexivity|assumption]. Qed.
Lemma rnd_val_eq x y : val x == val y -> val (rnd24 x) == val (rnd24 y).
Proof. intros H. apply Qle_antisym; apply rnd_mono; rewrite H; apply Qle_refl. Qed.
Lemma mant_ne x : ~ val x == 0 -> mant x <> 0%Z.
Proof. intros H E. apply H. unfold val. rewrite E. reflexivity. Qed.

(** ** near *)
Lemma near_true a b : near a b = true -> Qabs (val a - val b) < Qpower 2 (-23).
Proof.
  unfold near. intros H. apply ltb_iff in H. rewrite val_abs, val_EPS in H. unfold f32_sub in H.
  apply Qnot_le_lt. intros C. apply (Qlt_not_le _ _ H). rewrite <- val_sub in C. clear H.
  assert (R: representable 24 (Qpower 2 (-23))) by (exists 1%Z, (-23)%Z; split; reflexivity).
  rewrite rnd24_rndp.
  destruct (Qlt_le_dec (val (dy_sub a b)) 0) as [N|P].
  - rewrite Qabs_neg in C by lra. rewrite Qabs_neg.
    + assert (val (rndp 24 (dy_sub a b)) <= - Qpower 2 (-23)); [|lra]. apply rndp_le; [reflexivity|apply rep_opp, R|lra].
    + apply rndp_le; [reflexivity|apply rep0|lra].
  - rewrite Qabs_pos in C by assumption. rewrite Qabs_pos.
    + apply rndp_ge; [reflexivity|exact R|lra].
    + apply rndp_ge; [reflexivity|apply rep0|lra].
Qed.
Lemma near_false a b : near a b = false -> far (val a) (val b).
Proof.
  unfold near, far. intros H. apply ltb_false in H. rewrite val_abs, val_EPS in H. unfold f32_sub in H.
  pose proof (rnd_rel (dy_sub a b)) as R. rewrite val_sub in R.
  pose proof (Qabs_triangle (val (rnd24 (dy_sub a b)) - (val a - val b)) (val a - val b)) as T.
  setoid_replace (val (rnd24 (dy_sub a b)) - (val a - val b) + (val a - val b)) with (val (rnd24 (dy_sub a b))) in T by ring.
  assert (E: Qpower 2 (-23) - Qpower 2 (-47) == Qpower 2 (-23) * (1 - uu)) by reflexivity. rewrite E.
  assert (U: Qpower 2 (-23) <= Qabs (val a - val b) * (1 + uu)) by lra.
  pose proof (Qabs_nonneg (val a - val b)). set (q := Qabs (val a - val b)) in *. clearbody q.
  assert (K: Qpower 2 (-23) * (1 - uu) <= q * (1 + uu) * (1 - uu)) by (apply Qmult_le_compat_r; [exact U|discriminate]).
  eapply Qle_trans; [exact K|]. rewrite <- Qmult_assoc. setoid_replace q with (q * 1) at 2 by ring.
  rewrite !(Qmult_comm q). apply Qmult_le_compat_r; [|assumption]. discriminate.
Qed.
Lemma near_self a b : val a == val b -> near a b = true.
Proof.
  intros E. unfold near. apply ltb_iff. rewrite val_abs, val_EPS. unfold f32_sub.
  assert (Z0: val (dy_sub a b) == 0) by (rewrite val_sub, E; ring).
  assert (R: val (rnd24 (dy_sub a b)) == 0) by (rewrite rnd24_rndp, (rndp_exact 24); [exact Z0|reflexivity|apply (rep_ext _ 0); [now symmetry|apply rep0]]).
  rewrite R. reflexivity.
Qed.
Lemma near_far a b : Qpower 2 (-23) <= Qabs (val a - val b) -> near a b = false.
Proof. intros H. destruct (near a b) eqn:E; [|reflexivity]. apply near_true in E. lra. Qed.

(** ** One factor: x/y with 0 < x <= y, up to sign *)
Lemma ratio_core c d x y va vb : 0 < x -> x <= y ->
  x * (1 - uu) <= va -> va <= x * (1 + uu) -> y * (1 - uu) <= vb -> vb <= y * (1 + uu) -> va <= vb ->
  mant d <> 0%Z -> val c / val d == va / vb ->
  let r := f32_div c d in
  0 < val r /\ val r <= 1 /\ x / y * (1 - 6 * uu) <= val r /\ val r <= x / y * (1 + 6 * uu + 16 * uu * uu).
Proof.
  intros Hx Hxy A1 A2 B1 B2 AB M E r.
  pose proof uu_val as U.
  assert (P1: 0 < x * (1 - uu)) by (apply Qmult_lt_0_compat; [assumption|rewrite U; reflexivity]).
  assert (P2: 0 < y * (1 - uu)) by (apply Qmult_lt_0_compat; [lra|rewrite U; reflexivity]).
  assert (Pa: 0 < va) by lra. assert (Pb: 0 < vb) by lra.
  pose proof (fdiv_rel 24 c d ltac:(reflexivity) M) as F. rewrite E in F.
  change (fdiv 24 c d) with r in F. change (Qpower 2 (- (24))) with uu in F.
  assert (Pq: 0 < va / vb) by (apply Qlt_shift_div_l; lra).
  rewrite (Qabs_pos (va / vb)) in F by lra. apply Qabs_Qle_condition in F.
  assert (L1: val r <= 1).
  { change r with (fdiv 24 c d). apply fdiv_le; [reflexivity|exact M|apply rep1|]. rewrite E.
    apply Qle_shift_div_r; lra. }
  assert (Py: 0 < y) by lra.
  (* va/vb against x/y *)
  assert (Q1: x / y * (1 - 2 * uu) <= va / vb).
  { apply Qle_shift_div_l; [assumption|]. 
    apply Qle_trans with (x / y * (1 - 2 * uu) * (y * (1 + uu))).
    - rewrite !(Qmult_comm (x / y * (1 - 2 * uu))). apply Qmult_le_compat_r; [assumption|].
      apply Qmult_le_0_compat; [apply Qlt_le_weak, Qlt_shift_div_l; lra|rewrite U; discriminate].
    - setoid_replace (x / y * (1 - 2 * uu) * (y * (1 + uu))) with (x * ((1 - 2 * uu) * (1 + uu))) by (field; lra).
      eapply Qle_trans; [|exact A1]. rewrite !(Qmult_comm x). apply Qmult_le_compat_r; [rewrite U; discriminate|lra]. }
  assert (Q2: va / vb <= x / y * (1 + 2 * uu + 4 * uu * uu)).
  { apply Qle_shift_div_r; [assumption|].
    apply Qle_trans with (x / y * (1 + 2 * uu + 4 * uu * uu) * (y * (1 - uu))).
    - setoid_replace (x / y * (1 + 2 * uu + 4 * uu * uu) * (y * (1 - uu))) with (x * ((1 + 2 * uu + 4 * uu * uu) * (1 - uu))) by (field; lra).
      eapply Qle_trans; [exact A2|]. rewrite !(Qmult_comm x). apply Qmult_le_compat_r; [rewrite U; discriminate|lra].
    - rewrite !(Qmult_comm (x / y * _)). apply Qmult_le_compat_r; [assumption|].
      apply Qmult_le_0_compat; [apply Qlt_le_weak, Qlt_shift_div_l; lra|rewrite U; discriminate]. }
  assert (Pxy: 0 < x / y) by (apply Qlt_shift_div_l; lra).
  set (w := va / vb) in *. set (z := x / y) in *. clearbody w z.
  assert (Lo: w * (1 - 3 * uu) <= val r) by lra. assert (Hi: val r <= w * (1 + 3 * uu)) by lra.
  split; [|split; [exact L1|]].
  - eapply Qlt_le_trans; [|exact Lo]. apply Qmult_lt_0_compat; [assumption|rewrite U; reflexivity].
  - split.
    + eapply Qle_trans; [|exact Lo]. apply Qle_trans with (z * (1 - 2 * uu) * (1 - 3 * uu)).
      * rewrite <- Qmult_assoc, !(Qmult_comm z). apply Qmult_le_compat_r; [rewrite U; discriminate|lra].
      * apply Qmult_le_compat_r; [exact Q1|rewrite U; discriminate].
    + eapply Qle_trans; [exact Hi|]. apply Qle_trans with (z * (1 + 2 * uu + 4 * uu * uu) * (1 + 3 * uu)).
      * apply Qmult_le_compat_r; [exact Q2|rewrite U; discriminate].
      * rewrite <- Qmult_assoc, !(Qmult_comm z). apply Qmult_le_compat_r; [rewrite U; discriminate|lra].
Qed.
Lemma ratio_up a b x y : 0 < x -> x <= y -> val a == x -> val b == y ->
  let r := f32_div (rnd24 a) (rnd24 b) in
  0 < val r /\ val r <= 1 /\ x / y * (1 - 6 * uu) <= val r /\ val r <= x / y * (1 + 6 * uu + 16 * uu * uu).
Proof.
  intros Hx Hxy Ea Eb. pose proof uu_val as U.
  destruct (rnd_pos a ltac:(lra)) as [A1 A2]. destruct (rnd_pos b ltac:(lra)) as [B1 B2]. rewrite Ea in A1, A2. rewrite Eb in B1, B2.
  assert (P2: 0 < y * (1 - uu)) by (apply Qmult_lt_0_compat; [lra|rewrite U; reflexivity]).
  apply (ratio_core _ _ x y (val (rnd24 a)) (val (rnd24 b))); auto; [apply rnd_mono; lra|apply mant_ne; lra|reflexivity].
Qed.
Lemma ratio_down a b x y : 0 < x -> x <= y -> val a == - x -> val b == - y ->
  let r := f32_div (rnd24 a) (rnd24 b) in
  0 < val r /\ val r <= 1 /\ x / y * (1 - 6 * uu) <= val r /\ val r <= x / y * (1 + 6 * uu + 16 * uu * uu).
Proof.
  intros Hx Hxy Ea Eb. pose proof uu_val as U.
  destruct (rnd_neg a ltac:(lra)) as [A1 A2]. destruct (rnd_neg b ltac:(lra)) as [B1 B2]. rewrite Ea in A1, A2. rewrite Eb in B1, B2.
  assert (P2: 0 < y * (1 - uu)) by (apply Qmult_lt_0_compat; [lra|rewrite U; reflexivity]).
  assert (M: val (rnd24 b) <= val (rnd24 a)) by (apply rnd_mono; lra).
  apply (ratio_core _ _ x y (- val (rnd24 a)) (- val (rnd24 b))); auto; try lra; [apply mant_ne; lra|field; lra].
Qed.

(** ** The product *)
Definition lo : Q := 1 - Qpower 2 (-21).
Definition hi : Q := 1 + Qpower 2 (-21).
Definition ignoredb (l p u : dyadic) : bool :=
  dy_eqb p dy0 || (dy_ltb p l || dy_ltb u p) || (dy_ltb l dy0 && dy_ltb dy0 u).
Lemma ignoredb_iff l p u : ignoredb l p u = true <-> ignored (val l) (val p) (val u).
Proof.
  unfold ignoredb, ignored. rewrite !orb_true_iff, andb_true_iff, eqb_iff, !ltb_iff, val_dy0. tauto.
Qed.
Lemma scalar_cons loc t l p u sup s : scalar_from loc ((t, (l, p, u)) :: sup) s =
  if ignoredb l p u then scalar_from loc sup s
  else let v := loc_get t loc in
    if near v p then scalar_from loc sup s
    else if dy_leb v l || dy_leb u v then dy0
    else if dy_ltb v p then scalar_from loc sup (f32_mul s (f32_div (f32_sub v l) (f32_sub p l)))
    else scalar_from loc sup (f32_mul s (f32_div (f32_sub v u) (f32_sub p u))).
Proof.
  cbn [scalar_from]. unfold ignoredb. destruct (dy_eqb p dy0); [reflexivity|].
  destruct (dy_ltb p l || dy_ltb u p); [reflexivity|]. destruct (dy_ltb l dy0 && dy_ltb dy0 u); reflexivity.
Qed.
(** the cases of one axis *)
Lemma axis_cases loc t l p u : 
  (ignored (val l) (val p) (val u) /\ forall sup s, scalar_from loc ((t, (l, p, u)) :: sup) s = scalar_from loc sup s) \/
  (~ ignored (val l) (val p) (val u) /\ near (loc_get t loc) p = true /\ forall sup s, scalar_from loc ((t, (l, p, u)) :: sup) s = scalar_from loc sup s) \/
  (~ ignored (val l) (val p) (val u) /\ near (loc_get t loc) p = false /\ (coord t loc <= val l \/ val u <= coord t loc) /\
     forall sup s, scalar_from loc ((t, (l, p, u)) :: sup) s = dy0) \/
  (~ ignored (val l) (val p) (val u) /\ near (loc_get t loc) p = false /\
     exists f r, axis_factor (coord t loc) (val l) (val p) (val u) f /\ 0 < f /\ 0 < val r /\ val r <= 1 /\
       f * (1 - 6 * uu) <= val r /\ val r <= f * (1 + 6 * uu + 16 * uu * uu) /\
       forall sup s, scalar_from loc ((t, (l, p, u)) :: sup) s = scalar_from loc sup (f32_mul s r)).
Proof.
  destruct (ignoredb l p u) eqn:I.
  { left. split; [now apply ignoredb_iff|]. intros. now rewrite scalar_cons, I. }
  assert (NI: ~ ignored (val l) (val p) (val u)) by (rewrite <- ignoredb_iff; congruence).
  right. destruct (near (loc_get t loc) p) eqn:N.
  { left. split; [exact NI|]. split; [reflexivity|]. intros. rewrite scalar_cons, I. cbv zeta. now rewrite N. }
  right. destruct (dy_leb (loc_get t loc) l || dy_leb u (loc_get t loc)) eqn:O.
  { left. split; [exact NI|]. split; [reflexivity|]. split.
    - apply orb_prop in O. rewrite !leb_iff in O. exact O.
    - intros. rewrite scalar_cons, I. cbv zeta. now rewrite N, O. }
  right. split; [exact NI|]. split; [reflexivity|].
  apply orb_false_iff in O. destruct O as [O1 O2]. apply leb_false in O1, O2.
  pose proof (near_false _ _ N) as F. fold (coord t loc) in F, O1, O2.
  assert (NE: ~ coord t loc == val p).
  { intros E. unfold far in F. rewrite E in F. setoid_replace (val p - val p) with 0 in F by ring.
    change (Qabs 0) with 0 in F. revert F. apply Qlt_not_le. reflexivity. }
  destruct (dy_ltb (loc_get t loc) p) eqn:L.
  - pose proof L as L'. apply ltb_iff in L'. fold (coord t loc) in L'.
    destruct (ratio_up (dy_sub (loc_get t loc) l) (dy_sub p l) (coord t loc - val l) (val p - val l)) as (R1 & R2 & R3 & R4); try lra; try apply val_sub.
    eexists _, _. split; [apply ax_rise; assumption|].
    split; [apply Qlt_shift_div_l; lra|]. split; [exact R1|]. split; [exact R2|]. split; [exact R3|]. split; [exact R4|].
    intros. rewrite scalar_cons, I. cbv zeta. rewrite N, L. replace (dy_leb _ _ || dy_leb _ _) with false; [reflexivity|].
    symmetry. apply orb_false_iff. now rewrite !leb_false.
  - pose proof L as L'. apply ltb_false in L'. fold (coord t loc) in L'.
    destruct (ratio_down (dy_sub (loc_get t loc) u) (dy_sub p u) (val u - coord t loc) (val u - val p)) as (R1 & R2 & R3 & R4); try lra;
      try (rewrite val_sub; unfold coord; ring).
    eexists _, _. split; [apply ax_fall; [assumption|assumption|lra|assumption]|].
    split; [apply Qlt_shift_div_l; lra|]. split; [exact R1|]. split; [exact R2|]. split; [exact R3|]. split; [exact R4|].
    intros. rewrite scalar_cons, I. cbv zeta. rewrite N, L. replace (dy_leb _ _ || dy_leb _ _) with false; [reflexivity|].
    symmetry. apply orb_false_iff. now rewrite !leb_false.
Qed.
Lemma mul_bounds s r f : 0 <= val s -> 0 < f -> 0 < val r -> f * (1 - 6 * uu) <= val r -> val r <= f * (1 + 6 * uu + 16 * uu * uu) ->
  val s * f * lo <= val (f32_mul s r) /\ val (f32_mul s r) <= val s * f * hi.
Proof.
  intros Hs Hf Hr R1 R2. unfold f32_mul. pose proof uu_val as U.
  assert (P: 0 <= val s * val r) by (apply Qmult_le_0_compat; lra).
  destruct (rnd_pos (dy_mul s r)) as [A B]; [now rewrite val_mul|]. rewrite val_mul in A, B.
  assert (Psf: 0 <= val s * f) by (apply Qmult_le_0_compat; lra).
  split.
  - eapply Qle_trans; [|exact A]. apply Qle_trans with (val s * (f * (1 - 6 * uu)) * (1 - uu)).
    + setoid_replace (val s * (f * (1 - 6 * uu)) * (1 - uu)) with (val s * f * ((1 - 6 * uu) * (1 - uu))) by ring.
      rewrite !(Qmult_comm (val s * f)). apply Qmult_le_compat_r; [discriminate|assumption].
    + apply Qmult_le_compat_r; [|discriminate]. rewrite !(Qmult_comm (val s)). now apply Qmult_le_compat_r.
  - eapply Qle_trans; [exact B|]. apply Qle_trans with (val s * (f * (1 + 6 * uu + 16 * uu * uu)) * (1 + uu)).
    + apply Qmult_le_compat_r; [|discriminate]. rewrite !(Qmult_comm (val s)). now apply Qmult_le_compat_r.
    + setoid_replace (val s * (f * (1 + 6 * uu + 16 * uu * uu)) * (1 + uu)) with (val s * f * ((1 + 6 * uu + 16 * uu * uu) * (1 + uu))) by ring.
      rewrite !(Qmult_comm (val s * f)). apply Qmult_le_compat_r; [discriminate|assumption].
Qed.
Lemma mul_range s r : 0 <= val s <= 1 -> 0 < val r -> val r <= 1 -> 0 <= val (f32_mul s r) <= 1.
Proof.
  intros [S0 S1] R0 R1. unfold f32_mul. rewrite rnd24_rndp. split.
  - apply rndp_ge; [reflexivity|apply rep0|]. rewrite val_mul. apply Qmult_le_0_compat; lra.
  - apply rndp_le; [reflexivity|apply rep1|]. rewrite val_mul.
    apply Qle_trans with (1 * val r); [apply Qmult_le_compat_r; lra|lra].
Qed.
Lemma scalar_range loc sup : forall s, 0 <= val s <= 1 -> 0 <= val (scalar_from loc sup s) <= 1.
Proof.
  induction sup as [|[t [[l p] u]] sup IH]; intros s Hs; [exact Hs|].
  destruct (axis_cases loc t l p u) as [(_ & E)|[(_ & _ & E)|[(_ & _ & _ & E)|(_ & _ & f & r & _ & _ & R0 & R1 & _ & _ & E)]]]; rewrite E; auto.
  - rewrite val_dy0. lra.
  - apply IH. now apply mul_range.
Qed.
Lemma factor_nonneg loc t l p u f : axis_factor (coord t loc) l p u f -> 0 <= f.
Proof.
  intros H. destruct H; try lra; apply Qlt_le_weak, Qlt_shift_div_l; lra.
Qed.
Lemma value_nonneg loc sup q : region_value loc sup q -> 0 <= q.
Proof. induction 1; [lra|]. apply Qmult_le_0_compat; [eapply factor_nonneg; eassumption|assumption]. Qed.
Lemma pow_S x n : ~ x == 0 -> x ^ Z.of_nat (S n) == x * x ^ Z.of_nat n.
Proof. intros H. rewrite Nat2Z.inj_succ, <- Z.add_1_l, Qpower_plus by assumption. reflexivity. Qed.
Lemma pow_pos x n : 0 < x -> 0 < x ^ Z.of_nat n.
Proof. intros H. induction n; [reflexivity|]. rewrite pow_S by lra. now apply Qmult_lt_0_compat. Qed.
Lemma pow_lo n : 0 < lo ^ Z.of_nat n.
Proof. apply pow_pos. reflexivity. Qed.
Lemma pow_hi n : 0 < hi ^ Z.of_nat n.
Proof. apply pow_pos. reflexivity. Qed.
Lemma lo_le1 : lo <= 1. Proof. discriminate. Qed.
Lemma hi_ge1 : 1 <= hi. Proof. discriminate. Qed.
(** the accumulated product against the exact one; an exact 0 stays 0 *)
Lemma scalar_accuracy loc sup : forall s, 0 <= val s -> exists q, region_value loc sup q /\
  val s * q * lo ^ Z.of_nat (length sup) <= val (scalar_from loc sup s) /\
  val (scalar_from loc sup s) <= val s * q * hi ^ Z.of_nat (length sup).
Proof.
  induction sup as [|[t [[l p] u]] sup IH]; intros s Hs.
  { exists 1. split; [constructor|]. change (val s * 1 * 1 <= val s /\ val s <= val s * 1 * 1). lra. }
  assert (W: forall q f s', region_value loc sup q -> axis_factor (coord t loc) (val l) (val p) (val u) f -> 0 <= val s' ->
    val s * f * lo <= val s' -> val s' <= val s * f * hi ->
    val s' * q * lo ^ Z.of_nat (length sup) <= val (scalar_from loc sup s') ->
    val (scalar_from loc sup s') <= val s' * q * hi ^ Z.of_nat (length sup) ->
    region_value loc ((t, (l, p, u)) :: sup) (f * q) /\
    val s * (f * q) * lo ^ Z.of_nat (length ((t, (l, p, u)) :: sup)) <= val (scalar_from loc sup s') /\
    val (scalar_from loc sup s') <= val s * (f * q) * hi ^ Z.of_nat (length ((t, (l, p, u)) :: sup))).
  { intros q f s' RV AF P A B C D. split; [now constructor|].
    pose proof (value_nonneg _ _ _ RV) as Q0. pose proof (pow_lo (length sup)) as L. pose proof (pow_hi (length sup)) as H.
    cbn [length]. rewrite !pow_S by discriminate. split.
    - eapply Qle_trans; [|exact C].
      setoid_replace (val s * (f * q) * (lo * lo ^ Z.of_nat (length sup))) with (val s * f * lo * (q * lo ^ Z.of_nat (length sup))) by ring.
      setoid_replace (val s' * q * lo ^ Z.of_nat (length sup)) with (val s' * (q * lo ^ Z.of_nat (length sup))) by ring. apply Qmult_le_compat_r; [exact A|]. apply Qmult_le_0_compat; lra.
    - eapply Qle_trans; [exact D|].
      setoid_replace (val s * (f * q) * (hi * hi ^ Z.of_nat (length sup))) with (val s * f * hi * (q * hi ^ Z.of_nat (length sup))) by ring.
      setoid_replace (val s' * q * hi ^ Z.of_nat (length sup)) with (val s' * (q * hi ^ Z.of_nat (length sup))) by ring. apply Qmult_le_compat_r; [exact B|]. apply Qmult_le_0_compat; lra. }
  assert (One: val s * 1 * lo <= val s /\ val s <= val s * 1 * hi).
  { pose proof lo_le1. pose proof hi_ge1. split.
    - setoid_replace (val s * 1 * lo) with (lo * val s) by ring. setoid_replace (val s) with (1 * val s) at 2 by ring. now apply Qmult_le_compat_r.
    - setoid_replace (val s * 1 * hi) with (hi * val s) by ring. setoid_replace (val s) with (1 * val s) at 1 by ring. now apply Qmult_le_compat_r. }
  destruct One as [O1 O2].
  destruct (axis_cases loc t l p u) as [(I & E)|[(NI & N & E)|[(NI & N & O & E)|(NI & N & f & r & AF & F0 & R0 & R1 & R2 & R3 & E)]]]; rewrite E.
  - destruct (IH s Hs) as (q & RV & C & D). exists (1 * q). apply (W q 1 s); auto. now apply ax_ignored.
  - destruct (IH s Hs) as (q & RV & C & D). exists (1 * q). apply (W q 1 s); auto. apply ax_peak; [assumption|]. apply near_true, N.
  - destruct (IH s Hs) as (q & RV & _ & _). exists (0 * q). split; [constructor; [apply ax_outside; [assumption|apply near_false, N|assumption]|assumption]|].
    rewrite val_dy0. split; [apply Qle_lteq; right; ring|apply Qle_lteq; right; ring].
  - destruct (mul_bounds s r f Hs F0 R0 R2 R3) as [A B].
    assert (P: 0 <= val (f32_mul s r)). { eapply Qle_trans; [|exact A]. apply Qmult_le_0_compat; [apply Qmult_le_0_compat; lra|discriminate]. }
    destruct (IH _ P) as (q & RV & C & D). exists (f * q). apply (W q f (f32_mul s r)); auto.
Qed.
(** ** exact values *)
Lemma scalar_peak loc sup : (forall t l p u, In (t, (l, p, u)) sup -> coord t loc == val p) -> forall s, scalar_from loc sup s = s.
Proof.
  induction sup as [|[t [[l p] u]] sup IH]; intros H s; [reflexivity|]. rewrite scalar_cons. cbv zeta.
  rewrite near_self by (eapply H; now left). rewrite IH by (intros; eapply H; right; eassumption). now destruct (ignoredb l p u).
Qed.
Lemma scalar_outside loc sup t l p u : In (t, (l, p, u)) sup -> ~ ignored (val l) (val p) (val u) ->
  Qpower 2 (-23) <= Qabs (coord t loc - val p) -> coord t loc <= val l \/ val u <= coord t loc ->
  forall s, scalar_from loc sup s = dy0.
Proof.
  intros HI NI F O. apply near_far in F. induction sup as [|[t' [[l' p'] u']] sup IH]; [easy|]. intros s. destruct HI as [E|HI].
  - injection E as -> -> -> ->. rewrite scalar_cons. cbv zeta. rewrite F.
    replace (ignoredb l p u) with false by (symmetry; apply not_true_iff_false; now rewrite ignoredb_iff).
    replace (dy_leb _ _ || dy_leb _ _) with true; [reflexivity|]. symmetry. apply orb_true_iff. rewrite !leb_iff. exact O.
  - specialize (IH HI). rewrite scalar_cons. cbv zeta. rewrite !IH. clear. repeat match goal with |- (if ?b then _ else _) = _ => destruct b end; reflexivity.
Qed.
Lemma scalar_positive loc sup : (forall t l p u, In (t, (l, p, u)) sup -> ignored (val l) (val p) (val u) \/
    Qabs (coord t loc - val p) < Qpower 2 (-24) \/ (val l < coord t loc /\ coord t loc < val u)) ->
  forall s, 0 < val s -> 0 < val (scalar_from loc sup s).
Proof.
  induction sup as [|[t [[l p] u]] sup IH]; intros H s Hs; [assumption|].
  assert (IH': forall s, 0 < val s -> 0 < val (scalar_from loc sup s)) by (apply IH; intros; eapply H; right; eassumption).
  destruct (axis_cases loc t l p u) as [(_ & E)|[(_ & _ & E)|[(NI & N & O & E)|(_ & _ & f & r & _ & F0 & R0 & R1 & R2 & R3 & E)]]]; rewrite E; auto.
  - exfalso. destruct (H t l p u ltac:(now left)) as [I|[I|I]]; [easy| |lra].
    apply near_false in N. unfold far in N. fold (coord t loc) in N. assert (C: Qpower 2 (-24) < Qpower 2 (-23) - Qpower 2 (-47)) by reflexivity. lra.
  - apply IH'. destruct (mul_bounds s r f ltac:(lra) F0 R0 R2 R3) as [A B].
    eapply Qlt_le_trans; [|exact A]. apply Qmult_lt_0_compat; [apply Qmult_lt_0_compat; lra|reflexivity].
Qed.

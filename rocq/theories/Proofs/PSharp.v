(** Proofs about sharp angles. *)
From Coq Require Import QArith Qabs Lqa.
From Verif.Model Require Import MBase MFixed MFloat MFloat32 MGlyph MGlyf MPath MCrunch.
From Verif.Spec Require Import SBase SFloat SGlyf SPath SCrunch SCorner.
From Verif.Proofs Require Import PBase PFloat PFloat32 PRound PCrunchGrid PBreaks PTurn.
Local Open Scope Z_scope.

(** Inequalities about the angle, in rational numbers: [B] the cross product,
    [N] and [M] the squares of the lengths, [h] and [k] the computed lengths,
    [P] their computed product, [R] the computed sine. *)
Section Sine.
Local Open Scope Q_scope.
Variables B N M h k P R : Q.
Let t := (1 # 1048576).
Hypothesis HN : 0 < N. Hypothesis HM : 0 < M.
Hypothesis Hh : 0 <= h. Hypothesis Hk : 0 <= k.
Hypothesis h1 : N * (1 - t) <= h * h. Hypothesis h2 : h * h <= N * (1 + t).
Hypothesis k1 : M * (1 - t) <= k * k. Hypothesis k2 : k * k <= M * (1 + t).
Hypothesis HP : Qabs (P - h * k) <= (h * k) * t.
Hypothesis HR : Qabs (R - B / P) <= Qabs (B / P) * t.

Lemma hk_pos : 0 < h * k.
Proof.
  assert (0 < h * h) by (unfold t in *; nra). assert (0 < k * k) by (unfold t in *; nra).
  assert (0 < h) by (destruct (Qlt_le_dec 0 h); [assumption|nra]).
  assert (0 < k) by (destruct (Qlt_le_dec 0 k); [assumption|nra]). nra.
Qed.
Lemma P_bounds : h * k * (1 - t) <= P /\ P <= h * k * (1 + t).
Proof. apply abs_le in HP as [A C]. split; lra. Qed.
Lemma P_pos : 0 < P.
Proof. destruct P_bounds as [A _]. pose proof hk_pos. unfold t in *. nra. Qed.
Lemma abs_div : Qabs (B / P) == Qabs B / P.
Proof.
  pose proof P_pos. unfold Qdiv. rewrite Qabs_Qmult. setoid_replace (Qabs (/ P)) with (/ P); [reflexivity|].
  apply Qabs_pos. apply Qlt_le_weak. now apply Qinv_lt_0_compat.
Qed.
Lemma R_bounds : Qabs B / P * (1 - t) <= Qabs R /\ Qabs R <= Qabs B / P * (1 + t).
Proof.
  rewrite <- abs_div. assert (A: Qabs R <= Qabs (R - B / P) + Qabs (B / P)).
  { setoid_replace R with ((R - B / P) + B / P) at 1 by ring. apply Qabs_triangle. }
  assert (C: Qabs (B / P) <= Qabs (R - B / P) + Qabs R).
  { setoid_replace (B / P) with (- (R - B / P) + R) at 1 by ring. eapply Qle_trans; [apply Qabs_triangle|]. rewrite Qabs_opp. apply Qle_refl. }
  set (z := Qabs (B / P)) in *. set (r := Qabs R) in *. set (d := Qabs (R - B / P)) in *. lra.
Qed.
Lemma hk2 : h * k * (h * k) <= N * M * (1 + t) * (1 + t) /\ N * M * (1 - t) * (1 - t) <= h * k * (h * k).
Proof.
  assert (A: h * h * (k * k) <= N * (1 + t) * (M * (1 + t))).
  { apply Qle_trans with (h * h * (M * (1 + t))); unfold t in *; nra. }
  assert (C: N * (1 - t) * (M * (1 - t)) <= h * h * (k * k)).
  { apply Qle_trans with (h * h * (M * (1 - t))); unfold t in *; nra. }
  split; lra.
Qed.
Lemma sq_le x y : 0 <= x -> x <= y -> x * x <= y * y. Proof. intros. nra. Qed.
Lemma abs_sq : Qabs B * Qabs B == B * B.
Proof. rewrite <- Qabs_Qmult. apply Qabs_pos. nra. Qed.
Lemma sharp_is : N * M < 45 * 45 * (B * B) -> 201 # 10000 < Qabs R.
Proof.
  intros H. destruct (Qlt_le_dec (201 # 10000) (Qabs R)) as [|L]; [assumption|exfalso].
  pose proof P_pos as PP. destruct R_bounds as [A _]. destruct P_bounds as [_ PB]. destruct hk2 as [HK _]. pose proof hk_pos as HP0.
  assert (X: Qabs B <= (202 # 10000) * P).
  { assert (Y: Qabs B / P <= 202 # 10000) by (unfold t in *; lra). 
    setoid_replace (Qabs B) with (Qabs B / P * P) by (field; lra). apply Qmult_le_r; assumption. }
  assert (X2: Qabs B <= (203 # 10000) * (h * k)) by (unfold t in *; lra).
  pose proof (sq_le _ _ (Qabs_nonneg B) X2) as X3. rewrite abs_sq in X3.
  assert (N * M * (1 + t) * (1 + t) <= N * M * (101 # 100)) by (assert (0 < N * M) by nra; unfold t; nra).
  assert (0 < N * M) by nra. lra.
Qed.
Lemma sharp_only : 199 # 10000 < Qabs R -> N * M < 55 * 55 * (B * B).
Proof.
  intros L. pose proof P_pos as PP. destruct R_bounds as [_ A]. destruct P_bounds as [PB _]. destruct hk2 as [_ HK]. pose proof hk_pos as HP0.
  assert (X: (198 # 10000) * P <= Qabs B).
  { assert (Y: 198 # 10000 <= Qabs B / P) by (unfold t in *; lra). 
    setoid_replace (Qabs B) with (Qabs B / P * P) by (field; lra). apply Qmult_le_r; assumption. }
  assert (X2: (197 # 10000) * (h * k) <= Qabs B) by (unfold t in *; lra).
  assert (X0: 0 <= (197 # 10000) * (h * k)) by lra.
  pose proof (sq_le _ _ X0 X2) as X3. rewrite abs_sq in X3.
  assert (N * M * (99 # 100) <= N * M * (1 - t) * (1 - t)) by (assert (0 < N * M) by nra; unfold t; nra).
  assert (0 < N * M) by nra. lra.
Qed.
End Sine.

Lemma square_pos v : v <> (0, 0) -> 0 < square v.
Proof. destruct v as [x y]. intros H. unfold square. cbn. assert (x <> 0 \/ y <> 0) by (destruct (Z.eq_dec x 0), (Z.eq_dec y 0); subst; [congruence|auto..]). nia. Qed.
Lemma square_q d v : isv d v -> (val (fst d) * val (fst d) + val (snd d) * val (snd d) == inject_Z (square v))%Q.
Proof. intros [A B]. unfold iw in *. rewrite A, B. unfold square. rewrite inject_Z_plus, !inject_Z_mult. reflexivity. Qed.
Lemma zero_dir d v : small v -> isv d v -> f64_is_close (fst d) f_0 && f64_is_close (snd d) f_0 = true <-> v = (0, 0).
Proof.
  intros [S1 S2] [A B]. rewrite (iw_close0 (fst v)), (iw_close0 (snd v)) by (try lia; assumption). destruct v as [x y]. cbn [fst snd].
  split; [intros H; f_equal; lia|intros [= -> ->]; reflexivity].
Qed.
Lemma f002 : (199 # 10000 <= val f_002 /\ val f_002 <= 201 # 10000)%Q.
Proof. split; vm_compute; discriminate. Qed.
Lemma mant_ne x : (0 < val x)%Q -> mant x <> 0.
Proof. intros H E. unfold val in H. rewrite E in H. rewrite Qmult_0_l in H. now apply Qlt_irrefl in H. Qed.

Section H.
Variable hypot : dyadic -> dyadic -> dyadic.
Hypothesis HY : sound_hypot hypot.
Lemma sharp_spec d0 d1 v w : small v -> small w -> isv d0 v -> isv d1 w ->
  (kink 45 v w -> sharp hypot d0 d1 = true) /\ (sharp hypot d0 d1 = true -> kink 55 v w).
Proof.
  intros Sv Sw V W. unfold sharp. cbn zeta.
  set (bend := f64_sub _ _).
  pose proof (zero_dir d0 v Sv V) as Z0. pose proof (zero_dir d1 w Sw W) as Z1.
  destruct (f64_is_close (fst d0) f_0 && f64_is_close (snd d0) f_0).
  { cbn [orb]. split; [reflexivity|]. intros _. left. now apply Z0. }
  destruct (f64_is_close (fst d1) f_0 && f64_is_close (snd d1) f_0).
  { cbn [orb]. split; [reflexivity|]. intros _. right; left. now apply Z1. }
  cbn [orb]. assert (N0: v <> (0, 0)) by (intros E; apply Z0 in E; discriminate). assert (N1: w <> (0, 0)) by (intros E; apply Z1 in E; discriminate).
  clear Z0 Z1.
  assert (WB: iw (- cross v w) bend).
  { destruct Sv as [A1 A2], Sw as [B1 B2], V as [V1 V2], W as [W1 W2]. destruct v as [vx vy], w as [wx wy]. cbn [fst snd] in *. unfold bend, cross. cbn [fst snd].
    replace (- (vx * wy - vy * wx)) with (wx * vy - vx * wy) by ring.
    apply iw_sub; [nia| |]; apply iw_mul; try assumption; nia. }
  pose proof (HY (fst d0) (snd d0)) as H0. pose proof (HY (fst d1) (snd d1)) as H1. cbn zeta in H0, H1.
  destruct H0 as (H0 & H0a & H0b), H1 as (H1 & H1a & H1b).
  rewrite (square_q _ _ V) in H0a, H0b. rewrite (square_q _ _ W) in H1a, H1b.
  set (h := hypot (fst d0) (snd d0)) in *. set (k := hypot (fst d1) (snd d1)) in *.
  assert (PN: (0 < inject_Z (square v))%Q) by (change 0%Q with (inject_Z 0); rewrite <- Zlt_Qlt; now apply square_pos).
  assert (PM: (0 < inject_Z (square w))%Q) by (change 0%Q with (inject_Z 0); rewrite <- Zlt_Qlt; now apply square_pos).
  pose proof (hk_pos _ _ _ _ PN PM H0 H1 H0a H1a) as HK.
  assert (HP: (Qabs (val (f64_mul h k) - val h * val k) <= val h * val k * (1 # 1048576))%Q).
  { pose proof (rnd_err (dy_mul h k)) as E. fold (f64_mul h k) in E. rewrite val_mul in E.
    eapply Qle_trans; [exact E|]. rewrite (Qabs_pos (val h * val k)) by lra. apply Qmult_le_l; [exact HK|]. vm_compute. discriminate. }
  pose proof (P_pos _ _ _ _ _ PN PM H0 H1 H0a H1a HP) as PP.
  assert (HR: (Qabs (val (f64_div bend (f64_mul h k)) - val bend / val (f64_mul h k)) <= Qabs (val bend / val (f64_mul h k)) * (1 # 1048576))%Q).
  { rewrite f64_div_fdiv. eapply Qle_trans; [apply fdiv_rel; [lia|now apply mant_ne]|]. 
    rewrite !(Qmult_comm (Qabs (val bend / _))). apply Qmult_le_compat_r; [vm_compute; discriminate|apply Qabs_nonneg]. }
  assert (BB: (val bend * val bend == inject_Z (cross v w * cross v w))%Q).
  { unfold iw in WB. rewrite WB, <- inject_Z_mult. f_equiv. ring. }
  rewrite ltb_iff, val_abs. destruct f002 as [F1 F2].
  split.
  - intros [K|[K|K]]; [now elim N0|now elim N1|]. eapply Qle_lt_trans; [exact F2|].
    apply (sharp_is _ _ _ _ _ _ _ PN PM H0 H1 H0a H0b H1a H1b HP HR). rewrite BB, <- inject_Z_mult. change (45 * 45)%Q with (inject_Z (45 * 45)). rewrite <- inject_Z_mult, <- Zlt_Qlt. exact K.
  - intros K. right; right. assert (L: (199 # 10000 < Qabs (val (f64_div bend (f64_mul h k))))%Q) by (eapply Qle_lt_trans; eassumption).
    pose proof (sharp_only _ _ _ _ _ _ _ PN PM H0 H1 H0a H0b H1a H1b HP HR L) as X.
    rewrite BB, <- inject_Z_mult in X. change (55 * 55)%Q with (inject_Z (55 * 55)) in X. rewrite <- inject_Z_mult, <- Zlt_Qlt in X. exact X.
Qed.
End H.

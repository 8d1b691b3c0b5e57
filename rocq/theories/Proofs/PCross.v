(** Crossing of two lines. *)
From Coq Require Import QArith Qabs Qpower Lqa.
From Verif.Model Require Import MBase MFixed MFloat MFloat32 MGlyph MGlyf MPath MCrunch.
From Verif.Spec Require Import SBase SFloat SPath SCrunch.
From Verif.Proofs Require Import PBase PFloat PFloat32 PAffine PCrunchGrid.
Local Open Scope Z_scope.

(** [v] is [z] times [2^-k] *)
Definition gr (k z : Z) (v : dyadic) : Prop := (val v == inject_Z z * Qpower 2 (- k))%Q.
Lemma gr_rnd k z v : Z.abs z < 2 ^ 53 -> gr k z v -> gr k z (rnd53 v).
Proof.
  intros H E. unfold gr, rnd53 in *. rewrite rndp_exact; [exact E|lia|]. eapply rep_ext; [symmetry; exact E|]. apply rep_scale, rep_int, H.
Qed.
Lemma gr_mul k l i j x y : Z.abs (i * j) < 2 ^ 53 -> gr k i x -> gr l j y -> gr (k + l) (i * j) (f64_mul x y).
Proof.
  intros H X Y. apply gr_rnd; [exact H|]. unfold gr in *. rewrite val_mul, X, Y, inject_Z_mult. replace (- (k + l)) with (- k + - l) by lia. rewrite p2_add. ring.
Qed.
Lemma gr_sub k i j x y : Z.abs (i - j) < 2 ^ 53 -> gr k i x -> gr k j y -> gr k (i - j) (f64_sub x y).
Proof.
  intros H X Y. apply gr_rnd; [exact H|]. unfold gr in *. unfold Z.sub. rewrite val_sub, X, Y, inject_Z_plus, inject_Z_opp. ring.
Qed.
Lemma fine_gr v : fine v -> exists z, gr 10 z v /\ Z.abs z <= 1024.
Proof. intros (z & E & B). exists z. split; [|exact B]. unfold gr. rewrite E. change (Qpower 2 (- (10))) with (1 # 1024)%Q. unfold Qeq, Qmult, inject_Z; cbn [Qnum Qden]. lia. Qed.
Lemma coarse_gr v : coarse v -> exists z, gr 1 z v /\ Z.abs z <= 2 ^ 15.
Proof. intros (z & E & B). exists z. split; [|exact B]. unfold gr. rewrite E. change (Qpower 2 (- (1))) with (1 # 2)%Q. unfold Qeq, Qmult, inject_Z; cbn [Qnum Qden]. lia. Qed.
Lemma abs_mul_le a b A B : Z.abs a <= A -> Z.abs b <= B -> Z.abs (a * b) <= A * B.
Proof. intros. rewrite Z.abs_mul. apply Z.mul_le_mono_nonneg; lia. Qed.
Lemma lt53 a A : Z.abs a <= A -> A < 2 ^ 53 -> Z.abs a < 2 ^ 53.
Proof. lia. Qed.
Lemma sub53 a b A B : Z.abs a <= A -> Z.abs b <= B -> A + B < 2 ^ 53 -> Z.abs (a - b) < 2 ^ 53.
Proof. lia. Qed.
Lemma sub_le a b A B : Z.abs a <= A -> Z.abs b <= B -> Z.abs (a - b) <= A + B.
Proof. lia. Qed.
Ltac go k l := apply gr_sub; [eapply sub53; [eassumption|eassumption|reflexivity]| |]; (apply (gr_mul k l); [eapply lt53; [eassumption|reflexivity]|assumption|assumption]).
Lemma gr_zero k z v : gr k z v -> (val v == 0)%Q <-> z = 0.
Proof.
  intros E. unfold gr in E. rewrite E. pose proof (p2_pos (- k)) as P. split.
  - intros H. apply Qmult_integral in H. destruct H as [H|H]; [|lra]. unfold Qeq in H; cbn in H. lia.
  - intros ->. ring.
Qed.

Lemma alg_sub k l (x y u v : Q) i j a b : (x == inject_Z i * Qpower 2 (- k) -> y == inject_Z j * Qpower 2 (- l) ->
  u == inject_Z a * Qpower 2 (- k) -> v == inject_Z b * Qpower 2 (- l) ->
  inject_Z (i * j - a * b) * Qpower 2 (- (k + l)) == x * y - u * v)%Q.
Proof.
  intros -> -> -> ->. unfold Z.sub. rewrite inject_Z_plus, inject_Z_opp, !inject_Z_mult. replace (- (k + l)) with (- k + - l) by lia. rewrite p2_add. ring.
Qed.
Lemma alg_line1 px py qx qy dx dy ex ey : (~ dx * ey - dy * ex == 0 ->
  let D := dx * ey - dy * ex in let a := py * dx - px * dy in let b := qy * ex - qx * ey in
  ((a * ex - b * dx) / D - px) * dy == ((a * ey - b * dy) / D - py) * dx)%Q.
Proof. intros H. cbv zeta. field. exact H. Qed.
Lemma alg_line2 px py qx qy dx dy ex ey : (~ dx * ey - dy * ex == 0 ->
  let D := dx * ey - dy * ex in let a := py * dx - px * dy in let b := qy * ex - qx * ey in
  ((a * ex - b * dx) / D - qx) * ey == ((a * ey - b * dy) / D - qy) * ex)%Q.
Proof. intros H. cbv zeta. field. exact H. Qed.
Lemma det_small D det : gr 20 D det -> dy_ltb (dy_abs det) f_eps = true <-> D = 0.
Proof.
  intros Gd. unfold gr in Gd. rewrite ltb_iff, val_abs, Gd. unfold f_eps. rewrite val_Dy, Qabs_Qmult, (Qabs_pos (Qpower 2 (- (20)))) by discriminate.
  rewrite Qabs_inj. change (Qpower 2 (- (20))) with (1 # 1048576)%Q. change (Qpower 2 (-52)) with (1 # 4503599627370496)%Q.
  unfold Qlt, Qmult, inject_Z; cbn [Qnum Qden]. clear. lia.
Qed.
Lemma rel51 q : (Qabs q * (3 * Qpower 2 (- (53))) <= Qabs q * (1 # 2 ^ 51))%Q.
Proof. rewrite !(Qmult_comm (Qabs _)). apply Qmult_le_compat_r; [vm_compute; discriminate|apply Qabs_nonneg]. Qed.
Lemma crossing p0 d0 p1 d1 : coarse (fst p0) -> coarse (snd p0) -> coarse (fst p1) -> coarse (snd p1) ->
  fine (fst d0) -> fine (snd d0) -> fine (fst d1) -> fine (snd d1) ->
  match intersect p0 d0 p1 d1 with
  | None => parallel d0 d1
  | Some m => ~ parallel d0 d1 /\ exists x y, on_line p0 d0 x y /\ on_line p1 d1 x y /\
      (Qabs (val (fst m) - x) <= Qabs x * (1 # 2 ^ 51) /\ Qabs (val (snd m) - y) <= Qabs y * (1 # 2 ^ 51))%Q
  end.
Proof.
  destruct p0 as [p0x p0y], d0 as [d0x d0y], p1 as [p1x p1y], d1 as [d1x d1y]. cbn [fst snd].
  intros A1 A2 A3 A4 B1 B2 B3 B4.
  destruct (coarse_gr _ A1) as (px & PX & Cpx). destruct (coarse_gr _ A2) as (py & PY & Cpy).
  destruct (coarse_gr _ A3) as (qx & QX & Cqx). destruct (coarse_gr _ A4) as (qy & QY & Cqy).
  destruct (fine_gr _ B1) as (dx & DX & Cdx). destruct (fine_gr _ B2) as (dy & DY & Cdy).
  destruct (fine_gr _ B3) as (ex & EX & Cex). destruct (fine_gr _ B4) as (ey & EY & Cey).
  pose proof (abs_mul_le _ _ _ _ Cdx Cey). pose proof (abs_mul_le _ _ _ _ Cdy Cex).
  pose proof (abs_mul_le _ _ _ _ Cpy Cdx). pose proof (abs_mul_le _ _ _ _ Cpx Cdy).
  pose proof (abs_mul_le _ _ _ _ Cqy Cex). pose proof (abs_mul_le _ _ _ _ Cqx Cey).
  unfold intersect, parallel. cbn [fst snd].
  set (det := f64_sub (f64_mul d0x d1y) (f64_mul d0y d1x)).
  assert (Gd: gr 20 (dx * ey - dy * ex) det). { go 10 10. }
  set (a := f64_sub (f64_mul p0y d0x) (f64_mul p0x d0y)).
  assert (Ga: gr 11 (py * dx - px * dy) a). { go 1 10. }
  set (b := f64_sub (f64_mul p1y d1x) (f64_mul p1x d1y)).
  assert (Gb: gr 11 (qy * ex - qx * ey) b). { go 1 10. }
  assert (Vd: (val det == val d0x * val d1y - val d0y * val d1x)%Q).
  { eapply Qeq_trans; [exact Gd|]. apply (alg_sub 10 10); assumption. }
  assert (Va: (val a == val p0y * val d0x - val p0x * val d0y)%Q).
  { eapply Qeq_trans; [exact Ga|]. apply (alg_sub 1 10); assumption. }
  assert (Vb: (val b == val p1y * val d1x - val p1x * val d1y)%Q).
  { eapply Qeq_trans; [exact Gb|]. apply (alg_sub 1 10); assumption. }
  clearbody det a b.
  set (D := dx * ey - dy * ex) in *. set (A := py * dx - px * dy) in *. set (B := qy * ex - qx * ey) in *.
  assert (CA: Z.abs A <= 2 ^ 26) by (eapply Z.le_trans; [eapply sub_le; eassumption|discriminate]). assert (CB: Z.abs B <= 2 ^ 26) by (eapply Z.le_trans; [eapply sub_le; eassumption|discriminate]).
  clearbody D A B.
  assert (Zd: dy_ltb (dy_abs det) f_eps = true <-> D = 0) by (exact (det_small D det Gd)).
  destruct (dy_ltb (dy_abs det) f_eps) eqn:Ed.
  - apply proj1 in Zd. specialize (Zd eq_refl). apply (gr_zero _ _ _ Gd) in Zd. rewrite Vd in Zd. lra.
  - assert (D0: D <> 0) by (intros X; apply Zd in X; congruence).
    assert (Nd: ~ (val det == 0)%Q) by (intros X; apply (gr_zero _ _ _ Gd) in X; contradiction).
    split; [intros X; apply Nd; rewrite Vd; lra|].
    pose proof (abs_mul_le _ _ _ _ CA Cex). pose proof (abs_mul_le _ _ _ _ CB Cdx).
    pose proof (abs_mul_le _ _ _ _ CA Cey). pose proof (abs_mul_le _ _ _ _ CB Cdy).
    set (nx := f64_sub (f64_mul a d1x) (f64_mul b d0x)). set (ny := f64_sub (f64_mul a d1y) (f64_mul b d0y)).
    assert (Gx: gr 21 (A * ex - B * dx) nx). { go 11 10. }
    assert (Gy: gr 21 (A * ey - B * dy) ny). { go 11 10. }
    assert (Vx: (val nx == val a * val d1x - val b * val d0x)%Q).
    { eapply Qeq_trans; [exact Gx|]. apply (alg_sub 11 10); assumption. }
    assert (Vy: (val ny == val a * val d1y - val b * val d0y)%Q).
    { eapply Qeq_trans; [exact Gy|]. apply (alg_sub 11 10); assumption. }
    clearbody nx ny.
    assert (Md: mant det <> 0). { intros X. apply Nd. unfold val. rewrite X. ring. }
    exists (val nx / val det)%Q, (val ny / val det)%Q.
    unfold on_line. cbn [fst snd]. rewrite !f64_div_fdiv.
    split; [|split; [|split]].
    + abstract (rewrite Vx, Vy, Va, Vb, Vd; rewrite Vd in Nd; apply alg_line1; exact Nd).
    + abstract (rewrite Vx, Vy, Va, Vb, Vd; rewrite Vd in Nd; apply alg_line2; exact Nd).
    + abstract (eapply Qle_trans; [apply fdiv_rel; [reflexivity|exact Md]|apply rel51]).
    + abstract (eapply Qle_trans; [apply fdiv_rel; [reflexivity|exact Md]|apply rel51]).
Qed.

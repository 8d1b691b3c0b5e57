(** The rounded quotient is a nearest number. *)
From Coq Require Import ZArith List Lia Bool QArith Qabs Qpower Lqa.
From Verif.Model Require Import MBase MFixed MFloat MFloat32.
From Verif.Spec Require Import SFloat.
From Verif.Proofs Require Import PBase PFixed PFloat PFloat32 PRound.
Open Scope Z_scope.
Ltac Zify.zify_post_hook ::= idtac.

Lemma rep_more p p' r : 0 < p -> p <= p' -> representable p r -> representable p' r.
Proof.
  intros Hp L (m & e & Hm & E). exists m, e. split; [|exact E].
  apply Z.lt_le_trans with (1 := Hm). apply Z.pow_le_mono_r; lia.
Qed.

(** Rounding the quotient at more bits than necessary makes no difference. *)
Lemma quot_round_le p P P' x y : 0 < p -> p <= P -> p <= P' -> mant y <> 0 ->
  (val (rndp p (dy_quot P x y)) <= val (rndp p (dy_quot P' x y)))%Q.
Proof.
  intros Hp L L' Hy. set (z := dy_quot P x y). set (z' := dy_quot P' x y).
  apply Qnot_lt_le. intros C.
  assert (Hz: (val z' < val z)%Q).
  { apply Qnot_le_lt. intros M. pose proof (rndp_mono p z z' Hp M). lra. }
  assert (no: forall r, representable (p + 1) r -> ~ (val z' <= r <= val z)%Q).
  { intros r R [A B].
    destruct (quot_strict P x y r ltac:(lia) Hy (rep_more (p + 1) (P + 1) r ltac:(lia) ltac:(lia) R)) as (S1 & S2 & S3).
    destruct (quot_strict P' x y r ltac:(lia) Hy (rep_more (p + 1) (P' + 1) r ltac:(lia) ltac:(lia) R)) as (T1 & T2 & T3).
    fold z in S1, S2, S3. fold z' in T1, T2, T3.
    assert (val x / val y <= r)%Q by (apply Qnot_lt_le; intros D; apply T2 in D; lra).
    assert (r <= val x / val y)%Q by (apply Qnot_lt_le; intros D; apply S1 in D; lra).
    assert (E: (val x / val y == r)%Q) by lra. specialize (S3 E). specialize (T3 E). lra. }
  destruct (gap p (val (rndp p z')) (val (rndp p z)) Hp (rndp_rep p z' Hp) (rndp_rep p z Hp) C) as [(t & R & A & B)|R].
  - apply (no t); [apply (rep_more p (p + 1)); [lia|lia|exact R]|].
    split; apply Qnot_lt_le; intros D.
    + pose proof (rndp_ge p z' t Hp R ltac:(lra)). lra.
    + pose proof (rndp_le p z t Hp R ltac:(lra)). lra.
  - apply (no _ R).
    pose proof (rndp_nearest p z' _ Hp (rndp_rep p z Hp)) as N1.
    pose proof (rndp_nearest p z _ Hp (rndp_rep p z' Hp)) as N2.
    revert N1 N2. repeat apply Qabs_case; intros; split; lra.
Qed.

Lemma rep_some p r s : representable p r -> representable p s -> exists P, p <= P /\ representable (P + 1) ((r + s) * (1 # 2))%Q.
Proof.
  intros (m & e & _ & Er) (n & f & _ & Es).
  set (d := dy_mul (dy_add (Dy m e) (Dy n f)) (Dy 1 (-1))).
  assert (E: ((r + s) * (1 # 2) == val d)%Q).
  { unfold d. rewrite val_mul, val_add, Er, Es. reflexivity. }
  exists (Z.max p (Z.log2 (Z.abs (mant d)))). split; [lia|].
  exists (mant d), (expo d). split; [|rewrite E; destruct d; reflexivity].
  destruct (Z.eq_dec (mant d) 0) as [->|N].
  - apply Z.pow_pos_nonneg; [lia|]. pose proof (Z.log2_nonneg (Z.abs (mant d))). cbn. lia.
  - destruct (Z.log2_spec (Z.abs (mant d)) ltac:(lia)) as [_ L].
    apply Z.lt_le_trans with (1 := L). apply Z.pow_le_mono_r; lia.
Qed.

Theorem fdiv_nearest p x y r : 0 < p -> mant y <> 0 -> representable p r ->
  (Qabs (val (fdiv p x y) - val x / val y) <= Qabs (r - val x / val y))%Q.
Proof.
  intros Hp Hy R. unfold fdiv. set (s := val (rndp p (dy_quot p x y))).
  assert (RS: representable p s) by (apply rndp_rep; exact Hp).
  destruct (rep_some p r s R RS) as (P & LP & RM).
  destruct (quot_strict P x y _ ltac:(lia) Hy RM) as (S1 & S2 & S3).
  assert (E: (s == val (rndp p (dy_quot P x y)))%Q).
  { apply Qle_antisym; apply quot_round_le; lia. }
  pose proof (rndp_nearest p (dy_quot P x y) r Hp R) as N. rewrite <- E in N.
  set (z := val (dy_quot P x y)) in *. set (q := (val x / val y)%Q) in *. clearbody z q s. clear E RM.
  apply Qnot_lt_le. intros C.
  destruct (Qlt_le_dec q ((r + s) * (1 # 2))%Q) as [L|L].
  - specialize (S1 L). revert C N. repeat apply Qabs_case; intros; lra.
  - destruct (Qlt_le_dec ((r + s) * (1 # 2))%Q q) as [L'|L'].
    + specialize (S2 L'). revert C N. repeat apply Qabs_case; intros; lra.
    + revert C. repeat apply Qabs_case; intros; lra.
Qed.

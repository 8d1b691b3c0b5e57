(** Normalized coordinates. *)
From Coq Require Import List ZArith Bool QArith Qabs Qminmax Qpower Lqa Lia.
Import ListNotations.
From Verif.Model Require Import MBase MFixed MFloat MFloat32 MTag MMap MTables MAvar MVarModel MInst.
From Verif.Spec Require Import SBase SFloat SVarModel SAvar SInst.
From Verif.Proofs Require Import PBase PMap PFixed PFloat PFloat32 PScalar PVarSort PAvar PInst.
Open Scope Q_scope.
Ltac Zify.zify_post_hook ::= idtac.

Lemma clamp_spec v l h c : f32_clamp v l h = Ok c -> val l <= val h /\ val c == Qmax (val l) (Qmin (val v) (val h)).
Proof.
  unfold f32_clamp. destruct (dy_leb l h) eqn:E; [|discriminate]. intros H. injection H as <-. apply leb_iff in E. split; [exact E|].
  destruct (dy_ltb v l) eqn:F.
  - apply ltb_iff in F. rewrite Q.min_l, Q.max_l by lra. reflexivity.
  - apply ltb_false in F. destruct (dy_ltb h v) eqn:G.
    + apply ltb_iff in G. rewrite Q.min_r, Q.max_r by lra. reflexivity.
    + apply ltb_false in G. rewrite Q.min_l, Q.max_r by lra. reflexivity.
Qed.
Lemma clamp_ok v l h : val l <= val h -> exists c, f32_clamp v l h = Ok c.
Proof. intros H. unfold f32_clamp. apply leb_iff in H. rewrite H. eauto. Qed.
Lemma sub_zero a b : val (f32_sub a b) == 0 <-> val a == val b.
Proof.
  unfold f32_sub. split; intros H.
  - pose proof (rnd_rel (dy_sub a b)) as R. rewrite H, val_sub in R. rewrite uu_val in R.
    assert (E: Qabs (0 - (val a - val b)) == Qabs (val a - val b)).
    { setoid_replace (0 - (val a - val b)) with (- (val a - val b)) by ring. apply Qabs_opp. }
    rewrite E in R. pose proof (Qabs_nonneg (val a - val b)) as P.
    assert (Z0: Qabs (val a - val b) <= 0) by lra. apply Qabs_Qle_condition in Z0. lra.
  - rewrite rnd24_rndp. apply Qle_antisym; [apply rndp_le|apply rndp_ge]; try reflexivity; try apply rep0; rewrite val_sub; lra.
Qed.
Lemma div_zero a b : val a == 0 -> mant b <> 0%Z -> val (f32_div a b) == 0.
Proof.
  intros A B. rewrite f32_div_fdiv. apply Qle_antisym; [apply fdiv_le|apply fdiv_ge]; try reflexivity; try exact B; try apply rep0; rewrite A; unfold Qdiv; rewrite Qmult_0_l; apply Qle_refl.
Qed.
Lemma round_spec x c : f2_round x = Ok c -> f2dot14 c /\ Qabs (val c - val x) <= Qpower 2 (-14).
Proof.
  unfold f2_round. destruct (f2dot14_as_packed x) as [p|] eqn:E; [|discriminate]. cbn [unwrap rbind]. intros F. injection F as <-.
  unfold f2dot14_as_packed, try_i in E. destruct ((_ <=? _)%Z && _) eqn:C; [|discriminate]. injection E as E.
  rewrite E in C. apply andb_true_iff in C as [C1 C2]. apply Z.leb_le in C1. apply Z.ltb_lt in C2. change (2 ^ (16 - 1))%Z with 32768%Z in *.
  assert (V: val (f2dot14_from_packed p) == inject_Z p / 16384).
  { unfold f2dot14_from_packed, f32_of_int. rewrite rnd24_small by lia. unfold f32_scale. cbn [mant expo]. rewrite val_Dy. reflexivity. }
  split; [exists p; split; [lia|exact V]|]. rewrite V. clear V.
  unfold ot_round in E.
  change (f32_add (f32_scale x 14) (Dy 1 (-1))) with (rnd24 (dy_add (f32_scale x 14) (Dy 1 (-1)))) in E.
  change f32_floor with dy_floor in E. set (y := dy_add (f32_scale x 14) (Dy 1 (-1))) in E.
  assert (Y: val y == val x * 16384 + (1#2)).
  { unfold y. rewrite val_add. assert (E1: val (Dy 1 (-1)) == 1#2) by reflexivity. rewrite E1.
    assert (E2: val (f32_scale x 14) == val x * 16384); [|now rewrite E2].
    unfold f32_scale. rewrite val_Dy, p2_add. change (Qpower 2 14) with (inject_Z 16384). unfold val. ring. }
  destruct (floor_spec (rnd24 y)) as [F1 F2]. set (n := dy_floor (rnd24 y)) in *.
  assert (p = n) by (unfold sat_i32 in E; change (2 ^ 31)%Z with 2147483648%Z in E; lia). subst n. rewrite <- H in *. clear H E.
  rewrite inject_Z_plus in F2. change (inject_Z 1) with 1 in F2.
  assert (N1: - (32768 # 1) <= inject_Z p) by (change (- (32768 # 1)) with (inject_Z (-32768)); rewrite <- Zle_Qle; lia).
  assert (N2: inject_Z p <= 32768 # 1) by (change (32768 # 1) with (inject_Z 32768); rewrite <- Zle_Qle; lia).
  pose proof (rnd_rel y) as R. rewrite uu_val in R.
  assert (YB: Qabs (val y) <= 32771).
  { pose proof (Qabs_triangle (val y - val (rnd24 y)) (val (rnd24 y))) as T.
    setoid_replace (val y - val (rnd24 y) + val (rnd24 y)) with (val y) in T by ring. rewrite Qabs_Qminus in T.
    assert (B: Qabs (val (rnd24 y)) <= 32769) by (apply Qabs_Qle_condition; lra). lra. }
  assert (R2: Qabs (val (rnd24 y) - val y) <= 1 # 4).
  { eapply Qle_trans; [exact R|]. eapply Qle_trans; [apply Qmult_le_compat_r; [exact YB|discriminate]|discriminate]. }
  apply Qabs_Qle_condition in R2.
  change (Qpower 2 (-14)) with (1 # 16384). apply Qabs_Qle_condition. unfold Qdiv. change (/ 16384) with (1 # 16384). lra.
Qed.
Lemma round_ok x : -1 <= val x <= 1 -> exists c, f2_round x = Ok c.
Proof. intros H. unfold f2_round. destruct (packed_ok x H) as (p & ->). cbn [unwrap rbind]. eauto. Qed.

(** the fraction *)
Lemma fraction_spec v l h c : val l < val h -> f32_clamp v l h = Ok c ->
  let x := f32_div (f32_sub c l) (f32_sub h l) in
  0 <= val x <= 1 /\ Qabs (val x - proportion (val l) (val h) (val v)) <= Qpower 2 (-21).
Proof.
  intros L C x. apply clamp_spec in C as [_ C]. set (w := Qmax (val l) (Qmin (val v) (val h))) in C.
  assert (W: val l <= w <= val h).
  { unfold w. split; [apply Q.le_max_l|]. apply Q.max_lub; [lra|apply Q.le_min_r]. }
  assert (P: proportion (val l) (val h) (val v) == (val c - val l) / (val h - val l)) by (unfold proportion; fold w; now rewrite C).
  rewrite P. rewrite <- C in W. clear P C w.
  destruct (Qlt_le_dec (val l) (val c)) as [G|G].
  - destruct (ratio_up (dy_sub c l) (dy_sub h l) (val c - val l) (val h - val l)) as (A1 & A2 & A3 & A4); try lra; try apply val_sub.
    change (f32_div (rnd24 (dy_sub c l)) (rnd24 (dy_sub h l))) with x in *.
    assert (Q1: 0 <= (val c - val l) / (val h - val l)) by (apply Qle_shift_div_l; lra).
    assert (Q2: (val c - val l) / (val h - val l) <= 1) by (apply Qle_shift_div_r; lra).
    set (q := (val c - val l) / (val h - val l)) in *. clearbody q x. split; [lra|].
    change (Qpower 2 (-21)) with (1 # 2097152). rewrite uu_val in A3, A4. apply Qabs_Qle_condition. lra.
  - assert (E: val c == val l) by lra.
    assert (X: val x == 0).
    { apply div_zero; [now apply sub_zero|]. apply mant_ne. rewrite sub_zero. lra. }
    rewrite X. split; [lra|].
    setoid_replace ((val c - val l) / (val h - val l)) with 0; [discriminate|]. rewrite E. field. lra.
Qed.
Lemma normalize_stands a m v c : normalize v (ax_minValue a) (ax_maxValue a) m = Ok c -> stands_at a m v c.
Proof.
  unfold normalize. intros H. apply rbind_ok in H as (w & C & H). cbv zeta in H. pose proof (clamp_spec _ _ _ _ C) as [L _].
  unfold stands_at. destruct (dy_eqb _ dy0) eqn:E.
  - apply eqb_iff in E. rewrite val_dy0, sub_zero in E. destruct m; [discriminate|]. injection H as <-.
    split; [exists 0%Z; split; [lia|reflexivity]|]. left. split; [lra|]. split; reflexivity.
  - assert (L2: val (ax_minValue a) < val (ax_maxValue a)).
    { assert (~ val (ax_maxValue a) == val (ax_minValue a)); [|lra]. rewrite <- sub_zero. intros F. rewrite <- val_dy0 in F. apply eqb_iff in F. congruence. }
    destruct (fraction_spec v _ _ w L2 C) as [X1 X2]. set (x := f32_div _ _) in *. apply rbind_ok in H as (y & Y & R).
    destruct (round_spec y c R) as [R1 R2]. split; [exact R1|]. right. split; [exact L2|]. exists x, y. split; [exact X1|]. split; [exact X2|].
    split; [|exact R2]. destruct m; [exact Y|congruence].
Qed.
Lemma normalize_total a m v : proper_axis a m -> exists c, normalize v (ax_minValue a) (ax_maxValue a) m = Ok c.
Proof.
  intros [L HM]. unfold normalize. destruct (clamp_ok v _ _ L) as (w & C). rewrite C. cbn [rbind]. cbv zeta.
  destruct (dy_eqb _ dy0) eqn:E.
  - apply eqb_iff in E. rewrite val_dy0, sub_zero in E. destruct m; [destruct HM; lra|]. eauto.
  - assert (L2: val (ax_minValue a) < val (ax_maxValue a)).
    { assert (~ val (ax_maxValue a) == val (ax_minValue a)); [|lra]. rewrite <- sub_zero. intros F. rewrite <- val_dy0 in F. apply eqb_iff in F. congruence. }
    destruct (fraction_spec v _ _ w L2 C) as [X1 X2]. set (x := f32_div _ _) in *.
    destruct m as [m|].
    + destruct HM as (_ & F & V & I). destruct (seg_total m x) as (y' & -> & B); [now apply valid_good|]. cbn [rbind]. now apply round_ok.
    + cbn [rbind]. apply round_ok. lra.
Qed.

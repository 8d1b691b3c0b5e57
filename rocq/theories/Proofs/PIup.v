(** Inferring the deltas of untouched points *)
From Coq Require Import QArith Qabs Lqa Lia.
From Verif.Model Require Import MBase MFixed MFloat MFloat32 MPacked MIup.
From Verif.Spec Require Import SFloat SIup.
From Verif.Proofs Require Import PBase PFixed PFloat PFloat32.
Open Scope Z_scope.

Lemma val_f32_int z : Z.abs z < 2 ^ 24 -> (val (f32_of_int z) == inject_Z z)%Q.
Proof.
  intros H. unfold f32_of_int. rewrite rnd24_rndp.
  assert (E: (val (Dy z 0) == inject_Z z)%Q) by (rewrite val_Dy; change (Qpower 2 0) with 1%Q; ring).
  rewrite rndp_exact; [exact E|lia|]. apply rep_ext with (inject_Z z); [now symmetry|]. now apply rep_int.
Qed.
Lemma mant_nonzero x : ~ (val x == 0)%Q -> mant x <> 0.
Proof. intros H E. apply H. unfold val. rewrite E. apply Qmult_0_l. Qed.

Lemma trunc_near x : (Qabs (inject_Z (dy_trunc x) - val x) < 1)%Q.
Proof.
  rewrite trunc_floor. apply Qabs_Qlt_condition. destruct (0 <=? mant x) eqn:E.
  - destruct (floor_spec x) as [A B]. rewrite inject_Z_plus in B. change (inject_Z 1) with 1%Q in B. lra.
  - destruct (floor_spec (dy_neg x)) as [A B]. rewrite inject_Z_plus, val_neg in B. rewrite val_neg in A.
    rewrite inject_Z_opp. change (inject_Z 1) with 1%Q in B. lra.
Qed.

Section Slope.
Variables (dd xx e : Z).
Hypothesis (Hdd : - 2 ^ 15 <= dd < 2 ^ 15) (Hxx : xx < 2 ^ 15) (He : 0 < e < xx).
Let scale := f32_div (f32_of_int dd) (f32_of_int xx).
Let w := f32_mul (f32_of_int e) scale.
Let A : Q := (inject_Z dd / inject_Z xx)%Q.

Lemma xx_nz : ~ (inject_Z xx == 0)%Q.
Proof. intros E. apply (inject_Z_injective xx 0) in E. lia. Qed.
Lemma A_xx : (A * inject_Z xx == inject_Z dd)%Q.
Proof. unfold A. field. apply xx_nz. Qed.
Definition tiny : Q := (3 # 16777216)%Q.
Lemma scale_near : (Qabs (val scale - A) <= Qabs A * tiny)%Q.
Proof.
  unfold scale. rewrite f32_div_fdiv.
  assert (Hx: (val (f32_of_int xx) == inject_Z xx)%Q) by (apply val_f32_int; lia).
  assert (Hd: (val (f32_of_int dd) == inject_Z dd)%Q) by (apply val_f32_int; lia).
  pose proof (fdiv_rel 24 (f32_of_int dd) (f32_of_int xx) ltac:(lia)) as R.
  rewrite Hx, Hd in R. apply R. apply mant_nonzero. rewrite Hx. apply xx_nz.
Qed.
Lemma e_xx : (inject_Z e * (1 + tiny) <= inject_Z xx)%Q.
Proof.
  assert (E1: (inject_Z e <= inject_Z (xx - 1))%Q) by (rewrite <- Zle_Qle; lia).
  assert (E2: (inject_Z e <= inject_Z 32767)%Q) by (rewrite <- Zle_Qle; lia). change (inject_Z 32767) with 32767%Q in E2.
  unfold Z.sub in E1. rewrite inject_Z_plus in E1. change (inject_Z (- (1))) with (-(1))%Q in E1.
  unfold tiny. lra.
Qed.
Lemma e_pos : (0 < inject_Z e)%Q. Proof. rewrite <- (Zlt_Qlt 0). lia. Qed.
Lemma xx_pos : (0 < inject_Z xx)%Q. Proof. rewrite <- (Zlt_Qlt 0). lia. Qed.

(** the exact product lies between 0 and [dd] *)
Lemma product_range :
  (0 <= dd -> (0 <= inject_Z e * val scale <= inject_Z dd)%Q) /\
  (dd <= 0 -> (inject_Z dd <= inject_Z e * val scale <= 0)%Q).
Proof.
  pose proof scale_near as N. pose proof e_xx as E. pose proof e_pos as P. pose proof A_xx as X. pose proof xx_pos as XP.
  apply Qabs_Qle_condition in N.
  split; intros S.
  - assert (A0: (0 <= A)%Q).
    { unfold A, Qdiv. apply Qmult_le_0_compat; [rewrite <- (Zle_Qle 0); lia|].
      apply Qinv_le_0_compat. lra. }
    rewrite (Qabs_pos A) in N by exact A0.
    assert (T: (A * tiny <= A)%Q).
    { setoid_replace A with (A * 1)%Q at 2 by ring. rewrite !(Qmult_comm A).
      apply Qmult_le_compat_r; [discriminate|exact A0]. }
    split.
    + apply Qmult_le_0_compat; lra.
    + apply Qle_trans with (inject_Z e * (A * (1 + tiny)))%Q.
      { rewrite !(Qmult_comm (inject_Z e)). apply Qmult_le_compat_r; lra. }
      setoid_replace (inject_Z e * (A * (1 + tiny)))%Q with ((inject_Z e * (1 + tiny)) * A)%Q by ring.
      rewrite <- X, (Qmult_comm A). apply Qmult_le_compat_r; assumption.
  - assert (A0: (A <= 0)%Q).
    { unfold A, Qdiv. assert (I: (0 < / inject_Z xx)%Q) by now apply Qinv_lt_0_compat.
      assert (D: (inject_Z dd <= 0)%Q) by (rewrite <- (Zle_Qle _ 0); lia).
      setoid_replace 0%Q with (0 * / inject_Z xx)%Q by ring. apply Qmult_le_compat_r; lra. }
    rewrite (Qabs_neg A) in N by exact A0.
    assert (T: (- A * tiny <= - A)%Q).
    { setoid_replace (- A)%Q with (- A * 1)%Q at 2 by ring. rewrite !(Qmult_comm (- A)).
      apply Qmult_le_compat_r; [discriminate|lra]. }
    split.
    + apply Qle_trans with (inject_Z e * (A * (1 + tiny)))%Q.
      2:{ rewrite !(Qmult_comm (inject_Z e)). apply Qmult_le_compat_r; lra. }
      setoid_replace (inject_Z e * (A * (1 + tiny)))%Q with (- ((inject_Z e * (1 + tiny)) * - A))%Q by ring.
      rewrite <- X. setoid_replace (A * inject_Z xx)%Q with (- (inject_Z xx * - A))%Q by ring.
      apply Qopp_le_compat. apply Qmult_le_compat_r; [assumption|lra].
    + setoid_replace 0%Q with (inject_Z e * 0)%Q by ring.
      rewrite !(Qmult_comm (inject_Z e)). apply Qmult_le_compat_r; lra.
Qed.
Lemma w_eq : (val w == val (rndp 24 (dy_mul (f32_of_int e) scale)))%Q.
Proof. reflexivity. Qed.
Lemma mul_eq : (val (dy_mul (f32_of_int e) scale) == inject_Z e * val scale)%Q.
Proof. rewrite val_mul, val_f32_int by lia. reflexivity. Qed.
Lemma w_range :
  (0 <= dd -> (0 <= val w <= inject_Z dd)%Q) /\ (dd <= 0 -> (inject_Z dd <= val w <= 0)%Q).
Proof.
  destruct product_range as [P1 P2].
  assert (R0: representable 24 0%Q) by (apply (rep_int 24 0); lia).
  assert (Rd: representable 24 (inject_Z dd)) by (apply rep_int; lia).
  rewrite w_eq. split; intros S.
  - specialize (P1 S). rewrite <- mul_eq in P1. split; [apply rndp_ge|apply rndp_le]; try lia; tauto.
  - specialize (P2 S). rewrite <- mul_eq in P2. split; [apply rndp_ge|apply rndp_le]; try lia; tauto.
Qed.
Lemma trunc_range : Z.min 0 dd <= dy_trunc w <= Z.max 0 dd.
Proof.
  destruct w_range as [P1 P2].
  assert (T0: dy_trunc (dy_of_Z 0) = 0) by (apply trunc_int; rewrite val_int; reflexivity).
  assert (Td: dy_trunc (dy_of_Z dd) = dd) by (apply trunc_int; rewrite val_int; reflexivity).
  destruct (Z.le_ge_cases 0 dd) as [S|S].
  - destruct (P1 S) as [L H]. rewrite <- (val_int dd) in H. rewrite <- (val_int 0) in L.
    apply trunc_mono in L, H. lia.
  - destruct (P2 S) as [L H]. rewrite <- (val_int dd) in L. rewrite <- (val_int 0) in H.
    apply trunc_mono in L, H. lia.
Qed.
Lemma as_i16_trunc : f_as_i16 w = dy_trunc w.
Proof. unfold f_as_i16. apply sat_id. pose proof trunc_range. change (2 ^ (16 - 1)) with (2 ^ 15). lia. Qed.

Lemma w_near : (Qabs (val w - inject_Z (e * dd) / inject_Z xx) <= 1 # 128)%Q.
Proof.
  pose proof scale_near as N. pose proof e_pos as P. pose proof xx_pos as XP.
  assert (V: (inject_Z (e * dd) / inject_Z xx == inject_Z e * A)%Q).
  { unfold A. rewrite inject_Z_mult. field. apply xx_nz. }
  rewrite V.
  pose proof (Qabs_tri (val w) (inject_Z e * val scale) (inject_Z e * A)) as T.
  pose proof (rndp_rel 24 (dy_mul (f32_of_int e) scale) ltac:(lia)) as R.
  rewrite <- w_eq, mul_eq in R.
  assert (Dm: (Qabs (inject_Z dd) <= 32768)%Q).
  { rewrite Qabs_inj. change 32768%Q with (inject_Z 32768). rewrite <- Zle_Qle. lia. }
  assert (Pm: (Qabs (inject_Z e * val scale) <= 32768)%Q).
  { eapply Qle_trans; [|exact Dm]. destruct product_range as [P1 P2].
    destruct (Z.le_ge_cases 0 dd) as [S|S].
    - destruct (P1 S) as [L H]. rewrite !Qabs_pos; lra.
    - destruct (P2 S) as [L H]. rewrite !Qabs_neg; lra. }
  assert (R': (Qabs (inject_Z e * val scale) * Qpower 2 (- (24)) <= 32768 * (1 # 16777216))%Q).
  { change (Qpower 2 (- (24))) with (1 # 16777216)%Q. apply Qmult_le_compat_r; [exact Pm|discriminate]. }
  setoid_replace (inject_Z e * val scale - inject_Z e * A)%Q with (inject_Z e * (val scale - A))%Q in T by ring.
  rewrite (Qabs_Qmult (inject_Z e) (val scale - A)), (Qabs_pos (inject_Z e)) in T by lra.
  assert (M: (inject_Z e * Qabs (val scale - A) <= 32768 * tiny)%Q).
  { apply Qle_trans with (inject_Z xx * (Qabs A * tiny))%Q.
    - apply Qle_trans with (inject_Z xx * Qabs (val scale - A))%Q.
      + apply Qmult_le_compat_r; [rewrite <- Zle_Qle; lia|apply Qabs_nonneg].
      + rewrite !(Qmult_comm (inject_Z xx)). apply Qmult_le_compat_r; [exact N|lra].
    - setoid_replace (inject_Z xx * (Qabs A * tiny))%Q with ((Qabs A * inject_Z xx) * tiny)%Q by ring.
      apply Qmult_le_compat_r; [|discriminate].
      rewrite <- (Qabs_pos (inject_Z xx)) by lra. rewrite <- Qabs_Qmult, A_xx. exact Dm. }
  unfold tiny in M. lra.
Qed.
Lemma trunc_close : (Qabs (inject_Z (f_as_i16 w) - inject_Z (e * dd) / inject_Z xx) < 129 # 128)%Q.
Proof.
  rewrite as_i16_trunc. pose proof (trunc_near w). pose proof w_near.
  pose proof (Qabs_tri (inject_Z (dy_trunc w)) (val w) (inject_Z (e * dd) / inject_Z xx)). lra.
Qed.
End Slope.

(** ** One segment *)
Definition slope (x1 d1 x2 d2 x : Z) : Z :=
  d1 + f_as_i16 (f32_mul (f32_of_int (x - x1)) (f32_div (f32_of_int (d2 - d1)) (f32_of_int (x2 - x1)))).
Definition infer_up (x1 d1 x2 d2 x : Z) : Z :=
  if x <=? x1 then d1 else if x2 <=? x then d2 else slope x1 d1 x2 d2 x.
Definition infer1 (x1 d1 x2 d2 x : Z) : Z :=
  if x1 =? x2 then (if d1 =? d2 then d1 else 0)
  else if x1 >? x2 then infer_up x2 d2 x1 d1 x else infer_up x1 d1 x2 d2 x.
Definition i16b (z : Z) : bool := (- 2 ^ 15 <=? z) && (z <? 2 ^ 15).
Definition fitsb (x1 d1 x2 d2 : Z) : bool :=
  (x1 =? x2) || (if x1 >? x2 then i16b (d1 - d2) && i16b (x1 - x2) else i16b (d2 - d1) && i16b (x2 - x1)).

Lemma fitsb_iff x1 d1 x2 d2 : fitsb x1 d1 x2 d2 = true <-> fits x1 d1 x2 d2.
Proof. unfold fitsb, fits, i16b. destruct (x1 >? x2) eqn:E; lia. Qed.
Lemma fitsb_sym x1 d1 x2 d2 : fitsb x1 d1 x2 d2 = fitsb x2 d2 x1 d1.
Proof. unfold fitsb. destruct (Z.eqb_spec x1 x2); destruct (Z.eqb_spec x2 x1); destruct (x1 >? x2) eqn:A; destruct (x2 >? x1) eqn:B; auto; lia. Qed.
Lemma infer1_sym x1 d1 x2 d2 x : infer1 x1 d1 x2 d2 x = infer1 x2 d2 x1 d1 x.
Proof.
  unfold infer1. destruct (Z.eqb_spec x1 x2); destruct (Z.eqb_spec x2 x1); try lia.
  - destruct (Z.eqb_spec d1 d2); destruct (Z.eqb_spec d2 d1); lia.
  - destruct (x1 >? x2) eqn:A; destruct (x2 >? x1) eqn:B; auto; lia.
Qed.
Lemma chk_i16_ok z : - 2 ^ 15 <= z < 2 ^ 15 -> chk_i 16 z = Ok z.
Proof. intros H. unfold chk_i. change (16 - 1) with 15. destruct (Z.leb_spec (- 2 ^ 15) z); destruct (Z.ltb_spec z (2 ^ 15)); try lia; reflexivity. Qed.
Lemma chk_i16_bad z : ~ (- 2 ^ 15 <= z < 2 ^ 15) -> chk_i 16 z = Panic.
Proof. intros H. unfold chk_i. change (16 - 1) with 15. destruct (Z.leb_spec (- 2 ^ 15) z); destruct (Z.ltb_spec z (2 ^ 15)); try lia; reflexivity. Qed.
Lemma chk_i16_inv z v : chk_i 16 z = Ok v -> v = z /\ - 2 ^ 15 <= z < 2 ^ 15.
Proof.
  intros H. destruct (Z_le_dec (- 2 ^ 15) z); [destruct (Z_lt_dec z (2 ^ 15))|].
  - rewrite chk_i16_ok in H by lia. apply Ok_inj in H. lia.
  - rewrite chk_i16_bad in H by lia. discriminate.
  - rewrite chk_i16_bad in H by lia. discriminate.
Qed.

Lemma slope_range x1 d1 x2 d2 x : x1 < x < x2 -> x2 - x1 < 2 ^ 15 -> - 2 ^ 15 <= d2 - d1 < 2 ^ 15 ->
  Z.min d1 d2 <= slope x1 d1 x2 d2 x <= Z.max d1 d2.
Proof.
  intros H1 H2 H3. unfold slope.
  rewrite (as_i16_trunc (d2 - d1) (x2 - x1) (x - x1)) by lia.
  pose proof (trunc_range (d2 - d1) (x2 - x1) (x - x1) ltac:(lia) ltac:(lia) ltac:(lia)) as T. cbv zeta in T. lia.
Qed.

Lemma between_eq x1 d1 x2 d2 xs : x1 < x2 -> - 2 ^ 15 <= d1 < 2 ^ 15 -> - 2 ^ 15 <= d2 < 2 ^ 15 ->
  MIup.between x1 d1 x2 d2 xs = if i16b (d2 - d1) && i16b (x2 - x1) then Ok (map (infer_up x1 d1 x2 d2) xs) else Panic.
Proof.
  intros H D1 D2. unfold MIup.between, i16b.
  destruct (Z_le_dec (- 2 ^ 15) (d2 - d1)); [destruct (Z_lt_dec (d2 - d1) (2 ^ 15))|].
  - rewrite chk_i16_ok by lia. cbn [rbind].
    destruct (Z_lt_dec (x2 - x1) (2 ^ 15)).
    + rewrite chk_i16_ok by lia. cbn [rbind].
      replace (_ && _ && (_ && _)) with true by lia.
      apply rmapM_Ok. intros x _. unfold infer_up.
      destruct (Z.leb_spec x x1); [reflexivity|]. destruct (Z.leb_spec x2 x); [reflexivity|].
      rewrite chk_i16_ok by lia. cbn [rbind].
      pose proof (slope_range x1 d1 x2 d2 x ltac:(lia) ltac:(lia) ltac:(lia)) as S.
      rewrite chk_i16_ok; [reflexivity|]. unfold slope in S. lia.
    + rewrite chk_i16_bad by lia. cbn [rbind]. replace (_ && _ && (_ && _)) with false by lia. reflexivity.
  - rewrite chk_i16_bad by lia. replace (_ && _ && (_ && _)) with false by lia. reflexivity.
  - rewrite chk_i16_bad by lia. replace (_ && _ && (_ && _)) with false by lia. reflexivity.
Qed.
Lemma seg_axis_eq x1 d1 x2 d2 xs : - 2 ^ 15 <= d1 < 2 ^ 15 -> - 2 ^ 15 <= d2 < 2 ^ 15 ->
  seg_axis x1 d1 x2 d2 xs = if fitsb x1 d1 x2 d2 then Ok (map (infer1 x1 d1 x2 d2) xs) else Panic.
Proof.
  intros D1 D2. unfold seg_axis, fitsb.
  destruct (Z.eqb_spec x1 x2) as [E|E]; cbn [orb].
  - f_equal. apply map_ext. intros x. unfold infer1. now rewrite (proj2 (Z.eqb_eq x1 x2) E).
  - destruct (x1 >? x2) eqn:G; rewrite between_eq by lia;
      match goal with |- context [if ?b then _ else _] => destruct b; [|reflexivity] end;
      f_equal; apply map_ext; intros x; unfold infer1; now rewrite (proj2 (Z.eqb_neq x1 x2) E), G.
Qed.

Definition infer2 (c1 d1 c2 d2 c : Z * Z) : Z * Z :=
  (infer1 (fst c1) (fst d1) (fst c2) (fst d2) (fst c), infer1 (snd c1) (snd d1) (snd c2) (snd d2) (snd c)).
Definition fits2b (c1 d1 c2 d2 : Z * Z) : bool :=
  fitsb (fst c1) (fst d1) (fst c2) (fst d2) && fitsb (snd c1) (snd d1) (snd c2) (snd d2).
Lemma infer2_sym c1 d1 c2 d2 c : infer2 c1 d1 c2 d2 c = infer2 c2 d2 c1 d1 c.
Proof. unfold infer2. f_equal; apply infer1_sym. Qed.
Lemma fits2b_sym c1 d1 c2 d2 : fits2b c1 d1 c2 d2 = fits2b c2 d2 c1 d1.
Proof. unfold fits2b. now rewrite (fitsb_sym (fst c1)), (fitsb_sym (snd c1)). Qed.

Lemma iup_segment_eq cs c1 d1 c2 d2 : i16_pair d1 -> i16_pair d2 ->
  iup_segment cs c1 (Some (Delta2D (fst d1) (snd d1))) c2 (Some (Delta2D (fst d2) (snd d2))) =
  if fits2b c1 d1 c2 d2 then Ok (map (infer2 c1 d1 c2 d2) cs) else Panic.
Proof.
  intros [A1 B1] [A2 B2]. unfold iup_segment. cbn [get_2d rbind fst snd].
  rewrite !seg_axis_eq by assumption. unfold fits2b.
  destruct (fitsb (fst c1) _ _ _); cbn [rbind andb]; [|reflexivity].
  destruct (fitsb (snd c1) _ _ _); cbn [rbind]; [|reflexivity]. f_equal.
  induction cs as [|c cs IH]; [reflexivity|]. cbn [map combine]. now rewrite IH.
Qed.

(** The specification of one axis *)
Lemma infer1_spec x1 d1 x2 d2 x : fits x1 d1 x2 d2 -> inferred x1 d1 x2 d2 x (infer1 x1 d1 x2 d2 x).
Proof.
  assert (Up: forall x1 d1 x2 d2, x1 < x2 -> x2 - x1 < 2 ^ 15 -> - 2 ^ 15 <= d2 - d1 < 2 ^ 15 ->
    (x <= x1 -> infer_up x1 d1 x2 d2 x = d1) /\ (x2 <= x -> infer_up x1 d1 x2 d2 x = d2) /\
    (x1 < x < x2 -> interpolated x1 d1 x2 d2 x (infer_up x1 d1 x2 d2 x))).
  { clear. intros x1 d1 x2 d2 H1 H2 H3. unfold infer_up.
    destruct (Z.leb_spec x x1); [repeat split; try lia|].
    destruct (Z.leb_spec x2 x); [repeat split; try lia|].
    split; [lia|]. split; [lia|]. intros _. split; [apply slope_range; lia|].
    unfold slope. set (t := f_as_i16 _). replace (d1 + t - d1) with t by lia. subst t.
    apply (trunc_close (d2 - d1) (x2 - x1) (x - x1)); lia. }
  intros F. unfold inferred, infer1.
  destruct (Z.eqb_spec x1 x2) as [E|E]; [repeat split; lia|].
  destruct F as [F|[F|F]]; [lia| |].
  - assert (G: x1 >? x2 = false) by lia. rewrite G. split; [lia|]. split; [|lia]. intros _. apply Up; lia.
  - assert (G: x1 >? x2 = true) by lia. rewrite G. split; [lia|]. split; [lia|]. intros _. apply Up; lia.
Qed.

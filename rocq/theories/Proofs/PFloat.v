(** Floating point lemmas. *)
From Coq Require Import QArith Qpower Lqa Qabs Lia.
From Verif.Model Require Import MBase MFixed MFloat.
From Verif.Spec Require Import SFloat.
From Verif.Proofs Require Import PBase PFixed.
Open Scope Z_scope.

Lemma p2_pos e : (0 < Qpower 2 e)%Q.
Proof. apply Qpower_0_lt. reflexivity. Qed.
Lemma p2_ne e : ~ (Qpower 2 e == 0)%Q.
Proof. pose proof (p2_pos e). intros E. rewrite E in H. discriminate. Qed.
Lemma p2_add a b : (Qpower 2 (a + b) == Qpower 2 a * Qpower 2 b)%Q.
Proof. apply Qpower_plus. discriminate. Qed.
Lemma p2_Z n : 0 <= n -> (inject_Z (2 ^ n) == Qpower 2 n)%Q.
Proof. intros H. rewrite Zpower_Qpower by exact H. reflexivity. Qed.

Lemma val_at e x : e <= expo x -> (val x == inject_Z (dy_at e x) * Qpower 2 e)%Q.
Proof.
  intros H. unfold val, dy_at. rewrite inject_Z_mult, p2_Z by lia.
  rewrite <- Qmult_assoc, <- p2_add. replace (expo x - e + e) with (expo x) by lia. reflexivity.
Qed.

Lemma val_Dy m e : (val (Dy m e) == inject_Z m * Qpower 2 e)%Q.
Proof. reflexivity. Qed.
Lemma val_shift m e j : 0 <= j -> (val (Dy (m * 2 ^ j) e) == val (Dy m (e + j)))%Q.
Proof.
  intros H. rewrite !val_Dy, inject_Z_mult, p2_Z, p2_add by exact H. ring.
Qed.
Lemma val_int n : (val (dy_of_Z n) == inject_Z n)%Q.
Proof. unfold dy_of_Z. rewrite val_Dy. change (Qpower 2 0) with 1%Q. ring. Qed.

Lemma val_le_iff m n e : (val (Dy m e) <= val (Dy n e))%Q <-> m <= n.
Proof.
  rewrite !val_Dy, (Zle_Qle m n). pose proof (p2_pos e). split; intros; [|nra].
  apply Qmult_le_r in H0; assumption.
Qed.
Lemma val_lt_iff m n e : (val (Dy m e) < val (Dy n e))%Q <-> m < n.
Proof.
  rewrite !val_Dy, (Zlt_Qlt m n). pose proof (p2_pos e). split; intros; [|nra].
  apply Qmult_lt_r in H0; assumption.
Qed.
Lemma val_eq_iff m n e : (val (Dy m e) == val (Dy n e))%Q <-> m = n.
Proof.
  split; [|intros ->; reflexivity]. intros H.
  apply Z.le_antisymm; apply (val_le_iff _ _ e); rewrite H; apply Qle_refl.
Qed.

Lemma val_common x e : e <= expo x -> (val x == val (Dy (dy_at e x) e))%Q.
Proof. intros H. rewrite val_Dy. now apply val_at. Qed.

Lemma val_neg x : (val (dy_neg x) == - val x)%Q.
Proof. unfold val, dy_neg; cbn [mant expo]. rewrite inject_Z_opp. ring. Qed.
Lemma val_add x y : (val (dy_add x y) == val x + val y)%Q.
Proof.
  unfold dy_add. rewrite val_Dy. set (e := Z.min _ _).
  rewrite (val_at e x), (val_at e y) by (unfold e; lia).
  rewrite inject_Z_plus. ring.
Qed.
Lemma val_sub x y : (val (dy_sub x y) == val x - val y)%Q.
Proof. unfold dy_sub. rewrite val_add, val_neg. ring. Qed.
Lemma val_mul x y : (val (dy_mul x y) == val x * val y)%Q.
Proof.
  unfold dy_mul. rewrite val_Dy. unfold val. rewrite inject_Z_mult, p2_add. ring.
Qed.
Lemma val_abs x : (val (dy_abs x) == Qabs (val x))%Q.
Proof.
  unfold val, dy_abs; cbn [mant expo]. rewrite Qabs_Qmult.
  rewrite (Qabs_pos (Qpower 2 (expo x))) by (apply Qlt_le_weak, p2_pos). reflexivity.
Qed.

Lemma cmp_spec x y : CompareSpec (val x == val y)%Q (val x < val y)%Q (val y < val x)%Q (dy_compare x y).
Proof.
  unfold dy_compare. set (e := Z.min _ _).
  assert (Hx: (val x == val (Dy (dy_at e x) e))%Q) by (apply val_common; unfold e; lia).
  assert (Hy: (val y == val (Dy (dy_at e y) e))%Q) by (apply val_common; unfold e; lia).
  destruct (Z.compare_spec (dy_at e x) (dy_at e y)) as [E|E|E]; constructor; rewrite Hx, Hy.
  - rewrite E; reflexivity.
  - now apply val_lt_iff.
  - now apply val_lt_iff.
Qed.
Lemma leb_iff x y : dy_leb x y = true <-> (val x <= val y)%Q.
Proof.
  unfold dy_leb. destruct (cmp_spec x y) as [E|E|E]; split; intros H; auto; try discriminate; try lra.
Qed.
Lemma ltb_iff x y : dy_ltb x y = true <-> (val x < val y)%Q.
Proof.
  unfold dy_ltb. destruct (cmp_spec x y) as [E|E|E]; split; intros H; auto; try discriminate; try lra.
Qed.
Lemma eqb_iff x y : dy_eqb x y = true <-> (val x == val y)%Q.
Proof.
  unfold dy_eqb. destruct (cmp_spec x y) as [E|E|E]; split; intros H; auto; try discriminate; try lra.
Qed.
Lemma leb_false x y : dy_leb x y = false <-> (val y < val x)%Q.
Proof.
  rewrite <- not_true_iff_false, leb_iff. split; intros; lra.
Qed.
Lemma ltb_false x y : dy_ltb x y = false <-> (val y <= val x)%Q.
Proof.
  rewrite <- not_true_iff_false, ltb_iff. split; intros; lra.
Qed.

(** ** Integer parts *)
Lemma floor_spec x : (inject_Z (dy_floor x) <= val x)%Q /\ (val x < inject_Z (dy_floor x + 1))%Q.
Proof.
  unfold dy_floor. destruct (Z.leb_spec 0 (expo x)) as [H|H].
  - assert (E: (val x == inject_Z (mant x * 2 ^ expo x))%Q).
    { unfold val. rewrite inject_Z_mult, p2_Z by lia. reflexivity. }
    rewrite E, inject_Z_plus. split; [apply Qle_refl|]. change (inject_Z 1) with 1%Q. lra.
  - set (k := - expo x). assert (Hk: 0 < k) by (unfold k; lia).
    pose proof (Z.pow_pos_nonneg 2 k ltac:(lia) ltac:(lia)) as Hp.
    pose proof (Z.div_mod (mant x) (2 ^ k) ltac:(lia)) as Hd.
    pose proof (Z.mod_pos_bound (mant x) (2 ^ k) Hp) as Hm.
    assert (Ek: (inject_Z (2 ^ k) * Qpower 2 (expo x) == 1)%Q).
    { rewrite p2_Z by lia. rewrite <- p2_add. replace (k + expo x) with 0 by (unfold k; lia). reflexivity. }
    pose proof (p2_pos (expo x)) as Hq.
    set (q := mant x / 2 ^ k) in *.
    assert (Hi: forall z, (inject_Z z == inject_Z (z * 2 ^ k) * Qpower 2 (expo x))%Q).
    { intros z. rewrite inject_Z_mult. rewrite <- Qmult_assoc, Ek. ring. }
    split; rewrite Hi; unfold val.
    + apply Qmult_le_compat_r; [|apply Qlt_le_weak, Hq]. rewrite <- Zle_Qle. lia.
    + apply Qmult_lt_compat_r; [exact Hq|]. rewrite <- Zlt_Qlt. lia.
Qed.

Lemma floor_unique x n : (inject_Z n <= val x)%Q -> (val x < inject_Z (n + 1))%Q -> dy_floor x = n.
Proof.
  intros H1 H2. destruct (floor_spec x) as [F1 F2].
  assert (A: (inject_Z n < inject_Z (dy_floor x + 1))%Q) by lra.
  assert (B: (inject_Z (dy_floor x) < inject_Z (n + 1))%Q) by lra.
  rewrite <- Zlt_Qlt in A, B. lia.
Qed.

Lemma trunc_floor x : dy_trunc x = if 0 <=? mant x then dy_floor x else - dy_floor (dy_neg x).
Proof.
  unfold dy_trunc, dy_floor, dy_neg; cbn [mant expo].
  destruct (Z.leb_spec 0 (expo x)); destruct (Z.leb_spec 0 (mant x)); try lia.
  - assert (0 < 2 ^ (- expo x)) by (apply Z.pow_pos_nonneg; lia). apply Z.quot_div_nonneg; lia.
  - assert (0 < 2 ^ (- expo x)) by (apply Z.pow_pos_nonneg; lia).
    rewrite <- (Z.opp_involutive (mant x)) at 1. rewrite Z.quot_opp_l by lia.
    rewrite Z.quot_div_nonneg by lia. reflexivity.
Qed.

Lemma mant_sign x : 0 <= mant x <-> (0 <= val x)%Q.
Proof.
  unfold val. pose proof (p2_pos (expo x)). rewrite Zle_Qle. change (inject_Z 0) with 0%Q. split; intros; nra.
Qed.

Lemma floor_mono x y : (val x <= val y)%Q -> dy_floor x <= dy_floor y.
Proof.
  intros H. destruct (floor_spec x) as [A _], (floor_spec y) as [_ B].
  assert (C: (inject_Z (dy_floor x) < inject_Z (dy_floor y + 1))%Q) by lra.
  rewrite <- Zlt_Qlt in C. lia.
Qed.

Lemma floor_nonneg x : (0 <= val x)%Q -> 0 <= dy_floor x.
Proof.
  intros H. destruct (floor_spec x) as [_ A].
  assert (C: (inject_Z 0 < inject_Z (dy_floor x + 1))%Q) by (change (inject_Z 0) with 0%Q; lra).
  rewrite <- Zlt_Qlt in C. lia.
Qed.

Lemma trunc_mono x y : (val x <= val y)%Q -> dy_trunc x <= dy_trunc y.
Proof.
  intros H. rewrite !trunc_floor.
  destruct (Z.leb_spec 0 (mant x)) as [Hx|Hx]; destruct (Z.leb_spec 0 (mant y)) as [Hy|Hy].
  - now apply floor_mono.
  - apply mant_sign in Hx. exfalso. assert (~ 0 <= mant y) as N by lia. apply N, mant_sign. lra.
  - apply mant_sign in Hy. assert (Hn: (0 <= val (dy_neg x))%Q).
    { rewrite val_neg. assert (~ 0 <= mant x) as N by lia. rewrite mant_sign in N. lra. }
    pose proof (floor_nonneg _ Hn). pose proof (floor_nonneg _ Hy). lia.
  - apply Z.opp_le_mono. rewrite !Z.opp_involutive. apply floor_mono. rewrite !val_neg. lra.
Qed.

Lemma sat_mono b x y : x <= y -> sat b x <= sat b y.
Proof. unfold sat. lia. Qed.

Lemma trunc_int x n : (val x == inject_Z n)%Q -> dy_trunc x = n.
Proof.
  intros H. rewrite trunc_floor. destruct (Z.leb_spec 0 (mant x)).
  - apply floor_unique; rewrite H; [apply Qle_refl|]. rewrite <- Zlt_Qlt. lia.
  - assert (dy_floor (dy_neg x) = - n); [|lia].
    apply floor_unique; rewrite val_neg, H, <- inject_Z_opp; [apply Qle_refl|]. rewrite <- Zlt_Qlt. lia.
Qed.

Lemma round_int x n : (val x == inject_Z n)%Q -> dy_round x = n.
Proof.
  intros H. unfold dy_round. destruct (Z.leb_spec 0 (expo x)) as [He|He].
  - rewrite <- (trunc_int x n H). unfold dy_trunc. now destruct (Z.leb_spec 0 (expo x)); [|lia].
  - set (k := - expo x). assert (Hk: 0 < k) by (unfold k; lia).
    pose proof (Z.pow_pos_nonneg 2 k ltac:(lia) ltac:(lia)) as Hp.
    assert (E: mant x = n * 2 ^ k).
    { apply (val_eq_iff _ _ (expo x)). rewrite val_shift by lia.
      replace (expo x + k) with 0 by (unfold k; lia). destruct x as [m e]; cbn [mant expo] in *.
      rewrite H. rewrite val_Dy. change (Qpower 2 0) with 1%Q. ring. }
    rewrite E. rewrite Z.abs_mul, (Z.abs_eq (2 ^ k)) by lia.
    replace (2 * (Z.abs n * 2 ^ k) + 2 ^ k) with (2 ^ k + Z.abs n * (2 * 2 ^ k)) by ring.
    rewrite Z.div_add by lia. rewrite Z.div_small by lia.
    rewrite Z.sgn_mul, (Z.sgn_pos (2 ^ k)) by lia. lia.
Qed.

Lemma sat_id b z : - 2 ^ (b - 1) <= z < 2 ^ (b - 1) -> sat b z = z.
Proof. unfold sat. lia. Qed.

(** ** Rounding *)
Lemma log2_abs_lt m p : 0 < p -> Z.abs m < 2 ^ p -> Z.log2 (Z.abs m) < p.
Proof.
  intros Hp H. destruct (Z.eq_dec m 0) as [->|N]; [cbn; lia|]. apply Z.log2_lt_pow2; lia.
Qed.

Lemma rndp_exact p x : 0 < p -> representable p (val x) -> (val (rndp p x) == val x)%Q.
Proof.
  intros Hp (m & e & Hm & E). unfold rndp.
  destruct (Z.leb_spec (Z.log2 (Z.abs (mant x)) - (p - 1)) 0) as [Hk|Hk]; [reflexivity|].
  set (k := Z.log2 (Z.abs (mant x)) - (p - 1)) in *.
  assert (Hlog: Z.log2 (Z.abs (mant x)) = k + (p - 1)) by (unfold k; lia). clearbody k.
  assert (Hm0: mant x <> 0) by (intros E0; rewrite E0 in Hlog; cbn in Hlog; lia).
  destruct x as [mx ex]; cbn [mant expo] in *.
  assert (Hlow: 2 ^ (k + (p - 1)) <= Z.abs mx).
  { rewrite <- Hlog. apply Z.log2_spec. lia. }
  assert (Hdiv: (2 ^ k | mx)).
  { destruct (Z.le_gt_cases ex e) as [Hle|Hgt].
    - assert (Ex: mx = m * 2 ^ (e - ex)).
      { apply (val_eq_iff _ _ ex). rewrite val_shift by lia. rewrite E.
        replace (ex + (e - ex)) with e by lia. reflexivity. }
      destruct (Z.le_gt_cases k (e - ex)) as [Hke|Hke].
      + rewrite Ex. exists (m * 2 ^ (e - ex - k)). rewrite <- Z.mul_assoc, <- Z.pow_add_r by lia.
        do 2 f_equal. lia.
      + exfalso. rewrite Ex, Z.abs_mul, (Z.abs_eq (2 ^ (e - ex))) in Hlow by (apply Z.pow_nonneg; lia).
        assert (Hp1: 0 < 2 ^ (e - ex)) by (apply Z.pow_pos_nonneg; lia).
        assert (Z.abs m * 2 ^ (e - ex) < 2 ^ p * 2 ^ (e - ex)) by (apply Z.mul_lt_mono_pos_r; lia).
        rewrite <- Z.pow_add_r in H by lia.
        assert (2 ^ (p + (e - ex)) <= 2 ^ (k + (p - 1))) by (apply Z.pow_le_mono_r; lia). lia.
    - exfalso. assert (Ex: m = mx * 2 ^ (ex - e)).
      { apply (val_eq_iff _ _ e). rewrite val_shift by lia. rewrite <- E.
        replace (e + (ex - e)) with ex by lia. reflexivity. }
      assert (Hp1: 1 <= 2 ^ (ex - e)) by (apply (Z.pow_le_mono_r 2 0); lia).
      rewrite Ex, Z.abs_mul, (Z.abs_eq (2 ^ (ex - e))) in Hm by lia.
      assert (2 ^ p <= 2 ^ (k + (p - 1))) by (apply Z.pow_le_mono_r; lia).
      assert (Z.abs mx * 1 <= Z.abs mx * 2 ^ (ex - e)) by (apply Z.mul_le_mono_nonneg_l; lia). lia. }
  apply (rne_shift_exact mx k Hk) in Hdiv.
  rewrite <- val_shift by lia. now rewrite Hdiv.
Qed.

(** Rounding depends only on the value. *)
Lemma rne_shift_scale m k j : 0 < k -> 0 <= j -> rne_shift (m * 2 ^ j) (k + j) = rne_shift m k.
Proof.
  intros Hk Hj. unfold rne_shift; cbv zeta.
  pose proof (Z.pow_pos_nonneg 2 k ltac:(lia) ltac:(lia)) as Hp.
  pose proof (Z.pow_pos_nonneg 2 j ltac:(lia) ltac:(lia)) as Hpj.
  rewrite Z.pow_add_r by lia.
  rewrite (Z.div_mul_cancel_r m (2 ^ k) (2 ^ j)) by lia.
  rewrite Z.mul_mod_distr_r by lia.
  set (r := m mod 2 ^ k). set (q := m / 2 ^ k).
  assert (E1: (2 * (r * 2 ^ j) <? 2 ^ k * 2 ^ j) = (2 * r <? 2 ^ k)).
  { apply Bool.eq_iff_eq_true. rewrite !Z.ltb_lt. rewrite Z.mul_assoc. symmetry. apply Z.mul_lt_mono_pos_r. lia. }
  assert (E2: (2 ^ k * 2 ^ j <? 2 * (r * 2 ^ j)) = (2 ^ k <? 2 * r)).
  { apply Bool.eq_iff_eq_true. rewrite !Z.ltb_lt. rewrite Z.mul_assoc. symmetry. apply Z.mul_lt_mono_pos_r. lia. }
  now rewrite E1, E2.
Qed.

Lemma log2_abs_shift m j : m <> 0 -> 0 <= j -> Z.log2 (Z.abs (m * 2 ^ j)) = Z.log2 (Z.abs m) + j.
Proof.
  intros Hm Hj. rewrite Z.abs_mul, (Z.abs_eq (2 ^ j)) by (apply Z.pow_nonneg; lia).
  rewrite Z.log2_mul_pow2 by lia. lia.
Qed.

Lemma rndp_shift p m e j : 0 < p -> 0 <= j -> (val (rndp p (Dy (m * 2 ^ j) e)) == val (rndp p (Dy m (e + j))))%Q.
Proof.
  intros Hp Hj. destruct (Z.eq_dec m 0) as [->|Hm].
  { rewrite Z.mul_0_l. unfold rndp; cbn [mant expo]. change (Z.log2 (Z.abs 0)) with 0.
    destruct (Z.leb_spec (0 - (p - 1)) 0); [|lia]. rewrite !val_Dy. change (inject_Z 0) with 0%Q. ring. }
  unfold rndp at 1 2; cbn [mant expo]. rewrite log2_abs_shift by assumption.
  destruct (Z.leb_spec (Z.log2 (Z.abs m) + j - (p - 1)) 0) as [H1|H1];
    destruct (Z.leb_spec (Z.log2 (Z.abs m) - (p - 1)) 0) as [H2|H2]; try lia.
  - now apply val_shift.
  - rewrite <- val_shift by lia. rewrite rne_shift_exact.
    + apply val_shift; lia.
    + lia.
    + exists (m * 2 ^ (j - (Z.log2 (Z.abs m) + j - (p - 1)))).
      rewrite <- Z.mul_assoc, <- Z.pow_add_r by lia. do 2 f_equal. lia.
  - replace (Z.log2 (Z.abs m) + j - (p - 1)) with ((Z.log2 (Z.abs m) - (p - 1)) + j) by lia.
    rewrite rne_shift_scale by lia.
    replace (e + (Z.log2 (Z.abs m) - (p - 1) + j)) with (e + j + (Z.log2 (Z.abs m) - (p - 1))) by lia.
    reflexivity.
Qed.

Lemma rndp_common p x e : 0 < p -> e <= expo x -> (val (rndp p x) == val (rndp p (Dy (dy_at e x) e)))%Q.
Proof.
  intros Hp He. unfold dy_at. rewrite rndp_shift by lia.
  replace (e + (expo x - e)) with (expo x) by lia. destruct x; reflexivity.
Qed.

Lemma rne_shift_opp m k : 0 < k -> rne_shift (- m) k = - rne_shift m k.
Proof.
  intros Hk. unfold rne_shift; cbv zeta.
  pose proof (Z.pow_pos_nonneg 2 k ltac:(lia) ltac:(lia)) as Hp.
  pose proof (Z.div_mod m (2 ^ k) ltac:(lia)) as Hd.
  pose proof (Z.mod_pos_bound m (2 ^ k) Hp) as Hm.
  set (q := m / 2 ^ k) in *. set (r := m mod 2 ^ k) in *.
  destruct (Z.eq_dec r 0) as [E|E].
  - assert (Hq: (- m) / 2 ^ k = - q) by (symmetry; apply (Z.div_unique_pos _ _ _ 0); lia).
    assert (Hr: (- m) mod 2 ^ k = 0) by (symmetry; apply (Z.mod_unique_pos _ _ (- q)); lia).
    rewrite Hq, Hr, E. change (2 * 0) with 0.
    destruct (Z.ltb_spec 0 (2 ^ k)); [reflexivity|lia].
  - assert (Hq: (- m) / 2 ^ k = - q - 1) by (symmetry; apply (Z.div_unique_pos _ _ _ (2 ^ k - r)); lia).
    assert (Hr: (- m) mod 2 ^ k = 2 ^ k - r) by (symmetry; apply (Z.mod_unique_pos _ _ (- q - 1)); lia).
    rewrite Hq, Hr.
    replace (Z.even (- q - 1)) with (negb (Z.even q)).
    2:{ replace (- q - 1) with (- (q + 1)) by lia. rewrite Z.even_opp, Z.add_1_r, Z.even_succ.
        now rewrite <- Z.negb_even. }
    destruct (Z.ltb_spec (2 * (2 ^ k - r)) (2 ^ k)); destruct (Z.ltb_spec (2 * r) (2 ^ k));
    destruct (Z.ltb_spec (2 ^ k) (2 * (2 ^ k - r))); destruct (Z.ltb_spec (2 ^ k) (2 * r)); try lia;
    destruct (Z.even q); cbn [negb]; lia.
Qed.

Lemma rndp_opp p m e : val (rndp p (Dy (- m) e)) = val (dy_neg (rndp p (Dy m e))).
Proof.
  unfold rndp; cbn [mant expo]. rewrite Z.abs_opp.
  destruct (Z.leb_spec (Z.log2 (Z.abs m) - (p - 1)) 0); [reflexivity|].
  rewrite rne_shift_opp by lia. reflexivity.
Qed.

Lemma rne_shift_mono m n k : 0 < k -> m <= n -> rne_shift m k <= rne_shift n k.
Proof.
  intros Hk Hmn. pose proof (Z.pow_pos_nonneg 2 k ltac:(lia) ltac:(lia)) as Hp.
  assert (Hq: m / 2 ^ k <= n / 2 ^ k) by (apply Z.div_le_mono; lia).
  unfold rne_shift; cbv zeta.
  pose proof (Z.div_mod m (2 ^ k) ltac:(lia)) as Hd. pose proof (Z.mod_pos_bound m (2 ^ k) Hp) as Hm.
  pose proof (Z.div_mod n (2 ^ k) ltac:(lia)) as Hd'. pose proof (Z.mod_pos_bound n (2 ^ k) Hp) as Hm'.
  set (q := m / 2 ^ k) in *. set (r := m mod 2 ^ k) in *.
  set (q' := n / 2 ^ k) in *. set (r' := n mod 2 ^ k) in *.
  destruct (Z.eq_dec q q') as [E|E].
  - rewrite <- E in *. assert (r <= r') by lia.
    destruct (Z.ltb_spec (2 * r) (2 ^ k)); destruct (Z.ltb_spec (2 * r') (2 ^ k));
    destruct (Z.ltb_spec (2 ^ k) (2 * r)); destruct (Z.ltb_spec (2 ^ k) (2 * r')); try lia;
    destruct (Z.even q); lia.
  - destruct (Z.ltb_spec (2 * r) (2 ^ k)); destruct (Z.ltb_spec (2 * r') (2 ^ k));
    destruct (Z.ltb_spec (2 ^ k) (2 * r)); destruct (Z.ltb_spec (2 ^ k) (2 * r')); try lia;
    destruct (Z.even q); destruct (Z.even q'); lia.
Qed.

(** A positive number keeps its binade (or moves to the bottom of the next). *)
Lemma rndp_binade p m e : 0 < p -> 0 < m ->
  (val (Dy (2 ^ Z.log2 m) e) <= val (rndp p (Dy m e)))%Q /\
  (val (rndp p (Dy m e)) <= val (Dy (2 ^ (Z.log2 m + 1)) e))%Q.
Proof.
  intros Hp Hm. pose proof (Z.log2_spec m Hm) as [L1 L2]. rewrite <- Z.add_1_r in L2.
  unfold rndp; cbn [mant expo]. rewrite (Z.abs_eq m) by lia.
  pose proof (Z.log2_nonneg m) as Hl.
  destruct (Z.leb_spec (Z.log2 m - (p - 1)) 0) as [Hk|Hk].
  - split; apply val_le_iff; lia.
  - set (k := Z.log2 m - (p - 1)) in *.
    rewrite <- val_shift by lia.
    assert (E1: rne_shift (2 ^ Z.log2 m) k * 2 ^ k = 2 ^ Z.log2 m).
    { apply rne_shift_exact; [lia|]. exists (2 ^ (Z.log2 m - k)). rewrite <- Z.pow_add_r by lia. f_equal. lia. }
    assert (E2: rne_shift (2 ^ (Z.log2 m + 1)) k * 2 ^ k = 2 ^ (Z.log2 m + 1)).
    { apply rne_shift_exact; [lia|]. exists (2 ^ (Z.log2 m + 1 - k)). rewrite <- Z.pow_add_r by lia. f_equal. lia. }
    assert (0 < 2 ^ k) by (apply Z.pow_pos_nonneg; lia).
    split; apply val_le_iff; [rewrite <- E1|rewrite <- E2]; apply Z.mul_le_mono_nonneg_r; try lia;
      apply rne_shift_mono; lia.
Qed.

Lemma rndp_nonneg p m e : 0 < p -> 0 <= m -> (0 <= val (rndp p (Dy m e)))%Q.
Proof.
  intros Hp Hm. destruct (Z.eq_dec m 0) as [->|N].
  - unfold rndp; cbn [mant expo]. change (Z.log2 (Z.abs 0)) with 0.
    destruct (Z.leb_spec (0 - (p - 1)) 0); [|lia]. rewrite val_Dy. change (inject_Z 0) with 0%Q. lra.
  - destruct (rndp_binade p m e Hp ltac:(lia)) as [H _]. eapply Qle_trans; [|exact H].
    rewrite val_Dy, p2_Z by apply Z.log2_nonneg.
    pose proof (p2_pos (Z.log2 m)). pose proof (p2_pos e). nra.
Qed.

Lemma rndp_mono_nonneg p m n e : 0 < p -> 0 <= m -> m <= n ->
  (val (rndp p (Dy m e)) <= val (rndp p (Dy n e)))%Q.
Proof.
  intros Hp Hm Hmn. destruct (Z.eq_dec m 0) as [->|N0].
  { assert (E: (val (rndp p (Dy 0 e)) == 0)%Q).
    { unfold rndp; cbn [mant expo]. change (Z.log2 (Z.abs 0)) with 0.
      destruct (Z.leb_spec (0 - (p - 1)) 0); [|lia]. rewrite val_Dy. change (inject_Z 0) with 0%Q. ring. }
    rewrite E. now apply rndp_nonneg. }
  pose proof (Z.log2_le_mono m n Hmn) as Hl.
  destruct (Z.eq_dec (Z.log2 m) (Z.log2 n)) as [E|E].
  - unfold rndp; cbn [mant expo]. rewrite !Z.abs_eq by lia. rewrite <- E.
    destruct (Z.leb_spec (Z.log2 m - (p - 1)) 0).
    + now apply val_le_iff.
    + apply val_le_iff. apply rne_shift_mono; lia.
  - destruct (rndp_binade p m e Hp ltac:(lia)) as [_ H1].
    destruct (rndp_binade p n e Hp ltac:(lia)) as [H2 _].
    eapply Qle_trans; [exact H1|]. eapply Qle_trans; [|exact H2].
    apply val_le_iff. apply Z.pow_le_mono_r; lia.
Qed.

Lemma rndp_mono p x y : 0 < p -> (val x <= val y)%Q -> (val (rndp p x) <= val (rndp p y))%Q.
Proof.
  intros Hp H. set (e := Z.min (expo x) (expo y)).
  rewrite (rndp_common p x e), (rndp_common p y e) by (unfold e; lia).
  rewrite (val_common x e), (val_common y e) in H by (unfold e; lia).
  apply val_le_iff in H. set (m := dy_at e x) in *. set (n := dy_at e y) in *.
  destruct (Z.le_gt_cases 0 m) as [Hm|Hm].
  - now apply rndp_mono_nonneg.
  - destruct (Z.le_gt_cases 0 n) as [Hn|Hn].
    + pose proof (rndp_nonneg p (- m) e Hp ltac:(lia)) as A.
      replace m with (- - m) by lia. rewrite rndp_opp, val_neg.
      pose proof (rndp_nonneg p n e Hp Hn). lra.
    + pose proof (rndp_mono_nonneg p (- n) (- m) e Hp ltac:(lia) ltac:(lia)) as A.
      replace m with (- - m) by lia. replace n with (- - n) by lia.
      rewrite !rndp_opp, !val_neg. lra.
Qed.

Lemma rndp_eq p x y : 0 < p -> (val x == val y)%Q -> (val (rndp p x) == val (rndp p y))%Q.
Proof.
  intros Hp H. apply Qle_antisym; apply rndp_mono; auto; rewrite H; apply Qle_refl.
Qed.

Lemma rnd24_rndp x : rnd24 x = rndp 24 x.
Proof. reflexivity. Qed.

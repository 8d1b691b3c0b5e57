(** The rounding operations choose a nearest number and are monotone, the
    rounded quotient included. *)
From Coq Require Import ZArith List Lia Bool QArith Qabs Qpower Lqa.
From Verif.Model Require Import MBase MFixed MFloat MFloat32.
From Verif.Spec Require Import SFloat.
From Verif.Proofs Require Import PBase PFixed PFloat PFloat32.
Open Scope Z_scope.
Ltac Zify.zify_post_hook ::= idtac.

(** ** Strict comparison of the quotient, one bit beyond the precision *)
Lemma cmp_small p m e : 0 < p -> e < 0 -> Z.abs m < 2 ^ p -> (val (Dy m e) < inject_Z (2 ^ p))%Q.
Proof.
  intros Hp He Hm. rewrite val_Dy. apply Qle_lt_trans with (inject_Z (Z.abs m) * 1)%Q.
  - apply Qle_trans with (inject_Z (Z.abs m) * Qpower 2 e)%Q.
    + apply Qmult_le_r; [apply p2_pos|]. rewrite <- Zle_Qle. lia.
    + rewrite !(Qmult_comm (inject_Z _)). apply Qmult_le_compat_r; [|rewrite <- (Zle_Qle 0); lia].
      apply (Qpower_le_compat_l 2 e 0); [lia|discriminate].
  - rewrite Qmult_1_r, <- Zlt_Qlt. lia.
Qed.
Lemma inj_div_lt n d a : 0 < d -> (inject_Z n / inject_Z d < inject_Z a)%Q <-> n < a * d.
Proof.
  intros Hd. split; intros H.
  - destruct (Z.lt_ge_cases n (a * d)) as [L|L]; [exact L|]. exfalso.
    assert (inject_Z a <= inject_Z n / inject_Z d)%Q by (apply (inj_div_ge n d a Hd); lia). lra.
  - apply Qnot_le_lt. intros L. apply (inj_div_ge n d a Hd) in L; lia.
Qed.
Lemma inj_div_gt n d a : 0 < d -> (inject_Z a < inject_Z n / inject_Z d)%Q <-> a * d < n.
Proof.
  intros Hd. split; intros H.
  - destruct (Z.lt_ge_cases (a * d) n) as [L|L]; [exact L|]. exfalso.
    assert (inject_Z n / inject_Z d <= inject_Z a)%Q by (apply (inj_div_le n d a Hd); lia). lra.
  - apply Qnot_le_lt. intros L. apply (inj_div_le n d a Hd) in L; lia.
Qed.
Lemma sticky_lt n d p m e : 0 < p -> 0 < d -> 2 ^ p * d <= n -> Z.abs m < 2 ^ p ->
  (inject_Z n / inject_Z d < val (Dy m e))%Q -> (val (Dy (quot_bits n d) (-1)) < val (Dy m e))%Q.
Proof.
  intros Hp Hd Hn Hm H.
  destruct (Z.le_gt_cases 0 e) as [He|He].
  - rewrite val_half. assert (V: (val (Dy m e) == inject_Z (m * 2 ^ e))%Q).
    { rewrite val_Dy, inject_Z_mult, p2_Z by lia. reflexivity. }
    rewrite V in H |- *. clear V. set (a := m * 2 ^ e) in *. clearbody a.
    apply (proj1 (inj_div_lt n d a Hd)) in H.
    setoid_replace (inject_Z a) with (inject_Z (2 * a) * (1 # 2))%Q by (rewrite inject_Z_mult; ring_simplify; reflexivity).
    apply Qmult_lt_r; [reflexivity|]. rewrite <- Zlt_Qlt. unfold quot_bits.
    pose proof (Z.div_mod n d ltac:(lia)) as E. pose proof (Z.mod_pos_bound n d Hd) as B.
    assert (n / d < a) by (apply Z.mul_lt_mono_pos_l with d; lia).
    destruct (Z.eqb_spec (n mod d) 0) as [R|R]; lia.
  - exfalso. assert (H1: (inject_Z (2 ^ p) <= inject_Z n / inject_Z d)%Q) by (apply inj_div_ge; lia).
    pose proof (cmp_small p m e Hp He Hm). lra.
Qed.
Lemma sticky_gt n d p m e : 0 < p -> 0 < d -> 2 ^ p * d <= n -> Z.abs m < 2 ^ p ->
  (val (Dy m e) < inject_Z n / inject_Z d)%Q -> (val (Dy m e) < val (Dy (quot_bits n d) (-1)))%Q.
Proof.
  intros Hp Hd Hn Hm H.
  pose proof (Z.div_mod n d ltac:(lia)) as E. pose proof (Z.mod_pos_bound n d Hd) as B.
  rewrite val_half.
  destruct (Z.le_gt_cases 0 e) as [He|He].
  - assert (V: (val (Dy m e) == inject_Z (m * 2 ^ e))%Q).
    { rewrite val_Dy, inject_Z_mult, p2_Z by lia. reflexivity. }
    rewrite V in H |- *. clear V. set (a := m * 2 ^ e) in *. clearbody a.
    apply (proj1 (inj_div_gt n d a Hd)) in H.
    setoid_replace (inject_Z a) with (inject_Z (2 * a) * (1 # 2))%Q by (rewrite inject_Z_mult; ring_simplify; reflexivity).
    apply Qmult_lt_r; [reflexivity|]. rewrite <- Zlt_Qlt. unfold quot_bits.
    assert (a <= n / d) by (apply Z.div_le_lower_bound; lia).
    destruct (Z.eqb_spec (n mod d) 0) as [R|R]; [|lia].
    assert (a < n / d) by (apply Z.mul_lt_mono_pos_l with d; lia). lia.
  - apply Qlt_le_trans with (inject_Z (2 ^ p)); [now apply cmp_small|].
    setoid_replace (inject_Z (2 ^ p)) with (inject_Z (2 * 2 ^ p) * (1 # 2))%Q by (rewrite inject_Z_mult; ring_simplify; reflexivity).
    apply Qmult_le_r; [reflexivity|]. rewrite <- Zle_Qle. unfold quot_bits.
    assert (2 ^ p <= n / d) by (apply Z.div_le_lower_bound; lia).
    destruct (Z.eqb_spec (n mod d) 0); lia.
Qed.

Lemma sticky_eq n d p m e : 0 < p -> 0 < d -> 2 ^ p * d <= n -> Z.abs m < 2 ^ p ->
  (inject_Z n / inject_Z d == val (Dy m e))%Q -> (val (Dy (quot_bits n d) (-1)) == val (Dy m e))%Q.
Proof.
  intros Hp Hd Hn Hm H.
  destruct (Z.le_gt_cases 0 e) as [He|He].
  - rewrite val_half. assert (V: (val (Dy m e) == inject_Z (m * 2 ^ e))%Q).
    { rewrite val_Dy, inject_Z_mult, p2_Z by lia. reflexivity. }
    rewrite V in H |- *. clear V. set (a := m * 2 ^ e) in *. clearbody a.
    assert (E: n = a * d). { rewrite Z.mul_comm.
      apply Z.le_antisymm; [apply (inj_div_le n d a Hd)|apply (inj_div_ge n d a Hd)]; rewrite H; apply Qle_refl. }
    rewrite E. unfold quot_bits. rewrite Z.div_mul, Z.mod_mul by lia. rewrite Z.add_0_r, inject_Z_mult.
    change (inject_Z 2) with 2%Q. ring.
  - exfalso. assert (H1: (inject_Z (2 ^ p) <= inject_Z n / inject_Z d)%Q) by (apply inj_div_ge; lia).
    pose proof (cmp_small p m e Hp He Hm). lra.
Qed.

Lemma quot_strict p x y r : 0 < p -> mant y <> 0 -> representable (p + 1) r ->
  ((val x / val y < r)%Q -> (val (dy_quot p x y) < r)%Q) /\
  ((r < val x / val y)%Q -> (r < val (dy_quot p x y))%Q) /\
  ((val x / val y == r)%Q -> (val (dy_quot p x y) == r)%Q).
Proof.
  intros Hp Hy R. destruct (Z.eq_dec (mant x) 0) as [E|Hx].
  { destruct (quot_zero p x y E) as [-> ->]. auto. }
  destruct (quot_shape p x y Hp Hx Hy) as (n & d & e & s & Hd & Hn & Hs & -> & ->).
  assert (R': representable (p + 1) (inject_Z s * r * Qpower 2 (- e))%Q).
  { apply rep_scale. destruct Hs as [-> | ->].
    - apply rep_ext with r; [ring|exact R].
    - apply rep_ext with (- r)%Q; [change (inject_Z (-1)) with (-(1))%Q; ring|now apply rep_opp]. }
  destruct R' as (m & f & Hm & E).
  assert (Er: (r == inject_Z s * val (Dy m f) * Qpower 2 e)%Q).
  { rewrite <- E. assert (Ee: (Qpower 2 (- e) * Qpower 2 e == 1)%Q).
    { rewrite <- p2_add. replace (- e + e) with 0 by lia. reflexivity. }
    rewrite <- Qmult_assoc, <- (Qmult_assoc _ (Qpower 2 (- e))), Ee.
    destruct Hs as [-> | ->]; [change (inject_Z 1) with 1%Q|change (inject_Z (-1)) with (-(1))%Q]; ring. }
  pose proof (sticky_lt n d (p + 1) m f ltac:(lia) Hd Hn Hm) as A.
  pose proof (sticky_gt n d (p + 1) m f ltac:(lia) Hd Hn Hm) as B.
  pose proof (sticky_eq n d (p + 1) m f ltac:(lia) Hd Hn Hm) as C.
  pose proof (p2_pos e) as P. rewrite Er, !Qmult_lt_r by exact P.
  rewrite !Qmult_inj_r by lra.
  destruct Hs as [-> | ->]; [change (inject_Z 1) with 1%Q|change (inject_Z (-1)) with (-(1))%Q];
    (split; [|split]); intros H.
  - rewrite !Qmult_1_l in *. auto.
  - rewrite !Qmult_1_l in *. auto.
  - rewrite !Qmult_1_l in *. auto.
  - assert (val (Dy m f) < inject_Z n / inject_Z d)%Q by lra. apply B in H0. lra.
  - assert (inject_Z n / inject_Z d < val (Dy m f))%Q by lra. apply A in H0. lra.
  - assert (inject_Z n / inject_Z d == val (Dy m f))%Q by lra. apply C in H0. lra.
Qed.

(** ** Rounding chooses a nearest number *)
Lemma val_down m e f : f <= e -> (val (Dy m e) == inject_Z (m * 2 ^ (e - f)) * Qpower 2 f)%Q.
Proof.
  intros H. rewrite val_Dy, inject_Z_mult, p2_Z by lia. rewrite <- Qmult_assoc, <- p2_add.
  replace (e - f + f) with e by lia. reflexivity.
Qed.

(** Nearest among the multiples of the last place. *)
Lemma rne_nearest m k a : 0 < k -> Z.abs (rne_shift m k * 2 ^ k - m) <= Z.abs (a * 2 ^ k - m).
Proof.
  intros Hk. pose proof (rne_shift_err m k Hk) as E.
  set (r := rne_shift m k) in *. clearbody r. pose proof (Z.pow_pos_nonneg 2 k ltac:(lia) ltac:(lia)) as P.
  destruct (Z.eq_dec a r) as [->|N]; [lia|].
  assert (2 ^ k <= Z.abs (a * 2 ^ k - r * 2 ^ k)); [|lia].
  rewrite <- Z.mul_sub_distr_r, Z.abs_mul. rewrite (Z.abs_eq (2 ^ k)) by lia.
  apply Z.le_trans with (1 * 2 ^ k); [lia|]. apply Z.mul_le_mono_nonneg_r; lia.
Qed.

Lemma Qabs_inj z : (Qabs (inject_Z z) == inject_Z (Z.abs z))%Q.
Proof. destruct z; reflexivity. Qed.

Lemma Qabs_le_scaled a b f : Z.abs a <= Z.abs b ->
  (Qabs (inject_Z a * Qpower 2 f) <= Qabs (inject_Z b * Qpower 2 f))%Q.
Proof.
  intros H. rewrite !Qabs_Qmult, !Qabs_inj. apply Qmult_le_compat_r; [|apply Qabs_nonneg].
  now rewrite <- Zle_Qle.
Qed.

Lemma rndp_nearest p x r : 0 < p -> representable p r ->
  (Qabs (val (rndp p x) - val x) <= Qabs (r - val x))%Q.
Proof.
  intros Hp (m & e & Hm & Er). rewrite Er. clear r Er. destruct x as [n f]. unfold rndp. cbn [mant expo].
  set (k := Z.log2 (Z.abs n) - (p - 1)). destruct (Z.leb_spec k 0) as [Hk|Hk].
  { setoid_replace (val (Dy n f) - val (Dy n f))%Q with 0%Q by ring. apply Qabs_nonneg. }
  assert (Hn: 0 < Z.abs n). { destruct (Z.eq_dec n 0) as [->|]; [cbn in k; unfold k in Hk; lia|lia]. }
  destruct (Z.log2_spec (Z.abs n) Hn) as [L1 L2].
  (* all three at a common exponent *)
  set (g := Z.min e f).
  assert (G1: g <= e) by (unfold g; lia). assert (G2: g <= f) by (unfold g; lia). clearbody g.
  rewrite (val_down (rne_shift n k) (f + k) g), (val_down n f g), (val_down m e g) by lia.
  rewrite <- !(Qmult_plus_distr_l) || idtac.
  assert (D: forall a b, (inject_Z a * Qpower 2 g - inject_Z b * Qpower 2 g == inject_Z (a - b) * Qpower 2 g)%Q).
  { intros a b. unfold Zminus. rewrite inject_Z_plus, inject_Z_opp. ring. }
  rewrite !D. apply Qabs_le_scaled.
  replace (f + k - g) with (k + (f - g)) by lia. rewrite Z.pow_add_r by lia.
  set (F := 2 ^ (f - g)). assert (F0: 0 < F) by (apply Z.pow_pos_nonneg; lia).
  replace (rne_shift n k * (2 ^ k * F) - n * F) with ((rne_shift n k * 2 ^ k - n) * F) by ring.
  rewrite Z.abs_mul, (Z.abs_eq F) by lia.
  destruct (Z.le_gt_cases (f + k) e) as [C|C].
  - (* on the grid *)
    replace (m * 2 ^ (e - g) - n * F) with ((m * 2 ^ (e - f - k) * 2 ^ k - n) * F).
    2:{ unfold F. rewrite Z.mul_sub_distr_r. f_equal. rewrite <- !Z.mul_assoc, <- !Z.pow_add_r by lia. do 2 f_equal. lia. }
    rewrite Z.abs_mul, (Z.abs_eq F) by lia. apply Z.mul_le_mono_nonneg_r; [lia|]. now apply rne_nearest.
  - (* below the power of two under the value *)
    assert (B: Z.abs (m * 2 ^ (e - g)) <= 2 ^ Z.log2 (Z.abs n) * F).
    { rewrite Z.abs_mul, (Z.abs_eq (2 ^ (e - g))) by (apply Z.pow_nonneg; lia).
      apply Z.le_trans with (2 ^ p * 2 ^ (e - g)); [apply Z.mul_le_mono_nonneg_r; [apply Z.pow_nonneg|]; lia|].
      unfold F. rewrite <- !Z.pow_add_r; [|apply Z.log2_nonneg|lia|lia|lia].
      apply Z.pow_le_mono_r; unfold k in C; lia. }
    apply Z.le_trans with (Z.abs ((Z.sgn n * 2 ^ Z.log2 (Z.abs n) - n) * F)).
    + rewrite Z.abs_mul, (Z.abs_eq F) by lia. apply Z.mul_le_mono_nonneg_r; [lia|].
      replace (Z.sgn n * 2 ^ Z.log2 (Z.abs n)) with (Z.sgn n * 2 ^ (p - 1) * 2 ^ k); [now apply rne_nearest|].
      rewrite <- Z.mul_assoc, <- Z.pow_add_r by (unfold k in *; lia). do 2 f_equal. unfold k. lia.
    + clear - F0 B L1 Hn. set (Q := 2 ^ Z.log2 (Z.abs n)) in *. clearbody Q.
      assert (M: Q * F <= Z.abs n * F) by (apply Z.mul_le_mono_nonneg_r; lia).
      rewrite Z.mul_sub_distr_r. set (A := m * 2 ^ (e - g)) in *. clearbody A.
      destruct (Z.lt_ge_cases 0 n) as [P|P].
      * rewrite Z.sgn_pos by lia. rewrite Z.abs_eq in M by lia. rewrite Z.mul_1_l.
        set (QF := Q * F) in *. set (nF := n * F) in *. lia.
      * rewrite Z.sgn_neg by lia. rewrite Z.abs_neq in M by lia.
        replace (-1 * Q * F) with (- (Q * F)) by ring. rewrite Z.mul_opp_l in M.
        set (QF := Q * F) in *. set (nF := n * F) in *. lia.
Qed.

Lemma rep_val p d : representable p (val d) <-> exists m e, Z.abs m < 2 ^ p /\ (val d == val (Dy m e))%Q.
Proof. reflexivity. Qed.

Lemma rep_edge p m e : 0 < p -> Z.abs m <= 2 ^ p -> representable p (val (Dy m e)).
Proof.
  intros Hp H. destruct (Z.eq_dec (Z.abs m) (2 ^ p)) as [E|N]; [|exists m, e; split; [lia|reflexivity]].
  exists (Z.sgn m * 2 ^ (p - 1)), (e + 1). split.
  - rewrite Z.abs_mul, (Z.abs_eq (2 ^ (p - 1))) by (apply Z.pow_nonneg; lia).
    apply Z.le_lt_trans with (1 * 2 ^ (p - 1)); [apply Z.mul_le_mono_nonneg_r; [apply Z.pow_nonneg|]; lia|].
    rewrite Z.mul_1_l. apply Z.pow_lt_mono_r; lia.
  - rewrite (val_down _ (e + 1) e), val_Dy by lia. replace (e + 1 - e) with 1 by lia.
    replace m with (Z.sgn m * 2 ^ (p - 1) * 2 ^ 1) at 1; [reflexivity|].
    rewrite <- Z.mul_assoc, <- Z.pow_add_r by lia. replace (p - 1 + 1) with p by lia. rewrite <- E. lia.
Qed.

(** Between two representable numbers there is another one, or their mean has
    only one bit more. *)
Lemma gap p r s : 0 < p -> representable p r -> representable p s -> (r < s)%Q ->
  (exists t, representable p t /\ r < t < s)%Q \/ representable (p + 1) ((r + s) * (1 # 2))%Q.
Proof.
  intros Hp (m & e & Hm & Er) (n & f & Hn & Es) L.
  assert (P1: 2 ^ (p + 1) = 2 * 2 ^ p) by (rewrite Z.pow_add_r by lia; lia).
  assert (half: forall a g, (val (Dy a (g - 1)) == inject_Z a * Qpower 2 g * (1 # 2))%Q).
  { intros a g. rewrite val_Dy. unfold Z.sub. rewrite p2_add. change (Qpower 2 (- (1))) with (1 # 2)%Q. ring. }
  assert (one: forall a b g, (inject_Z a * Qpower 2 g < inject_Z b * Qpower 2 g)%Q <-> a < b).
  { intros a b g. rewrite Qmult_lt_r by apply p2_pos. now rewrite <- Zlt_Qlt. }
  destruct (Z.le_gt_cases e f) as [C|C].
  - (* step up from r *)
    rewrite (val_down n f e C) in Es. rewrite val_Dy in Er. set (N := n * 2 ^ (f - e)) in *. clearbody N.
    rewrite Er, Es in L. apply one in L.
    destruct (Z.eq_dec N (m + 1)) as [->|D].
    + right. exists (2 * m + 1), (e - 1). split; [lia|]. rewrite half, Er, Es.
      rewrite !inject_Z_plus, inject_Z_mult. change (inject_Z 2) with 2%Q. change (inject_Z 1) with 1%Q. ring.
    + left. exists (val (Dy (m + 1) e)). split; [apply rep_edge; lia|].
      rewrite Er, Es, val_Dy. split; apply one; lia.
  - rewrite (val_down m e f) in Er by lia. rewrite val_Dy in Es. set (M := m * 2 ^ (e - f)) in *. clearbody M.
    rewrite Er, Es in L. apply one in L.
    destruct (Z.eq_dec M (n - 1)) as [->|D].
    + right. exists (2 * n - 1), (f - 1). split; [lia|]. rewrite half, Er, Es.
      unfold Z.sub. rewrite !inject_Z_plus, inject_Z_mult. change (inject_Z 2) with 2%Q. change (inject_Z (- (1))) with (- (1))%Q. ring.
    + left. exists (val (Dy (n - 1) f)). split; [apply rep_edge; lia|].
      rewrite Er, Es, val_Dy. split; apply one; lia.
Qed.

Lemma rndp_rep p x : 0 < p -> representable p (val (rndp p x)).
Proof.
  intros Hp. destruct x as [n f]. unfold rndp. cbn [mant expo].
  set (k := Z.log2 (Z.abs n) - (p - 1)). destruct (Z.leb_spec k 0) as [Hk|Hk].
  - destruct (Z.eq_dec n 0) as [->|N]; [exists 0, f; split; [apply Z.pow_pos_nonneg; lia|reflexivity]|].
    exists n, f. split; [|reflexivity]. destruct (Z.log2_spec (Z.abs n) ltac:(lia)) as [_ L].
    apply Z.lt_le_trans with (1 := L). apply Z.pow_le_mono_r; unfold k in Hk; lia.
  - apply rep_edge; [exact Hp|].
    assert (Hn: 0 < Z.abs n). { destruct (Z.eq_dec n 0) as [->|]; [cbn in k; unfold k in Hk; lia|lia]. }
    destruct (Z.log2_spec (Z.abs n) Hn) as [_ L].
    replace (Z.succ (Z.log2 (Z.abs n))) with (p + k) in L by (unfold k; lia). rewrite Z.pow_add_r in L by lia.
    pose proof (rne_shift_err n k Hk) as E. set (r := rne_shift n k) in *. clearbody r.
    pose proof (Z.pow_pos_nonneg 2 k ltac:(lia) ltac:(lia)) as P.
    destruct (Z.le_gt_cases (Z.abs r) (2 ^ p)) as [|G]; [assumption|]. exfalso.
    assert ((2 ^ p + 1) * 2 ^ k <= Z.abs r * 2 ^ k) by (apply Z.mul_le_mono_nonneg_r; lia).
    rewrite <- (Z.abs_eq (2 ^ k)) in H at 2 by lia. rewrite <- Z.abs_mul in H. lia.
Qed.

(** The rounded quotient is monotone. *)
Theorem fdiv_mono p x y x' y' : 0 < p -> mant y <> 0 -> mant y' <> 0 ->
  (val x / val y <= val x' / val y')%Q -> (val (fdiv p x y) <= val (fdiv p x' y'))%Q.
Proof.
  intros Hp Hy Hy' H. unfold fdiv.
  set (z := dy_quot p x y). set (z' := dy_quot p x' y').
  apply Qnot_lt_le. intros L.
  assert (Hz: (val z' < val z)%Q).
  { apply Qnot_le_lt. intros M. pose proof (rndp_mono p z z' Hp M). lra. }
  assert (no: forall r, representable (p + 1) r -> ~ (val z' <= r <= val z)%Q).
  { intros r R [A B]. destruct (quot_strict p x y r Hp Hy R) as (S1 & S2 & S3). destruct (quot_strict p x' y' r Hp Hy' R) as (T1 & T2 & T3).
    fold z in S1, S2. fold z' in T1, T2.
    assert (val x' / val y' <= r)%Q by (apply Qnot_lt_le; intros C; apply T2 in C; lra).
    assert (r <= val x / val y)%Q by (apply Qnot_lt_le; intros C; apply S1 in C; lra).
    assert (E1: (val x / val y == r)%Q) by lra. assert (E2: (val x' / val y' == r)%Q) by lra.
    fold z in S3. fold z' in T3. specialize (S3 E1). specialize (T3 E2).
    lra. }
  destruct (gap p (val (rndp p z')) (val (rndp p z)) Hp (rndp_rep p z' Hp) (rndp_rep p z Hp) L) as [(t & R & A & B)|R].
  - apply (no t).
    + destruct R as (m & e & Hm & E). exists m, e. split; [rewrite Z.pow_add_r by lia; lia|exact E].
    + split; apply Qnot_lt_le; intros C.
      * pose proof (rndp_ge p z' t Hp R ltac:(lra)). lra.
      * pose proof (rndp_le p z t Hp R ltac:(lra)). lra.
  - apply (no _ R).
    pose proof (rndp_nearest p z' _ Hp (rndp_rep p z Hp)) as N1.
    pose proof (rndp_nearest p z _ Hp (rndp_rep p z' Hp)) as N2.
    revert N1 N2. repeat apply Qabs_case; intros; split; lra.
Qed.

(** Bounds on rounding: relative error, quotients. *)
From Coq Require Import QArith Qabs Lqa Qpower.
From Verif.Model Require Import MBase MFixed MFloat MFloat32.
From Verif.Spec Require Import SFloat.
From Verif.Proofs Require Import PBase PFixed PFloat.
Open Scope Z_scope.

Lemma rne_shift_near m k : 0 < k -> Z.abs (2 * (rne_shift m k * 2 ^ k - m)) <= 2 ^ k.
Proof.
  intros H. unfold rne_shift. pose proof (Z.pow_pos_nonneg 2 k ltac:(lia) ltac:(lia)) as P.
  pose proof (Z.div_mod m (2 ^ k) ltac:(lia)) as E. pose proof (Z.mod_pos_bound m (2 ^ k) P) as B.
  set (q := m / 2 ^ k) in *. set (r := m mod 2 ^ k) in *. set (d := 2 ^ k) in *. clearbody q r d.
  destruct (Z.ltb_spec (2 * r) d); [nia|].
  destruct (Z.ltb_spec d (2 * r)); [nia|]. destruct (Z.even q); nia.
Qed.

Lemma Qabs_pow2 q e : (Qabs (q * Qpower 2 e) == Qabs q * Qpower 2 e)%Q.
Proof. rewrite Qabs_Qmult, (Qabs_pos (Qpower 2 e)); [reflexivity|]. apply Qlt_le_weak, p2_pos. Qed.

Lemma Qabs_inj z : (Qabs (inject_Z z) == inject_Z (Z.abs z))%Q.
Proof. reflexivity. Qed.

(** |rnd x - x| <= 2^-p |x| *)
Lemma rndp_rel p x : 0 < p -> (Qabs (val (rndp p x) - val x) <= Qabs (val x) * Qpower 2 (- p))%Q.
Proof.
  intros Hp. unfold rndp.
  assert (Z0: (0 <= Qabs (val x) * Qpower 2 (- p))%Q).
  { apply Qmult_le_0_compat; [apply Qabs_nonneg|apply Qlt_le_weak, p2_pos]. }
  destruct (Z.leb_spec (Z.log2 (Z.abs (mant x)) - (p - 1)) 0) as [Hk|Hk].
  - setoid_replace (val x - val x)%Q with 0%Q by ring. exact Z0.
  - set (k := Z.log2 (Z.abs (mant x)) - (p - 1)) in *.
    assert (Hlog: Z.log2 (Z.abs (mant x)) = k + (p - 1)) by (unfold k; lia). clearbody k.
    destruct x as [m e]; cbn [mant expo] in *.
    assert (Hm0: m <> 0) by (intros E0; rewrite E0 in Hlog; cbn in Hlog; lia).
    assert (Hlow: 2 ^ (k + (p - 1)) <= Z.abs m) by (rewrite <- Hlog; apply Z.log2_spec; lia).
    pose proof (rne_shift_near m k Hk) as N.
    rewrite <- val_shift by lia.
    setoid_replace (val (Dy (rne_shift m k * 2 ^ k) e) - val (Dy m e))%Q
      with (inject_Z (rne_shift m k * 2 ^ k - m) * Qpower 2 e)%Q.
    2:{ rewrite !val_Dy. unfold Z.sub. rewrite inject_Z_plus, inject_Z_opp. ring. }
    rewrite val_Dy, !Qabs_pow2.
    rewrite <- !Qmult_assoc, (Qmult_comm (Qpower 2 e)), !Qmult_assoc.
    apply Qmult_le_r; [apply p2_pos|].
    rewrite !Qabs_inj.
    apply Qmult_le_r with (z := Qpower 2 p); [apply p2_pos|].
    rewrite <- Qmult_assoc, <- p2_add. replace (- p + p) with 0 by lia.
    change (Qpower 2 0) with 1%Q. rewrite Qmult_1_r, <- p2_Z by lia.
    rewrite <- inject_Z_mult, <- Zle_Qle.
    replace (2 ^ p) with (2 * 2 ^ (p - 1)) by (rewrite <- Z.pow_succ_r by lia; f_equal; lia).
    rewrite Z.pow_add_r in Hlow by lia.
    pose proof (Z.pow_pos_nonneg 2 (p - 1) ltac:(lia) ltac:(lia)).
    pose proof (Z.pow_pos_nonneg 2 k ltac:(lia) ltac:(lia)). nia.
Qed.

(** ** Quotients *)
Definition quot_bits (n d : Z) : Z := 2 * (n / d) + (if n mod d =? 0 then 0 else 1).

Lemma inj_div_le n d a : 0 < d -> (inject_Z n / inject_Z d <= inject_Z a)%Q <-> n <= d * a.
Proof.
  intros H. rewrite <- (Qmult_le_r _ _ (inject_Z d)) by (rewrite <- (Zlt_Qlt 0); lia).
  unfold Qdiv. rewrite <- Qmult_assoc, (Qmult_comm (/ _)), Qmult_inv_r, Qmult_1_r.
  2:{ intros E. apply (inject_Z_injective d 0) in E. lia. }
  rewrite <- inject_Z_mult, <- Zle_Qle. split; lia.
Qed.
Lemma inj_div_ge n d a : 0 < d -> (inject_Z a <= inject_Z n / inject_Z d)%Q <-> d * a <= n.
Proof.
  intros H. rewrite <- (Qmult_le_r _ _ (inject_Z d)) by (rewrite <- (Zlt_Qlt 0); lia).
  unfold Qdiv. rewrite <- Qmult_assoc, (Qmult_comm (/ _)), Qmult_inv_r, Qmult_1_r.
  2:{ intros E. apply (inject_Z_injective d 0) in E. lia. }
  rewrite <- inject_Z_mult, <- Zle_Qle. split; lia.
Qed.

Lemma val_half z : (val (Dy z (-1)) == inject_Z z * (1 # 2))%Q.
Proof. rewrite val_Dy. reflexivity. Qed.

Lemma sticky_le n d p m e : 0 < p -> 0 < d -> 2 ^ (p + 1) * d <= n -> Z.abs m < 2 ^ p ->
  (inject_Z n / inject_Z d <= val (Dy m e))%Q -> (val (Dy (quot_bits n d) (-1)) <= val (Dy m e))%Q.
Proof.
  intros Hp Hd Hn Hm H.
  pose proof (Z.pow_pos_nonneg 2 p ltac:(lia) ltac:(lia)) as P.
  destruct (Z.le_gt_cases 0 e) as [He|He].
  - rewrite val_half. assert (V: (val (Dy m e) == inject_Z (m * 2 ^ e))%Q).
    { rewrite val_Dy, inject_Z_mult, p2_Z by lia. reflexivity. }
    rewrite V in H |- *. clear V. set (a := m * 2 ^ e) in *. clearbody a.
    apply (proj1 (inj_div_le n d a Hd)) in H.
    setoid_replace (inject_Z a) with (inject_Z (2 * a) * (1 # 2))%Q by (rewrite inject_Z_mult; ring_simplify; reflexivity).
    apply Qmult_le_r; [reflexivity|]. rewrite <- Zle_Qle. unfold quot_bits.
    pose proof (Z.div_mod n d ltac:(lia)) as E. pose proof (Z.mod_pos_bound n d Hd) as B.
    destruct (Z.eqb_spec (n mod d) 0) as [R|R].
    + assert (n / d <= a) by (apply Z.mul_le_mono_pos_l with d; lia). lia.
    + assert (n / d < a) by (apply Z.mul_lt_mono_pos_l with d; lia). lia.
  - exfalso. assert (H1: (inject_Z (2 ^ p) <= inject_Z n / inject_Z d)%Q).
    { apply inj_div_ge; [lia|]. rewrite Z.pow_add_r in Hn by lia. change (2 ^ 1) with 2 in Hn. nia. }
    assert (H2: (val (Dy m e) < inject_Z (2 ^ p))%Q).
    { rewrite val_Dy. apply Qle_lt_trans with (inject_Z (Z.abs m) * 1)%Q.
      - apply Qle_trans with (inject_Z (Z.abs m) * Qpower 2 e)%Q.
        + apply Qmult_le_r; [apply p2_pos|]. rewrite <- Zle_Qle. lia.
        + rewrite !(Qmult_comm (inject_Z _)). apply Qmult_le_compat_r; [|rewrite <- (Zle_Qle 0); lia].
          apply (Qpower_le_compat_l 2 e 0); [lia|discriminate].
      - rewrite Qmult_1_r, <- Zlt_Qlt. lia. }
    lra.
Qed.
Lemma sticky_ge n d p m e : 0 < p -> 0 < d -> 2 ^ (p + 1) * d <= n -> Z.abs m < 2 ^ p ->
  (val (Dy m e) <= inject_Z n / inject_Z d)%Q -> (val (Dy m e) <= val (Dy (quot_bits n d) (-1)))%Q.
Proof.
  intros Hp Hd Hn Hm H.
  pose proof (Z.pow_pos_nonneg 2 p ltac:(lia) ltac:(lia)) as P.
  pose proof (Z.div_mod n d ltac:(lia)) as E. pose proof (Z.mod_pos_bound n d Hd) as B.
  rewrite val_half.
  destruct (Z.le_gt_cases 0 e) as [He|He].
  - assert (V: (val (Dy m e) == inject_Z (m * 2 ^ e))%Q).
    { rewrite val_Dy, inject_Z_mult, p2_Z by lia. reflexivity. }
    rewrite V in H |- *. clear V. set (a := m * 2 ^ e) in *. clearbody a.
    apply (proj1 (inj_div_ge n d a Hd)) in H.
    setoid_replace (inject_Z a) with (inject_Z (2 * a) * (1 # 2))%Q by (rewrite inject_Z_mult; ring_simplify; reflexivity).
    apply Qmult_le_r; [reflexivity|]. rewrite <- Zle_Qle. unfold quot_bits.
    assert (a <= n / d) by (apply Z.div_le_lower_bound; lia).
    destruct (Z.eqb_spec (n mod d) 0); lia.
  - apply Qle_trans with (inject_Z (2 ^ p)).
    + rewrite val_Dy. apply Qle_trans with (inject_Z (Z.abs m) * Qpower 2 e)%Q.
      * apply Qmult_le_r; [apply p2_pos|]. rewrite <- Zle_Qle. lia.
      * apply Qle_trans with (inject_Z (Z.abs m) * 1)%Q.
        -- rewrite !(Qmult_comm (inject_Z _)). apply Qmult_le_compat_r; [|rewrite <- (Zle_Qle 0); lia].
           apply (Qpower_le_compat_l 2 e 0); [lia|discriminate].
        -- rewrite Qmult_1_r, <- Zle_Qle. lia.
    + setoid_replace (inject_Z (2 ^ p)) with (inject_Z (2 * 2 ^ p) * (1 # 2))%Q by (rewrite inject_Z_mult; ring_simplify; reflexivity).
      apply Qmult_le_r; [reflexivity|]. rewrite <- Zle_Qle. unfold quot_bits.
      rewrite Z.pow_add_r in Hn by lia. change (2 ^ 1) with 2 in Hn.
      assert (2 * 2 ^ p <= n / d) by (apply Z.div_le_lower_bound; lia).
      destruct (Z.eqb_spec (n mod d) 0); lia.
Qed.

Lemma rep_scale p r e : representable p r -> representable p (r * Qpower 2 e)%Q.
Proof.
  intros (m & f & H & E). exists m, (f + e). split; [exact H|].
  rewrite E, !val_Dy, p2_add. ring.
Qed.
Lemma rep_opp p r : representable p r -> representable p (- r)%Q.
Proof.
  intros (m & f & H & E). exists (- m), f. split; [lia|].
  rewrite E, !val_Dy, inject_Z_opp. ring.
Qed.
Lemma rep_ext p r s : (r == s)%Q -> representable p r -> representable p s.
Proof. intros E (m & f & H & F). exists m, f. split; [exact H|]. now rewrite <- E. Qed.
Lemma rep_int p z : Z.abs z < 2 ^ p -> representable p (inject_Z z).
Proof. intros H. exists z, 0. split; [exact H|]. rewrite val_Dy. change (Qpower 2 0) with 1%Q. ring. Qed.

Lemma sgn_cases z : z <> 0 -> (Z.sgn z = 1 /\ Z.abs z = z) \/ (Z.sgn z = -1 /\ Z.abs z = - z).
Proof. lia. Qed.

(** The quotient by its size and sign. *)
Lemma quot_shape p x y : 0 < p -> mant x <> 0 -> mant y <> 0 -> exists n d e (s : Z),
  0 < d /\ 2 ^ (p + 1) * d <= n /\ (s = 1 \/ s = -1)
  /\ (val x / val y == inject_Z s * (inject_Z n / inject_Z d) * Qpower 2 e)%Q
  /\ (val (dy_quot p x y) == inject_Z s * val (Dy (quot_bits n d) (-1)) * Qpower 2 e)%Q.
Proof.
  intros Hp Hx Hy. unfold dy_quot. fold (quot_bits (Z.abs (mant x) * 2 ^ Z.max 0 (p + 2 + Z.log2 (Z.abs (mant y)) - Z.log2 (Z.abs (mant x)))) (Z.abs (mant y))).
  set (k := Z.max 0 (p + 2 + Z.log2 (Z.abs (mant y)) - Z.log2 (Z.abs (mant x)))).
  assert (K0: 0 <= k) by (unfold k; lia).
  assert (K1: p + 2 + Z.log2 (Z.abs (mant y)) <= k + Z.log2 (Z.abs (mant x))) by (unfold k; lia).
  clearbody k.
  exists (Z.abs (mant x) * 2 ^ k), (Z.abs (mant y)), (expo x - expo y - k), (Z.sgn (mant x) * Z.sgn (mant y)).
  split; [lia|]. split; [|split; [|split]].
  - destruct (Z.log2_spec (Z.abs (mant x)) ltac:(lia)) as [Lx _].
    destruct (Z.log2_spec (Z.abs (mant y)) ltac:(lia)) as [_ Ly].
    pose proof (Z.log2_nonneg (Z.abs (mant x))). pose proof (Z.log2_nonneg (Z.abs (mant y))).
    apply Z.le_trans with (2 ^ (p + 1) * 2 ^ Z.succ (Z.log2 (Z.abs (mant y)))).
    { apply Z.mul_le_mono_nonneg_l; lia. }
    apply Z.le_trans with (2 ^ Z.log2 (Z.abs (mant x)) * 2 ^ k); [|apply Z.mul_le_mono_nonneg_r; lia].
    rewrite <- !Z.pow_add_r by lia. apply Z.pow_le_mono_r; lia.
  - lia.
  - assert (Ny: ~ (inject_Z (mant y) == 0)%Q) by (intros E; apply Hy; exact (proj1 (inject_Z_injective (mant y) 0) E)).
    unfold val. rewrite (inject_Z_mult (Z.abs (mant x))), p2_Z by lia.
    unfold Z.sub. rewrite !p2_add, !Qpower_opp.
    destruct (sgn_cases _ Hx) as [[-> ->]|[-> ->]], (sgn_cases _ Hy) as [[-> ->]|[-> ->]];
      rewrite ?inject_Z_opp; change (inject_Z (1 * 1)) with 1%Q; change (inject_Z (1 * -1)) with (-(1))%Q;
      change (inject_Z (-1 * 1)) with (-(1))%Q; change (inject_Z (-1 * -1)) with 1%Q;
      (field; repeat split; try apply p2_ne; try exact Ny; intros E; apply Ny; lra).
  - rewrite !val_Dy. rewrite inject_Z_mult.
    replace (expo x - expo y - k - 1) with (-1 + (expo x - expo y - k)) by lia. rewrite (p2_add (-1)). ring.
Qed.

Lemma quot_zero p x y : mant x = 0 -> (val (dy_quot p x y) == 0)%Q /\ (val x / val y == 0)%Q.
Proof.
  intros E. unfold dy_quot. rewrite E. split.
  - rewrite val_Dy. change (Z.sgn 0) with 0. rewrite !Z.mul_0_l. apply Qmult_0_l.
  - unfold val at 1. rewrite E. unfold Qdiv. rewrite !Qmult_0_l. reflexivity.
Qed.

(** Comparing the quotient with a representable number. *)
Lemma quot_cmp p x y r : 0 < p -> mant y <> 0 -> representable p r ->
  ((val x / val y <= r)%Q -> (val (dy_quot p x y) <= r)%Q) /\
  ((r <= val x / val y)%Q -> (r <= val (dy_quot p x y))%Q).
Proof.
  intros Hp Hy R. destruct (Z.eq_dec (mant x) 0) as [E|Hx].
  { destruct (quot_zero p x y E) as [-> ->]. auto. }
  destruct (quot_shape p x y Hp Hx Hy) as (n & d & e & s & Hd & Hn & Hs & -> & ->).
  assert (R': representable p (inject_Z s * r * Qpower 2 (- e))%Q).
  { apply rep_scale. destruct Hs as [-> | ->].
    - apply rep_ext with r; [ring|exact R].
    - apply rep_ext with (- r)%Q; [change (inject_Z (-1)) with (-(1))%Q; ring|now apply rep_opp]. }
  destruct R' as (m & f & Hm & E).
  assert (Er: (r == inject_Z s * val (Dy m f) * Qpower 2 e)%Q).
  { rewrite <- E. assert (Ee: (Qpower 2 (- e) * Qpower 2 e == 1)%Q).
    { rewrite <- p2_add. replace (- e + e) with 0 by lia. reflexivity. }
    rewrite <- Qmult_assoc, <- (Qmult_assoc _ (Qpower 2 (- e))), Ee.
    destruct Hs as [-> | ->]; [change (inject_Z 1) with 1%Q|change (inject_Z (-1)) with (-(1))%Q]; ring. }
  pose proof (sticky_le n d p m f Hp Hd Hn Hm) as A.
  pose proof (sticky_ge n d p m f Hp Hd Hn Hm) as B.
  pose proof (p2_pos e) as P. rewrite Er, !Qmult_le_r by exact P.
  destruct Hs as [-> | ->]; [change (inject_Z 1) with 1%Q|change (inject_Z (-1)) with (-(1))%Q];
    split; intros H.
  - rewrite !Qmult_1_l in *. auto.
  - rewrite !Qmult_1_l in *. auto.
  - assert (val (Dy m f) <= inject_Z n / inject_Z d)%Q by lra. apply B in H0. lra.
  - assert (inject_Z n / inject_Z d <= val (Dy m f))%Q by lra. apply A in H0. lra.
Qed.

Definition fdiv (p : Z) (x y : dyadic) : dyadic := rndp p (dy_quot p x y).
Lemma f32_div_fdiv x y : f32_div x y = fdiv 24 x y. Proof. reflexivity. Qed.
Lemma f64_div_fdiv x y : f64_div x y = fdiv 53 x y. Proof. reflexivity. Qed.

Lemma rep_dy p r : representable p r -> exists d, (val d == r)%Q /\ representable p (val d).
Proof.
  intros (m & e & H & E). exists (Dy m e). split; [now symmetry|]. exists m, e. split; [exact H|reflexivity].
Qed.
Lemma rndp_le p x r : 0 < p -> representable p r -> (val x <= r)%Q -> (val (rndp p x) <= r)%Q.
Proof.
  intros Hp R H. destruct (rep_dy p r R) as (d & E & R'). rewrite <- E in *.
  rewrite <- (rndp_exact p d Hp R'). now apply rndp_mono.
Qed.
Lemma rndp_ge p x r : 0 < p -> representable p r -> (r <= val x)%Q -> (r <= val (rndp p x))%Q.
Proof.
  intros Hp R H. destruct (rep_dy p r R) as (d & E & R'). rewrite <- E in *.
  rewrite <- (rndp_exact p d Hp R'). now apply rndp_mono.
Qed.
Lemma fdiv_le p x y r : 0 < p -> mant y <> 0 -> representable p r ->
  (val x / val y <= r)%Q -> (val (fdiv p x y) <= r)%Q.
Proof. intros Hp Hy R H. apply rndp_le; auto. now apply quot_cmp. Qed.
Lemma fdiv_ge p x y r : 0 < p -> mant y <> 0 -> representable p r ->
  (r <= val x / val y)%Q -> (r <= val (fdiv p x y))%Q.
Proof. intros Hp Hy R H. apply rndp_ge; auto. now apply quot_cmp. Qed.
Lemma fdiv_exact p x y : 0 < p -> mant y <> 0 -> representable p (val x / val y)%Q ->
  (val (fdiv p x y) == val x / val y)%Q.
Proof. intros Hp Hy R. apply Qle_antisym; [apply fdiv_le|apply fdiv_ge]; auto; apply Qle_refl. Qed.

(** Relative error of the quotient *)
Lemma quot_rel p x y : 0 < p -> mant y <> 0 ->
  (Qabs (val (dy_quot p x y) - val x / val y) <= Qabs (val x / val y) * Qpower 2 (- p))%Q.
Proof.
  intros Hp Hy. destruct (Z.eq_dec (mant x) 0) as [E|Hx].
  { destruct (quot_zero p x y E) as [-> ->]. cbn. discriminate. }
  destruct (quot_shape p x y Hp Hx Hy) as (n & d & e & s & Hd & Hn & Hs & -> & ->).
  setoid_replace (inject_Z s * val (Dy (quot_bits n d) (-1)) * Qpower 2 e - inject_Z s * (inject_Z n / inject_Z d) * Qpower 2 e)%Q
    with (inject_Z s * (val (Dy (quot_bits n d) (-1)) - inject_Z n / inject_Z d) * Qpower 2 e)%Q by ring.
  rewrite !Qabs_pow2, !Qabs_Qmult.
  assert (Es: (Qabs (inject_Z s) == 1)%Q) by (destruct Hs as [-> | ->]; reflexivity).
  rewrite Es, !Qmult_1_l.
  rewrite <- Qmult_assoc, (Qmult_comm (Qpower 2 e)), Qmult_assoc. apply Qmult_le_r; [apply p2_pos|].
  assert (D0: (0 < inject_Z d)%Q) by (rewrite <- (Zlt_Qlt 0); lia).
  assert (Big: (inject_Z (2 ^ (p + 1)) <= inject_Z n / inject_Z d)%Q) by (apply inj_div_ge; lia).
  assert (P1: (0 < inject_Z (2 ^ (p + 1)))%Q) by (rewrite <- (Zlt_Qlt 0); apply Z.pow_pos_nonneg; lia).
  rewrite (Qabs_pos (inject_Z n / inject_Z d)) by lra.
  assert (Near: (Qabs (val (Dy (quot_bits n d) (-1)) - inject_Z n / inject_Z d) <= 1 # 2)%Q).
  { rewrite val_half. pose proof (Z.div_mod n d ltac:(lia)) as E. pose proof (Z.mod_pos_bound n d Hd) as B.
    assert (Lo: (inject_Z (n / d) <= inject_Z n / inject_Z d)%Q) by (apply inj_div_ge; nia).
    assert (Hi: (inject_Z n / inject_Z d <= inject_Z (n / d + 1))%Q) by (apply inj_div_le; nia).
    unfold quot_bits. rewrite inject_Z_plus, inject_Z_mult. rewrite inject_Z_plus in Hi.
    change (inject_Z 1) with 1%Q in Hi. change (inject_Z 2) with 2%Q.
    apply Qabs_Qle_condition.
    destruct (Z.eqb_spec (n mod d) 0) as [R|R].
    - assert (Hi': (inject_Z n / inject_Z d <= inject_Z (n / d))%Q) by (apply inj_div_le; nia).
      change (inject_Z 0) with 0%Q. lra.
    - change (inject_Z 1) with 1%Q. lra. }
  eapply Qle_trans; [exact Near|].
  apply Qle_trans with (inject_Z (2 ^ (p + 1)) * Qpower 2 (- p))%Q.
  - rewrite p2_Z, <- p2_add by lia. replace (p + 1 + - p) with 1 by lia. discriminate.
  - apply Qmult_le_compat_r; [exact Big|apply Qlt_le_weak, p2_pos].
Qed.

Lemma Qabs_tri a b c : (Qabs (a - c) <= Qabs (a - b) + Qabs (b - c))%Q.
Proof.
  setoid_replace (a - c)%Q with ((a - b) + (b - c))%Q by ring. apply Qabs_triangle.
Qed.
Lemma fdiv_rel p x y : 0 < p -> mant y <> 0 ->
  (Qabs (val (fdiv p x y) - val x / val y) <= Qabs (val x / val y) * (3 * Qpower 2 (- p)))%Q.
Proof.
  intros Hp Hy. pose proof (quot_rel p x y Hp Hy) as A. pose proof (rndp_rel p (dy_quot p x y) Hp) as B.
  fold (fdiv p x y) in B.
  pose proof (Qabs_tri (val (fdiv p x y)) (val (dy_quot p x y)) (val x / val y)) as T.
  assert (C: (Qabs (val (dy_quot p x y)) <= Qabs (val x / val y) * 2)%Q).
  { pose proof (Qabs_triangle (val (dy_quot p x y) - val x / val y) (val x / val y)) as T2.
    setoid_replace (val (dy_quot p x y) - val x / val y + val x / val y)%Q with (val (dy_quot p x y)) in T2 by ring.
    assert (Qabs (val x / val y) * Qpower 2 (- p) <= Qabs (val x / val y) * 1)%Q.
    { rewrite !(Qmult_comm (Qabs _)). apply Qmult_le_compat_r; [|apply Qabs_nonneg].
      apply (Qpower_le_compat_l 2 (- p) 0); [lia|discriminate]. }
    lra. }
  assert (D: (Qabs (val (dy_quot p x y)) * Qpower 2 (- p) <= Qabs (val x / val y) * 2 * Qpower 2 (- p))%Q).
  { apply Qmult_le_compat_r; [exact C|apply Qlt_le_weak, p2_pos]. }
  set (u := Qpower 2 (- p)) in *. set (v := Qabs (val x / val y)%Q) in *. clearbody u v.
  setoid_replace (v * (3 * u))%Q with (v * u + v * 2 * u)%Q by ring. lra.
Qed.

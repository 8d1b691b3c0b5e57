(** The candidate break points of fontcrunch. *)
From Coq Require Import QArith Qabs Qpower Lqa.
From Verif.Model Require Import MBase MFixed MFloat MFloat32 MGlyph MGlyf MPath MIup MCrunch.
From Verif.Spec Require Import SBase SFloat SGlyph SGlyf SPath SCrunch.
From Verif.Proofs Require Import PBase PFloat PFloat32 PRound PAffine PPath PCrunch PCrunchGrid.
Local Open Scope Z_scope.
Ltac Zify.zify_post_hook ::= Z.div_mod_to_equations.

Definition ulp : Q := (1 # 2 ^ 53)%Q.
Lemma rnd_err x : (Qabs (val (rnd53 x) - val x) <= Qabs (val x) * ulp)%Q.
Proof. exact (rndp_rel 53 x eq_refl). Qed.
Lemma abs_le q r : (Qabs q <= r)%Q <-> (- r <= q /\ q <= r)%Q.
Proof. apply Qabs_Qle_condition. Qed.

(** an operation whose exact result is within [B] *)
Lemma rnd_within x q B e : (Qabs (val x - q) <= e)%Q -> (Qabs q <= B)%Q -> (0 <= e)%Q ->
  (Qabs (val (rnd53 x) - q) <= e + (B + e) * ulp)%Q.
Proof.
  intros H Hq He. pose proof (rnd_err x) as R.
  assert (X: (Qabs (val x) <= B + e)%Q). { apply abs_le in H. apply abs_le in Hq. apply abs_le. lra. }
  assert (Y: (Qabs (val x) * ulp <= (B + e) * ulp)%Q) by (apply Qmult_le_compat_r; [exact X|discriminate]).
  apply abs_le in H. assert (Z1: (Qabs (val (rnd53 x) - val x) <= (B + e) * ulp)%Q) by (eapply Qle_trans; eassumption).
  apply abs_le in Z1. apply abs_le. set (u := ((B + e) * ulp)%Q) in *. clearbody u. lra.
Qed.

Lemma round_near x : (Qabs (inject_Z (dy_round x) - val x) <= 1 # 2)%Q.
Proof.
  unfold dy_round. destruct x as [m e]; cbn [mant expo]. destruct (Z.leb_spec 0 e) as [He|He].
  - rewrite inject_Z_mult, p2_Z, val_Dy by lia. apply abs_le. split; ring_simplify; discriminate.
  - rewrite val_Dy. set (k := - e) in *. assert (P: 0 < 2 ^ k) by (apply Z.pow_pos_nonneg; lia).
    assert (Ek: (Qpower 2 e * inject_Z (2 ^ k) == 1)%Q). { rewrite p2_Z by lia. rewrite <- p2_add. unfold k. rewrite Z.add_opp_diag_r. reflexivity. }
    set (D := 2 ^ k) in *. set (r := Z.sgn m * ((2 * Z.abs m + D) / (2 * D))).
    assert (B: -D <= 2 * (r * D - m) <= D).
    { unfold r. destruct (Z.sgn_spec m) as [[S ->]|[[S ->]|[S ->]]]; nia. }
    assert (D0: (0 < inject_Z D)%Q) by (rewrite <- (Zlt_Qlt 0); lia).
    assert (Em: (inject_Z m * Qpower 2 e == inject_Z m / inject_Z D)%Q).
    { setoid_replace (inject_Z m / inject_Z D)%Q with (inject_Z m / inject_Z D * (Qpower 2 e * inject_Z D))%Q by (rewrite Ek; ring). field. lra. }
    rewrite Em. setoid_replace (inject_Z r - inject_Z m / inject_Z D)%Q with ((inject_Z (r * D - m)) / inject_Z D)%Q.
    2:{ unfold Z.sub. rewrite inject_Z_plus, inject_Z_mult, inject_Z_opp. field. lra. }
    apply abs_le. split.
    + apply Qle_shift_div_l; [exact D0|]. setoid_replace (- (1 # 2) * inject_Z D)%Q with (inject_Z (- D) * (1 # 2))%Q by (rewrite inject_Z_opp; ring).
      assert (inject_Z (- D) <= inject_Z (2 * (r * D - m)))%Q by (rewrite <- Zle_Qle; lia). rewrite inject_Z_mult in H. change (inject_Z 2) with 2%Q in H. lra.
    + apply Qle_shift_div_r; [exact D0|]. assert (inject_Z (2 * (r * D - m)) <= inject_Z D)%Q by (rewrite <- Zle_Qle; lia).
      rewrite inject_Z_mult in H. change (inject_Z 2) with 2%Q in H. lra.
Qed.

(** the half steps *)
Lemma half_step_spec v : representable 53 (val v) -> (Qabs (val v) <= inject_Z (2 ^ 33))%Q ->
  half_unit (half_step v) /\ (Qabs (val (half_step v) - val v) <= 1 # 4)%Q.
Proof.
  intros R B. unfold half_step. set (d := f64_mul (Dy 2 0) v).
  assert (Ed: (val d == 2 * val v)%Q).
  { unfold d, f64_mul, rnd53. assert (E: (val (dy_mul (Dy 2 0) v) == 2 * val v)%Q) by (rewrite val_mul; change (val (Dy 2 0)) with (2 * 1)%Q; ring).
    rewrite rndp_exact; [exact E|lia|]. eapply rep_ext; [symmetry; exact E|]. eapply rep_ext; [|exact (rep_scale 53 _ 1 R)].
    change (Qpower 2 1) with 2%Q. ring. }
  set (z := dy_round d). pose proof (round_near d) as N. fold z in N. rewrite Ed in N.
  assert (Bz: Z.abs z <= 2 ^ 35).
  { apply abs_le in N, B. assert (L: (inject_Z z <= inject_Z (2 ^ 35))%Q). { change (inject_Z (2 ^ 35)) with (34359738368#1)%Q. change (inject_Z (2 ^ 33)) with (8589934592#1)%Q in B. lra. }
    assert (L': (inject_Z (- 2 ^ 35) <= inject_Z z)%Q). { change (inject_Z (- 2 ^ 35)) with (-34359738368#1)%Q. change (inject_Z (2 ^ 33)) with (8589934592#1)%Q in B. lra. }
    rewrite <- Zle_Qle in L, L'. lia. }
  assert (E: e8 (4 * z) (f64_mul f_half (dy_of_Z z))).
  { apply e8_half; [lia|]. replace (2 * (4 * z)) with (8 * z) by lia. apply e8_int. }
  assert (E2: (val (f64_mul f_half (dy_of_Z z)) == z # 2)%Q). { unfold e8 in E. rewrite E. unfold Qeq; cbn [Qnum Qden]. lia. }
  split.
  - exists z. split; [exact E2|lia].
  - rewrite E2. setoid_replace (z # 2)%Q with (inject_Z z * (1 # 2))%Q by (unfold Qeq, Qmult, inject_Z; cbn [Qnum Qden]; lia).
    apply abs_le in N. apply abs_le. lra.
Qed.
Lemma half_eq a b : half_unit a -> half_unit b -> f64_is_close a b = true <-> (val a == val b)%Q.
Proof.
  intros (x & X & Bx) (y & Y & By).
  assert (E: forall v z, (val v == z # 2)%Q -> e8 (4 * z) v). { intros v z H. unfold e8. rewrite H. unfold Qeq; cbn [Qnum Qden]. lia. }
  rewrite (e8_close (4 * x) (4 * y)); [|lia|lia|now apply E|now apply E]. rewrite X, Y. unfold Qeq; cbn [Qnum Qden]. lia.
Qed.
Lemma close_same p q : on_grid p -> on_grid q -> kp_close p q = true <-> same_place p q.
Proof. intros [A B] [C D]. unfold kp_close, same_place. rewrite andb_true_iff, !half_eq by assumption. reflexivity. Qed.

(** interpolation *)
Lemma lerp_near a b f B : (Qabs (val a) <= inject_Z (2 ^ 26))%Q -> (Qabs (val b) <= inject_Z (2 ^ 26))%Q -> (0 <= B /\ B < 1)%Q ->
  (Qabs (val f - B) <= ulp)%Q ->
  representable 53 (val (f64_lerp a b f)) /\ (Qabs (val (f64_lerp a b f) - ((1 - B) * val a + B * val b)) <= 1 # 2000000)%Q.
Proof.
  intros Ha Hb Hf Hff. split; [apply rndp_rep; lia|]. set (P := inject_Z (2 ^ 26)) in *.
  assert (EP: (P == 67108864 # 1)%Q) by reflexivity. clearbody P.
  apply abs_le in Ha. apply abs_le in Hb. set (x := val a) in *. set (y := val b) in *.
  pose proof (rnd_within (dy_sub b a) (y - x) (2 * P) 0) as H1. fold (f64_sub b a) in H1.
  assert (H1': (Qabs (val (f64_sub b a) - (y - x)) <= 0 + (2 * P + 0) * ulp)%Q).
  { apply H1; [rewrite val_sub; fold x y; setoid_replace (y - x - (y - x))%Q with 0%Q by ring; vm_compute; discriminate|apply abs_le; lra|apply Qle_refl]. }
  clear H1. set (d := f64_sub b a) in *.
  assert (Hd: (Qabs (val d - (y - x)) <= 1 # 4000000)%Q). { eapply Qle_trans; [exact H1'|]. rewrite EP; vm_compute; discriminate. }
  clear H1'. apply abs_le in Hd. apply abs_le in Hff. unfold ulp in Hff.
  assert (M0: (Qabs (val f * val d - B * (y - x)) <= 1 # 3000000)%Q).
  { setoid_replace (val f * val d - B * (y - x))%Q with ((val f - B) * val d + B * (val d - (y - x)))%Q by ring.
    set (g := (val f - B)%Q) in *. set (h := (val d - (y - x))%Q) in *.
    assert (Dd: (Qabs (val d) <= 134217729 # 1)%Q) by (apply abs_le; unfold h in Hd; lra).
    eapply Qle_trans; [apply Qabs_triangle|]. rewrite !Qabs_Qmult.
    assert (A1: (Qabs g * Qabs (val d) <= (1 # 2 ^ 53) * (134217729 # 1))%Q).
    { apply Qmult_le_compat_nonneg; split; try apply Qabs_nonneg; [apply abs_le; lra|exact Dd]. }
    assert (A2: (Qabs B * Qabs h <= 1 * (1 # 4000000))%Q).
    { apply Qmult_le_compat_nonneg; split; try apply Qabs_nonneg; [apply abs_le; lra|apply abs_le; lra]. }
    eapply Qle_trans; [apply Qplus_le_compat; [exact A1|exact A2]|]. vm_compute; discriminate. }
  assert (BB: (Qabs (B * (y - x)) <= 2 * P)%Q).
  { rewrite Qabs_Qmult. setoid_replace (2 * P)%Q with (1 * (2 * P))%Q by ring.
    apply Qmult_le_compat_nonneg; split; try apply Qabs_nonneg; [apply abs_le; lra|apply abs_le; lra]. }
  pose proof (rnd_within (dy_mul f d) (B * (y - x)) (2 * P) (1 # 3000000)) as H2. fold (f64_mul f d) in H2.
  assert (H2': (Qabs (val (f64_mul f d) - B * (y - x)) <= 1 # 2500000)%Q).
  { eapply Qle_trans; [apply H2; [rewrite val_mul; exact M0|exact BB|discriminate]|]. rewrite EP; vm_compute; discriminate. }
  clear H2. set (m := f64_mul f d) in *.
  assert (S0: (Qabs (val (dy_add a m) - ((1 - B) * x + B * y)) <= 1 # 2500000)%Q).
  { rewrite val_add. fold x. setoid_replace (x + val m - ((1 - B) * x + B * y))%Q with (val m - B * (y - x))%Q by ring. exact H2'. }
  assert (SB: (Qabs ((1 - B) * x + B * y) <= 3 * P)%Q).
  { setoid_replace ((1 - B) * x + B * y)%Q with (x + B * (y - x))%Q by ring. eapply Qle_trans; [apply Qabs_triangle|].
    setoid_replace (3 * P)%Q with (P + 2 * P)%Q by ring. apply Qplus_le_compat; [apply abs_le; lra|exact BB]. }
  eapply Qle_trans; [apply (rnd_within _ _ _ _ S0 SB); discriminate|]. rewrite EP; vm_compute; discriminate.
Qed.

Definition modest (l : list kpoint) : Prop :=
  Forall (fun p => Qabs (val (fst p)) <= inject_Z (2 ^ 26) /\ Qabs (val (snd p)) <= inject_Z (2 ^ 26))%Q l.
Lemma trunc_pos s : (0 <= val s)%Q -> 0 <= dy_trunc s /\ (inject_Z (dy_trunc s) <= val s)%Q /\ (val s < inject_Z (dy_trunc s) + 1)%Q.
Proof.
  intros H. rewrite trunc_floor. apply mant_sign in H as H'. apply Z.leb_le in H'. rewrite H'.
  pose proof (floor_spec s) as [A B]. rewrite inject_Z_plus in B. split; [now apply floor_nonneg|]. auto.
Qed.
Lemma at_ok {A} (l : list A) i : (i < length l)%nat -> exists a, at_ l i = Ok a /\ nth_error l i = Some a.
Proof. intros H. unfold at_. destruct (nth_error l i) as [a|] eqn:E; [exists a; split; reflexivity|]. apply nth_error_None in E. lia. Qed.
Lemma along_ok l s : (0 <= val s)%Q -> (Z.to_nat (dy_trunc s) + 1 < length l)%nat -> exists o, along l s = Ok o.
Proof.
  intros H Hl. unfold along. destruct (Nat.leb_spec (length l) (Z.to_nat (dy_trunc s))); [lia|].
  destruct (at_ok l (Z.to_nat (dy_trunc s)) ltac:(lia)) as (a & -> & _). destruct (at_ok l (Z.to_nat (dy_trunc s) + 1) Hl) as (b & -> & _). cbn [rbind]. eauto.
Qed.
Lemma along_spec l s o : modest l -> (0 <= val s)%Q -> (Z.to_nat (dy_trunc s) + 1 < length l)%nat -> along l s = Ok o ->
  on_grid (kp_half_step o) /\ beside l (val s) (kp_half_step o).
Proof.
  intros M H Hl. unfold along. destruct (Nat.leb_spec (length l) (Z.to_nat (dy_trunc s))); [lia|].
  destruct (at_ok l (Z.to_nat (dy_trunc s)) ltac:(lia)) as (a & -> & Na). destruct (at_ok l (Z.to_nat (dy_trunc s) + 1) Hl) as (b & -> & Nb).
  cbn [rbind]. intros E. injection E as <-. destruct (trunc_pos s H) as (T0 & T1 & T2). set (k := dy_trunc s) in *.
  set (f := f64_sub s (dy_of_Z k)).
  assert (Hf: (Qabs (val f - (val s - inject_Z k)) <= ulp)%Q).
  { pose proof (rnd_err (dy_sub s (dy_of_Z k))) as R. fold (f64_sub s (dy_of_Z k)) in R. fold f in R. rewrite val_sub, val_int in R.
    eapply Qle_trans; [exact R|]. rewrite Qabs_pos by lra. setoid_replace ulp with (1 * ulp)%Q at 2 by ring. apply Qmult_le_compat_r; [lra|discriminate]. }
  pose proof (proj1 (Forall_forall _ _) M _ (nth_error_In _ _ Na)) as [Ax Ay].
  pose proof (proj1 (Forall_forall _ _) M _ (nth_error_In _ _ Nb)) as [Bx By]. cbv beta in Ax, Ay, Bx, By.
  assert (F: (0 <= val s - inject_Z k /\ val s - inject_Z k < 1)%Q) by lra. set (B := (val s - inject_Z k)%Q) in *.
  destruct (lerp_near _ _ f B Ax Bx F Hf) as [Rx Nx]. destruct (lerp_near _ _ f B Ay By F Hf) as [Ry Ny].
  assert (Bd: forall x y v, (Qabs x <= inject_Z (2 ^ 26))%Q -> (Qabs y <= inject_Z (2 ^ 26))%Q -> (Qabs (v - ((1 - B) * x + B * y)) <= 1 # 2000000)%Q -> (Qabs v <= inject_Z (2 ^ 33))%Q).
  { intros x y v X Y V. apply abs_le in X, Y, V. change (inject_Z (2 ^ 26)) with (67108864#1)%Q in *. change (inject_Z (2 ^ 33)) with (8589934592#1)%Q.
    assert (C: (Qabs (B * (y - x)) <= 1 * (134217728#1))%Q).
    { rewrite Qabs_Qmult. apply Qmult_le_compat_nonneg; split; try apply Qabs_nonneg; apply abs_le; lra. }
    apply abs_le in C. apply abs_le. setoid_replace ((1 - B) * x + B * y)%Q with (x + B * (y - x))%Q in V by ring.
    set (w := (B * (y - x))%Q) in *. clearbody w. lra. }
  destruct (half_step_spec _ Rx (Bd _ _ _ Ax Bx Nx)) as [Gx Hx]. destruct (half_step_spec _ Ry (Bd _ _ _ Ay By Ny)) as [Gy Hy].
  split; [split; assumption|].
  exists (Z.to_nat k), a, b, B. split; [exact Na|]. split; [now rewrite <- Nat.add_1_r|].
  split. { rewrite Z2Nat.id by lia. unfold B in *. split; [ring|exact F]. }
  unfold kp_half_step, kp_lerp; cbn [fst snd]. apply abs_le in Nx, Ny, Hx, Hy. split; apply abs_le; split; lra.
Qed.

Section L.
Variable hypot : dyadic -> dyadic -> dyadic.
Variable t : thetas.
Hypothesis W : well_sampled t.
Let n := sample_count t.
Let L := val (th_arclen t).

Lemma count_spec : 1 <= n < 2 ^ 31 - 1 /\ (inject_Z n <= 16 * L)%Q.
Proof.
  destruct W as (_ & _ & [L0 L1] & _). fold L in L0, L1. unfold n, sample_count.
  set (x := f64_mul (Dy 10 0) (th_arclen t)).
  assert (E: (val (dy_mul (Dy 10 0) (th_arclen t)) == 10 * L)%Q) by (rewrite val_mul; fold L; change (val (Dy 10 0)) with (10 * 1)%Q; ring).
  pose proof (rnd_err (dy_mul (Dy 10 0) (th_arclen t))) as R. fold (f64_mul (Dy 10 0) (th_arclen t)) in R. fold x in R. rewrite E in R.
  rewrite (Qabs_pos (10 * L)) in R by lra. apply abs_le in R. pose proof (round_near x) as N. apply abs_le in N. set (z := dy_round x) in *.
  change (inject_Z (2 ^ 27)) with (134217728 # 1)%Q in L1.
  assert (U: (10 * L * ulp <= 10 * L * (1 # 1000))%Q). { rewrite !(Qmult_comm (10 * L)). apply Qmult_le_compat_r; [discriminate|lra]. }
  assert (Z1: (inject_Z 0 < inject_Z z)%Q) by (change (inject_Z 0) with 0%Q; lra).
  assert (Z2: (inject_Z z < inject_Z 2000000000)%Q) by (change (inject_Z 2000000000) with (2000000000 # 1)%Q; lra).
  rewrite <- Zlt_Qlt in Z1, Z2. rewrite sat_id by lia. split; [lia|]. lra.
Qed.

Lemma sample_err i : 0 <= i <= n -> (Qabs (val (sample_at t n i) - L * (inject_Z i / inject_Z n)) <= 1 # 10000000)%Q.
Proof.
  intros Hi. destruct count_spec as [Hn _]. destruct W as (_ & _ & [L0 L1] & _). fold L in L0, L1. change (inject_Z (2 ^ 27)) with (134217728 # 1)%Q in L1.
  set (r := (inject_Z i / inject_Z n)%Q).
  assert (n0: (0 < inject_Z n)%Q) by (rewrite <- (Zlt_Qlt 0); lia).
  assert (Hr: (0 <= r /\ r <= 1)%Q).
  { unfold r. split; [apply Qle_shift_div_l; [exact n0|ring_simplify; rewrite <- (Zle_Qle 0); lia]|].
    apply Qle_shift_div_r; [exact n0|]. rewrite Qmult_1_l, <- Zle_Qle. lia. }
  unfold sample_at. set (m := f64_mul (th_arclen t) (dy_of_Z i)).
  assert (Hm: (Qabs (val m - L * inject_Z i) <= L * inject_Z i * ulp)%Q).
  { pose proof (rnd_err (dy_mul (th_arclen t) (dy_of_Z i))) as R. fold (f64_mul (th_arclen t) (dy_of_Z i)) in R. fold m in R.
    rewrite val_mul, val_int in R. fold L in R. eapply Qle_trans; [exact R|]. rewrite Qabs_pos; [apply Qle_refl|].
    apply Qmult_le_0_compat; [lra|rewrite <- (Zle_Qle 0); lia]. }
  assert (Hq: (Qabs (val m / inject_Z n - L * r) <= L * r * ulp)%Q).
  { setoid_replace (val m / inject_Z n - L * r)%Q with ((val m - L * inject_Z i) * / inject_Z n)%Q by (unfold r; field; lra).
    rewrite Qabs_Qmult, (Qabs_pos (/ inject_Z n)) by (apply Qlt_le_weak, Qinv_lt_0_compat, n0).
    setoid_replace (L * r * ulp)%Q with (L * inject_Z i * ulp * / inject_Z n)%Q by (unfold r; field; lra).
    apply Qmult_le_compat_r; [exact Hm|apply Qlt_le_weak, Qinv_lt_0_compat, n0]. }
  assert (LR: (0 <= L * r /\ L * r <= 134217728 # 1)%Q).
  { split; [apply Qmult_le_0_compat; lra|]. setoid_replace (134217728 # 1)%Q with ((134217728 # 1) * 1)%Q by ring. apply Qmult_le_compat_nonneg; split; lra. }
  assert (Hq': (Qabs (val m / inject_Z n - L * r) <= 1 # 50000000)%Q).
  { eapply Qle_trans; [exact Hq|]. apply Qle_trans with ((134217728 # 1) * ulp)%Q; [apply Qmult_le_compat_r; [lra|discriminate]|vm_compute; discriminate]. }
  rewrite f64_div_fdiv.
  assert (Mn: mant (dy_of_Z n) <> 0) by (cbn; lia).
  pose proof (fdiv_rel 53 m (dy_of_Z n) ltac:(lia) Mn) as F.
  rewrite val_int in F. set (q := (val m / inject_Z n)%Q) in *.
  assert (Q1: (Qabs q <= 134217729 # 1)%Q) by (apply abs_le in Hq'; apply abs_le; lra).
  assert (F': (Qabs (val (fdiv 53 m (dy_of_Z n)) - q) <= 1 # 20000000)%Q).
  { eapply Qle_trans; [exact F|]. apply Qle_trans with ((134217729 # 1) * (3 * Qpower 2 (- (53))))%Q; [apply Qmult_le_compat_r; [exact Q1|vm_compute; discriminate]|vm_compute; discriminate]. }
  apply abs_le in F', Hq'. apply abs_le. lra.
Qed.
Lemma sample_step i j : 0 <= i < j -> j <= n -> (val (sample_at t n i) < val (sample_at t n j))%Q.
Proof.
  intros Hij Hj. destruct count_spec as [Hn H16]. destruct W as (_ & _ & [L0 L1] & _). fold L in L0, L1.
  pose proof (sample_err i ltac:(lia)) as A. pose proof (sample_err j ltac:(lia)) as B. apply abs_le in A, B.
  assert (n0: (0 < inject_Z n)%Q) by (rewrite <- (Zlt_Qlt 0); lia).
  assert (D: (1 # 16 <= L * (inject_Z j / inject_Z n) - L * (inject_Z i / inject_Z n))%Q).
  { setoid_replace (L * (inject_Z j / inject_Z n) - L * (inject_Z i / inject_Z n))%Q with (L * (inject_Z j - inject_Z i) / inject_Z n)%Q by (field; lra).
    apply Qle_shift_div_l; [exact n0|].
    assert (J: (inject_Z i + 1 <= inject_Z j)%Q). { change 1%Q with (inject_Z 1). rewrite <- inject_Z_plus, <- Zle_Qle. lia. }
    apply Qle_trans with (L * 1)%Q; [lra|]. rewrite !(Qmult_comm L). apply Qmult_le_compat_r; lra. }
  lra.
Qed.
Lemma sample_range i : 0 <= i <= n -> (0 <= val (sample_at t n i))%Q /\ (val (sample_at t n i) <= L + (1 # 1000000))%Q.
Proof.
  intros Hi. destruct count_spec as [Hn _]. destruct W as (_ & _ & [L0 L1] & _). fold L in L0, L1.
  assert (n0: (0 < inject_Z n)%Q) by (rewrite <- (Zlt_Qlt 0); lia).
  split.
  - unfold sample_at. rewrite f64_div_fdiv. apply fdiv_ge; [lia|cbn; lia|apply (rep_int 53 0); lia|].
    rewrite val_int. apply Qle_shift_div_l; [exact n0|]. rewrite Qmult_0_l. unfold f64_mul, rnd53.
    apply rndp_ge; [lia|apply (rep_int 53 0); lia|]. rewrite val_mul, val_int. fold L. apply Qmult_le_0_compat; [lra|rewrite <- (Zle_Qle 0); lia].
  - pose proof (sample_err i Hi) as A. apply abs_le in A.
    assert (R: (L * (inject_Z i / inject_Z n) <= L * 1)%Q).
    { rewrite !(Qmult_comm L). apply Qmult_le_compat_r; [|lra]. apply Qle_shift_div_r; [exact n0|]. rewrite Qmult_1_l, <- Zle_Qle. lia. }
    lra.
Qed.
Lemma sample_bucket i : 0 <= i <= n -> (Z.to_nat (dy_trunc (sample_at t n i)) + 1 < length (th_xys t))%nat.
Proof.
  intros Hi. destruct (sample_range i Hi) as [A B]. destruct (trunc_pos _ A) as (T0 & T1 & _). destruct W as (_ & _ & _ & H). fold L in H.
  assert (inject_Z (dy_trunc (sample_at t n i) + 1) < inject_Z (Z.of_nat (length (th_xys t))))%Q.
  { rewrite inject_Z_plus. change (inject_Z 1) with 1%Q. lra. }
  rewrite <- Zlt_Qlt in H0. lia.
Qed.

Definition from_sample (i : Z) (b : brk) : Prop :=
  exists o, 0 <= i <= n /\ bk_s b = sample_at t n i /\ along (th_xys t) (bk_s b) = Ok o /\ bk_xy b = kp_half_step o.
Lemma from_sample_spec i b : from_sample i b -> on_grid (bk_xy b) /\ beside (th_xys t) (val (bk_s b)) (bk_xy b).
Proof.
  intros (o & Hi & Es & Eo & Ep). rewrite Ep. apply along_spec; [apply W|rewrite Es; now apply sample_range|rewrite Es; now apply sample_bucket|exact Eo].
Qed.
(** newest first *)
Fixpoint strung_down (l : list brk) : Prop :=
  match l with
  | [] => True
  | b :: l' => match l' with [] => True | c :: _ => (val (bk_s c) < val (bk_s b))%Q /\ ~ same_place (bk_xy c) (bk_xy b) end /\ strung_down l'
  end.
(** the place of sample [i] *)
Definition spot_at (i : Z) (p : kpoint) : Prop := exists o, along (th_xys t) (sample_at t n i) = Ok o /\ p = kp_half_step o.
Definition inv (i : Z) (acc : list brk) : Prop :=
  (forall b, In b acc -> exists j, j < i /\ from_sample j b) /\ strung_down acc /\
  (exists b p, hd_error acc = Some b /\ spot_at (i - 1) p /\ same_place (bk_xy b) p) /\
  (exists b p, hd_error (rev acc) = Some b /\ spot_at 0 p /\ same_place (bk_xy b) p).

Lemma same_refl p : same_place p p. Proof. split; reflexivity. Qed.
Lemma same_trans p q r : same_place p q -> same_place q r -> same_place p r.
Proof. intros [A B] [C D]. split; [now rewrite A|now rewrite B]. Qed.
Lemma same_sym p q : same_place p q -> same_place q p.
Proof. intros [A B]. split; now symmetry. Qed.

Lemma loop_spec m : forall i acc lastd, 0 < i -> i + Z.of_nat m = n + 1 -> inv i acc ->
  exists acc', break_loop hypot t n acc lastd (map Z.of_nat (seq (Z.to_nat i) m)) = Ok (Some (rev acc')) /\ inv (n + 1) acc'.
Proof.
  induction m as [|m IH]; intros i acc lastd Hi Em I.
  - exists acc. split; [reflexivity|]. replace (n + 1) with i by lia. exact I.
  - cbn [seq map break_loop]. rewrite Z2Nat.id by lia. set (s := sample_at t n i).
    assert (Hin: 0 <= i <= n) by lia. pose proof (sample_bucket i Hin) as Hb. fold s in Hb.
    destruct (Nat.ltb_spec (length (th_xys t)) (Z.to_nat (dy_trunc s) + 1)); [lia|].
    pose proof (sample_range i Hin) as [S0 _]. fold s in S0.
    destruct (along_ok _ _ S0 Hb) as [o Eo]. rewrite Eo. cbn [rbind].
    assert (Hd: (Z.to_nat (dy_trunc s) + 1 < length (th_dirs t))%nat) by (destruct W as (_ & -> & _); exact Hb).
    destruct (along_ok _ _ S0 Hd) as [d Ed]. rewrite Ed. cbn [rbind].
    set (p := kp_half_step o). set (bn := mk_brk s p d).
    destruct I as (If & Is & (bh & ph & Eh & Sh & Ph) & (bl & pl & El & Sl & Pl)).
    destruct acc as [|b acc]; [discriminate|]. injection Eh as ->.
    assert (Fn: from_sample i bn) by (exists o; repeat split; auto; lia).
    pose proof (from_sample_spec _ _ Fn) as [Gn _]. cbn [bn bk_xy] in Gn.
    destruct (If bh (or_introl eq_refl)) as (j & Hj & Fb). pose proof (from_sample_spec _ _ Fb) as [Gb _].
    destruct (Z.eqb_spec i 0); [lia|]. cbn [orb].
    replace (S (Z.to_nat i)) with (Z.to_nat (i + 1)) by lia.
    assert (Sn: spot_at i p) by (exists o; auto).
    destruct (kp_close p (bk_xy bh)) eqn:Ec; cbn [negb].
    + apply close_same in Ec; [|assumption|assumption].
      set (dist := hypot _ _). destruct (dy_ltb dist lastd) eqn:El'.
      * apply IH; [lia|lia|]. fold bn. split; [|split; [|split]].
        -- intros b' [<-|Hb']; [exists i; split; [lia|exact Fn]|]. destruct (If b' (or_intror Hb')) as (j' & Hj' & F'). exists j'. split; [lia|exact F'].
        -- destruct acc as [|c acc]; [exact (conj Logic.I Logic.I)|]. cbn [strung_down] in Is |- *. destruct Is as [[Lt Ne] Is]. split; [|exact Is].
           destruct (If c (or_intror (or_introl eq_refl))) as (jc & Hjc & (oc & Hc & Esc & _)). cbn [bn bk_s bk_xy]. split.
           ++ rewrite Esc. apply sample_step; lia.
           ++ intros X. apply Ne. eapply same_trans; [exact X|exact Ec].
        -- exists bn, p. replace (i + 1 - 1) with i by lia. split; [reflexivity|]. split; [exact Sn|apply same_refl].
        -- cbn [rev] in El |- *. destruct (rev acc) as [|y r] eqn:Er; cbn [app hd_error] in El |- *.
           ++ injection El as <-. exists bn, pl. split; [reflexivity|]. split; [exact Sl|]. eapply same_trans; [exact Ec|exact Pl].
           ++ injection El as <-. exists y, pl. auto.
      * apply IH; [lia|lia|]. split; [|split; [|split]].
        -- intros b' Hb'. destruct (If b' Hb') as (j' & Hj' & F'). exists j'. split; [lia|exact F'].
        -- exact Is.
        -- exists bh, p. replace (i + 1 - 1) with i by lia. split; [reflexivity|]. split; [exact Sn|]. now apply same_sym.
        -- exists bl, pl. auto.
    + apply IH; [lia|lia|]. fold bn. split; [|split; [|split]].
      * intros b' [<-|Hb']; [exists i; split; [lia|exact Fn]|]. destruct (If b' Hb') as (j' & Hj' & F'). exists j'. split; [lia|exact F'].
      * cbn [strung_down]. split; [|exact Is]. destruct Fb as (ob & Hob & Esb & _). cbn [bn bk_s bk_xy]. split.
        -- rewrite Esb. apply sample_step; lia.
        -- intros X. apply same_sym, close_same in X; [congruence|assumption|assumption].
      * exists bn, p. replace (i + 1 - 1) with i by lia. split; [reflexivity|]. split; [exact Sn|apply same_refl].
      * exists bl, pl. split; [|auto]. cbn [rev] in El |- *. destruct (rev acc ++ [bh]); [discriminate|exact El].
Qed.

Lemma strung_app l a b : strung (l ++ [a]) -> ((val (bk_s a) < val (bk_s b))%Q /\ ~ same_place (bk_xy a) (bk_xy b)) -> strung (l ++ [a; b]).
Proof.
  induction l as [|x l IH]; intros H Hab.
  - cbn. auto.
  - destruct l as [|y l].
    + cbn in H |- *. tauto.
    + cbn [app] in H |- *. cbn [strung] in H |- *. destruct H as [H1 H2]. split; [exact H1|]. exact (IH H2 Hab).
Qed.
Lemma strung_rev l : strung_down l -> strung (rev l).
Proof.
  induction l as [|b l IH]; intros H; [exact Logic.I|]. destruct l as [|c l]; [cbn; auto|].
  cbn [strung_down] in H. destruct H as [H1 H2]. specialize (IH H2). cbn [rev] in IH |- *. rewrite <- app_assoc. cbn [app]. now apply strung_app.
Qed.

Lemma find_breaks_spec : exists breaks, find_breaks hypot t = Ok (Some breaks) /\
  (forall b, In b breaks -> on_grid (bk_xy b) /\ beside (th_xys t) (val (bk_s b)) (bk_xy b)) /\
  strung breaks /\
  (exists b, hd_error breaks = Some b /\ beside (th_xys t) 0 (bk_xy b)) /\
  (exists b s, hd_error (rev breaks) = Some b /\ (Qabs (s - L) <= 1 # 1000000)%Q /\ beside (th_xys t) s (bk_xy b)).
Proof.
  destruct count_spec as [Hn _]. unfold find_breaks. fold n. unfold chk_i.
  destruct ((- 2 ^ (32 - 1) <=? n + 1) && (n + 1 <? 2 ^ (32 - 1))) eqn:E; [|lia]. cbn [rbind].
  replace (Z.to_nat (n + 1)) with (S (Z.to_nat n)) by lia. cbn [seq map break_loop]. change (Z.of_nat 0) with 0.
  set (s := sample_at t n 0). assert (Hin: 0 <= 0 <= n) by lia. pose proof (sample_bucket 0 Hin) as Hb. fold s in Hb.
  destruct (Nat.ltb_spec (length (th_xys t)) (Z.to_nat (dy_trunc s) + 1)); [lia|].
  pose proof (sample_range 0 Hin) as [S0 _]. fold s in S0.
  destruct (along_ok _ _ S0 Hb) as [o Eo]. rewrite Eo. cbn [rbind Z.eqb].
  assert (Hd: (Z.to_nat (dy_trunc s) + 1 < length (th_dirs t))%nat) by (destruct W as (_ & -> & _); exact Hb).
  destruct (along_ok _ _ S0 Hd) as [d Ed]. rewrite Ed. cbn [rbind].
  set (bn := mk_brk s (kp_half_step o) d).
  assert (Fn: from_sample 0 bn) by (exists o; repeat split; auto; lia).
  assert (Sn: spot_at 0 (kp_half_step o)) by (exists o; auto).
  destruct (loop_spec (Z.to_nat n) 1 [bn] (hypot (f64_sub (fst (kp_half_step o)) (fst o)) (f64_sub (snd (kp_half_step o)) (snd o)))) as (acc & Ea & I); [lia|lia| |].
  { split; [|split; [|split]].
    - intros b [<-|[]]. exists 0. split; [lia|exact Fn].
    - exact (conj Logic.I Logic.I).
    - exists bn, (kp_half_step o). split; [reflexivity|]. split; [exact Sn|apply same_refl].
    - exists bn, (kp_half_step o). split; [reflexivity|]. split; [exact Sn|apply same_refl]. }
  change (Z.to_nat 1) with 1%nat in Ea.
  destruct I as (If & Is & (bh & ph & Eh & Sh & Ph) & (bl & pl & El & Sl & Pl)).
  assert (Spot: forall i p, 0 <= i <= n -> spot_at i p -> beside (th_xys t) (val (sample_at t n i)) p).
  { intros i p Hi (o' & Eo' & ->). eapply (along_spec _ _ _ (proj1 W)); [now apply sample_range|now apply sample_bucket|exact Eo']. }
  assert (Same: forall q s p p', same_place p p' -> beside q s p' -> beside q s p).
  { intros q s' p p' [A B] (k & a & b & f & H1 & H2 & H3 & H4 & H5). exists k, a, b, f. rewrite A, B. auto. }
  exists (rev acc). split; [exact Ea|]. split; [|split; [|split]].
  - intros b Hb'. apply in_rev in Hb'. destruct (If b Hb') as (j & _ & F). now apply (from_sample_spec j).
  - now apply strung_rev.
  - exists bl. split; [exact El|]. eapply Same; [exact Pl|].
    pose proof (Spot 0 pl Hin Sl) as B0. assert (E0: (val (sample_at t n 0) == 0)%Q).
    { apply Qle_antisym; [|now apply sample_range]. unfold sample_at. rewrite f64_div_fdiv. apply fdiv_le; [lia|cbn; lia|apply (rep_int 53 0); lia|].
      assert (Zr: (val (f64_mul (th_arclen t) (dy_of_Z 0)) == 0)%Q).
      { unfold f64_mul, rnd53. rewrite rndp_exact; [rewrite val_mul, val_int; change (inject_Z 0) with 0%Q; ring|lia|].
        apply (rep_ext 53 (inject_Z 0)); [rewrite val_mul, val_int; change (inject_Z 0) with 0%Q; ring|apply rep_int; lia]. }
      rewrite Zr. unfold Qdiv. rewrite Qmult_0_l. apply Qle_refl. }
    destruct B0 as (k & a & b & f & H1 & H2 & H3 & H4 & H5). destruct H3 as [H3 H3']. rewrite E0 in H3. exists k, a, b, f. auto.
  - exists bh, (val (sample_at t n n)). rewrite rev_involutive. split; [exact Eh|]. replace (n + 1 - 1) with n in Sh by lia. split.
    + pose proof (sample_err n ltac:(lia)) as A. assert (n0: (0 < inject_Z n)%Q) by (rewrite <- (Zlt_Qlt 0); lia).
      setoid_replace (L * (inject_Z n / inject_Z n))%Q with L in A by (field; lra). apply abs_le in A. apply abs_le. lra.
    + eapply Same; [exact Ph|]. apply Spot; [lia|exact Sh].
Qed.
End L.

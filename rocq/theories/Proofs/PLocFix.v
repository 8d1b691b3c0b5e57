(** What ttf-instantiate understands: the value of a number in 65536ths. *)
From Coq Require Import List ZArith Lia Bool QArith Qabs Qpower Lqa.
Import ListNotations.
From Verif.Model Require Import MBase MFixed MFloat MFloat32 MTag MMap MVarModel MInst MLocArg.
From Verif.Spec Require Import SFloat SLocArg.
From Verif.Proofs Require Import PBase PFixed PFloat PFloat32 PRound PDivide PTag PLocArg.
Open Scope Z_scope.
Ltac Zify.zify_post_hook ::= idtac.

Lemma val_scale x k : (val (f32_scale x k) == val x * Qpower 2 k)%Q.
Proof. unfold f32_scale. rewrite val_Dy, p2_add, Qmult_assoc. reflexivity. Qed.

Definition half_up (x : dyadic) : dyadic := dy_add (f32_scale x 16) (Dy 1 (-1)).
Lemma as_packed_eq x : fixed_as_packed x = sat_i32 (dy_floor (rndp 24 (half_up x))).
Proof. unfold fixed_as_packed, ot_round. rewrite <- rnd24_rndp. reflexivity. Qed.
Lemma half_up_val x : (val (half_up x) == val x * 65536 + (1 # 2))%Q.
Proof. unfold half_up. rewrite val_add, val_scale. reflexivity. Qed.
Lemma as_packed_mono x y : (val x <= val y)%Q -> fixed_as_packed x <= fixed_as_packed y.
Proof.
  intros H. rewrite !as_packed_eq.
  assert (dy_floor (rndp 24 (half_up x)) <= dy_floor (rndp 24 (half_up y))).
  { apply floor_mono, rndp_mono; [lia|]. rewrite !half_up_val. lra. }
  unfold sat_i32. lia.
Qed.
Lemma as_packed_ext x y : (val x == val y)%Q -> fixed_as_packed x = fixed_as_packed y.
Proof. intros E. apply Z.le_antisymm; apply as_packed_mono; rewrite E; apply Qle_refl. Qed.
Lemma sat_bounds z : - 2 ^ 31 <= sat_i32 z <= 2 ^ 31 - 1.
Proof. unfold sat_i32. change (2 ^ 31) with 2147483648. lia. Qed.

(** ** Where nothing is lost *)
Lemma of_int_val p : representable 24 (inject_Z p) -> (val (f32_of_int p) == inject_Z p)%Q.
Proof.
  intros R. unfold f32_of_int. rewrite rnd24_rndp.
  assert (E: (val (Dy p 0) == inject_Z p)%Q) by (rewrite val_Dy; change (Qpower 2 0) with 1%Q; ring).
  rewrite rndp_exact; [exact E|lia|]. exact (rep_ext 24 _ _ (Qeq_sym _ _ E) R).
Qed.
Lemma from_packed_val p : representable 24 (inject_Z p) -> (val (fixed_from_packed p) == inject_Z p / 65536)%Q.
Proof. intros R. unfold fixed_from_packed. rewrite val_scale, of_int_val by exact R. change (Qpower 2 (-16)) with (1 # 65536)%Q. field. Qed.
Lemma rep_of_scaled p : representable 24 (inject_Z p) -> representable 24 (inject_Z p / 65536)%Q.
Proof.
  intros R. apply (rep_scale 24 _ (-16)) in R. change (Qpower 2 (-16)) with (1 # 65536)%Q in R.
  apply (rep_ext 24 (inject_Z p * (1 # 65536))%Q); [field|exact R].
Qed.
Lemma nearest_self q r : representable 24 q -> nearest24 q r -> (r == q)%Q.
Proof.
  intros R [_ N]. specialize (N q R). revert N. repeat apply Qabs_case; intros; lra.
Qed.
Lemma fixed_round_exact p x : representable 24 (inject_Z p) -> fixed_as_packed (fixed_from_packed p) = p ->
  (val x == inject_Z p / 65536)%Q -> (val (fixed_round x) == inject_Z p / 65536)%Q.
Proof.
  intros R E V. unfold fixed_round.
  rewrite (as_packed_ext x (fixed_from_packed p)); [|rewrite V; symmetry; now apply from_packed_val].
  rewrite E. now apply from_packed_val.
Qed.
Lemma rep_small p : Z.abs p <= 2 ^ 23 -> representable 24 (inject_Z p).
Proof. intros H. apply rep_int. change (2 ^ 23) with 8388608 in H. change (2 ^ 24) with 16777216. lia. Qed.
Lemma rep_whole k : -32768 <= k <= 32767 -> representable 24 (inject_Z (k * 65536)).
Proof.
  intros H. exists k, 16. split; [change (2 ^ 24) with 16777216; lia|]. rewrite val_Dy, inject_Z_mult. reflexivity.
Qed.

(** ** The largest and the smallest *)
Lemma nearest_above q r b : representable 24 b -> nearest24 q r -> (b <= q)%Q -> (b <= r)%Q.
Proof. intros R [_ N] H. specialize (N b R). revert N. repeat apply Qabs_case; intros; lra. Qed.
Lemma nearest_below q r b : representable 24 b -> nearest24 q r -> (q <= b)%Q -> (r <= b)%Q.
Proof. intros R [_ N] H. specialize (N b R). revert N. repeat apply Qabs_case; intros; lra. Qed.
Lemma packed_high x : (32768 <= val x)%Q -> fixed_as_packed x = 2 ^ 31 - 1.
Proof.
  intros H. pose proof (as_packed_mono (Dy 32768 0) x) as M.
  assert (A: fixed_as_packed (Dy 32768 0) = 2 ^ 31 - 1) by (vm_compute; reflexivity).
  rewrite A in M. assert (val (Dy 32768 0) <= val x)%Q by (eapply Qle_trans; [|exact H]; vm_compute; discriminate).
  specialize (M H0). rewrite as_packed_eq in *. pose proof (sat_bounds (dy_floor (rndp 24 (half_up x)))). lia.
Qed.
Lemma packed_low x : (val x <= -32768)%Q -> fixed_as_packed x = - 2 ^ 31.
Proof.
  intros H. pose proof (as_packed_mono x (Dy (-32768) 0)) as M.
  assert (A: fixed_as_packed (Dy (-32768) 0) = - 2 ^ 31) by (vm_compute; reflexivity).
  rewrite A in M. assert (val x <= val (Dy (-32768) 0))%Q by (eapply Qle_trans; [exact H|]; vm_compute; discriminate).
  specialize (M H0). rewrite as_packed_eq in *. pose proof (sat_bounds (dy_floor (rndp 24 (half_up x)))). lia.
Qed.
Lemma greatest_val : (val (fixed_from_packed (2 ^ 31 - 1)) == 32768)%Q.
Proof. vm_compute. reflexivity. Qed.
Lemma least_val : (val (fixed_from_packed (- 2 ^ 31)) == -32768)%Q.
Proof. vm_compute. reflexivity. Qed.
Lemma zero_val : (val (fixed_from_packed 0) == 0)%Q.
Proof. vm_compute. reflexivity. Qed.

(** ** Elsewhere *)
Lemma nearest_rel q r : nearest24 q r -> (Qabs (r - q) <= Qabs q * (3 # 16777216))%Q.
Proof.
  intros [_ N]. destruct q as [n d].
  pose proof (fdiv_rel 24 (Dy n 0) (Dy (Zpos d) 0) ltac:(lia) ltac:(discriminate)) as F.
  assert (E: (val (Dy n 0) / val (Dy (Zpos d) 0) == n # d)%Q).
  { rewrite !val_Dy. change (Qpower 2 0) with 1%Q. rewrite !Qmult_1_r, <- Qmake_Qdiv. reflexivity. }
  rewrite E in F. eapply Qle_trans; [apply N, rndp_rep; lia|].
  eapply Qle_trans; [exact F|]. apply Qle_lteq. right. reflexivity.
Qed.

Lemma close_bound (q r z n v : Q) : (Qabs q <= 32767)%Q -> (Qabs (r - q) <= Qabs q * (3 # 16777216))%Q ->
  (Qabs (z - (r * 65536 + (1 # 2))) <= Qabs (r * 65536 + (1 # 2)) * (1 # 16777216))%Q -> (n <= z < n + 1)%Q ->
  (Qabs (n - q * 65536) <= (1 # 2) + (Qabs q + (1 # 4096)) * 65536 * (5 # 16777216))%Q.
Proof.
  intros B A Z1 Z2. revert B A Z1. repeat apply Qabs_case; intros; lra.
Qed.
Lemma fixed_round_near q x : nearest24 q (val x) -> (Qabs q <= 32767)%Q ->
  (Qabs (val (fixed_round x) - q) <= (1 # 131072) + (Qabs q + 1) * (1 # 2097152))%Q.
Proof.
  intros N B. pose proof (nearest_rel _ _ N) as A. unfold fixed_round. rewrite as_packed_eq.
  set (h := half_up x). pose proof (rndp_rel 24 h ltac:(lia)) as Z1. change (Qpower 2 (- (24))) with (1 # 16777216)%Q in Z1.
  unfold h in Z1. rewrite half_up_val in Z1. fold h in Z1.
  pose proof (floor_spec (rndp 24 h)) as [F1 F2]. set (n := dy_floor (rndp 24 h)) in *. rewrite inject_Z_plus in F2. change (inject_Z 1) with 1%Q in F2.
  set (z := val (rndp 24 h)) in *. set (r := val x) in *.
  pose proof (close_bound q r z (inject_Z n) 0 B A Z1 (conj F1 F2)) as C. clear A Z1 F1 F2.
  assert (R: -2147483648 <= n <= 2147483647).
  { assert (inject_Z (-2147483648) <= inject_Z n <= inject_Z 2147483647)%Q as [H1 H2].
    { change (inject_Z (-2147483648)) with (-2147483648)%Q. change (inject_Z 2147483647) with 2147483647%Q.
      revert B C. repeat apply Qabs_case; intros; split; lra. }
    rewrite <- Zle_Qle in H1, H2. lia. }
  replace (sat_i32 n) with n by (unfold sat_i32; change (2 ^ 31) with 2147483648; lia).
  unfold fixed_from_packed, f32_of_int. rewrite val_scale, rnd24_rndp.
  pose proof (rndp_rel 24 (Dy n 0) ltac:(lia)) as V. change (Qpower 2 (- (24))) with (1 # 16777216)%Q in V.
  assert (E: (val (Dy n 0) == inject_Z n)%Q) by (rewrite val_Dy; change (Qpower 2 0) with 1%Q; ring).
  rewrite E in V. change (Qpower 2 (-16)) with (1 # 65536)%Q.
  set (v := val (rndp 24 (Dy n 0))) in *. set (m := inject_Z n) in *. clearbody v m. clear - B C V.
  revert B C V. repeat apply Qabs_case; intros; lra.
Qed.

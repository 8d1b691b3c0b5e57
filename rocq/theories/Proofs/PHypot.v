(** A function that computes lengths as accurately as C75 asks for. *)
From Coq Require Import QArith Lqa.
From Verif.Model Require Import MBase MFixed MFloat MPath MCrunch.
From Verif.Spec Require Import SBase SFloat SPath SCorner.
From Verif.Proofs Require Import PBase PFloat.
Local Open Scope Z_scope.

Definition root (s : dyadic) : dyadic :=
  let k := if Z.even (expo s) then 60 else 61 in
  Dy (Z.sqrt (mant s * 2 ^ k)) ((expo s - k) / 2).
Definition hypot_root (x y : dyadic) : dyadic := root (dy_add (dy_mul x x) (dy_mul y y)).
Lemma sqrt_near M : 2 ^ 60 <= M -> let r := Z.sqrt M in 0 <= r /\ r * r <= M /\ M * 1048575 <= r * r * 1048576.
Proof.
  intros H. cbn zeta. pose proof (Z.sqrt_spec M ltac:(lia)) as [A B]. pose proof (Z.sqrt_nonneg M) as N. set (r := Z.sqrt M) in *. clearbody r.
  assert (2 ^ 30 <= r) by (destruct (Z.le_gt_cases (2 ^ 30) r); [assumption|nia]). split; [exact N|]. split; [exact A|]. nia.
Qed.
Lemma root_spec s : 0 <= mant s -> let h := val (root s) in
  (0 <= h /\ val s * (1 - (1 # 1048576)) <= h * h /\ h * h <= val s * (1 + (1 # 1048576)))%Q.
Proof.
  intros Hm. destruct s as [m e]. cbn [mant expo] in *. cbn zeta. unfold root. cbn [mant expo].
  set (k := if Z.even e then 60 else 61). assert (Hk: 60 <= k) by (unfold k; destruct (Z.even e); lia).
  assert (He: (e - k) / 2 + (e - k) / 2 = e - k).
  { assert (X: (e - k) mod 2 = 0). { unfold k. pose proof (Zeven_mod e) as Y. destruct (Z.even e); [symmetry in Y; apply Zeq_bool_eq in Y; lia|symmetry in Y; apply Zeq_bool_neq in Y; lia]. } lia. }
  set (f := (e - k) / 2) in *. rewrite !val_Dy.
  assert (Ev: (Qpower 2 e == Qpower 2 f * Qpower 2 f * inject_Z (2 ^ k))%Q).
  { rewrite p2_Z, <- !p2_add by lia. replace (f + f + k) with e by lia. reflexivity. }
  pose proof (p2_pos f) as Pf. rewrite Ev. set (F := Qpower 2 f) in *.
  set (M := m * 2 ^ k). assert (EM: (inject_Z m * (F * F * inject_Z (2 ^ k)) == inject_Z M * (F * F))%Q) by (unfold M; rewrite inject_Z_mult; ring).
  rewrite EM. set (r := Z.sqrt M).
  assert (B: 0 <= r /\ r * r <= M /\ M * 1048575 <= r * r * 1048576).
  { destruct (Z.eq_dec m 0) as [->|N]; [unfold r, M; rewrite Z.mul_0_l; cbn; lia|]. apply sqrt_near. unfold M.
    assert (2 ^ 60 <= 2 ^ k) by (apply Z.pow_le_mono_r; lia). nia. }
  clearbody r M F. destruct B as (B1 & B2 & B3).
  assert (Q1: (0 <= inject_Z r)%Q) by (change 0%Q with (inject_Z 0); now rewrite <- Zle_Qle).
  assert (Q2: (inject_Z r * inject_Z r <= inject_Z M)%Q) by (rewrite <- inject_Z_mult, <- Zle_Qle; exact B2).
  assert (Q3: (inject_Z M * 1048575 <= inject_Z r * inject_Z r * 1048576)%Q).
  { change 1048575%Q with (inject_Z 1048575). change 1048576%Q with (inject_Z 1048576). rewrite <- !inject_Z_mult, <- Zle_Qle. exact B3. }
  assert (PF: (0 < F * F)%Q) by nra. assert (QM: (0 <= inject_Z M)%Q) by nra. split; [nra|].
  setoid_replace (inject_Z r * F * (inject_Z r * F))%Q with (inject_Z r * inject_Z r * (F * F))%Q by ring.
  set (R := (inject_Z r * inject_Z r)%Q) in *. set (G := (F * F)%Q) in *. clearbody R G. split.
  - setoid_replace (inject_Z M * G * (1 - (1 # 1048576)))%Q with (inject_Z M * (1048575 # 1048576) * G)%Q by ring.
    apply Qmult_le_compat_r; lra.
  - setoid_replace (inject_Z M * G * (1 + (1 # 1048576)))%Q with (inject_Z M * (1048577 # 1048576) * G)%Q by ring.
    apply Qmult_le_compat_r; [|lra]. lra.
Qed.
Lemma hypot_root_sound : sound_hypot hypot_root.
Proof.
  intros x y. cbn zeta. unfold hypot_root. set (s := dy_add (dy_mul x x) (dy_mul y y)).
  assert (E: (val s == val x * val x + val y * val y)%Q) by (unfold s; now rewrite val_add, !val_mul).
  rewrite <- E. apply root_spec. apply mant_sign. rewrite E. nra.
Qed.

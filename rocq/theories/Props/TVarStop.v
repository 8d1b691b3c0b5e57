(** C87: which bytes make reading variation data abort. *)
From Coq Require Import String List ZArith Bool Lia.
Import ListNotations.
From Verif.Model Require Import MBase MPacked.
From Verif.Spec Require Import SBase SReader SCalm SStop SVarStop.
From Verif.Proofs Require Import PBase PCalm PStop PVarStop.
Open Scope Z_scope.

Theorem C87_points : stops de_points points_bad.
Proof. exact points_stop. Qed.
(** Packed deltas never abort. *)
Theorem C87_deltas n : stops (de_deltas n) (fun _ _ => False).
Proof. intros d k st B. destruct (deltas_cases d st n k B) as [(l & q & _ & _ & ->)|(_ & ->)]; split; (discriminate || contradiction). Qed.
(** All variations of a glyph ([two]) or of the control values. *)
Theorem C87_variations axes two all : stops (de_tvs axes two all) (variation_data_bad axes two all).
Proof. exact (variation_data_stops axes two all). Qed.
Print Assumptions C87_points.
Print Assumptions C87_deltas.
Print Assumptions C87_variations.

(** ** Cases *)
Ltac bytes := repeat (apply Forall_cons; [unfold is_byte; lia|]); apply Forall_nil.
(** Two point numbers in one run of words: 65535 and [x] more. *)
Definition two_points (x : Z) : list Z := [2; 129; 255;255; 0;x].
(** One variation on one axis with its own points, and its deltas. *)
Definition own_points (x : Z) : list Z := [0;1; 0;10; 0;0; 160;0; 64;0] ++ two_points x ++ [129; 129].
(** The same points shared. *)
Definition shared_points (x : Z) : list Z := [128;1; 0;10; 0;0; 128;0; 64;0] ++ two_points x ++ [129; 129].
Example C87_case :
  points_bad (two_points 1) 0 /\ ~ points_bad (two_points 0) 0 /\
  variation_data_bad 1 true 3 (own_points 1) 0 /\ ~ variation_data_bad 1 true 3 (own_points 0) 0 /\
  variation_data_bad 1 true 3 (shared_points 1) 0 /\ ~ variation_data_bad 1 true 3 (shared_points 0) 0 /\
  from_bytes de_points (two_points 0) = Ok (Some [65535; 65535]).
Proof.
  assert (B: forall x, 0 <= x <= 255 -> Forall is_byte (two_points x) /\ Forall is_byte (own_points x) /\ Forall is_byte (shared_points x)).
  { intros x Hx. unfold own_points, shared_points, two_points. repeat split; cbn [app]; bytes. }
  destruct (B 1 ltac:(lia)) as (B1 & B2 & B3). destruct (B 0 ltac:(lia)) as (B4 & B5 & B6).
  split; [apply (C87_points _ 0%nat [0%nat] B1); vm_compute; reflexivity|].
  split; [intros X; apply (C87_points _ 0%nat [0%nat] B4) in X; vm_compute in X; discriminate X|].
  split; [apply (C87_variations 1 true 3 _ 0%nat [0%nat] B2); vm_compute; reflexivity|].
  split; [intros X; apply (C87_variations 1 true 3 _ 0%nat [0%nat] B5) in X; vm_compute in X; discriminate X|].
  split; [apply (C87_variations 1 true 3 _ 0%nat [0%nat] B3); vm_compute; reflexivity|].
  split; [intros X; apply (C87_variations 1 true 3 _ 0%nat [0%nat] B6) in X; vm_compute in X; discriminate X|].
  vm_compute. reflexivity.
Qed.

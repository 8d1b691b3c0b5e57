(** What inferring the deltas of untouched points means (OpenType, gvar,
    "Inferred deltas for un-referenced point numbers"). *)
From Coq Require Import List ZArith QArith Qabs.
Import ListNotations.
From Verif.Model Require Import MBase MPacked.
Open Scope Z_scope.

(** A partial assignment of deltas to the points of a contour, as the code
    represents it. *)
Definition given (l : list (option (Z * Z))) : list (option delta) :=
  map (option_map (fun d => Delta2D (fst d) (snd d))) l.

(** Deltas and coordinates are pairs of 16-bit numbers. *)
Definition i16_pair (d : Z * Z) : Prop := - 2 ^ 15 <= fst d < 2 ^ 15 /\ - 2 ^ 15 <= snd d < 2 ^ 15.

(** ... of moderate size: the difference of two such numbers is again a 16-bit number. *)
Definition small_pair (p : Z * Z) : Prop := Z.abs (fst p) <= 16383 /\ Z.abs (snd p) <= 16383.

(** Point [t + k] of a closed contour of [n] points, [k] steps after point [t]
    (before it if [k] is negative). *)
Definition step (n t : nat) (k : Z) : nat := Z.to_nat ((Z.of_nat t + k) mod Z.of_nat n).
Definition touched {A} (l : list (option A)) (t : nat) : Prop :=
  exists d, nth_error l t = Some (Some d).
(** [p] is the nearest touched point before [t] and [q] the nearest one after
    it, going round the contour; they may be the same. *)
Definition neighbours {A} (l : list (option A)) (t p q : nat) : Prop :=
  exists a b, 0 < a <= Z.of_nat (length l) /\ 0 < b <= Z.of_nat (length l)
    /\ p = step (length l) t (- a) /\ q = step (length l) t b
    /\ touched l p /\ touched l q
    /\ forall k, - a < k < b -> ~ touched l (step (length l) t k).

(** The delta [d] of an untouched point at [x], along one axis, from reference
    points at [x1] and [x2] with deltas [d1] and [d2].  A point strictly
    between the references gets a value between the two deltas that differs from
    linear interpolation by less than 1 + 1/128. *)
Definition interpolated (x1 d1 x2 d2 x d : Z) : Prop :=
  Z.min d1 d2 <= d <= Z.max d1 d2 /\
  (Qabs (inject_Z (d - d1) - inject_Z ((x - x1) * (d2 - d1)) / inject_Z (x2 - x1)) < 129 # 128)%Q.
Definition inferred (x1 d1 x2 d2 x d : Z) : Prop :=
  (x1 = x2 -> d = if d1 =? d2 then d1 else 0) /\
  (x1 < x2 -> (x <= x1 -> d = d1) /\ (x2 <= x -> d = d2) /\ (x1 < x < x2 -> interpolated x1 d1 x2 d2 x d)) /\
  (x2 < x1 -> (x <= x2 -> d = d2) /\ (x1 <= x -> d = d1) /\ (x2 < x < x1 -> interpolated x2 d2 x1 d1 x d)).

(** The differences that inferring between two reference points computes can be
    held in 16 bits. *)
Definition fits (x1 d1 x2 d2 : Z) : Prop :=
  x1 = x2 \/
  (x1 < x2 /\ x2 - x1 < 2 ^ 15 /\ - 2 ^ 15 <= d2 - d1 < 2 ^ 15) \/
  (x2 < x1 /\ x1 - x2 < 2 ^ 15 /\ - 2 ^ 15 <= d1 - d2 < 2 ^ 15).

(** Point [p] of the contour lies at [c] and has the given delta [d]. *)
Definition reference (dl : list (option (Z * Z))) (cs : list (Z * Z)) (p : nat) (c d : Z * Z) : Prop :=
  nth_error cs p = Some c /\ nth_error dl p = Some (Some d).
(** No difference computed for an untouched point overflows. *)
Definition contour_fits (dl : list (option (Z * Z))) (cs : list (Z * Z)) : Prop :=
  forall t p q c1 d1 c2 d2, nth_error dl t = Some None -> neighbours dl t p q ->
    reference dl cs p c1 d1 -> reference dl cs q c2 d2 ->
    fits (fst c1) (fst d1) (fst c2) (fst d2) /\ fits (snd c1) (snd d1) (snd c2) (snd d2).
(** [r] is [dl] completed: touched points keep their delta, the others get what
    their two neighbours imply, axis by axis. *)
Definition contour_inferred (dl : list (option (Z * Z))) (cs r : list (Z * Z)) : Prop :=
  length r = length dl /\
  (forall t d, nth_error dl t = Some (Some d) -> nth_error r t = Some d) /\
  (forall t x, nth_error dl t = Some None -> nth_error cs t = Some x ->
     exists p q c1 d1 c2 d2 d, neighbours dl t p q /\ reference dl cs p c1 d1 /\ reference dl cs q c2 d2 /\
       nth_error r t = Some d /\
       inferred (fst c1) (fst d1) (fst c2) (fst d2) (fst x) (fst d) /\
       inferred (snd c1) (snd d1) (snd c2) (snd d2) (snd x) (snd d)).

(** [xs] split at the ends of the contours: each end is the index of the last
    point of a contour, the contours follow one another and use up all points. *)
Fixpoint contour_ends_of (start : Z) (sizes : list nat) : list Z :=
  match sizes with
  | [] => []
  | n :: sizes' => (start + Z.of_nat n - 1) :: contour_ends_of (start + Z.of_nat n) sizes'
  end.

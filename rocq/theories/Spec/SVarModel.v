(** What a region contributes at a location, and what interpolating between
    masters means. *)
From Coq Require Import List ZArith QArith Qabs.
Import ListNotations.
From Verif.Model Require Import MBase MFixed MFloat MTag MMap MVarModel.
From Verif.Spec Require Import SFloat.
Open Scope Q_scope.

(** The coordinate of a location on an axis; 0 if it has none. *)
Definition coord (t : tag) (loc : location) : Q := val (loc_get t loc).

(** An axis with these numbers restricts nothing (OpenType: such axes are
    ignored). *)
Definition ignored (l p u : Q) : Prop := p == 0 \/ p < l \/ u < p \/ (l < 0 /\ 0 < u).
(** Not closer to the peak than binary32 can tell (2^-23, minus the rounding of
    one subtraction). *)
Definition far (v p : Q) : Prop := Qpower 2 (-23) - Qpower 2 (-47) <= Qabs (v - p).
(** The factor of one axis: a tent that is 1 at the peak and falls linearly to 0
    at both ends. *)
Inductive axis_factor (v l p u : Q) : Q -> Prop :=
| ax_ignored : ignored l p u -> axis_factor v l p u 1
| ax_peak : ~ ignored l p u -> Qabs (v - p) < Qpower 2 (-23) -> axis_factor v l p u 1
| ax_outside : ~ ignored l p u -> far v p -> v <= l \/ u <= v -> axis_factor v l p u 0
| ax_rise : ~ ignored l p u -> far v p -> l < v -> v < p -> axis_factor v l p u ((v - l) / (p - l))
| ax_fall : ~ ignored l p u -> far v p -> p < v -> v < u -> axis_factor v l p u ((u - v) / (u - p)).
(** The value of a region is the product over its axes. *)
Inductive region_value (loc : location) : support -> Q -> Prop :=
| rv_nil : region_value loc [] 1
| rv_cons t l p u sup f g :
    axis_factor (coord t loc) (val l) (val p) (val u) f -> region_value loc sup g ->
    region_value loc ((t, (l, p, u)) :: sup) (f * g).

(** ** Masters *)

(** The axes on which a location differs from the default, and an interpolation
    with regions and deltas. *)
Definition moved (loc : location) (t : tag) : Prop := ~ coord t loc == 0.
Definition interpolate (out : list (Q * support)) (loc : location) : Q :=
  fold_right (fun ds acc => fst ds * val (support_scalar loc (snd ds)) + acc) 0 out.

(** A location as the code holds it: a map in key order. *)
Definition keyed (loc : location) : Prop :=
  forall i j a b, (i < j)%nat -> nth_error (map fst loc) i = Some a -> nth_error (map fst loc) j = Some b -> lex_ltb a b = true.
(** Coordinates of masters are the same or well apart. *)
Definition apart (x y : Q) : Prop := x == y \/ Qpower 2 (-22) <= Qabs (x - y).
(** Masters with normalized coordinates that are apart from each other and from 0. *)
Definition masters (locs : list location) : Prop :=
  Forall keyed locs /\
  (forall a t, In a locs -> -1 <= coord t a <= 1 /\ apart (coord t a) 0) /\
  (forall a b t, In a locs -> In b locs -> apart (coord t a) (coord t b)).
(** Two masters that move the same axes go in opposite directions on one of them,
    or have only one axis and differ there. *)
Definition separated (a b : location) : Prop :=
  (forall t, moved a t <-> moved b t) ->
  (exists t, (coord t a < 0 /\ 0 < coord t b) \/ (coord t b < 0 /\ 0 < coord t a)) \/
  (exists t, moved a t /\ (forall s, moved a s -> s = t) /\ ~ coord t a == coord t b).

(** Axis maps of a designspace. *)
From Coq Require Import List ZArith QArith Qabs.
Import ListNotations.
From Verif.Model Require Import MBase MFixed MFloat MDesign.
From Verif.Spec Require Import SFloat.
Open Scope Q_scope.

Definition is_i32 (z : Z) : Prop := (-2147483648 <= z <= 2147483647)%Z.
(** [z] is the 32-bit integer a number is cut to: its integral part, towards 0,
    or the closest integer in range. *)
Definition cut (x : dyadic) (z : Z) : Prop :=
  exists t, z = Z.max (-2147483648) (Z.min 2147483647 t) /\
    (0 <= val x -> inject_Z t <= val x < inject_Z (t + 1)) /\
    (val x < 0 -> inject_Z (t - 1) < val x <= inject_Z t).

(** The nodes of an axis from user to design coordinates: the map entries, cut
    to integers, a later one replacing an earlier one; without a map, the three
    positions of the axis, which stay (as binary32 numbers) where they are. *)
Definition same_number (z : Z) (w : dyadic) : Prop := w = f32_of_int z.
Definition last_entry (es : list (dyadic * dyadic)) (key value : dyadic * dyadic -> dyadic) (k : Z) (w : dyadic) : Prop :=
  exists l e r, es = l ++ e :: r /\ cut (key e) k /\ w = value e /\ Forall (fun e' => ~ cut (key e') k) r.
Definition node (ax : axis) (key value : dyadic * dyadic -> dyadic) (k : Z) (w : dyadic) : Prop :=
  match ax_map ax with
  | Some es => last_entry es key value k w
  | None => (k = ax_min ax \/ k = ax_default ax \/ k = ax_max ax) /\ same_number k w
  end.

(** [v] lies strictly between the neighbouring nodes [a] and [b]. *)
Definition neighbours (P : Z -> dyadic -> Prop) (v a : Z) (va : dyadic) (b : Z) (vb : dyadic) : Prop :=
  P a va /\ P b vb /\ (a < v < b)%Z /\ forall k w, P k w -> (k <= a \/ b <= k)%Z.
(** The first or last node. *)
Definition lowest (P : Z -> dyadic -> Prop) (a : Z) (va : dyadic) : Prop := P a va /\ forall k w, P k w -> (a <= k)%Z.
Definition highest (P : Z -> dyadic -> Prop) (a : Z) (va : dyadic) : Prop := P a va /\ forall k w, P k w -> (k <= a)%Z.

(** Positions up to 2^18 with outputs that are multiples of 1/16 of the same
    size: all differences are exact in binary32. *)
Definition ordinary_output (w : dyadic) : Prop := exists n, (Z.abs n <= 4194304)%Z /\ val w == inject_Z n / 16.
Definition ordinary_position (k : Z) : Prop := (Z.abs k <= 262144)%Z.
Definition ordinary (P : Z -> dyadic -> Prop) : Prop := forall k w, P k w -> ordinary_position k /\ ordinary_output w.
Definition rising (P : Z -> dyadic -> Prop) : Prop :=
  forall k w k' w', P k w -> P k' w' -> (k < k')%Z -> val w <= val w'.

(** An axis with its default between its ends. *)
Definition proper_axis (ax : axis) : Prop :=
  ordinary_position (ax_min ax) /\ ordinary_position (ax_max ax) /\ (ax_min ax <= ax_default ax <= ax_max ax)%Z.
(** The normalized position: linear from -1 at the minimum to 0 at the default
    to 1 at the maximum, clamped. *)
Inductive normalized (ax : axis) (l : Q) : Q -> Prop :=
| nz_low : l <= inject_Z (ax_min ax) -> (ax_min ax < ax_default ax)%Z -> normalized ax l (-(1))
| nz_high : inject_Z (ax_max ax) <= l -> (ax_default ax < ax_max ax)%Z -> normalized ax l 1
| nz_left : inject_Z (ax_min ax) < l -> l < inject_Z (ax_default ax) ->
    normalized ax l ((l - inject_Z (ax_default ax)) / inject_Z (ax_default ax - ax_min ax))
| nz_right : inject_Z (ax_default ax) < l -> l < inject_Z (ax_max ax) ->
    normalized ax l ((l - inject_Z (ax_default ax)) / inject_Z (ax_max ax - ax_default ax))
| nz_default : l == inject_Z (ax_default ax) -> normalized ax l 0
| nz_no_left : l <= inject_Z (ax_default ax) -> ax_min ax = ax_default ax -> normalized ax l 0
| nz_no_right : inject_Z (ax_default ax) <= l -> ax_max ax = ax_default ax -> normalized ax l 0.

(** The smallest and largest output of a map, and the clamped position between
    them. *)
Definition least_output (es : list (dyadic * dyadic)) (q : Q) : Prop :=
  (exists e, In e es /\ val (snd e) == q) /\ forall e, In e es -> q <= val (snd e).
Definition greatest_output (es : list (dyadic * dyadic)) (q : Q) : Prop :=
  (exists e, In e es /\ val (snd e) == q) /\ forall e, In e es -> val (snd e) <= q.
Inductive position (lo hi l : Q) : Q -> Prop :=
| pos_low : l <= lo -> position lo hi l 0
| pos_high : hi <= l -> position lo hi l 1
| pos_mid : lo < l -> l < hi -> position lo hi l ((l - lo) / (hi - lo)).

(** The two conversions of an axis, each with its nodes. *)
Definition conversion (ax : axis) (f : Z -> res dyadic) (P : Z -> dyadic -> Prop) : Prop :=
  (f = to_designspace ax /\ P = node ax fst snd) \/ (f = to_userspace ax /\ P = node ax snd fst).

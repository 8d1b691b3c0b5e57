(** Specification of paths and contours.

    A TrueType contour is a closed cycle of points.  Between two neighbouring
    off-curve points the curve passes through their midpoint.  All positions
    here are in half units, so that such midpoints are exact. *)
From Coq Require Import QArith.
From Verif.Model Require Import MBase MFixed MFloat MGlyph MGlyf MPath.
From Verif.Spec Require Import SBase SFloat SGlyf.
Local Open Scope Z_scope.

Definition spot := (Z * Z)%type.
(** A piece of an outline: a straight line, or a quadratic curve with its control point. *)
Inductive stroke := Straight (a b : spot) | Bent (a c b : spot).

(** Where a point is, and the middle of two points, in half units. *)
Definition place (p : point) : spot := (2 * pt_x p, 2 * pt_y p).
Definition middle (p q : point) : spot := (pt_x p + pt_x q, pt_y p + pt_y q).

(** [strokes a l s]: coming from position [a], the points [l] draw [s]. *)
Inductive strokes : spot -> list point -> list stroke -> Prop :=
| strokes_end a : strokes a [] []
| strokes_line a p l s : pt_on p = true -> strokes (place p) l s ->
    strokes a (p :: l) (Straight a (place p) :: s)
| strokes_curve a c p l s : pt_on c = false -> pt_on p = true -> strokes (place p) l s ->
    strokes a (c :: p :: l) (Bent a (place c) (place p) :: s)
| strokes_implied a c d l s : both_off c d -> strokes (middle c d) (d :: l) s ->
    strokes a (c :: d :: l) (Bent a (place c) (middle c d) :: s).

(** The outline of a contour that starts with an on-curve point: around the
    cycle and back to that point. *)
Definition outline (c : list point) (s : list stroke) : Prop :=
  exists p l, c = p :: l /\ pt_on p = true /\ strokes (place p) (l ++ [p]) s.

(** A path's coordinate is a whole number [z] of units. *)
Definition is_whole (x : dyadic) (z : Z) : Prop := (val x == inject_Z z)%Q.
(** A path's point is where [s] says, cut to whole units towards zero (no change
    for whole positions). *)
Definition stands (p : kpoint) (s : spot) : Prop :=
  is_whole (fst p) (Z.quot (fst s) 2) /\ is_whole (snd p) (Z.quot (snd s) 2).
(** The segments of a path draw the strokes. *)
Inductive draws : path_seg -> stroke -> Prop :=
| draws_line a b x y : stands a x -> stands b y -> draws (SegLine a b) (Straight x y)
| draws_quad a c b x z y : stands a x -> stands c z -> stands b y -> draws (SegQuad a c b) (Bent x z y).

(** Every midpoint falls on whole units. *)
Definition whole_midpoints (c : list point) : Prop := forall p q, neighbours c p q -> both_off p q ->
  Z.even (pt_x p + pt_x q) = true /\ Z.even (pt_y p + pt_y q) = true.

(** The same strokes, the other way round. *)
Definition turn (s : stroke) : stroke :=
  match s with Straight a b => Straight b a | Bent a c b => Bent b c a end.
Definition backwards (s : list stroke) : list stroke := rev (map turn s).

(** The points of a path that is one line or chain of lines and quadratic curves
    on whole 16-bit units. *)
Definition spot16 (p : kpoint) : Prop :=
  exists x y, is_whole (fst p) x /\ is_whole (snd p) y /\ fits16 x /\ fits16 y.
Definition plain_seg (s : path_seg) : Prop :=
  match s with
  | SegLine a b => spot16 a /\ spot16 b
  | SegQuad a c b => spot16 a /\ spot16 c /\ spot16 b
  | SegCubic _ _ _ _ => False
  end.
(** The path is drawn without lifting the pen. *)
Definition unbroken (l : bez_path) : Prop := forall p, ~ In (MoveTo p) l.
(** [c'] is [c], read from another starting point on. *)
Definition rotation (c c' : list point) : Prop := exists l1 l2, c = l1 ++ l2 /\ c' = l2 ++ l1.

(** Specification for ttf-remove-overlap: what a skia path draws. *)
From Verif.Model Require Import MBase MFixed MFloat MGlyph MGlyf MPath MCrunch MOverlap.
From Verif.Spec Require Import SBase SFloat SGlyf SPath.
Local Open Scope Z_scope.

(** [rounds start a l segs]: with the pen at [a], the elements [l] up to the
    first close draw [segs]; closing draws a line to [start]. *)
Inductive rounds (start : kpoint) : kpoint -> list sk_el -> list path_seg -> Prop :=
| rounds_close a : rounds start a [SkClose] [SegLine a start]
| rounds_line a p l s : rounds start p l s -> rounds start a (SkLine p :: l) (SegLine a p :: s)
| rounds_quad a c p l s : rounds start p l s -> rounds start a (SkQuad c p :: l) (SegQuad a c p :: s).
(** A path of closed contours of lines and quadratic curves, and what each draws. *)
Inductive pictures : list sk_el -> list (list path_seg) -> Prop :=
| pictures_none : pictures [] []
| pictures_more p l s rest ss : rounds p p l s -> pictures rest ss -> pictures (SkMove p :: l ++ rest) (s :: ss).

(** [s'] is [s], up to a closing line of no length. *)
Definition closed_as (s s' : list stroke) : Prop := s' = s \/ exists a, s' = s ++ [Straight a a].
(** [s'] goes round as [s] does, starting elsewhere. *)
Definition turned (s s' : list stroke) : Prop := exists l1 l2, s = l1 ++ l2 /\ s' = l2 ++ l1.

(** The points of an element, cut to whole units: the last is on the curve. *)
Definition dots (e : sk_el) : list point :=
  match e with
  | SkMove p | SkLine p => [gpt true p]
  | SkQuad c p | SkConic c p => [gpt false c; gpt true p]
  | SkCubic _ _ _ | SkClose => []
  end.
Definition is_close (e : sk_el) : Prop := e = SkClose.
Definition is_cubic (e : sk_el) : Prop := exists c d p, e = SkCubic c d p.

(** The glyph with other contours, all else as it was. *)
Definition redrawn (g g' : glyph) (cs : list (list point)) : Prop :=
  g_contours g' = cs /\ g_xMin g' = g_xMin g /\ g_xMax g' = g_xMax g /\ g_yMin g' = g_yMin g /\ g_yMax g' = g_yMax g /\
  g_instr g' = g_instr g /\ g_comps g' = g_comps g /\ g_overlap g' = g_overlap g.
(** Neither a close nor a cubic curve. *)
Definition simple_els (l : list sk_el) : Prop := Forall (fun e => ~ is_close e /\ ~ is_cubic e) l.

(** A contour whose first point is on the curve. *)
Definition starts_on (c : list point) : Prop := exists p, hd_error c = Some p /\ pt_on p = true.
(** [segs] is the outline of the contour, up to half units and a closing line of
    no length. *)
Definition outlined (c : list point) (segs : list path_seg) : Prop :=
  exists s s', outline c s /\ Forall2 draws segs s' /\ closed_as s s'.
(** The outline of the contour is [segs], in the opposite direction and starting
    at some point. *)
Definition redraws (segs : list path_seg) (c : list point) : Prop :=
  exists s o, Forall2 draws segs s /\ outline c o /\ turned (backwards s) o.
(** The contour with its implied points made explicit, in the opposite
    direction; its first point twice if the last is off the curve. *)
Definition comes_back (c c' : list point) : Prop :=
  exists p r, expansion c r /\ hd_error c = Some p /\ c' = rev (r ++ if pt_on (last c p) then [] else [p]).

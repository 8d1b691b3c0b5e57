(** Specification of how fontcrunch cuts a contour into runs and redraws them. *)
From Coq Require Import QArith.
From Verif.Model Require Import MBase MFixed MFloat MGlyph MGlyf MPath MCrunch.
From Verif.Spec Require Import SBase SFloat SGlyf SPath SCrunch.
Local Open Scope Z_scope.

(** The way from one point of a path to another, in whole units. *)
Definition way (a b : kpoint) (v : Z * Z) : Prop :=
  exists ax ay bx bj, is_whole (fst a) ax /\ is_whole (snd a) ay /\ is_whole (fst b) bx /\ is_whole (snd b) bj /\
    v = (bx - ax, bj - ay).
(** From the start of a segment to its end. *)
Definition heading (s : path_seg) (v : Z * Z) : Prop :=
  match s with SegLine a b => way a b v | SegQuad a _ b => way a b v | SegCubic _ _ _ _ => False end.
(** The directions in which a segment sets off and arrives: a line's own, and a
    curve's from and to its control point. *)
Definition sets_off (s : path_seg) (v : Z * Z) : Prop :=
  match s with SegLine a b => way a b v | SegQuad a c _ => way a c v | SegCubic _ _ _ _ => False end.
Definition arrives (s : path_seg) (v : Z * Z) : Prop :=
  match s with SegLine a b => way a b v | SegQuad _ c b => way c b v | SegCubic _ _ _ _ => False end.

(** Two ways go apart: one goes left and the other right, or one up and the other down. *)
Definition opposed (v w : Z * Z) : Prop := fst v * fst w < 0 \/ snd v * snd w < 0.
(** The square of a length, and the cross product: the sine of the angle
    between [v] and [w] is [cross v w] over the product of the lengths. *)
Definition square (v : Z * Z) : Z := fst v * fst v + snd v * snd v.
Definition cross (v w : Z * Z) : Z := fst v * snd w - snd v * fst w.
(** There is no direction, or the sine of the angle is, in absolute value,
    more than 1/[k]. *)
Definition kink (k : Z) (v w : Z * Z) : Prop :=
  v = (0, 0) \/ w = (0, 0) \/ square v * square w < k * k * (cross v w * cross v w).

(** The length of a vector, up to one part in 2^20. *)
Definition sound_hypot (hypot : dyadic -> dyadic -> dyadic) : Prop := forall x y,
  let h := val (hypot x y) in let n := (val x * val x + val y * val y)%Q in
  (0 <= h /\ n * (1 - (1 # 1048576)) <= h * h /\ h * h <= n * (1 + (1 # 1048576)))%Q.

(** The segment before number [i] of [n] around a closed contour. *)
Definition before (n i : nat) : nat := match i with O => n - 1 | S j => j end.

(** The corners of a contour cut it into runs: from each corner to the next.
    What is before the first corner and after the last is in no run. *)
Fixpoint runs {A} (l : list A) (corners : list nat) : list (list A) :=
  match corners with
  | a :: (b :: _) as rest => firstn (b - a) (skipn a l) :: runs l rest
  | _ => []
  end.
(** The quadratic curve that a segment is. *)
Definition as_quad (s : path_seg) (q : quad) : Prop :=
  match s with
  | SegLine a b => q_p0 q = a /\ q_p2 q = b /\ q_p1 q = kp_lerp a b f_half
  | SegQuad a c b => q = mk_quad a c b
  | SegCubic _ _ _ _ => False
  end.
Section Redraw.
Variable fit : list quad -> res (option (list quad)).
Definition single_line (run : list path_seg) : Prop := exists a b, run = [SegLine a b].
(** The fitting of a run gives [o]. *)
Definition fitted (run : list path_seg) (o : option (list quad)) : Prop :=
  exists qs, Forall2 as_quad run qs /\ fit qs = Ok o.
(** A fitted curve is drawn to its end, with its control point unless that is
    (on quarters of units) halfway. *)
Definition quarter_unit (v : dyadic) : Prop := exists z, (val v == z # 4)%Q /\ Z.abs z <= 2 ^ 42.
Definition on_quarters (p : kpoint) : Prop := quarter_unit (fst p) /\ quarter_unit (snd p).
Definition drawn_as (q : quad) (el : path_el) : Prop :=
  (el = LineTo (q_p2 q) \/ el = QuadTo (q_p1 q) (q_p2 q)) /\
  (on_quarters (q_p0 q) -> on_quarters (q_p1 q) -> on_quarters (q_p2 q) -> (el = LineTo (q_p2 q) <-> flat q)).
(** What a run is replaced by: a single line by itself; anything else by the
    curves that are fitted to it. *)
Definition redrawn (run : list path_seg) (els : bez_path) : Prop :=
  (exists a b, run = [SegLine a b] /\ els = [LineTo b]) \/
  (~ single_line run /\ exists qs, fitted run (Some qs) /\ Forall2 drawn_as qs els).
End Redraw.

(** What becomes of a glyph: one with contours gets each of them redrawn, and
    everything else of it stays. *)
Section Glyphs.
Variable outline : list point -> list point -> Prop.
Definition crunched (g g' : glyph) : Prop :=
  (g_contours g = [] /\ g' = g) \/
  (g_contours g <> [] /\ Forall2 outline (g_contours g) (g_contours g') /\
   g_xMin g' = g_xMin g /\ g_xMax g' = g_xMax g /\ g_yMin g' = g_yMin g /\ g_yMax g' = g_yMax g /\
   g_instr g' = g_instr g /\ g_comps g' = g_comps g /\ g_overlap g' = g_overlap g).
End Glyphs.
(** The names, if any, reach up to the last glyph that has contours. *)
Definition names_reach (names : option (list (list Z))) (gs : list glyph) : Prop :=
  forall l, names = Some l -> forall i g, nth_error gs i = Some g -> g_contours g <> [] -> (i < length l)%nat.

(** Side number [i] of a polygon, from point [i] to the next one around. *)
Definition side (c : list point) (i : nat) : Z * Z :=
  let p := nth i c pt0 in let q := nth ((i + 1) mod length c) c pt0 in
  (pt_x q - pt_x p, pt_y q - pt_y p).

(** Contours and paths: src/tables/glyf/contourutils.rs:42-132, and the part of
    the kurbo crate that it uses.  Coordinates of paths are f64 (MFloat). *)
From Verif.Model Require Import MBase MFixed MFloat MGlyph MGlyf.

(** [kurbo::Point] *)
Definition kpoint := (dyadic * dyadic)%type.
(** [kurbo::PathEl] *)
Inductive path_el :=
| MoveTo (p : kpoint) | LineTo (p : kpoint) | QuadTo (c p : kpoint) | CurveTo (c d p : kpoint) | ClosePath.
(** [kurbo::PathSeg] *)
Inductive path_seg :=
| SegLine (a b : kpoint) | SegQuad (a c b : kpoint) | SegCubic (a c d b : kpoint).
(** [kurbo::BezPath] *)
Definition bez_path := list path_el.

(** [PartialEq] of [kurbo::Point] *)
Definition kp_eqb (p q : kpoint) : bool := dy_eqb (fst p) (fst q) && dy_eqb (snd p) (snd q).

(** kurbo: [impl Iterator for Segments], from the current subpath's start and
    the last point *)
Fixpoint segs_from (start last : kpoint) (l : bez_path) : list path_seg :=
  match l with
  | [] => []
  | MoveTo p :: l' => segs_from p p l'
  | LineTo p :: l' => SegLine last p :: segs_from start p l'
  | QuadTo c p :: l' => SegQuad last c p :: segs_from start p l'
  | CurveTo c d p :: l' => SegCubic last c d p :: segs_from start p l'
  | ClosePath :: l' =>
      if kp_eqb last start then segs_from start last l'
      else SegLine last start :: segs_from start start l'
  end.
(** kurbo: [BezPath::segments]; the first element gives the first point *)
Definition path_segments (l : bez_path) : res (list path_seg) :=
  match l with
  | [] => Ok []
  | MoveTo p :: _ | LineTo p :: _ | QuadTo _ p :: _ | CurveTo _ _ p :: _ => Ok (segs_from p p l)
  | ClosePath :: _ => Panic
  end.

(** [(pt.x as f64, pt.y as f64)] *)
Definition kpt (p : point) : kpoint := (dy_of_Z (pt_x p), dy_of_Z (pt_y p)).
(** contourutils.rs:104-120: the elements pushed, and the points left in
    [segment] at the end *)
Fixpoint contour_els (segment l : list point) : bez_path * list point :=
  match l with
  | [] => ([], segment)
  | p :: l' =>
      let segment' := segment ++ [p] in
      if pt_on p then
        let r := contour_els [] l' in
        (match segment' with
         | [a] => [LineTo (kpt a)]
         | [a; b] => [QuadTo (kpt a) (kpt b)]
         | _ => []
         end ++ fst r, snd r)
      else contour_els segment' l'
  end.
(** glyf_contour_to_kurbo_contour, contourutils.rs:97-132 *)
Definition contour_to_path (c : list point) : res bez_path :=
  c' <- insert_explicit_oncurves c ;;
  match c' with
  | [] => Panic
  | p0 :: l =>
      let r := contour_els [] l in
      Ok (MoveTo (kpt p0) :: fst r ++
          match snd r with
          | a :: _ => [QuadTo (kpt a) (kpt p0)]
          | [] => if pt_on p0 && pt_on (last c' p0) then [LineTo (kpt p0)] else []
          end ++ [ClosePath])
  end.

(** [Point { x: pt.x as i16, y: pt.y as i16, on_curve }] *)
Definition gpt (on : bool) (p : kpoint) : point := mk_point (f_as_i16 (fst p)) (f_as_i16 (snd p)) on.
(** contourutils.rs:54-89.  [to_quads] is kurbo's [CubicBez::to_quads] with the
    given tolerance: the control and end points of the curves. *)
Definition seg_points (to_quads : kpoint -> kpoint -> kpoint -> kpoint -> list (kpoint * kpoint)) (s : path_seg) : list point :=
  match s with
  | SegLine _ b => [gpt true b]
  | SegQuad _ c b => [gpt false c; gpt true b]
  | SegCubic a c d b => concat (map (fun q : kpoint * kpoint => [gpt false (fst q); gpt true (snd q)]) (to_quads a c d b))
  end.
(** kurbo_contour_to_glyf_contour, contourutils.rs:42-94: [elements()\[0\]] of an
    empty path is out of bounds *)
Definition path_to_contour (to_quads : kpoint -> kpoint -> kpoint -> kpoint -> list (kpoint * kpoint)) (l : bez_path) : res (list point) :=
  match l with
  | [] => Panic
  | el :: _ =>
      ss <- path_segments l ;;
      Ok (rev (match el with MoveTo p => [gpt true p] | _ => [] end ++ concat (map (seg_points to_quads) ss)))
  end.

(** Axis maps of designspace files: crates/designspace/src/lib.rs. *)
From Coq Require Import List ZArith Bool.
Import ListNotations.
From Verif.Model Require Import MBase MFixed MFloat MFloat32 MVarModel MAvar.
Open Scope Z_scope.

(** A HashMap<i32, f32>: at most one entry per key, in no particular order. *)
Definition imap := list (Z * dyadic).
Definition imap_get (k : Z) (m : imap) : option dyadic :=
  option_map snd (find (fun e => fst e =? k) m).
Definition imap_insert (k : Z) (v : dyadic) (m : imap) : imap :=
  (k, v) :: filter (fun e => negb (fst e =? k)) m.
(** Iterator::max, Iterator::min *)
Definition zmax (l : list Z) : option Z := match l with [] => None | x :: xs => Some (fold_left Z.max xs x) end.
Definition zmin (l : list Z) : option Z := match l with [] => None | x :: xs => Some (fold_left Z.min xs x) end.

(** [as i32] on a float: truncation, saturating *)
Definition f_as_i32 (x : dyadic) : Z := sat 32 (dy_trunc x).

(** piecewise_linear_map, lib.rs:40-60; the divisor is the positive difference
    of two keys *)
Definition line_map (m : imap) (value : Z) : res dyadic :=
  match imap_get value m with
  | Some w => Ok w
  | None =>
      match m with
      | [] => Ok (f32_of_int value)
      | _ =>
          min <- unwrap (zmin (map fst m)) ;;
          if value <? min then
            w <- unwrap (imap_get min m) ;;
            Ok (f32_sub (f32_add (f32_of_int value) w) (f32_of_int min))
          else
            max <- unwrap (zmax (map fst m)) ;;
            if max <? value then
              w <- unwrap (imap_get max m) ;;
              Ok (f32_sub (f32_add (f32_of_int value) w) (f32_of_int max))
            else
              a <- unwrap (zmax (filter (fun k => k <? value) (map fst m))) ;;
              b <- unwrap (zmin (filter (fun k => value <? k) (map fst m))) ;;
              va <- unwrap (imap_get a m) ;;
              vb <- unwrap (imap_get b m) ;;
              d <- chk_i 32 (value - a) ;;
              y <- chk_i 32 (b - a) ;;
              Ok (f32_add va (f32_div (f32_mul (f32_sub vb va) (f32_of_int d)) (f32_of_int y)))
      end
  end.

(** The parts of an axis that matter here, lib.rs:233-254.  A map entry is
    (input, output). *)
Record axis : Type := mk_axis {
  ax_min : Z; ax_max : Z; ax_default : Z; ax_map : option (list (dyadic * dyadic)) }.

(** lib.rs:278-284, 296-302: the mapping without a map element *)
Definition plain_map (ax : axis) : imap :=
  imap_insert (ax_max ax) (f32_of_int (ax_max ax))
    (imap_insert (ax_default ax) (f32_of_int (ax_default ax))
      (imap_insert (ax_min ax) (f32_of_int (ax_min ax)) [])).
(** userspace_to_designspace, lib.rs:275-289 *)
Definition to_designspace (ax : axis) (l : Z) : res dyadic :=
  line_map (match ax_map ax with
            | Some es => fold_left (fun m e => imap_insert (f_as_i32 (fst e)) (snd e) m) es []
            | None => plain_map ax
            end) l.
(** designspace_to_userspace, lib.rs:292-306 *)
Definition to_userspace (ax : axis) (l : Z) : res dyadic :=
  line_map (match ax_map ax with
            | Some es => fold_left (fun m e => imap_insert (f_as_i32 (snd e)) (fst e) m) es []
            | None => plain_map ax
            end) l.

(** normalize_userspace_value, lib.rs:307-321.  A zero divisor is excluded by
    the comparisons when minimum <= default <= maximum; otherwise the quotient
    is outside the model (the value given here has no meaning then). *)
Definition normalize_user (ax : axis) (l : dyadic) : res dyadic :=
  let l1 := if dy_ltb l (f32_of_int (ax_min ax)) then f32_of_int (ax_min ax) else l in
  let l2 := if dy_ltb (f32_of_int (ax_max ax)) l1 then f32_of_int (ax_max ax) else l1 in
  let df := f32_of_int (ax_default ax) in
  if dy_ltb l2 df then
    w <- chk_i 32 (ax_default ax - ax_min ax) ;;
    Ok (f32_div (dy_neg (f32_sub df l2)) (f32_of_int w))
  else if dy_ltb df l2 then
    w <- chk_i 32 (ax_max ax - ax_default ax) ;;
    Ok (f32_div (f32_sub l2 df) (f32_of_int w))
  else Ok dy0.

(** normalize_designspace_value, lib.rs:327-351.  If all outputs are equal the
    code divides 0 by 0 (NaN); the model returns 0. *)
Definition normalize_design (ax : axis) (l : dyadic) : res dyadic :=
  match ax_map ax with
  | None | Some [] => normalize_user ax l
  | Some (e :: es) =>
      let mn := fold_left dy_min (map snd es) (snd e) in
      let mx := fold_left dy_max (map snd es) (snd e) in
      let l1 := if dy_ltb l mn then mn else l in
      let l2 := if dy_ltb mx l1 then mx else l1 in
      Ok (f32_div (f32_sub l2 mn) (f32_sub mx mn))
  end.

(** normalize_location, lib.rs:201-208 *)
Definition normalize_location (axes : list axis) (loc : list Z) : res (list dyadic) :=
  rmapM (fun al => normalize_design (fst al) (f32_of_int (snd al))) (combine axes loc).

(** The segment map that add_to_font makes for an axis, lib.rs:82-102 *)
Definition axis_segments (ax : axis) : res segment_map :=
  match ax_map ax with
  | None => seg_new [(minus1, minus1); (dy0, dy0); (dy1, dy1)]
  | Some es =>
      ns <- rmapM (fun e => a <- normalize_user ax (fst e) ;; b <- normalize_design ax (snd e) ;; Ok (a, b)) es ;;
      seg_new ((minus1, minus1) :: ns)
  end.

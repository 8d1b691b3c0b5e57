(** The glyf table: src/tables/glyf.rs, src/tables/glyf/{glyph,contourutils}.rs,
    and its compilation in src/table_store.rs *)
From Verif.Model Require Import MBase MFixed MFloat MTables MGlyph.

(** ** Reading: glyf.rs:41-68.  [c.ptr] is set to the offset for every glyph
    and restored afterwards. *)
Definition de_glyf (data : list Z) (locs : list (option Z)) : res (list glyph) :=
  rmapM (fun item =>
    match item with
    | None => Ok empty_glyph
    | Some off =>
        match de_glyph (mkrd data (Z.to_nat off) [0%nat]) with
        | Ok (g, _) => Ok g | Err => Err | Panic => Panic
        end
    end) locs.

(** ** Compilation: table_store.rs:434-464 *)

(** table_store.rs:446-448: pad with zero bytes to a multiple of four *)
Definition pad4 (l : list Z) : list Z := l ++ repeat 0 ((4 - length l mod 4) mod 4).
Definition unwrap_r {A} (x : res A) : res A := match x with Ok a => Ok a | _ => Panic end.

(** table_store.rs:438-449 *)
Fixpoint compile_glyphs (gs : list glyph) (out : list Z) : res (list Z * list Z) :=
  match gs with
  | [] => Ok (out, [])
  | g :: gs' =>
      cur <- unwrap (try_u 32 (Z.of_nat (length out))) ;;
      out' <- (if is_empty_glyph g then Ok out
               else (bs <- unwrap_r (ser_glyph g) ;; Ok (pad4 (out ++ bs)))) ;;
      ' (fin, idx) <- compile_glyphs gs' out' ;;
      Ok (fin, cur :: idx)
  end.

(** table_store.rs:434-464: glyf bytes, loca bytes, loca_is32bit *)
Definition compile_glyf (gs : list glyph) : res (list Z * list Z * bool) :=
  ' (out0, idx0) <- compile_glyphs gs [] ;;
  let out := match out0 with [] => [0] | _ => out0 end in
  fin <- unwrap (try_u 32 (Z.of_nat (length out))) ;;
  let idx := idx0 ++ [fin] in
  let is32 := 65535 <? Z.of_nat (length out) in
  let loca := if is32 then concat (map ser_u32 idx)
              else concat (map (fun x => ser_u16 (u16 (x / 2))) idx) in
  Ok (out, loca, is32).

(** ** Components: glyf.rs:74-118 *)
Definition set_trans (c : component) (t : affine) : component :=
  mk_comp (cp_glyph c) t (cp_match c) (cp_flags c).

(** glyf.rs:77-100.  [room] is 65 - depth: at depth 65 the recursion gives up
    with an empty list.  Indexing out of range panics. *)
Fixpoint flat_components_at (room : nat) (gs : list glyph) (comps : list component) : res (list component) :=
  match room with
  | O => Ok []
  | S room' =>
      (fix go (cs : list component) : res (list component) :=
         match cs with
         | [] => Ok []
         | c :: cs' =>
             cg <- unwrap (nth_error gs (Z.to_nat (cp_glyph c))) ;;
             here <-
               (if has_components cg then
                  flat <- flat_components_at room' gs (g_comps cg) ;;
                  Ok (map (fun f => set_trans f (aff_mul (cp_trans c) (cp_trans f))) flat)
                else Ok [c]) ;;
             rest <- go cs' ;;
             Ok (here ++ rest)
         end) comps
  end.
(** glyf.rs:74-76 *)
Definition flat_components (gs : list glyph) (g : glyph) : res (list component) :=
  flat_components_at 65 gs (g_comps g).

Definition set_comps (g : glyph) (cs : list component) : glyph :=
  mk_glyph (g_xMin g) (g_xMax g) (g_yMin g) (g_yMax g) (g_contours g) (g_instr g) cs (g_overlap g).
(** glyf.rs:104-118.  All lists are computed against the original table and
    then assigned.  The code skips the assignment when the list is equal to
    the old one; here it is always made. *)
Definition flatten_components (gs : list glyph) : res (list glyph) :=
  rmapM (fun g => if has_components g
                  then (cs <- flat_components gs g ;; Ok (set_comps g cs))
                  else Ok g) gs.

(** glyph.rs:319-356 (not recursive; unknown glyphs are skipped) *)
Definition decompose (g : glyph) (gs : list glyph) : glyph :=
  let new := flat_map (fun c =>
    match nth_error gs (Z.to_nat (cp_glyph c)) with
    | None => []
    | Some og => map (map (pt_transform (cp_trans c))) (g_contours og)
    end) (g_comps g) in
  mk_glyph 0 0 0 0 (g_contours g ++ new) [] [] (g_overlap g).

(** ** Bounds: glyf.rs:121-167 *)
Definition set_box (g : glyph) (x0 y0 x1 y1 : Z) : glyph :=
  mk_glyph x0 x1 y0 y1 (g_contours g) (g_instr g) (g_comps g) (g_overlap g).
(** [iter().min().unwrap_or(&0)] / max *)
Definition zmin_list (l : list Z) : Z := match l with [] => 0 | x :: l' => fold_left Z.min l' x end.
Definition zmax_list (l : list Z) : Z := match l with [] => 0 | x :: l' => fold_left Z.max l' x end.
(** glyf.rs:124-133 *)
Definition simple_bounds (g : glyph) : glyph :=
  if has_components g then g
  else
    let pts := concat (g_contours g) in
    set_box g (zmin_list (map pt_x pts)) (zmin_list (map pt_y pts))
              (zmax_list (map pt_x pts)) (zmax_list (map pt_y pts)).

(** [kurbo::Rect] (x0,y0,x1,y1); [Rect::new] keeps the corners as given *)
Record rect := mk_rect { rc_x0 : dyadic; rc_y0 : dyadic; rc_x1 : dyadic; rc_y1 : dyadic }.
(** glyph.rs:226-233 *)
Definition bounds_rect (g : glyph) : rect :=
  mk_rect (dy_of_Z (g_xMin g)) (dy_of_Z (g_yMin g)) (dy_of_Z (g_xMax g)) (dy_of_Z (g_yMax g)).
(** kurbo: [Rect::from_points] orders the coordinates *)
Definition rect_points (p q : dyadic * dyadic) : rect :=
  mk_rect (dy_min (fst p) (fst q)) (dy_min (snd p) (snd q)) (dy_max (fst p) (fst q)) (dy_max (snd p) (snd q)).
(** kurbo: [Rect::union] *)
Definition rect_union (a b : rect) : rect :=
  mk_rect (dy_min (rc_x0 a) (rc_x0 b)) (dy_min (rc_y0 a) (rc_y0 b))
          (dy_max (rc_x1 a) (rc_x1 b)) (dy_max (rc_y1 a) (rc_y1 b)).
(** kurbo: [Affine::transform_rect_bbox] *)
Definition transform_rect_bbox (t : affine) (r : rect) : rect :=
  rect_union
    (rect_points (aff_apply t (rc_x0 r) (rc_y0 r)) (aff_apply t (rc_x0 r) (rc_y1 r)))
    (rect_points (aff_apply t (rc_x1 r) (rc_y0 r)) (aff_apply t (rc_x1 r) (rc_y1 r))).
(** glyph.rs:235-240; kurbo's min_x() etc. order the two sides *)
Definition set_bounds_rect (g : glyph) (r : rect) : glyph :=
  set_box g (f_as_i16 (dy_min (rc_x0 r) (rc_x1 r))) (f_as_i16 (dy_min (rc_y0 r) (rc_y1 r)))
            (f_as_i16 (dy_max (rc_x0 r) (rc_x1 r))) (f_as_i16 (dy_max (rc_y0 r) (rc_y1 r))).

(** glyf.rs:139-166: composite glyphs; [boxes] as gathered after the simple pass *)
Definition composite_bounds (boxes : list rect) (g : glyph) : res glyph :=
  if has_components g then
    match find (fun c => contains (cp_flags c) C_METRICS) (g_comps g) with
    | Some c =>
        b <- unwrap (nth_error boxes (Z.to_nat (cp_glyph c))) ;;
        Ok (set_bounds_rect g b)
    | None =>
        rs <- rmapM (fun c =>
                b <- unwrap (nth_error boxes (Z.to_nat (cp_glyph c))) ;;
                Ok (transform_rect_bbox (cp_trans c) b)) (g_comps g) ;;
        match rs with
        | [] => Panic
        | r :: rs' => Ok (set_bounds_rect g (fold_left rect_union rs' r))
        end
    end
  else Ok g.

(** glyf.rs:121-167 *)
Definition recalc_bounds (gs : list glyph) : res (list glyph) :=
  gs1 <- flatten_components gs ;;
  let gs2 := map simple_bounds gs1 in
  rmapM (composite_bounds (map bounds_rect gs2)) gs2.

(** ** Statistics: glyph.rs:409-448, glyf.rs:170-211 *)
Definition num_points (g : glyph) : Z := Z.of_nat (length (concat (g_contours g))).
Definition num_contours (g : glyph) : Z := Z.of_nat (length (g_contours g)).

(** glyph.rs:423-448: points, contours, depth.  The recursion of the code is
    unbounded (a cycle overflows the stack, i.e. aborts); here it runs on
    fuel, and running out of fuel is an abort. *)
Fixpoint composite_values (fuel : nat) (gs : list glyph) (comps : list component) (depth : Z) : res (Z * Z * Z) :=
  match fuel with
  | O => Panic
  | S k =>
      (fix go (cs : list component) (acc : Z * Z * Z) : res (Z * Z * Z) :=
         match cs with
         | [] => Ok acc
         | c :: cs' =>
             let '(np, nc, md) := acc in
             match nth_error gs (Z.to_nat (cp_glyph c)) with
             | None => go cs' acc
             | Some bg =>
                 if has_components bg then
                   d <- chk_u 16 (depth + 1) ;;
                   ' (np2, nc2, md2) <- composite_values k gs (g_comps bg) d ;;
                   np' <- chk_u 16 (np + np2) ;;
                   nc' <- chk_u 16 (nc + nc2) ;;
                   go cs' (np', nc', Z.max md md2)
                 else
                   np' <- chk_u 16 (np + u16 (num_points bg)) ;;
                   nc' <- chk_u 16 (nc + u16 (num_contours bg)) ;;
                   go cs' (np', nc', md)
             end
         end) comps (0, 0, depth)
  end.

Definition max0 (l : list Z) : Z := match l with [] => 0 | _ => zmax_list l end.
(** glyf.rs:170-211.  [fuel] bounds the recursion depth of composite_maxp_values. *)
Definition as_maxp10 (fuel : nat) (gs : list glyph) : res maxp :=
  infos <- rmapM (fun g => composite_values fuel gs (g_comps g) 1) (filter has_components gs) ;;
  let '(np, nc, md) := fold_left (fun l r =>
      let '(a, b, c) := l in let '(a', b', c') := r in (Z.max a a', Z.max b b', Z.max c c'))
    infos (0, 0, 0) in
  Ok (maxp_new10 (u16 (Z.of_nat (length gs)))
        (u16 (max0 (map num_points gs))) (u16 (max0 (map num_contours gs)))
        np nc (u16 (max0 (map (fun g => Z.of_nat (length (g_comps g))) gs))) md).

(** ** Contours: contourutils.rs:5-40 *)
Definition insert_at {A} (n : nat) (x : A) (l : list A) : list A := firstn n l ++ x :: skipn n l.
Definition pt0 := mk_point 0 0 true.
(** [(a + b) / 2] on i16 *)
Definition mid16 (a b : Z) : res Z := s <- chk_i 16 (a + b) ;; Ok (Z.quot s 2).

(** contourutils.rs:6-18: [for i in (0..n).rev()] *)
Fixpoint insert_loop (n : nat) (c : list point) : res (list point) :=
  match n with
  | O => Ok c
  | S i =>
      let p := nth i c pt0 in
      let q := nth (S i) c pt0 in
      c' <- (if negb (pt_on p) && negb (pt_on q) then
               x <- mid16 (pt_x p) (pt_x q) ;;
               y <- mid16 (pt_y p) (pt_y q) ;;
               Ok (insert_at (S i) (mk_point x y true) c)
             else Ok c) ;;
      insert_loop i c'
  end.
(** contourutils.rs:5: [contour.len() - 1] underflows on an empty contour *)
Definition insert_explicit_oncurves (c : list point) : res (list point) :=
  match c with [] => Panic | _ => insert_loop (length c - 1) c end.

(** glyph.rs:261-267 *)
Definition glyph_insert_oncurves (cs : list (list point)) : res (list (list point)) :=
  rmapM insert_explicit_oncurves cs.

Definition remove_at {A} (n : nat) (l : list A) : list A := firstn n l ++ skipn (S n) l.
(** contourutils.rs:21-40.  Every round either advances or shortens, so the
    initial length is enough fuel. *)
Fixpoint remove_loop (fuel : nat) (i : nat) (c : list point) : res (list point) :=
  match fuel with
  | O => Ok c
  | S k =>
      if (i <? length c)%nat then
        let next := nth ((i + 1) mod length c) c pt0 in
        let prev := nth (if (i =? 0)%nat then length c - 1 else i - 1) c pt0 in
        let this := nth i c pt0 in
        if negb (pt_on this) || pt_on prev || pt_on next then remove_loop k (S i) c
        else
          mx <- mid16 (pt_x prev) (pt_x next) ;;
          if negb (pt_x this =? mx) then remove_loop k (S i) c
          else
            my <- mid16 (pt_y prev) (pt_y next) ;;
            if negb (pt_y this =? my) then remove_loop k (S i) c
            else remove_loop k i (remove_at i c)
      else Ok c
  end.
Definition remove_implied_oncurves (c : list point) : res (list point) :=
  remove_loop (length c) 0 c.

(** ** gvar support: glyph.rs:361-406 *)
(** a running sum minus one (usize): underflow on an empty first contour *)
Fixpoint contour_ends (acc : Z) (cs : list (list point)) : res (list Z) :=
  match cs with
  | [] => Ok []
  | c :: cs' =>
      let acc' := acc + Z.of_nat (length c) in
      e <- chk_u 64 (acc' - 1) ;;
      es <- contour_ends acc' cs' ;;
      Ok (e :: es)
  end.
(** [ends.push(ends.iter().max().map(|x| x + 1).unwrap_or(0))] *)
Definition push_end (ends : list Z) : list Z :=
  ends ++ [match ends with [] => 0 | _ => zmax_list ends + 1 end].
Fixpoint push_ends (n : nat) (ends : list Z) : list Z :=
  match n with O => ends | S k => push_ends k (push_end ends) end.
(** The final assert_eq! is a panic. *)
Definition gvar_coords_and_ends (g : glyph) : res (list (Z * Z) * list Z) :=
  ends0 <- contour_ends 0 (g_contours g) ;;
  let coords := map (fun p => (pt_x p, pt_y p)) (concat (g_contours g))
    ++ map (fun c => (f_as_i16 (af_e (cp_trans c)), f_as_i16 (af_f (cp_trans c)))) (g_comps g)
    ++ [(0, 0); (0, 0); (0, 0); (0, 0)] in
  let ends := push_ends (length (g_comps g) + 4) ends0 in
  if last ends 0 =? Z.of_nat (length coords) - 1 then Ok (coords, ends) else Panic.

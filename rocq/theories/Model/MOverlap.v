(** ttf-remove-overlap: crates/fonttools-cli/src/bin/ttf-remove-overlap.rs.

    The path type is that of the skia library: a list of verbs and a list of
    points.  [simplify], skia's own removal of overlaps, is a parameter.
    Coordinates are f32; those of glyphs are whole 16-bit numbers, exact there. *)
From Verif.Model Require Import MBase MFixed MFloat MGlyph MGlyf MStore MCmap MCli MPath MCrunch.

(** An element of a skia path: a verb with its points ([SkPath::Verb]).  The
    weight of a conic is kept elsewhere and never looked at. *)
Inductive sk_el :=
| SkMove (p : kpoint) | SkLine (p : kpoint) | SkQuad (c p : kpoint) | SkConic (c p : kpoint)
| SkCubic (c d p : kpoint) | SkClose.
(** skia: the number of each verb *)
Definition sk_verb (e : sk_el) : Z :=
  match e with SkMove _ => 0 | SkLine _ => 1 | SkQuad _ _ => 2 | SkConic _ _ => 3 | SkCubic _ _ _ => 4 | SkClose => 5 end.
(** skia: the points that belong to it *)
Definition sk_points (e : sk_el) : list kpoint :=
  match e with
  | SkMove p | SkLine p => [p]
  | SkQuad c p | SkConic c p => [c; p]
  | SkCubic c d p => [c; d; p]
  | SkClose => []
  end.

(** ttf-remove-overlap.rs:15-41: what is added to the path, and what is left in
    [segment] *)
Fixpoint overlap_els (segment l : list point) : list sk_el * list point :=
  match l with
  | [] => ([], segment)
  | p :: l' =>
      let segment' := segment ++ [p] in
      if pt_on p then
        let r := overlap_els [] l' in
        (match segment' with
         | [a] => [SkLine (kpt a)]
         | [a; b] => [SkQuad (kpt a) (kpt b)]
         | [a; b; c] => [SkCubic (kpt a) (kpt b) (kpt c)]
         | _ => []
         end ++ fst r, snd r)
      else overlap_els segment' l'
  end.
(** 13-48, for one contour *)
Definition contour_sk (c : list point) : res (list sk_el) :=
  match c with
  | [] => Panic
  | p0 :: l =>
      let r := overlap_els [] l in
      Ok (SkMove (kpt p0) :: fst r ++
          match snd r with a :: _ => [SkQuad (kpt a) (kpt p0)] | [] => [] end ++ [SkClose])
  end.

(** 73-80: [n] points are taken from the list; the last is on the curve *)
Fixpoint take_points (n : nat) (pts : list kpoint) : res (list point * list kpoint) :=
  match n with
  | O => Ok ([], pts)
  | S k =>
      match pts with
      | [] => Panic
      | q :: pts' => r <- take_points k pts' ;; Ok (gpt (k =? 0)%nat q :: fst r, snd r)
      end
  end.
(** 64-81 *)
Fixpoint skia_loop (verbs : list Z) (pts : list kpoint) (new_contour : list point) (new_glyph : list (list point)) : res (list (list point)) :=
  match verbs with
  | [] => Ok new_glyph
  | v :: verbs' =>
      if v >? 4 then skia_loop verbs' pts [] (new_glyph ++ [rev new_contour])
      else
        r <- take_points (if v <? 2 then 1 else 2) pts ;;
        skia_loop verbs' (snd r) (new_contour ++ fst r) new_glyph
  end.
(** skia_to_glyf, 54-83 *)
Definition skia_to_glyf (path : list sk_el) : res (list (list point)) :=
  skia_loop (map sk_verb path) (concat (map sk_points path)) [] [].

Section Overlap.
Variable simplify : list sk_el -> option (list sk_el).
(** remove_overlap, 7-52.  The path is the elements of all contours. *)
Definition remove_overlap (g : glyph) : res glyph :=
  match g_comps g, g_contours g with
  | _ :: _, _ | _, [] => Ok g
  | [], cs =>
      cs' <- glyph_insert_oncurves cs ;;
      els <- rmapM contour_sk cs' ;;
      match simplify (concat els) with
      | Some newpath => r <- skia_to_glyf newpath ;; Ok (set_contours g r)
      | None => Ok (set_contours g cs')
      end
  end.
End Overlap.

Section Tool.
Context {T : Type} (K0 : codecs T).
Variable hash : cmapping -> Z.
Variable simplify : list sk_el -> option (list sk_el).
(** main, 85-95 *)
Definition remove_overlaps : list Z -> res (list Z) := cli K0 hash
  (sbind (get_table K0 hash TAG_glyf sel_glyf) (fun gs =>
   sbind (slift (rmapM (remove_overlap simplify) gs)) (fun gs1 =>
   sbind (slift (recalc_bounds gs1)) (fun gs2 =>
   smodify (ts_insert_typed TAG_glyf (LGlyf gs2)))))).
End Tool.

(** Designspace documents: crates/designspace/src/lib.rs.  Reading the XML is not
    modelled; a document is what the reader returns. *)
From Coq Require Import List ZArith Bool.
Import ListNotations.
From Verif.Model Require Import MBase MTag MMap MFixed MFloat MFloat32 MTables MName MVarModel MAvar MDesign.
Open Scope Z_scope.

(** Axis, lib.rs:233-254, without the localized names, which nothing here uses.
    The tag is a string, given as its UTF-8 bytes; the name is a string, given as
    its code points. *)
Record doc_axis := mk_da { da_name : list Z; da_tag : list Z; da_axis : axis; da_hidden : option bool }.
(** Location and Dimension, lib.rs:405-421, without the [yvalue]s *)
Definition doc_location := list (list Z * dyadic).
(** Source, lib.rs:378-394: the file name and the location *)
Record doc_source := mk_src { src_file : list Z; src_location : doc_location }.
(** Instance, lib.rs:430-450: the style name, the PostScript name and the location *)
Record doc_instance := mk_di { di_style : list Z; di_ps : option (list Z); di_location : doc_location }.
(** Designspace, lib.rs:26-38 *)
Record designspace := mk_doc { doc_axes : list doc_axis; doc_sources : list doc_source; doc_instances : option (list doc_instance) }.

(** tag_as_tag, lib.rs:323-325 *)
Definition tag_as_tag (a : doc_axis) : res tag :=
  match tag_from_raw (da_tag a) with TagOk t => Ok t | TagErr _ => Panic end.
(** axis_order, lib.rs:146-148 *)
Definition axis_order (d : designspace) : res (list tag) := rmapM tag_as_tag (doc_axes d).
(** tag_to_name, lib.rs:136-142; the hash map as an ordered one *)
Definition tag_to_name (d : designspace) : res (list (tag * list Z)) :=
  ts <- axis_order d ;;
  Ok (bm_of_list lex_ltb (combine ts (map da_name (doc_axes d)))).
(** default_location, lib.rs:151-153 *)
Definition default_location (d : designspace) : list Z := map (fun a => ax_default (da_axis a)) (doc_axes d).
(** default_designspace_location, lib.rs:156-162 *)
Definition default_designspace_location (d : designspace) : res (list Z) :=
  rmapM (fun a => v <- to_designspace (da_axis a) (ax_default (da_axis a)) ;; Ok (f_as_i32 v)) (doc_axes d).
(** location_to_tuple, lib.rs:173-186 *)
Definition location_to_tuple (d : designspace) (loc : doc_location) : res (list dyadic) :=
  names <- tag_to_name d ;;
  order <- axis_order d ;;
  rmapM (fun td : tag * Z =>
    name <- unwrap (bm_get lex_ltb (fst td) names) ;;
    match find (fun dim => bytes_eqb (fst dim) name) loc with
    | Some dim => Ok (snd dim)
    | None => Ok (f32_of_int (snd td))
    end) (combine order (default_location d)).
(** source_location, lib.rs:165-170 *)
Definition source_location (d : designspace) (s : doc_source) : res (list Z) :=
  t <- location_to_tuple d (src_location s) ;; Ok (map f_as_i32 t).
(** [find] with a test that may panic *)
Fixpoint rfind {A} (f : A -> res bool) (l : list A) : res (option A) :=
  match l with
  | [] => Ok None
  | x :: l' => b <- f x ;; if b then Ok (Some x) else rfind f l'
  end.
(** default_master, lib.rs:190-196.  [bytes_eqb] is the equality of vectors of
    integers. *)
Definition default_master (d : designspace) : res (option doc_source) :=
  expected <- default_designspace_location d ;;
  rfind (fun s => l <- source_location d s ;; Ok (bytes_eqb l expected)) (doc_sources d).

(** variation_model, lib.rs:210-221 *)
Definition source_point (d : designspace) (s : doc_source) : res location :=
  l <- source_location d s ;;
  v <- normalize_location (map da_axis (doc_axes d)) l ;;
  rfold <- rmapM (fun av => t <- tag_as_tag (fst av) ;; Ok (t, snd av)) (combine (doc_axes d) v) ;;
  Ok (bm_of_list lex_ltb rfold).
Definition variation_model (d : designspace) : res var_model :=
  locs <- rmapM (source_point d) (doc_sources d) ;;
  order <- axis_order d ;;
  vm_new locs order.

(** to_variation_axis_record, lib.rs:257-273 *)
Definition axis_record_of (a : doc_axis) (name_id : Z) : res axis_record :=
  if negb (length (da_tag a) =? 4)%nat then Err
  else
    t <- tag_as_tag a ;;
    Ok (mk_axis_record t (f32_of_int (ax_min (da_axis a))) (f32_of_int (ax_default (da_axis a)))
          (f32_of_int (ax_max (da_axis a)))
          (match da_hidden a with Some true => 1 | _ => 0 end) name_id).
(** The first loop of add_to_font, lib.rs:75-103 *)
Fixpoint add_axes (axs : list doc_axis) (ix : Z) (names : list name_record)
    : res (list axis_record * list segment_map * Z * list name_record) :=
  match axs with
  | [] => Ok ([], [], ix, names)
  | a :: axs' =>
      r <- axis_record_of a ix ;;
      let names := names ++ [windows_unicode ix (da_name a)] in
      ix <- chk_u 16 (ix + 1) ;;
      m <- axis_segments (da_axis a) ;;
      ' (rs, ms, ix, names) <- add_axes axs' ix names ;;
      Ok (r :: rs, m :: ms, ix, names)
  end.
(** The second loop, lib.rs:106-125 *)
Fixpoint add_instances (d : designspace) (is : list doc_instance) (ix : Z) (names : list name_record)
    : res (list instance_record * list name_record) :=
  match is with
  | [] => Ok ([], names)
  | i :: is' =>
      let names := names ++ [windows_unicode ix (di_style i)] in
      c <- location_to_tuple d (di_location i) ;;
      let style := ix in
      ix <- chk_u 16 (ix + 1) ;;
      ' (ps, ix, names) <-
        match di_ps i with
        | Some p => ix' <- chk_u 16 (ix + 1) ;; Ok (Some ix, ix', names ++ [windows_unicode ix p])
        | None => Ok (None, ix, names)
        end ;;
      ' (rs, names) <- add_instances d is' ix names ;;
      Ok (mk_instance style 0 c ps :: rs, names)
  end.
(** add_to_font, lib.rs:64-133: from the records of the [name] table (absent:
    panic) to the three tables that are inserted into the font, [fvar], [name]
    and [avar]. *)
Definition add_to_font (d : designspace) (font_names : option (list name_record))
    : res (fvar * list name_record * list segment_map) :=
  names <- unwrap font_names ;;
  ' (axes, maps, ix, names) <- add_axes (doc_axes d) 255 names ;;
  ' (insts, names) <- add_instances d (match doc_instances d with Some l => l | None => [] end) ix names ;;
  Ok (mk_fvar axes insts, names, maps).

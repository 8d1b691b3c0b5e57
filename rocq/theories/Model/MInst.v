(** Instances of variable fonts: src/otvar/instancer.rs, and the methods of
    delta sets it uses, src/tables/gvar.rs:127-144.  Tables are modelled as
    their values: that a table cannot be loaded (the code aborts) is not. *)
From Coq Require Import List ZArith Bool.
Import ListNotations.
From Verif.Model Require Import MBase MFixed MFloat MFloat32 MTag MMap MGlyph MTables MStat MGvar MAvar MVarModel.
Open Scope Z_scope.

(** The tables the code looks at. *)
Record vfont := mk_vf {
  vf_fvar : option fvar; vf_avar : option (list segment_map); vf_gvar : option gvar;
  vf_glyf : option (list glyph); vf_stat : option stat; vf_cff2 : bool }.

(** UserAxisLimit and NormalizedAxisLimit, instancer.rs:14-39, 61-66 *)
Inductive limit := Pin (v : dyadic) | Range (lo hi : dyadic) | Drop.
(** a BTreeMap, in key order *)
Definition limits := list (tag * limit).
(** AxisRange::new, instancer.rs:20-26 *)
Definition axis_range (lo hi : dyadic) : res limit := if dy_ltb hi lo then Panic else Ok (Range lo hi).

(** split_up, instancer.rs:45-59 and 80-96.  The limits are in key order, so
    that inserting them one by one keeps their order. *)
Definition pins (l : limits) : location :=
  flat_map (fun kv => match snd kv with Pin v => [(fst kv, v)] | _ => [] end) l.
Definition ranges (l : limits) : list (tag * (dyadic * dyadic)) :=
  flat_map (fun kv => match snd kv with Range a b => [(fst kv, (a, b))] | _ => [] end) l.

Definition has_key {V} (t : tag) (m : list (tag * V)) : bool :=
  match bm_get lex_ltb t m with Some _ => true | None => false end.
Definition axis_tags (f : fvar) : list tag := map ax_axisTag (fv_axes f).

(** ** Normalizing: instancer.rs:506-610 *)

(** populate_axis_defaults, instancer.rs:506-522 *)
Definition populate (f : fvar) (l : limits) : res limits :=
  let defaults := bm_of_list lex_ltb (map (fun a => (ax_axisTag a, ax_defaultValue a)) (fv_axes f)) in
  rmapM (fun kv => match snd kv with
                   | Drop => d <- unwrap (bm_get lex_ltb (fst kv) defaults) ;; Ok (fst kv, Pin d)
                   | _ => Ok kv
                   end) l.
(** f32::clamp: aborts unless lo <= hi *)
Definition f32_clamp (v lo hi : dyadic) : res dyadic :=
  if dy_leb lo hi then Ok (if dy_ltb v lo then lo else if dy_ltb hi v then hi else v) else Panic.
(** F2DOT14::round, crates/otspec/src/types.rs:127-129 *)
Definition f2_round (x : dyadic) : res dyadic :=
  p <- unwrap (f2dot14_as_packed x) ;; Ok (f2dot14_from_packed p).
(** normalize, instancer.rs:524-531.  If both ends are the same, the quotient is
    not a number: rounding it gives 0, a segment map aborts on it. *)
Definition normalize (v lo hi : dyadic) (seg : option segment_map) : res dyadic :=
  c <- f32_clamp v lo hi ;;
  let w := f32_sub hi lo in
  if dy_eqb w dy0 then match seg with None => Ok (f2dot14_from_packed 0) | Some _ => Panic end
  else
    let x := f32_div (f32_sub c lo) w in
    y <- match seg with None => Ok x | Some m => seg_value m x end ;;
    f2_round y.
(** normalize_axis_limits, instancer.rs:533-610 *)
Definition normalize_limit (l : limits) (segs : list (tag * segment_map)) (a : tag * (dyadic * dyadic * dyadic))
  : res (tag * limit) :=
  let '(t, (lo, def, hi)) := a in
  let seg := bm_get lex_ltb t segs in
  lim <- unwrap (bm_get lex_ltb t l) ;;
  match lim with
  | Range a b =>
      if dy_ltb def a || dy_ltb b def then Panic
      else x <- normalize a lo hi seg ;; y <- normalize b lo hi seg ;; Ok (t, Range x y)
  | Pin v => x <- normalize v lo hi seg ;; Ok (t, Pin x)
  | Drop => Panic
  end.
Definition normalize_limits (f : fvar) (av : option (list segment_map)) (l : limits) (use_avar : bool) : res limits :=
  if forallb (fun kv => existsb (tag_eqb (fst kv)) (axis_tags f)) l then
    let axes := bm_of_list lex_ltb (map (fun a => (ax_axisTag a, (ax_minValue a, ax_defaultValue a, ax_maxValue a)))
                                        (filter (fun a => has_key (ax_axisTag a) l) (fv_axes f))) in
    let segs := if use_avar then match av with Some maps => bm_of_list lex_ltb (combine (axis_tags f) maps) | None => [] end
                else [] in
    rmapM (normalize_limit l segs) axes
  else Panic.

(** ** Glyph variations *)

(** DeltaSet::scale_deltas, gvar.rs:139-144 *)
Definition scale_deltas (f : dyadic) (d : delta_set) : delta_set :=
  mk_ds (ds_peak d) (ds_start d) (ds_end d)
        (map (fun p => (f_as_i16 (f32_mul (f32_of_int (fst p)) f), f_as_i16 (f32_mul (f32_of_int (snd p)) f))) (ds_deltas d)).
(** DeltaSet::combine, gvar.rs:127-137 *)
Definition add_delta (pq : (Z * Z) * (Z * Z)) : res (Z * Z) :=
  x <- chk_i 16 (fst (fst pq) + fst (snd pq)) ;; y <- chk_i 16 (snd (fst pq) + snd (snd pq)) ;; Ok (x, y).
Definition combine_sets (a b : delta_set) : res delta_set :=
  if (length (ds_deltas a) =? length (ds_deltas b))%nat then
    ds <- rmapM add_delta (combine (ds_deltas a) (ds_deltas b)) ;;
    Ok (mk_ds (ds_peak a) (ds_start a) (ds_end a) ds)
  else Panic.

(** pin_tuple_variation_axes, instancer.rs:161-194 *)
Definition axis_support (tags : list tag) (d : delta_set) (kv : tag * dyadic) : res (tag * tent) :=
  i <- unwrap (position (fst kv) tags) ;;
  s <- unwrap (nth_error (ds_start d) i) ;;
  p <- unwrap (nth_error (ds_peak d) i) ;;
  e <- unwrap (nth_error (ds_end d) i) ;;
  Ok (fst kv, (s, p, e)).
Definition pin_set (loc : location) (tags : list tag) (d : delta_set) : res (list delta_set) :=
  sup <- rmapM (axis_support tags d) loc ;;
  let f := support_scalar loc sup in
  if dy_eqb f dy0 then Ok [] else Ok [scale_deltas f d].
Definition pin_sets (loc : location) (tags : list tag) (sets : list delta_set) : res (list delta_set) :=
  rmap (@concat delta_set) (rmapM (pin_set loc tags) sets).

(** The tent of a delta set on the axes that are left, instancer.rs:127-135.
    Keys are compared as multiples of 1/16384.  The tags are left out: they are
    the same for all sets.  Simplified: a coordinate outside F2DOT14 aborts
    here, in the code only when it is compared. *)
Fixpoint tent_key (pinned : location) (ix : nat) (tags : list tag) (d : delta_set) : res (list Z) :=
  match tags with
  | [] => Ok []
  | ax :: tags' =>
      peak <- unwrap (nth_error (ds_peak d) ix) ;;
      if has_key ax pinned then tent_key pinned (S ix) tags' d
      else
        start <- unwrap (nth_error (ds_start d) ix) ;;
        en <- unwrap (nth_error (ds_end d) ix) ;;
        s <- unwrap (f2dot14_as_packed start) ;;
        p <- unwrap (f2dot14_as_packed peak) ;;
        e <- unwrap (f2dot14_as_packed en) ;;
        k <- tent_key pinned (S ix) tags' d ;;
        Ok (s :: p :: e :: k)
  end.
(** instancer.rs:122-142 *)
Fixpoint merge (pinned : location) (tags : list tag) (sets : list delta_set) (m : list (list Z * delta_set))
  : res (list (list Z * delta_set)) :=
  match sets with
  | [] => Ok m
  | d :: sets' =>
      k <- tent_key pinned 0 tags d ;;
      v <- match bm_get lex_ltb k m with Some o => combine_sets o d | None => Ok d end ;;
      merge pinned tags sets' (bm_insert lex_ltb k v m)
  end.
(** instantiate_gvar_data, instancer.rs:106-159: the delta sets that are left, and
    the deltas to apply to the outline.  Limiting to a range is unimplemented. *)
Definition gvar_data (sets : list delta_set) (tags : list tag) (l : limits) : res (list delta_set * list (Z * Z)) :=
  sets1 <- (if is_nil (pins l) then Ok sets else pin_sets (pins l) tags sets) ;;
  sets2 <- (if is_nil (ranges l) then Ok sets1 else Panic) ;;
  m <- merge (pins l) tags sets2 [] ;;
  Ok (map snd (bm_remove lex_ltb [] m),
      match bm_get lex_ltb [] m with Some d => ds_deltas d | None => [] end).

(** instancer.rs:229-235: the deltas are an iterator *)
Fixpoint move_points (ps : list point) (ds : list (Z * Z)) : res (list point * list (Z * Z)) :=
  match ps with
  | [] => Ok ([], ds)
  | p :: ps' =>
      match ds with
      | [] => Panic
      | d :: ds' =>
          x <- chk_i 16 (pt_x p + fst d) ;; y <- chk_i 16 (pt_y p + snd d) ;;
          '(qs, r) <- move_points ps' ds' ;; Ok (mk_point x y (pt_on p) :: qs, r)
      end
  end.
Fixpoint move_contours (cs : list (list point)) (ds : list (Z * Z)) : res (list (list point)) :=
  match cs with
  | [] => Ok []
  | c :: cs' => '(c', r) <- move_points c ds ;; cs'' <- move_contours cs' r ;; Ok (c' :: cs'')
  end.
Definition with_contours (g : glyph) (cs : list (list point)) : glyph :=
  mk_glyph (g_xMin g) (g_xMax g) (g_yMin g) (g_yMax g) cs (g_instr g) (g_comps g) (g_overlap g).
(** instantiate_gvar_glyph, instancer.rs:215-242 *)
Definition instantiate_glyph (tags : list tag) (l : limits) (g : glyph) (v : option (list delta_set))
  : res (glyph * option (list delta_set)) :=
  match v with
  | None => Ok (g, None)
  | Some sets =>
      '(others, ds) <- gvar_data sets tags l ;;
      cs <- move_contours (g_contours g) ds ;;
      Ok (with_contours g cs, if is_nil others then None else Some others)
  end.
(** instantiate_gvar, instancer.rs:244-271: variations beyond the last glyph are kept *)
Fixpoint instantiate_glyphs (tags : list tag) (l : limits) (gs : list glyph) (vs : gvar) : res (list glyph * gvar) :=
  match gs with
  | [] => Ok ([], vs)
  | g :: gs' =>
      match vs with
      | [] => Panic
      | v :: vs' =>
          '(g', v') <- instantiate_glyph tags l g v ;;
          '(gs'', vs'') <- instantiate_glyphs tags l gs' vs' ;; Ok (g' :: gs'', v' :: vs'')
      end
  end.
Definition varies (v : option (list delta_set)) : bool := match v with Some _ => true | None => false end.
Definition instantiate_gvar (tags : list tag) (l : limits) (gs : list glyph) (vs : gvar) : res (list glyph * option gvar) :=
  '(gs', vs') <- instantiate_glyphs tags l gs vs ;;
  Ok (gs', if existsb varies vs' then Some vs' else None).

(** ** Axis variations: instancer.rs:273-350 *)

Definition all_pinned (f : fvar) (l : limits) : bool := forallb (fun t => has_key t (pins l)) (axis_tags f).
(** instancer.rs:315-337: one node *)
Definition limit_node (lo hi mlo mhi : dyadic) (n : dyadic * dyadic) : res (list (dyadic * dyadic)) :=
  let (from, to) := n in
  let skip := if dy_ltb from dy0 then dy_eqb lo dy0 || dy_ltb from lo
              else if dy_ltb dy0 from then dy_eqb hi dy0 || dy_ltb hi from else false in
  if skip then Ok []
  else
    let from' := if dy_ltb from dy0 then f32_div from (dy_abs lo) else if dy_ltb dy0 from then f32_div from hi else from in
    to' <- (if dy_ltb to dy0 then if dy_eqb mlo dy0 || dy_ltb to mlo then Panic else Ok (f32_div to (dy_abs mlo))
            else if dy_ltb dy0 to then if dy_eqb mhi dy0 || dy_ltb mhi to then Panic else Ok (f32_div to (dy_abs mhi))
            else Ok to) ;;
    a <- f2_round from' ;; b <- f2_round to' ;; Ok [(a, b)].
(** instancer.rs:310-338 *)
Definition limit_map (m : segment_map) (lo hi : dyadic) : res segment_map :=
  a <- seg_value m lo ;; mlo <- f2_round a ;;
  b <- seg_value m hi ;; mhi <- f2_round b ;;
  ns <- rmapM (limit_node lo hi mlo mhi) m ;;
  seg_new (concat ns).
(** instancer.rs:305-342: invalid maps are left out *)
Definition limit_axis (rs : list (tag * (dyadic * dyadic))) (ts : tag * segment_map) : res (list (tag * segment_map)) :=
  if seg_valid (snd ts) then
    match bm_get lex_ltb (fst ts) rs with
    | Some (lo, hi) => m <- limit_map (snd ts) lo hi ;; Ok [(fst ts, m)]
    | None => Ok [ts]
    end
  else Ok [].
Definition instantiate_avar (f : fvar) (maps : list segment_map) (l : limits) : res (option (list segment_map)) :=
  nl <- normalize_limits f (Some maps) l false ;;
  if all_pinned f l then Ok None
  else
    let segs := fold_left (fun m kv => bm_remove lex_ltb (fst kv) m) (pins l)
                          (bm_of_list lex_ltb (combine (axis_tags f) maps)) in
    new <- rmapM (limit_axis (ranges nl)) segs ;;
    ms <- rmapM (fun t => unwrap (bm_get lex_ltb t (concat new)))
                (filter (fun t => negb (has_key t (pins l))) (axis_tags f)) ;;
    Ok (Some ms).

(** ** Axes and named instances: instancer.rs:352-444 *)

(** [(a - b).abs() > f32::EPSILON] *)
Definition differ (a b : dyadic) : bool := dy_ltb EPSILON (dy_abs (f32_sub a b)).
(** instancer.rs:352-361 *)
Definition within_ranges (loc : location) (rs : list (tag * (dyadic * dyadic))) : bool :=
  forallb (fun kv => match bm_get lex_ltb (fst kv) rs with
                     | Some (lo, hi) => negb (dy_ltb (snd kv) lo || dy_ltb hi (snd kv))
                     | None => true
                     end) loc.
(** instancer.rs:383-394 *)
Definition new_axis (l : limits) (a : axis_record) : list axis_record :=
  if has_key (ax_axisTag a) (pins l) then []
  else match bm_get lex_ltb (ax_axisTag a) (ranges l) with
       | Some (lo, hi) => [mk_axis_record (ax_axisTag a) lo (ax_defaultValue a) hi (ax_flags a) (ax_axisNameID a)]
       | None => [a]
       end.
(** instancer.rs:408-421: the location of an instance without the pinned axes,
    if it is at the pinned location *)
Fixpoint unpinned (ps : location) (loc : location) : res (option location) :=
  match ps with
  | [] => Ok (Some loc)
  | (t, v) :: ps' =>
      w <- unwrap (bm_get lex_ltb t loc) ;;
      if differ w v then Ok None else unpinned ps' (bm_remove lex_ltb t loc)
  end.
(** instancer.rs:397-438 *)
Definition new_instance (f : fvar) (l : limits) (axes : list axis_record) (i : instance_record)
  : res (list instance_record) :=
  o <- unpinned (pins l) (bm_of_list lex_ltb (combine (axis_tags f) (in_coordinates i))) ;;
  match o with
  | None => Ok []
  | Some loc =>
      if within_ranges loc (ranges l) then
        cs <- rmapM (fun a => unwrap (bm_get lex_ltb (ax_axisTag a) loc)) axes ;;
        Ok [mk_instance (in_subfamilyNameID i) (in_flags i) cs (in_postscriptNameID i)]
      else Ok []
  end.
(** instantiate_fvar, instancer.rs:363-444 *)
Definition instantiate_fvar (f : fvar) (l : limits) : res (option fvar) :=
  if all_pinned f l then Ok None
  else
    let axes := flat_map (new_axis l) (fv_axes f) in
    is <- rmapM (new_instance f l axes) (fv_instances f) ;;
    Ok (Some (mk_fvar axes (concat is))).

(** ** Style attributes: instancer.rs:446-498 *)

(** instancer.rs:456-468 *)
Definition outside (l : limits) (t : tag) (v : dyadic) : bool :=
  match bm_get lex_ltb t (pins l) with Some p => differ v p | None => false end ||
  match bm_get lex_ltb t (ranges l) with Some (lo, hi) => dy_ltb v lo || dy_ltb hi v | None => false end.
Definition axis_tag_at (s : stat) (i : Z) : res tag :=
  a <- unwrap (nth_error (st_axes s) (Z.to_nat i)) ;; Ok (da_tag a).
(** instancer.rs:482-490: stops at the first *)
Fixpoint any_outside (l : limits) (s : stat) (locs : list (Z * dyadic)) : res bool :=
  match locs with
  | [] => Ok false
  | (i, v) :: locs' => t <- axis_tag_at s i ;; if outside l t v then Ok true else any_outside l s locs'
  end.
(** instancer.rs:471-495 *)
Definition keep_value (l : limits) (s : stat) (v : axis_value) : res (list axis_value) :=
  out1 <- match av_nominal v with
          | Some n => i <- unwrap (av_axis v) ;; t <- axis_tag_at s i ;; Ok (outside l t n)
          | None => Ok false
          end ;;
  if (out1 : bool) then Ok []
  else
    out2 <- match av_locations v with Some locs => any_outside l s locs | None => Ok false end ;;
    if (out2 : bool) then Ok [] else Ok [v].
Definition instantiate_stat (l : limits) (s : stat) : res stat :=
  if is_nil (st_axes s) || is_nil (st_values s) then Ok s
  else vs <- rmapM (keep_value l s) (st_values s) ;; Ok (mk_stat (st_elided s) (st_axes s) (concat vs)).

(** ** instantiate_variable_font: instancer.rs:202-209, 612-647.  The flags of
    glyphs are never set: that needs a font without glyf, and then aborts. *)
Definition instantiate (ft : vfont) (user : limits) : res vfont :=
  f <- unwrap (vf_fvar ft) ;;
  if vf_cff2 ft then Panic
  else
    l <- populate f user ;;
    nl <- normalize_limits f (vf_avar ft) l true ;;
    '(gs, gv) <- match vf_gvar ft with
                 | Some vs => g <- unwrap (vf_glyf ft) ;; '(gs, gv) <- instantiate_gvar (axis_tags f) nl g vs ;; Ok (Some gs, gv)
                 | None => Ok (vf_glyf ft, None)
                 end ;;
    av <- match vf_avar ft with Some maps => instantiate_avar f maps l | None => Ok None end ;;
    st <- match vf_stat ft with Some s => s' <- instantiate_stat l s ;; Ok (Some s') | None => Ok None end ;;
    fv <- instantiate_fvar f l ;;
    match fv, gs with
    | None, None => Panic
    | _, _ => Ok (mk_vf fv av gv gs st (vf_cff2 ft))
    end.

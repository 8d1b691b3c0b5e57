(** Region scalars and the variation model: src/otvar/locations.rs *)
From Verif.Model Require Import MBase MFixed MFloat MFloat32 MTag MMap.
From Coq Require Import QArith.
Open Scope Z_scope.

Definition tag := list Z.
(** locations.rs:14-16; BTreeMaps in key order *)
Definition location := list (tag * dyadic).
Definition tent := (dyadic * dyadic * dyadic)%type.
Definition support := list (tag * tent).

Definition dy0 : dyadic := Dy 0 0.
Definition dy1 : dyadic := Dy 1 0.
(** f32::EPSILON *)
Definition EPSILON : dyadic := Dy 1 (-23).
(** [*loc.get(&axis).unwrap_or(&0.0)] *)
Definition loc_get (t : tag) (l : location) : dyadic :=
  match bm_get lex_ltb t l with Some v => v | None => dy0 end.
(** [(a - b).abs() < f32::EPSILON] *)
Definition near (a b : dyadic) : bool := dy_ltb (dy_abs (f32_sub a b)) EPSILON.

(** support_scalar, locations.rs:36-63; [scalar] is the product so far *)
Fixpoint scalar_from (loc : location) (sup : support) (scalar : dyadic) : dyadic :=
  match sup with
  | [] => scalar
  | (axis, (lower, peak, upper)) :: sup' =>
      if dy_eqb peak dy0 then scalar_from loc sup' scalar
      else if dy_ltb peak lower || dy_ltb upper peak then scalar_from loc sup' scalar
      else if dy_ltb lower dy0 && dy_ltb dy0 upper then scalar_from loc sup' scalar
      else
        let v := loc_get axis loc in
        if near v peak then scalar_from loc sup' scalar
        else if dy_leb v lower || dy_leb upper v then dy0
        else if dy_ltb v peak then
          scalar_from loc sup' (f32_mul scalar (f32_div (f32_sub v lower) (f32_sub peak lower)))
        else
          scalar_from loc sup' (f32_mul scalar (f32_div (f32_sub v upper) (f32_sub peak upper)))
  end.
Definition support_scalar (loc : location) (sup : support) : dyadic := scalar_from loc sup dy1.

(** locations_to_regions, locations.rs:65-95.  The two maps of extremes are
    looked up only for axes that occur, so their [unwrap]s cannot fail. *)
Definition tag_eqb (a b : tag) : bool := negb (lex_ltb a b || lex_ltb b a).
Definition axis_values (t : tag) (locs : list location) : list dyadic :=
  map snd (filter (fun kv => tag_eqb t (fst kv)) (concat locs)).
Definition extreme (f : dyadic -> dyadic -> dyadic) (l : list dyadic) : dyadic :=
  match l with [] => dy0 | v :: vs => fold_left f vs v end.
Definition region_of (locs : list location) (l : location) : support :=
  map (fun kv => (fst kv,
    if dy_ltb dy0 (snd kv) then (dy0, snd kv, extreme dy_max (axis_values (fst kv) locs))
    else (extreme dy_min (axis_values (fst kv) locs), snd kv, dy0))) l.

(** locations.rs:102-109 *)
Definition prune (l : location) : location := filter (fun kv => negb (dy_eqb (snd kv) dy0)) l.

(** ** The order of the masters *)

(** axis_points, locations.rs:111-119: the values of the masters on one axis
    only; 0 belongs to every axis that occurs.  Hashing a value that is no
    F2DOT14 panics. *)
Definition axis_points (locs : list location) : res (list (tag * Z)) :=
  rmapM (fun l => match l with
                  | (t, v) :: _ => p <- unwrap (f2dot14_as_packed v) ;; Ok (t, p)
                  | [] => Panic
                  end)
        (filter (fun l => (length l =? 1)%nat) locs).
(** on_point_count, locations.rs:120-130.  Simplified: looking up a value that is
    no F2DOT14 panics in the code and here is no match. *)
Definition on_point (pts : list (tag * Z)) (kv : tag * dyadic) : bool :=
  existsb (fun tp => tag_eqb (fst tp) (fst kv) &&
    match f2dot14_as_packed (snd kv) with Some p => (p =? snd tp) || (p =? 0) | None => false end) pts.
Definition on_point_count (pts : list (tag * Z)) (l : location) : nat := length (filter (on_point pts) l).

(** [sort_by]: stable.  Simplified: insertion sort; the result of the library
    sort is the same whenever the comparison is consistent. *)
Fixpoint ins {A} (cmp : A -> A -> comparison) (x : A) (l : list A) : list A :=
  match l with
  | [] => [x]
  | y :: l' => match cmp x y with Gt => y :: ins cmp x l' | _ => x :: l end
  end.
Fixpoint sort_by {A} (cmp : A -> A -> comparison) (l : list A) : list A :=
  match l with [] => [] | x :: l' => ins cmp x (sort_by cmp l') end.

Definition tag_cmp (a b : tag) : comparison :=
  if lex_ltb a b then Lt else if lex_ltb b a then Gt else Eq.
(** [axis_order.iter().position(|ax| ax == t)] *)
Fixpoint position (t : tag) (o : list tag) : option nat :=
  match o with
  | [] => None
  | x :: o' => if tag_eqb x t then Some 0%nat else option_map S (position t o')
  end.
Definition in_order (o : list tag) (t : tag) : bool := existsb (fun x => tag_eqb x t) o.
(** locations.rs:146-154 *)
Definition axis_cmp (o : list tag) (a b : tag) : comparison :=
  if in_order o a && negb (in_order o b) then Lt
  else if in_order o b && negb (in_order o a) then Gt
  else tag_cmp a b.
(** locations.rs:164-177 *)
Fixpoint index_cmp (o : list tag) (a b : list tag) : comparison :=
  match a, b with
  | x :: a', y :: b' =>
      match position x o, position y o with
      | Some _, None => Lt
      | None, Some _ => Gt
      | Some i, Some j => match Nat.compare i j with Eq => index_cmp o a' b' | c => c end
      | None, None => index_cmp o a' b'
      end
  | _, _ => Eq
  end.
(** [Iterator::partial_cmp] *)
Fixpoint tags_cmp (a b : list tag) : comparison :=
  match a, b with
  | [], [] => Eq
  | [], _ => Lt
  | _, [] => Gt
  | x :: a', y :: b' => match tag_cmp x y with Eq => tags_cmp a' b' | c => c end
  end.
(** locations.rs:185-191; the numbers are not 0, so [signum] is 1 or -1 *)
Definition signum (v : dyadic) : Z := Z.sgn (mant v).
Fixpoint sign_cmp (axes : list tag) (a b : location) : comparison :=
  match axes with
  | [] => Eq
  | t :: axes' => match Z.compare (signum (loc_get t a)) (signum (loc_get t b)) with Eq => sign_cmp axes' a b | c => c end
  end.
(** locations.rs:192-198 *)
Fixpoint abs_cmp (axes : list tag) (a b : location) : comparison :=
  match axes with
  | [] => Eq
  | t :: axes' =>
      let x := dy_abs (loc_get t a) in
      let y := dy_abs (loc_get t b) in
      if dy_ltb EPSILON (dy_abs (f32_sub x y)) then dy_compare x y else abs_cmp axes' a b
  end.
Definition then_cmp (c d : comparison) : comparison := match c with Eq => d | _ => c end.
(** locations.rs:131-200 *)
Definition master_cmp (pts : list (tag * Z)) (o : list tag) (a b : location) : comparison :=
  then_cmp (Nat.compare (length a) (length b))
  (then_cmp (Nat.compare (on_point_count pts b) (on_point_count pts a))
  (let xs := sort_by (axis_cmp o) (map fst a) in
   let ys := sort_by (axis_cmp o) (map fst b) in
   then_cmp (index_cmp o xs ys) (then_cmp (tags_cmp xs ys) (then_cmp (sign_cmp xs a b) (abs_cmp xs a b))))).

(** ** Supports and weights *)

(** is_subset, locations.rs:219-225 *)
Definition has_key {V} (m : list (tag * V)) (t : tag) : bool := existsb (fun kv => tag_eqb (fst kv) t) m.
(** locations.rs:226-239 *)
Definition relevant (region prev : support) : bool :=
  forallb (fun kv => let '(lower, peak, upper) := snd kv in
    match bm_get lex_ltb (fst kv) prev with
    | None => false
    | Some (_, prev_peak, _) => near prev_peak peak || (dy_ltb lower prev_peak && dy_ltb prev_peak upper)
    end) region.
(** locations.rs:243-266; the axis is in [region], whose axes include those of [prev] *)
Fixpoint best_axes (region prev : support) (best : support) (best_ratio : dyadic) : support :=
  match prev with
  | [] => best
  | (axis, (_, v, _)) :: prev' =>
      match bm_get lex_ltb axis region with
      | None => best_axes region prev' best best_ratio
      | Some (lower, loc_v, upper) =>
          let next (new_lower new_upper ratio : dyadic) :=
            let '(best, best_ratio) := if dy_ltb best_ratio ratio then ([], ratio) else (best, best_ratio) in
            let best := if near ratio best_ratio then bm_insert lex_ltb axis (new_lower, loc_v, new_upper) best else best in
            best_axes region prev' best best_ratio in
          if dy_ltb v loc_v then next v upper (f32_div (f32_sub v loc_v) (f32_sub lower loc_v))
          else if dy_ltb loc_v v then next lower v (f32_div (f32_sub v loc_v) (f32_sub upper loc_v))
          else best_axes region prev' best best_ratio
      end
  end.
(** locations.rs:221-270, one earlier region *)
Definition split (region copy prev : support) : support :=
  if forallb (fun kv => has_key region (fst kv)) prev && relevant region prev then
    fold_left (fun m kv => bm_insert lex_ltb (fst kv) (snd kv) m) (best_axes region prev [] (Dy (-1) 0)) copy
  else copy.
(** _compute_master_supports, locations.rs:215-273 *)
Definition master_supports (locs : list location) : list support :=
  let regions := map (region_of locs) locs in
  map (fun i => let region := nth i regions [] in fold_left (split region) (firstn i regions) region) (seq 0 (length locs)).
(** _compute_delta_weights, locations.rs:275-287 *)
Definition delta_weights (locs : list location) (sups : list support) : list (list (nat * dyadic)) :=
  map (fun i =>
    filter (fun jw => negb (dy_eqb (snd jw) dy0))
      (map (fun j => (j, support_scalar (nth i locs []) (nth j sups []))) (seq 0 i))) (seq 0 (length locs)).

Record var_model := mk_vm {
  vm_locations : list location;
  vm_order : list nat;              (* the original position of each location *)
  vm_supports : list support;
  vm_axis_order : list tag;
  vm_original : list location;
  vm_weights : list (list (nat * dyadic)) }.

(** VariationModel::new, locations.rs:100-213 *)
Definition vm_new (locations : list location) (axis_order : list tag) : res var_model :=
  let locs := map prune locations in
  pts <- axis_points locs ;;
  let order := sort_by (fun i j => master_cmp pts axis_order (nth i locs []) (nth j locs [])) (seq 0 (length locs)) in
  let sorted := map (fun i => nth i locs []) order in
  let sups := master_supports sorted in
  Ok (mk_vm sorted order sups axis_order locations (delta_weights sorted sups)).

(** get_deltas_and_supports, locations.rs:292-316.  Simplified: [T] is the
    rational numbers, with exact [-] and [* f32]. *)
Definition q_of (w : dyadic) : Q := (inject_Z (mant w) * Qpower 2 (expo w))%Q.
Fixpoint deltas_from (weights : list (list (nat * dyadic))) (order : list nat) (sups : list support)
    (values : list Q) (out : list (Q * support)) : res (list (Q * support)) :=
  match weights, order, sups with
  | w :: weights', ix :: order', s :: sups' =>
      v <- unwrap (nth_error values ix) ;;
      d <- fold_left (fun d jw => d <- d ;; o <- unwrap (nth_error out (fst jw)) ;;
                                  Ok (d - fst o * q_of (snd jw))%Q) w (Ok v) ;;
      deltas_from weights' order' sups' values (out ++ [(d, s)])
  | _, _, _ => Ok out
  end.
Fixpoint zip_known {A B} (l : list A) (v : list (option B)) : list A :=
  match l, v with
  | a :: l', Some _ :: v' => a :: zip_known l' v'
  | _ :: l', None :: v' => zip_known l' v'
  | _, _ => []
  end.
Definition get_deltas_and_supports (m : var_model) (master_values : list (option Q)) : res (list (Q * support)) :=
  sub <- vm_new (zip_known (vm_original m) master_values) (vm_axis_order m) ;;
  let values := concat (map (fun v => match v with Some x => [x] | None => [] end) master_values) in
  if (length values =? length (vm_weights sub))%nat then
    deltas_from (vm_weights sub) (vm_order sub) (vm_supports sub) values []
  else Panic.

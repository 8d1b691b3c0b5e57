(** What an instance of a variable font is. *)
From Coq Require Import List ZArith QArith Qabs Qminmax Sorted.
Import ListNotations.
From Verif.Model Require Import MBase MFixed MFloat MTag MMap MGlyph MTables MStat MGvar MAvar MVarModel MInst.
From Verif.Spec Require Import SFloat SVarModel SAvar.
From Verif.Spec Require SIup.
Open Scope Q_scope.

(** A map as the code holds it: in key order, each key once. *)
Definition as_map {V} (m : list (tag * V)) : Prop := StronglySorted (fun a b => lex_ltb a b = true) (map fst m).

(** ** What is asked for *)

(** The axis is to be fixed at [v]: at a given value, or dropped at its default. *)
Definition asked (user : limits) (a : axis_record) (v : dyadic) : Prop :=
  In (ax_axisTag a, Pin v) user \/ (In (ax_axisTag a, Drop) user /\ v = ax_defaultValue a).
(** Every axis is to be fixed. *)
Definition complete (f : fvar) (user : limits) : Prop := forall a, In a (fv_axes f) -> exists v, asked user a v.
Definition known (f : fvar) (user : limits) : Prop := forall t l, In (t, l) user -> In t (axis_tags f).

(** ** Where that is *)

(** How far a value is from one end of its axis to the other, as a fraction. *)
Definition proportion (lo hi v : Q) : Q := (Qmax lo (Qmin v hi) - lo) / (hi - lo).
(** The coordinate [c] of the value [v]: that fraction (0 if the axis has no
    extent), sent through the segment map of the axis if it has one, as a
    multiple of 1/16384. *)
Definition stands_at (a : axis_record) (m : option segment_map) (v c : dyadic) : Prop :=
  f2dot14 c /\
  ((val (ax_minValue a) == val (ax_maxValue a) /\ m = None /\ val c == 0) \/
   (val (ax_minValue a) < val (ax_maxValue a) /\
    exists x y, 0 <= val x <= 1 /\
      Qabs (val x - proportion (val (ax_minValue a)) (val (ax_maxValue a)) (val v)) <= Qpower 2 (-21) /\
      match m with None => y = x | Some m => seg_value m x = Ok y end /\
      Qabs (val c - val y) <= Qpower 2 (-14))).
(** The segment map of an axis, by its number. *)
Definition axis_map (av : option (list segment_map)) (i : nat) : option segment_map :=
  match av with Some maps => nth_error maps i | None => None end.
(** A location on all axes of the font that is the one asked for. *)
Definition location_of (f : fvar) (av : option (list segment_map)) (user : limits) (loc : location) : Prop :=
  as_map loc /\ (forall t, In t (map fst loc) <-> In t (axis_tags f)) /\
  forall i a v, nth_error (fv_axes f) i = Some a -> asked user a v ->
    exists c, In (ax_axisTag a, c) loc /\ stands_at a (axis_map av i) v c.

(** ** The outlines there *)

(** The weight of a delta set at a location: the product of its tents (C29). *)
Definition set_value (tags : list tag) (loc : location) (d : delta_set) (q : Q) : Prop :=
  region_value loc (combine tags (combine (combine (ds_start d) (ds_peak d)) (ds_end d))) q.
(** How far point [i] moves if the delta sets have these weights; [sel] is the
    coordinate. *)
Definition shift (sel : Z * Z -> Z) (sets : list delta_set) (ws : list Q) (i : nat) : Q :=
  fold_right (fun dq s => snd dq * inject_Z (sel (nth i (ds_deltas (fst dq)) (0, 0)%Z)) + s) 0 (combine sets ws).
(** How many weights are not 0. *)
Definition applying (ws : list Q) : nat := length (filter (fun q => negb (Qeq_bool q 0)) ws).
(** The same glyph with points moved: in the same contours, off-curve as before. *)
Definition moved_outline (g g' : glyph) (P : nat -> point -> point -> Prop) : Prop :=
  g' = with_contours g (g_contours g') /\
  Forall2 (fun c c' => length c = length c') (g_contours g) (g_contours g') /\
  forall i p p', nth_error (concat (g_contours g)) i = Some p -> nth_error (concat (g_contours g')) i = Some p' ->
    pt_on p' = pt_on p /\ P i p p'.
(** The glyph an interpolation at the location would show, each coordinate
    within [1 + (axes + 2)/64] for every delta set that applies. *)
Definition instance_of (tags : list tag) (loc : location) (g : glyph) (v : option (list delta_set)) (g' : glyph) : Prop :=
  match v with
  | None => g' = g
  | Some sets => exists ws, Forall2 (set_value tags loc) sets ws /\
      let bound := inject_Z (Z.of_nat (applying ws)) * (1 + inject_Z (Z.of_nat (length tags) + 2) / 64) in
      moved_outline g g' (fun i p p' =>
        Qabs (inject_Z (pt_x p') - (inject_Z (pt_x p) + shift fst sets ws i)) <= bound /\
        Qabs (inject_Z (pt_y p') - (inject_Z (pt_y p) + shift snd sets ws i)) <= bound)
  end.

(** Deltas are 16-bit numbers. *)
Definition typed (v : option (list delta_set)) : Prop :=
  match v with None => True | Some sets => Forall (fun d => Forall SIup.i16_pair (ds_deltas d)) sets end.
Definition varying (v : option (list delta_set)) : Prop := v <> None.

(** ** Fonts that can be instantiated *)

(** A delta set for [k] axes and [n] points, with coordinates a font can hold. *)
Definition set_shape (k n : nat) (d : delta_set) : Prop :=
  length (ds_peak d) = k /\ length (ds_start d) = k /\ length (ds_end d) = k /\ length (ds_deltas d) = n /\
  Forall f2dot14 (ds_peak d).
(** The deltas of point [i], added up without their signs. *)
Definition reach (sel : Z * Z -> Z) (sets : list delta_set) (i : nat) : Z :=
  fold_right (fun d s => Z.abs (sel (nth i (ds_deltas d) (0, 0)%Z)) + s)%Z 0%Z sets.
(** A glyph whose points stay within 16 bits whatever part of the deltas is added. *)
Definition roomy (k : nat) (g : glyph) (v : option (list delta_set)) : Prop :=
  match v with
  | None => True
  | Some sets => exists n, (length (concat (g_contours g)) <= n)%nat /\ Forall (set_shape k n) sets /\
      (forall i, reach fst sets i <= 32767 /\ reach snd sets i <= 32767)%Z /\
      forall i p, nth_error (concat (g_contours g)) i = Some p ->
        (Z.abs (pt_x p) + reach fst sets i <= 32767 /\ Z.abs (pt_y p) + reach snd sets i <= 32767)%Z
  end.
(** An axis with an extent in the right order and a proper segment map, if any. *)
Definition proper_axis (a : axis_record) (m : option segment_map) : Prop :=
  val (ax_minValue a) <= val (ax_maxValue a) /\
  match m with
  | None => True
  | Some m => val (ax_minValue a) < val (ax_maxValue a) /\ from_font m /\ seg_valid m = true /\ from_increasing m
  end.
(** STAT values refer to axes that exist. *)
Definition proper_value (s : stat) (v : axis_value) : Prop :=
  (av_nominal v <> None -> exists i, av_axis v = Some i /\ (Z.to_nat i < length (st_axes s))%nat) /\
  (forall locs i x, av_locations v = Some locs -> In (i, x) locs -> (Z.to_nat i < length (st_axes s))%nat).
Definition proper_font (ft : vfont) (f : fvar) (gs : list glyph) : Prop :=
  vf_fvar ft = Some f /\ vf_glyf ft = Some gs /\ vf_cff2 ft = false /\ NoDup (axis_tags f) /\
  (forall i a, nth_error (fv_axes f) i = Some a -> proper_axis a (axis_map (vf_avar ft) i)) /\
  (forall s v, vf_stat ft = Some s -> In v (st_values s) -> proper_value s v) /\
  forall vs, vf_gvar ft = Some vs -> (length gs <= length vs)%nat /\
    forall i g v, nth_error gs i = Some g -> nth_error vs i = Some v -> typed v /\ roomy (length (fv_axes f)) g v.
(** Some delta set has a weight at the location. *)
Definition reached (tags : list tag) (loc : location) (sets : list delta_set) : Prop :=
  exists d q, In d sets /\ set_value tags loc d q /\ ~ q == 0.
(** Every glyph with an outline and variation data is reached. *)
Definition all_reached (ft : vfont) (f : fvar) (gs : list glyph) (loc : location) : Prop :=
  forall vs i g sets, vf_gvar ft = Some vs -> nth_error gs i = Some g -> nth_error vs i = Some (Some sets) ->
    concat (g_contours g) <> [] -> reached (axis_tags f) loc sets.

(** ** What is left of the axes, instances and style attributes *)

(** An axis is fixed at [v], by its tag; and a value on an axis agrees with what
    is asked for. *)
Definition fixed_at (f : fvar) (user : limits) (t : tag) (v : dyadic) : Prop :=
  exists a, In a (fv_axes f) /\ ax_axisTag a = t /\ asked user a v.
Definition agrees (f : fvar) (user : limits) (t : tag) (c : dyadic) : Prop :=
  (forall v, fixed_at f user t v -> val c == val v) /\
  (forall x y, In (t, Range x y) user -> val x <= val c <= val y).
(** Two values are equal or binary32 can tell them apart. *)
Definition separate (x y : dyadic) : Prop := val x == val y \/ Qpower 2 (-22) <= Qabs (val x - val y).
Definition told_apart (f : fvar) (user : limits) (t : tag) (c : dyadic) : Prop := forall v, fixed_at f user t v -> separate c v.

(** Those elements with [P], in order, each turned into one related by [R]. *)
Inductive selects {A B} (P : A -> Prop) (R : A -> B -> Prop) : list A -> list B -> Prop :=
| sel_nil : selects P R [] []
| sel_keep x y l l' : P x -> R x y -> selects P R l l' -> selects P R (x :: l) (y :: l')
| sel_drop x l l' : ~ P x -> selects P R l l' -> selects P R (x :: l) l'.
Definition free (user : limits) (a : axis_record) : Prop := ~ exists v, asked user a v.
(** An axis that is left: with the range asked for, or as it was. *)
Definition narrowed (user : limits) (a a' : axis_record) : Prop :=
  (exists x y, In (ax_axisTag a, Range x y) user /\
     a' = mk_axis_record (ax_axisTag a) x (ax_defaultValue a) y (ax_flags a) (ax_axisNameID a)) \/
  ((forall lim, ~ In (ax_axisTag a, lim) user) /\ a' = a).
(** An instance at a place that is left. *)
Definition in_reach (f : fvar) (user : limits) (i : instance_record) : Prop :=
  forall j a c, nth_error (fv_axes f) j = Some a -> nth_error (in_coordinates i) j = Some c -> agrees f user (ax_axisTag a) c.
(** The same instance, with coordinates for the axes that are left. *)
Definition reduced (f : fvar) (axes' : list axis_record) (i i' : instance_record) : Prop :=
  i' = mk_instance (in_subfamilyNameID i) (in_flags i) (in_coordinates i') (in_postscriptNameID i) /\
  Forall2 (fun a' c => exists j a, nth_error (fv_axes f) j = Some a /\ ax_axisTag a = ax_axisTag a' /\ nth_error (in_coordinates i) j = Some c)
          axes' (in_coordinates i').
(** The instances have a coordinate for each axis, told apart from what is asked for. *)
Definition proper_instances (f : fvar) (user : limits) : Prop :=
  forall i, In i (fv_instances f) -> length (in_coordinates i) = length (fv_axes f) /\
    forall j a c, nth_error (fv_axes f) j = Some a -> nth_error (in_coordinates i) j = Some c -> told_apart f user (ax_axisTag a) c.
(** A style attribute at places that are left: its value and its locations. *)
Definition places (s : stat) (v : axis_value) (t : tag) (x : dyadic) : Prop :=
  exists i d, nth_error (st_axes s) (Z.to_nat i) = Some d /\ da_tag d = t /\
    ((av_axis v = Some i /\ av_nominal v = Some x) \/ (exists locs, av_locations v = Some locs /\ In (i, x) locs)).
Definition style_left (f : fvar) (user : limits) (s : stat) (v : axis_value) : Prop := forall t x, places s v t x -> agrees f user t x.
Definition styles_apart (f : fvar) (user : limits) (s : stat) : Prop :=
  forall v t x, In v (st_values s) -> places s v t x -> told_apart f user t x.

(** Designspace documents: what the names, axes, instances and masters of a font
    built from one should be. *)
From Coq Require Import List ZArith QArith Bool.
Import ListNotations.
From Verif.Model Require Import MBase MFixed MFloat MFloat32 MTables MName MVarModel MAvar MDesign MDoc.
From Verif.Spec Require Import SFloat SDesign.
Open Scope Z_scope.

(** A tag is one to four printable characters, filled up with spaces. *)
Definition printable_char (c : Z) : Prop := 32 <= c <= 126.
Definition has_tag (a : doc_axis) (t : list Z) : Prop :=
  Forall printable_char (da_tag a) /\ da_tag a <> [] /\ length t = 4%nat /\ exists n, t = da_tag a ++ repeat 32 n.
(** The axes of a document and their tags, all different. *)
Definition titled (d : designspace) (ts : list (list Z)) : Prop := Forall2 has_tag (doc_axes d) ts /\ NoDup ts.

(** A tag of exactly four printable characters. *)
Definition four_letters (a : doc_axis) : Prop := length (da_tag a) = 4%nat /\ Forall printable_char (da_tag a).

(** An English name record of the Windows platform. *)
Definition english (id : Z) (s : list Z) (r : name_record) : Prop :=
  nr_platform r = 3 /\ nr_language r = 1033 /\ nr_name r = id /\ nr_string r = s /\
  nr_encoding r = (if existsb (fun c => 65535 <? c) s then 10 else 1).
(** Exactly one record has this name ID, and it says this. *)
Definition means (rs : list name_record) (id : Z) (s : list Z) : Prop :=
  exists l r l', rs = l ++ r :: l' /\ english id s r /\ Forall (fun r' => nr_name r' <> id) (l ++ l').

(** The instances, and the strings of a document in the order of their name IDs. *)
Definition instances_of (d : designspace) : list doc_instance := match doc_instances d with Some l => l | None => [] end.
Definition strings_of_instance (i : doc_instance) : list (list Z) :=
  di_style i :: match di_ps i with Some p => [p] | None => [] end.
Definition strings_of (d : designspace) : list (list Z) :=
  map da_name (doc_axes d) ++ concat (map strings_of_instance (instances_of d)).

(** The record of an axis, and of an instance. *)
Definition axis_written (rs : list name_record) (a : doc_axis) (r : axis_record) : Prop :=
  ax_axisTag r = da_tag a /\ same_number (ax_min (da_axis a)) (ax_minValue r) /\
  same_number (ax_default (da_axis a)) (ax_defaultValue r) /\ same_number (ax_max (da_axis a)) (ax_maxValue r) /\
  (da_hidden a = Some true -> ax_flags r = 1) /\ (da_hidden a <> Some true -> ax_flags r = 0) /\
  means rs (ax_axisNameID r) (da_name a).
Definition instance_written (d : designspace) (rs : list name_record) (i : doc_instance) (r : instance_record) : Prop :=
  means rs (in_subfamilyNameID r) (di_style i) /\ in_flags r = 0 /\
  match di_ps i, in_postscriptNameID r with
  | Some p, Some id => means rs id p
  | None, None => True
  | _, _ => False
  end /\ location_to_tuple d (di_location i) = Ok (in_coordinates r).

(** The coordinate that a location gives to an axis: that of the first dimension
    with the name of the axis, or the default. *)
Definition coordinate (loc : doc_location) (a : doc_axis) (v : dyadic) : Prop :=
  (exists l r, loc = l ++ (da_name a, v) :: r /\ Forall (fun e => fst e <> da_name a) l) \/
  (Forall (fun e => fst e <> da_name a) loc /\ same_number (ax_default (da_axis a)) v).
Definition placed (d : designspace) (loc : doc_location) (vs : list dyadic) : Prop := Forall2 (coordinate loc) (doc_axes d) vs.

(** The default location in design coordinates, cut to integers; the sources there. *)
Definition design_default (d : designspace) (e : list Z) : Prop :=
  Forall2 (fun a z => exists v, to_designspace (da_axis a) (ax_default (da_axis a)) = Ok v /\ cut v z) (doc_axes d) e.
Definition lies (d : designspace) (s : doc_source) (e : list Z) : Prop :=
  exists vs, placed d (src_location s) vs /\ Forall2 cut vs e.

(** The normalized location of a source, as a map from tags. *)
Definition normal_point (d : designspace) (ts : list (list Z)) (s : doc_source) (loc : location) : Prop :=
  exists e vs, lies d s e /\ Forall2 (fun az v => normalize_design (da_axis (fst az)) (f32_of_int (snd az)) = Ok v) (combine (doc_axes d) e) vs /\
    NoDup (map fst loc) /\ forall t v, In (t, v) loc <-> In (t, v) (combine ts vs).

(** The OpenType format of the glyph definition table, written down independently
    of the code. *)
From Coq Require Import List ZArith.
Import ListNotations.
From Verif.Model Require Import MBase MPacked MOffset MLayout MIvs MGdef.
From Verif.Spec Require Import SBase SGlyph SOffset SLayout SContext SGsub SIvs.
Open Scope Z_scope.

(** ** The file format *)
(** caret values: a coordinate; a point of the outline; a coordinate to be
    adjusted by a device table (only the form without one) *)
Definition caret_obj (c : caret) : obj :=
  match c with
  | Caret1 z => raw (word 1 ++ word z)
  | Caret2 p => raw (word 2 ++ word p)
  | Caret3 z _ _ => raw (word 3 ++ word z) ++ [olink None]
  end.
Definition caret_ok (c : caret) : Prop :=
  match c with
  | Caret1 z => -32768 <= z <= 32767
  | Caret2 p => is_u16 p
  | Caret3 z d placed => -32768 <= z <= 32767 /\ d = None /\ placed = true
  end.
Definition carets_ok (cs : list caret) : Prop := countable cs /\ Forall caret_ok cs.
Definition points_list (l : list Z) : Prop := countable l /\ Forall is_u16 l.

(** the points at which other glyphs attach: a coverage table, and a list of
    points for each covered glyph *)
Inductive attach_file : list (Z * list Z) -> option obj -> Prop :=
| attach_none : attach_file [] None
| attach_some m c : increasing (map fst m) -> countable m -> cov_obj (map fst m) c -> Forall (fun kv => points_list (snd kv)) m ->
    attach_file m (Some ([link c] ++ links (map (fun kv => counted_words (snd kv)) m))).
(** the carets inside ligatures: a coverage table, and for each covered glyph an
    offset, possibly null, to a list of offsets to caret values *)
Definition present (l : list (Z * option (list caret))) : list (Z * list caret) :=
  concat (map (fun kv => match snd kv with Some cs => [(fst kv, cs)] | None => [] end) l).
Inductive carets_file : list (Z * list caret) -> option obj -> Prop :=
| carets_none : carets_file [] None
| carets_some l c : increasing (map fst l) -> countable l -> cov_obj (map fst l) c ->
    (forall g cs, In (g, Some cs) l -> carets_ok cs) ->
    carets_file (present l) (Some ([link c] ++ olinks (map (fun kv => option_map (fun cs => links (map caret_obj cs)) (snd kv)) l))).

(** the fields that newer versions add, when they hold nothing: no mark glyph
    sets, or a list without sets; no item variation store *)
Inductive sets_file : option (list (list Z)) -> option obj -> Prop :=
| sets_none : sets_file None None
| sets_empty f : is_u16 f -> sets_file (Some []) (Some (raw (word f) ++ links32 [])).
Inductive newer_fields : Z -> option (list (list Z)) -> list item -> Prop :=
| version_0 minor : 0 <= minor <= 1 -> newer_fields minor None []
| version_2 s o : sets_file s o -> newer_fields 2 s [olink o]
| version_3 minor s o : 3 <= minor <= 65535 -> sets_file s o -> newer_fields minor s [olink o; IRef Off32 None].

(** classes are numbers in the file; every glyph with a class that is not 2, 3 or
    4 is a base glyph *)
Definition named (m : list (Z * Z)) : list (Z * glyph_class) := map (fun kv => (fst kv, class_of (snd kv))) m.
Definition numbered (m : list (Z * glyph_class)) : list (Z * Z) := map (fun kv => (fst kv, class_num (snd kv))) m.
Inductive gdef_file : gdef -> obj -> Prop :=
| gdef_table major minor classes co attach ao carets lo marks mo sets rest :
    is_u16 major -> is_u16 minor -> classes_obj classes co -> attach_file attach ao -> carets_file carets lo -> classes_obj marks mo ->
    newer_fields minor sets rest ->
    gdef_file (mk_gdef (named classes) attach carets marks sets None)
      (raw (word major ++ word minor) ++ [olink co; olink ao; olink lo; olink mo] ++ rest).

(** ** What can be written, and what it is read back as *)
Definition writable_classes (m : list (Z * Z)) : Prop := m = [] \/ (last_key m <= 65533 /\ Z.of_nat (class_runs m) <= 21845).
Definition gdef_ok (g : gdef) : Prop :=
  class_map (numbered (gd_classes g)) /\ writable_classes (numbered (gd_classes g)) /\
  glyph_map points_list (gd_attach g) /\ glyph_map carets_ok (gd_carets g) /\
  class_map (gd_marks g) /\ writable_classes (gd_marks g) /\
  (gd_sets g = None \/ gd_sets g = Some []) /\ gd_ivs g = None.
(** ranges of glyphs take at most the room of a list from the first to the last *)
Definition as_ranges (m : list (Z * Z)) : Prop := 4 + 6 * Z.of_nat (class_runs m) <= 6 + 2 * (last_key m - first_key m + 1).
(** Otherwise the list is written, with class 0 for the glyphs in between that
    have no class. *)
Definition reread (m m' : list (Z * Z)) : Prop :=
  (m = [] \/ as_ranges m -> m' = m) /\
  (m <> [] -> ~ as_ranges m -> m' = map (fun g => (g, class_in m g)) (interval (first_key m) (last_key m))).
Definition gdef_reread (g g' : gdef) : Prop :=
  (exists m, reread (numbered (gd_classes g)) m /\ gd_classes g' = named m) /\
  gd_attach g' = gd_attach g /\ gd_carets g' = gd_carets g /\ reread (gd_marks g) (gd_marks g') /\
  gd_sets g' = gd_sets g /\ gd_ivs g' = gd_ivs g.
(** no glyph gains a class *)
Definition kept (m : list (Z * Z)) : Prop := m = [] \/ as_ranges m \/ gapless m.

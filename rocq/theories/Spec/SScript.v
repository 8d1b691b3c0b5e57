(** The OpenType formats of script lists, feature lists, lookup lists and the
    GSUB/GPOS header, written down independently of the code. *)
From Coq Require Import List ZArith Sorted.
Import ListNotations.
From Verif.Model Require Import MBase MTag MOffset MLookup.
From Verif.Spec Require Import SBase SGlyph SOffset SLayout SContext SGsub.
Open Scope Z_scope.

Definition is_tag (t : list Z) : Prop := length t = 4%nat /\ Forall (fun b => 0x20 <= b <= 0x7E) t.
(** a count, then records of a tag and an offset *)
Definition tagged (r : list Z * obj) : item := IGroup (raw (fst r) ++ [link (snd r)]).
Definition records (l : list (list Z * obj)) : list item := raw (word (Z.of_nat (length l))) ++ [IGroup (map tagged l)].
Definition records_of {A} (is_obj : A -> obj -> Prop) (l : list (list Z * A)) (os : list (list Z * obj)) : Prop :=
  Forall2 (fun r o => fst r = fst o /\ is_tag (fst r) /\ is_obj (snd r) (snd o)) l os.

(** ** Language systems, scripts *)
(** feature indices are numbers below 65535; 0xFFFF means that no feature is
    required.  (The field that is reserved can hold anything.) *)
Definition langsys_ok (l : langsys) : Prop :=
  match lg_required l with Some r => 0 <= r < 65535 | None => True end /\ countable (lg_features l) /\ Forall is_u16 (lg_features l).
Inductive langsys_obj (l : langsys) : obj -> Prop :=
| langsys_obj1 order : is_u16 order -> langsys_ok l ->
    langsys_obj l (raw (word order ++ word (match lg_required l with Some r => r | None => 65535 end)) ++ counted_words (lg_features l)).
(** a script as it is in a file: the default language system and a list of
    tagged ones *)
Definition script_file : Type := option langsys * list (list Z * langsys).
Definition opt_obj {A} (is_obj : A -> obj -> Prop) (a : option A) (o : option obj) : Prop :=
  match a, o with Some a, Some o => is_obj a o | None, None => True | _, _ => False end.
Inductive script_obj (s : script_file) : obj -> Prop :=
| script_obj1 d os : opt_obj langsys_obj (fst s) d -> records_of langsys_obj (snd s) os -> countable os ->
    script_obj s (olink d :: records os).
Definition scripts_file : Type := list (list Z * script_file).
Inductive scripts_obj (l : scripts_file) : obj -> Prop :=
| scripts_obj1 os : records_of script_obj l os -> countable os -> scripts_obj l (records os).
(** what a user sees of it: maps by tag, in which the last entry counts *)
Definition map_of {V} (l : list (list Z * V)) (m : list (list Z * V)) : Prop :=
  ordered m /\ forall t v, In (t, v) m <-> last_entry l t v.
Definition shows_script (f : script_file) (s : script) : Prop := sc_default s = fst f /\ map_of (snd f) (sc_langs s).
Definition shows_scripts (l : scripts_file) (m : scripts) : Prop :=
  exists m', map_of l m' /\ Forall2 (fun a b => fst a = fst b /\ shows_script (snd a) (snd b)) m' m.
Definition script_in_file (s : script) : script_file := (sc_default s, sc_langs s).
Definition scripts_in_file (m : scripts) : scripts_file := map (fun kv => (fst kv, script_in_file (snd kv))) m.
Definition scripts_ok (m : scripts) : Prop := ordered m /\ countable m /\ Forall (fun kv => is_tag (fst kv) /\
  match sc_default (snd kv) with Some l => langsys_ok l | None => True end /\
  ordered (sc_langs (snd kv)) /\ countable (sc_langs (snd kv)) /\ Forall (fun tl => is_tag (fst tl) /\ langsys_ok (snd tl)) (sc_langs (snd kv))) m.

(** ** Features: a tag and lookup indices; the offset of the parameters is
    relative to the feature table *)
Definition feature_ok (f : list Z * list Z) : Prop := is_tag (fst f) /\ countable (snd f) /\ Forall is_u16 (snd f).
Inductive feature_obj (l : list Z) : obj -> Prop :=
| feature_obj1 params : is_u16 params -> countable l -> Forall is_u16 l -> feature_obj l (raw (word params) ++ counted_words l).
Inductive features_obj (l : list (list Z * list Z)) : obj -> Prop :=
| features_obj1 os : records_of feature_obj l os -> countable os -> features_obj l (records os).

(** ** Lookups: type, flags, subtables, and a mark filtering set if bit 4 of the
    flags says so *)
Definition has_set (flags : Z) : bool := Z.testbit flags 4.
Inductive lookup_obj (t flags : Z) (set : option Z) (subs : list obj) : obj -> Prop :=
| lookup_obj1 : is_u16 t -> is_u16 flags -> countable subs ->
    match set with Some m => is_u16 m /\ has_set flags = true | None => has_set flags = false end ->
    lookup_obj t flags set subs (raw (word t ++ word flags) ++ links subs ++ raw (match set with Some m => word m | None => [] end)).
(** ** The table *)
Definition table_obj (s f : obj) (lookups : list obj) : obj :=
  raw (word 1 ++ word 0) ++ [link s; link f; link (links lookups)].

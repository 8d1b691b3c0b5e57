(** The OpenType formats of the layout subtables' common parts and of
    contextual rules, written down independently of the code.  Objects are lists
    of bytes and offsets; [stored] (SOffset) says what it means for one to be in
    a file. *)
From Coq Require Import List ZArith.
Import ListNotations.
From Verif.Model Require Import MBase MOffset MLayout.
From Verif.Spec Require Import SBase SGlyph SOffset SLayout.
Open Scope Z_scope.

(** a font has at most 65535 glyphs *)
Definition is_glyph (g : Z) : Prop := 0 <= g <= 65534.
Definition countable {A} (l : list A) : Prop := Z.of_nat (length l) <= 65535.

(** ** Parts *)
Definition link (o : obj) : item := IRef Off16 (Some o).
Definition olink (o : option obj) : item := IRef Off16 o.
(** a count, then as many offsets *)
Definition links (os : list obj) : list item := raw (word (Z.of_nat (length os))) ++ [IGroup (map link os)].
Definition olinks (os : list (option obj)) : list item := raw (word (Z.of_nat (length os))) ++ [IGroup (map olink os)].
(** a count, then as many numbers *)
Definition counted_words (l : list Z) : list item := raw (word (Z.of_nat (length l)) ++ words l).
(** a coverage table for the glyphs [g] that the reader can read (C31) *)
Definition cov_obj (g : list Z) (o : obj) : Prop :=
  exists bs, o = raw bs /\ cov_bytes bs g /\ (firstn 2 bs = word 1 \/ ~ In 65535 g).

(** ** Contextual rules: a set of glyphs for each position, and the lookups to
    apply there *)
(** the set of the glyphs in a list *)
Definition glyph_set (g s : list Z) : Prop := increasing s /\ forall x, In x s <-> In x g.
(** the lookups for position [i], in the order of the records *)
Definition attached (recs : list (Z * Z)) (i : nat) : list Z := map snd (filter (fun r => fst r =? Z.of_nat i) recs).
Definition rule_of (slots : list (list Z)) (recs : list (Z * Z)) : list (list Z * list Z) :=
  combine slots (map (attached recs) (seq 0 (length slots))).
Definition records_bytes (recs : list (Z * Z)) : list Z := concat (map (fun r => word (fst r) ++ word (snd r)) recs).
Definition records_ok (recs : list (Z * Z)) : Prop := countable recs /\ Forall (fun r => is_u16 (fst r) /\ is_u16 (snd r)) recs.

(** Format 3: a coverage table for each position *)
Definition context3_obj (input : list obj) (recs : list (Z * Z)) : obj :=
  raw (word 3 ++ word (Z.of_nat (length input)) ++ word (Z.of_nat (length recs))) ++ map link input ++ raw (records_bytes recs).
Definition chain3_obj (back input ahead : list obj) (recs : list (Z * Z)) : obj :=
  raw (word 3) ++ links back ++ links input ++ links ahead ++ raw (word (Z.of_nat (length recs)) ++ records_bytes recs).

(** Formats 1 and 2: rules grouped by the first glyph, or its class; each rule
    gives the other glyphs (or classes).  A rule set can be missing. *)
Definition unchained : Type := list Z * list (Z * Z).
Definition unchained_ok (r : unchained) : Prop :=
  Z.of_nat (length (fst r)) < 65535 /\ Forall is_u16 (fst r) /\ records_ok (snd r).
Definition unchained_obj (r : unchained) : obj :=
  raw (word (Z.of_nat (length (fst r)) + 1) ++ word (Z.of_nat (length (snd r))) ++ words (fst r) ++ records_bytes (snd r)).
(** backtrack, the rest of the input, lookahead, records *)
Definition chained : Type := (list Z * list Z * list Z) * list (Z * Z).
Definition back_of (r : chained) : list Z := fst (fst (fst r)).
Definition input_of (r : chained) : list Z := snd (fst (fst r)).
Definition ahead_of (r : chained) : list Z := snd (fst r).
Definition chained_ok (r : chained) : Prop :=
  countable (back_of r) /\ Forall is_u16 (back_of r) /\
  Z.of_nat (length (input_of r)) < 65535 /\ Forall is_u16 (input_of r) /\
  countable (ahead_of r) /\ Forall is_u16 (ahead_of r) /\ records_ok (snd r).
Definition chained_obj (r : chained) : obj :=
  counted_words (back_of r) ++ raw (word (Z.of_nat (length (input_of r)) + 1) ++ words (input_of r)) ++
  counted_words (ahead_of r) ++ raw (word (Z.of_nat (length (snd r))) ++ records_bytes (snd r)).
Definition rule_sets {R} (enc : R -> obj) (sets : list (option (list R))) : list item :=
  olinks (map (option_map (fun l => links (map enc l))) sets).
Definition sets_ok {R} (ok : R -> Prop) (sets : list (option (list R))) : Prop :=
  countable sets /\ forall l, In (Some l) sets -> countable l /\ Forall ok l.
Definition in_set {R} (o : option (list R)) : list R := match o with Some l => l | None => [] end.

(** the glyphs of class [c], given a class definition and the number of the last
    glyph: class 0 is every glyph without an entry (C32) *)
Definition class_slot (m : list (Z * Z)) (mx c : Z) (s : list Z) : Prop :=
  increasing s /\ forall g, In g s <-> if c =? 0 then 0 <= g <= mx /\ ~ In g (map fst m) else class_in m g = c.
(** a class definition table that is read as [m] (C32 says which are); absent:
    no entries *)
Definition classes_obj (m : list (Z * Z)) (o : option obj) : Prop :=
  match o with
  | None => m = []
  | Some o => class_map m /\ exists bs, bs <> [] /\ o = raw bs /\ reads_back cd_de bs m
  end.

(** What the user sees: rules with a set for each position *)
Definition glyph_sets (l : list (list Z)) : Prop := countable l /\ Forall (fun s => increasing s /\ Forall is_glyph s) l.
Definition rule_ok (r : list (list Z * list Z)) : Prop :=
  glyph_sets (map fst r) /\ Forall (fun p => Forall is_u16 (snd p)) r /\ countable (concat (map snd r)).

(** The tables of formats 1 and 2, and the rules in them with the glyph or class
    each starts with *)
Definition seq1_obj (c : obj) (sets : list (option (list unchained))) : obj :=
  raw (word 1) ++ [link c] ++ rule_sets unchained_obj sets.
Definition seq2_obj (c : obj) (k : option obj) (sets : list (option (list unchained))) : obj :=
  raw (word 2) ++ [link c; olink k] ++ rule_sets unchained_obj sets.
Definition chain1_obj (c : obj) (sets : list (option (list chained))) : obj :=
  raw (word 1) ++ [link c] ++ rule_sets chained_obj sets.
Definition chain2_obj (c : obj) (b i a : option obj) (sets : list (option (list chained))) : obj :=
  raw (word 2) ++ [link c; olink b; olink i; olink a] ++ rule_sets chained_obj sets.
Definition listed {R} (keys : list Z) (sets : list (option (list R))) : list (Z * R) :=
  concat (map (fun ks => map (fun r => (fst ks, r)) (in_set (snd ks))) (combine keys sets)).
Definition class_numbers {A} (l : list A) : list Z := map Z.of_nat (seq 0 (length l)).
(** the rule of glyph [g] in format 1 *)
Definition alone (gs : list Z) : list (list Z) := map (fun g => [g]) gs.

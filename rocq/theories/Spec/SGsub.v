(** The OpenType formats of the substitution subtables, written down
    independently of the code. *)
From Coq Require Import List ZArith Sorted.
Import ListNotations.
From Verif.Model Require Import MBase MTag MOffset MContext MGsub.
From Verif.Spec Require Import SBase SGlyph SOffset SLayout SContext.
Open Scope Z_scope.

(** Maps from glyphs, in the order of the glyphs *)
Definition glyph_map {V} (ok : V -> Prop) (m : list (Z * V)) : Prop :=
  increasing (map fst m) /\ Forall (fun kv => is_glyph (fst kv) /\ ok (snd kv)) m.

(** ** Single substitution *)
Definition single_by (d : Z) (m : list (Z * Z)) : Prop := Forall (fun kv => snd kv = (fst kv + d) mod 65536) m.
Inductive single_obj (m : list (Z * Z)) : obj -> Prop :=
| single1 c d : cov_obj (map fst m) c -> -32768 <= d <= 32767 -> single_by d m ->
    single_obj m (raw (word 1) ++ [link c] ++ raw (word d))
| single2 c : cov_obj (map fst m) c -> countable m -> Forall is_u16 (map snd m) ->
    single_obj m (raw (word 2) ++ [link c] ++ counted_words (map snd m)).
Definition is_format (f : Z) (o : obj) : Prop := firstn 2 o = raw (word f).
(** glyph numbers as signed 16-bit numbers; a substitution that moves a glyph by
    at most half the range, seen so *)
Definition signed (g : Z) : Z := if g <? 32768 then g else g - 65536.
Definition short_move (kv : Z * Z) : Prop := -32768 <= signed (snd kv) - signed (fst kv) <= 32767.

(** ** Multiple and alternate substitution *)
Definition glyph_list (l : list Z) : Prop := countable l /\ Forall is_u16 l.
Inductive multiple_obj (m : list (Z * list Z)) : obj -> Prop :=
| multiple1 c : cov_obj (map fst m) c -> multiple_obj m (raw (word 1) ++ [link c] ++ links (map counted_words (map snd m))).

(** ** Ligatures *)
(** for each first glyph a list of ligatures, each with its remaining components *)
Definition lig_sets : Type := list (Z * list (Z * list Z)).
Definition lig_obj (l : Z * list Z) : obj := raw (word (fst l) ++ word (Z.of_nat (length (snd l)) + 1) ++ words (snd l)).
Inductive ligs_obj (sets : lig_sets) : obj -> Prop :=
| ligs1 c : cov_obj (map fst sets) c ->
    ligs_obj sets (raw (word 1) ++ [link c] ++ links (map (fun s => links (map lig_obj (snd s))) sets)).
Definition lig_sets_ok (sets : lig_sets) : Prop :=
  countable sets /\ Forall (fun s => countable (snd s) /\
    Forall (fun l => is_u16 (fst l) /\ Z.of_nat (length (snd l)) < 65535 /\ Forall is_u16 (snd l)) (snd s)) sets.
(** the sequences with their ligatures *)
Definition lig_entries (sets : lig_sets) : list (list Z * Z) :=
  concat (map (fun s => map (fun l => (fst s :: snd l, fst l)) (snd s)) sets).
(** how a shaping engine uses the table: the set of the first glyph, the first
    ligature in it whose components follow; the result is the ligature and the
    number of glyphs it replaces *)
Definition is_prefix (k s : list Z) : Prop := exists t, s = k ++ t.
Fixpoint starts_with (k s : list Z) : bool :=
  match k, s with
  | [], _ => true
  | a :: k', b :: s' => (a =? b) && starts_with k' s'
  | _, [] => false
  end.
Definition shape (sets : lig_sets) (input : list Z) : option (Z * nat) :=
  match input with
  | [] => None
  | g :: rest =>
      match find (fun s => fst s =? g) sets with
      | None => None
      | Some s => match find (fun l => starts_with (snd l) rest) (snd s) with
                  | None => None
                  | Some l => Some (fst l, S (length (snd l)))
                  end
      end
  end.
(** the longest sequence of the map at the start of the input *)
Definition longest (m : list (list Z * Z)) (input : list Z) (r : Z * nat) : Prop :=
  exists k, In (k, fst r) m /\ is_prefix k input /\ snd r = length k /\
    forall k' g', In (k', g') m -> is_prefix k' input -> (length k' <= length k)%nat.
(** an entry with no later entry for the same key *)
Definition last_entry {K V} (es : list (K * V)) (k : K) (g : V) : Prop :=
  exists a b, es = a ++ (k, g) :: b /\ ~ In k (map fst b).
(** a BTreeMap keeps its keys in lexicographic order *)
Definition ordered {V} (m : list (list Z * V)) : Prop := StronglySorted (fun a b => lex_ltb a b = true) (map fst m).
Definition sequence_ok (k : list Z) : Prop :=
  match k with [] => False | g :: c => is_glyph g /\ Forall is_u16 c /\ Z.of_nat (length c) < 65535 end.
Definition lig_map (m : list (list Z * Z)) : Prop :=
  ordered m /\ countable m /\ Forall (fun kv => sequence_ok (fst kv) /\ is_u16 (snd kv)) m.

(** ** Reverse chaining substitution *)
Definition reverse_obj (c : obj) (back ahead : list obj) (subst : list Z) : obj :=
  raw (word 1) ++ [link c] ++ links back ++ links ahead ++ counted_words subst.

(** ** What can be written *)
Definition chained_rule_ok (r : chained_rule) : Prop := glyph_sets (ch_back r) /\ glyph_sets (ch_ahead r) /\ rule_ok (ch_input r).
Definition reverse_ok (r : reverse_subst) : Prop := glyph_map is_u16 (rv_map r) /\ glyph_sets (rv_back r) /\ glyph_sets (rv_ahead r).

(** Vocabulary for cmap tables: lists of subtables, each under a platform and an
    encoding. *)
From Coq Require Import List ZArith Sorted.
Import ListNotations.
From Verif.Model Require Import MOffset MCmap.
From Verif.Spec Require Import SBase SGlyph SLayout SCmap.
Open Scope Z_scope.

Definition under (p e : Z) (st : subtable) : Prop := st_platform st = p /\ st_encoding st = e.
(** [st] is the first subtable of the table under this platform and encoding. *)
Definition first_under (sts : list subtable) (p e : Z) (st : subtable) : Prop :=
  exists before after, sts = before ++ st :: after /\ under p e st /\ Forall (fun s => ~ under p e s) before.
(** Platforms and encodings of Unicode subtables, best first: the full
    repertoire, then the basic multilingual plane. *)
Definition preferences : list (Z * Z) :=
  [(3, 10); (0, 6); (0, 4); (3, 1); (0, 3); (0, 2); (0, 1); (0, 0)].
(** [st] is under the best platform and encoding present. *)
Definition best_subtable (sts : list subtable) (st : subtable) : Prop :=
  exists better p e worse, preferences = better ++ (p, e) :: worse
    /\ first_under sts p e st
    /\ forall p' e' s, In (p', e') better -> In s sts -> ~ under p' e' s.
(** Platform 0, and encodings 0, 1 and 10 of platform 3. *)
Definition unicode_subtable (st : subtable) : Prop :=
  st_platform st = 0
  \/ (st_platform st = 3 /\ (st_encoding st = 0 \/ st_encoding st = 1 \/ st_encoding st = 10)).
(** Some Unicode subtable maps the code to the glyph. *)
Definition reaches (sts : list subtable) (c g : Z) : Prop :=
  exists st, In st sts /\ unicode_subtable st /\ In (c, g) (st_mapping st).

(** ** Writing and reading a table *)

(** Variation sequences: glyphs by (character, selector), in increasing order of
    the pairs; characters and selectors are 24-bit numbers. *)
Definition pair_lt (a b : Z * Z) : Prop := fst a < fst b \/ (fst a = fst b /\ snd a < snd b).
Definition sequences (m : list ((Z * Z) * Z)) : Prop :=
  StronglySorted pair_lt (map fst m)
  /\ Forall (fun x => 0 <= fst (fst x) < 16777216 /\ 0 <= snd (fst x) < 16777216 /\ is_u16 (snd x)) m.
Definition sequences_of (st : subtable) : list ((Z * Z) * Z) :=
  match st_uvs st with Some m => m | None => [] end.

Definition same_mapping (s t : subtable) : Prop := st_mapping s = st_mapping t.
(** [r] is the first subtable of the table with the mapping of [st]. *)
Definition first_same (sts : list subtable) (st r : subtable) : Prop :=
  exists before after, sts = before ++ r :: after /\ same_mapping r st /\ Forall (fun s => ~ same_mapping s st) before.
(** What is read under the platform and encoding of [st] when the file has [r]
    there. *)
Definition shown_as (r st : subtable) : subtable :=
  if st_format r =? 14 then mkST 14 0 5 0 [] (Some (sequences_of r))
  else mkST (st_format r) (st_platform st) (st_encoding st) (st_language r) (st_mapping r) None.
(** Subtables as the reader gives them: without variation sequences, or format
    14 with nothing else. *)
Definition ordinary (st : subtable) : Prop :=
  (st_format st <> 14 /\ st_uvs st = None)
  \/ (st_format st = 14 /\ st_platform st = 0 /\ st_encoding st = 5 /\ st_language st = 0 /\ st_mapping st = [] /\ st_uvs st <> None).
(** Subtables that are read correctly (C35, C36) once written as [b]. *)
Definition readable (st : subtable) (b : list Z) : Prop :=
  is_u16 (st_language st) /\ char_map (st_mapping st) /\
  match st_format st with
  | 4 => Z.of_nat (length b) <= 65535
  | 12 => unicode_codes (st_mapping st) /\ (exists g m', st_mapping st = (0, g) :: m') /\ second_glyph_differs (st_mapping st)
  | 14 => sequences (sequences_of st) /\ Z.of_nat (length b) <= 65535
  | _ => False
  end.
(** Different mappings of the table have different hash values. *)
Definition no_collision (hash : list (Z * Z) -> Z) (sts : list subtable) : Prop :=
  forall s t, In s sts -> In t sts -> hash (st_mapping s) = hash (st_mapping t) -> same_mapping s t.

(** ** Format 14: for every selector a default table (ranges of characters, with
    the number of further characters in the range) and a table of glyphs *)
Definition word24 (z : Z) : list Z := [(z / 65536) mod 256; (z / 256) mod 256; z mod 256].
Definition uvs_selector_table : Type := Z * option (list (Z * Z)) * option (list (Z * Z)).
Definition default_bytes (l : list (Z * Z)) : list Z :=
  dword (Z.of_nat (length l)) ++ concat (map (fun r => word24 (fst r) ++ [snd r]) l).
Definition glyphs_bytes (l : list (Z * Z)) : list Z :=
  dword (Z.of_nat (length l)) ++ concat (map (fun r => word24 (fst r) ++ word (snd r)) l).
Definition cmap14_object (len : Z) (l : list uvs_selector_table) : obj :=
  raw (word 14 ++ dword len ++ dword (Z.of_nat (length l)))
  ++ map (fun x => IGroup (raw (word24 (fst (fst x)))
             ++ [IRef Off32 (option_map (fun d => raw (default_bytes d)) (snd (fst x)));
                 IRef Off32 (option_map (fun n => raw (glyphs_bytes n)) (snd x))])) l.
Definition is_u24 (z : Z) : Prop := 0 <= z < 16777216.
Definition uvs_fields (l : list uvs_selector_table) : Prop :=
  Z.of_nat (length l) <= 4294967295 /\
  Forall (fun x => is_u24 (fst (fst x))
    /\ (forall d, snd (fst x) = Some d -> Z.of_nat (length d) <= 4294967295 /\ Forall (fun r => is_u24 (fst r) /\ 0 <= snd r <= 255) d)
    /\ (forall n, snd x = Some n -> Z.of_nat (length n) <= 4294967295 /\ Forall (fun r => is_u24 (fst r) /\ is_u16 (snd r)) n)) l.
(** The glyph of a variation sequence. *)
Definition sequence_in (l : list uvs_selector_table) (c s g : Z) : Prop :=
  exists d n, In (s, d, Some n) l /\ In (c, g) n.

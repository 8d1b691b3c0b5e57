(** Which tables of a font make reading them abort the program. *)
From Coq Require Import String List ZArith.
Import ListNotations.
From Verif.Model Require Import MBase MTables MGlyf MGvar MIup MStore.
From Verif.Spec Require Import SBase SReader SStore SWhole SName SPost SCalm SStop SOutline SGvarStop SOrder.
Open Scope Z_scope.

(** Looking up the table called [name] gives this value. *)
Definition gives {T} (K : codecs T) (s : store T) (name : string) (l : loaded T) : Prop :=
  exists tag t, named tag name /\ lookup K s tag = Ok (Some t) /\ tb_loaded t = l.
(** The bytes [d] of the table [tag], in a font with the tables [s], cannot be
    read without aborting: wrong in themselves, or no metrics according to hhea,
    or a bad glyph where loca leads, the ones before it being read, or bad
    variations of the glyphs. *)
Definition table_bad {T} (K : codecs T) (s : store T) (tag d : list Z) : Prop :=
  (named tag "head" /\ head_bad d) \/ (named tag "fvar" /\ fvar_bad d) \/ (named tag "name" /\ name_bad d) \/
  (named tag "post" /\ post_bad d) \/ (named tag "cmap" /\ cmap_bad d) \/
  (named tag "hmtx" /\ exists h, gives K s "hhea" (LHhea h) /\ hh_numberOfHMetrics h = 0) \/
  (named tag "glyf" /\ exists locs i off gs, gives K s "loca" (LLoca locs) /\
     nth_error locs i = Some (Some off) /\ glyph_bad d (Z.to_nat off) /\ de_glyf d (firstn i locs) = Ok gs) \/
  (named tag "gvar" /\ exists gs, gives K s "glyf" (LGlyf gs) /\
     (rmapM gvar_coords_and_ends gs = Panic \/
      exists outlines, rmapM gvar_coords_and_ends gs = Ok outlines /\ gvar_bad outlines d)).
(** The tables that this says nothing about. *)
Definition not_described : list string := ["GDEF"; "MATH"; "GSUB"; "GPOS"]%string.

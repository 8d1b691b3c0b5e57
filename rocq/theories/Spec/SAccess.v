(** What a typed accessor gives. *)
From Coq Require Import String Ascii List ZArith.
Import ListNotations.
From Verif.Model Require Import MBase MTag MMap MFont MTables MMetrics MGlyph MGlyf MStore.
From Verif.Spec Require Import SBase SFont SStore SOrder.

(** The bytes of a tag. *)
Definition spelled (s : string) : list Z := map (fun c => Z.of_N (N_of_ascii c)) (list_ascii_of_string s).
(** The tables with an accessor, other than head, hhea, maxp, hmtx, loca and
    glyf (table_store.rs:615-636). *)
Definition other_accessors : list (list Z) := map spelled
  ["GPOS"; "GSUB"; "gvar"; "GDEF"; "MATH"; "STAT"; "OS/2"; "avar";
   "cmap"; "cvt "; "fpgm"; "fvar"; "gasp"; "name"; "post"; "prep"]%string.

(** The accessor [r] for tables of the kind [kind] is the lookup of [tag], its
    value taken out of its kind; it fails only as the lookup fails. *)
Definition accessor_of {T A} (K : codecs T) (s : store T) (tag : list Z) (kind : A -> loaded T) (r : res (option A)) : Prop :=
  (r = Panic <-> lookup K s tag = Panic) /\ (r = Err <-> lookup K s tag = Err) /\
  (r = Ok None <-> lookup K s tag = Ok None) /\
  forall x, r = Ok (Some x) <-> exists t, lookup K s tag = Ok (Some t) /\ tb_loaded t = kind x.

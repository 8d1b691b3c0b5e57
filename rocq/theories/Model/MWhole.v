(** All tables of a font together: src/table_store.rs with the parsers and
    writers of every table.  head, hhea, maxp, hmtx, loca and glyf are in
    MStore, cmap, post, gasp and gvar in MCli; here are the others. *)
From Verif.Model Require Import MBase MTag MMap MFont MFixed MTables MMetrics MGlyph MGlyf MStore MPost MCmap MCli.
From Verif.Model Require MAvar MGdef MMath MName MStat MLookup MGsub MGpos.

Definition TAG_avar : list Z := [97; 118; 97; 114].
Definition TAG_cvt : list Z := [99; 118; 116; 32].
Definition TAG_fpgm : list Z := [102; 112; 103; 109].
Definition TAG_fvar : list Z := [102; 118; 97; 114].
Definition TAG_GDEF : list Z := [71; 68; 69; 70].
Definition TAG_name : list Z := [110; 97; 109; 101].
Definition TAG_OS2 : list Z := [79; 83; 47; 50].
Definition TAG_STAT : list Z := [83; 84; 65; 84].

Section Whole.
(** Feature parameters (MLookup). *)
Context {P : Type}.

(** table_store.rs:73-118, the tables that MStore and MCli leave open *)
Inductive further :=
| FAvar (x : list MAvar.segment_map) | FCvt (x : list Z) | FFpgm (x : list Z) | FFvar (x : fvar)
| FGdef (x : MGdef.gdef) | FMath (x : MMath.math) | FName (x : list MName.name_record) | FOs2 (x : os2)
| FPrep (x : list Z) | FStat (x : MStat.stat)
| FGsub (x : MLookup.layout P MGsub.substitution) | FGpos (x : MLookup.layout P MGpos.positioning).

(** The text encodings of the [encoding] crate, see MName. *)
Variable other : MName.charset -> MName.coder.
(** What is in the buffer when writing GSUB or GPOS fails (table_store.rs:488-500
    logs the failure and keeps it). *)
Variable fragment : list Z -> further -> list Z.

(** table_store.rs:328-357 *)
Definition parse_further (tag d : list Z) : res further :=
  if MTag.bytes_eqb tag TAG_avar then rmap FAvar (from_bytes MAvar.avar_de d)
  else if MTag.bytes_eqb tag TAG_cvt then rmap FCvt (from_bytes de_cvt d)
  else if MTag.bytes_eqb tag TAG_fpgm then rmap FFpgm (from_bytes de_fpgm d)
  else if MTag.bytes_eqb tag TAG_fvar then rmap FFvar (from_bytes de_fvar d)
  else if MTag.bytes_eqb tag TAG_GDEF then rmap FGdef (from_bytes MGdef.gdef_read d)
  else if MTag.bytes_eqb tag TAG_MATH then rmap FMath (from_bytes MMath.math_read d)
  else if MTag.bytes_eqb tag TAG_name then rmap FName (from_bytes (MName.name_de other) d)
  else if MTag.bytes_eqb tag TAG_OS2 then rmap FOs2 (from_bytes de_os2 d)
  else if MTag.bytes_eqb tag TAG_prep then rmap FPrep (from_bytes de_fpgm d)
  else if MTag.bytes_eqb tag TAG_STAT then rmap FStat (from_bytes MStat.stat_read d)
  else Err.
(** table_store.rs:338-351 *)
Definition parse_rules (tag : list Z) (n : Z) (d : list Z) : res further :=
  if MTag.bytes_eqb tag TAG_GSUB then rmap FGsub (from_bytes (MGsub.gsub_read n) d)
  else rmap FGpos (from_bytes (MGpos.gpos_read n) d).
(** table_store.rs:639-668 *)
Definition ser_further (x : further) : res (list Z) :=
  match x with
  | FAvar y => MAvar.avar_ser y
  | FCvt y => Ok (ser_cvt y)
  | FFpgm y | FPrep y => Ok (ser_fpgm y)
  | FFvar y => ser_fvar y
  | FGdef y => MGdef.gdef_write y
  | FName y => MName.name_ser other y
  | FOs2 y => Ok (ser_os2 y)
  | FStat y => MStat.stat_ser y
  | FMath _ | FGsub _ | FGpos _ => Panic
  end.
(** table_store.rs:484-503: a failure is logged and what was written so far
    saved.  GSUB.rs:274-281, GPOS.rs:290-297: the number of glyphs is not
    used for writing. *)
Definition ser_rules (tag : list Z) (x : further) : res (list Z) :=
  match (match x with
         | FGsub y => MGsub.gsub_write y
         | FGpos y => MGpos.gpos_write y
         | _ => Panic
         end) with
  | Err => Ok (fragment tag x)
  | r => r
  end.
Definition further_codecs : codecs further :=
  mk_codecs _ parse_further parse_rules (fun _ _ => Panic) (fun _ x => ser_further x) (fun tag x _ => ser_rules tag x).
End Whole.
Arguments further : clear implicits.

(** The whole library. *)
Definition library {P} other fragment hash : codecs (known (further P)) := MCli.K (further_codecs other fragment) hash.

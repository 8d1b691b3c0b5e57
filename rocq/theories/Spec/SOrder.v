(** Independent vocabulary for what lookups give, whatever was looked up before. *)
From Verif.Model Require Import MBase MTag MMap MFont MTables MMetrics MGlyph MGlyf MStore.
From Verif.Spec Require Import SBase SFont SStore.

(** What looking a table up gives. *)
Definition lookup {T} (K : codecs T) (s : store T) (tag : list Z) : res (option (table T)) := fst (ts_get K tag s).

(** Loading everything insists on these tables, in this order: head, maxp,
    and loca and glyf if the font has a glyf table. *)
Definition insisted {T} (s : store T) : list (list Z) :=
  [TAG_head; TAG_maxp] ++ match contents s TAG_glyf with Some _ => [TAG_loca; TAG_glyf] | None => [] end.
(** Nothing stands in the way: the table is missing, or it can be read. *)
Definition readable {T} (K : codecs T) (s : store T) (tag : list Z) : Prop := exists o, lookup K s tag = Ok o.
(** The first of the tables that cannot be read gives this outcome. *)
Definition first_failure {T} (K : codecs T) (s : store T) (tags : list (list Z)) (r : res (option (table T))) : Prop :=
  exists before tag after, tags = before ++ tag :: after /\ Forall (readable K s) before /\ lookup K s tag = r.

(** The tables that are looked at when a table is parsed: metrics need hhea,
    layout tables need maxp, gvar needs glyf, which needs loca, which needs head. *)
Definition needs (tag : list Z) : list (list Z) :=
  if bytes_eqb tag TAG_hmtx then [TAG_hhea]
  else if bytes_eqb tag TAG_GPOS || bytes_eqb tag TAG_GSUB then [TAG_maxp]
  else if bytes_eqb tag TAG_loca then [TAG_head]
  else if bytes_eqb tag TAG_glyf then [TAG_loca; TAG_head]
  else if bytes_eqb tag TAG_gvar then [TAG_glyf; TAG_loca; TAG_head]
  else [].
(** The operation does not insert or remove any of these tables. *)
Definition leaves_alone {T} (tags : list (list Z)) (o : op T) : Prop :=
  match o with OInsert u _ | OInsertRaw u _ | ORemove u => ~ In u tags | _ => True end.

(** GPOS tables as they are in a file, and which can be written. *)
From Coq Require Import List ZArith Sorted.
Import ListNotations.
From Verif.Model Require Import MBase MTag MOffset MContext MLookup MValue MGpos.
From Verif.Spec Require Import SBase SGlyph SOffset SLayout SContext SValue SGsub SScript SGsubTable SGpos.
Open Scope Z_scope.

(** ** Lookups.  [gpos_rule max t subs p]: subtables of a lookup of type [t] that
    mean [p]; type 9 wraps subtables of one other type (OpenType allows 7 and 8
    there, too). *)
Inductive gpos_rule (max : Z) : Z -> list obj -> positioning -> Prop :=
| pos_single l os : Forall2 spos_file l os -> gpos_rule max 1 os (PSingle l)
| pos_pair l os : Forall2 (ppos_file max) l os -> gpos_rule max 2 os (PPair l)
| pos_cursive l os : Forall2 curs_file l os -> gpos_rule max 3 os (PCursive l)
| pos_base l os : Forall2 mbase_file l os -> gpos_rule max 4 os (PMarkToBase l)
| pos_lig l os : Forall2 mlig_file l os -> gpos_rule max 5 os (PMarkToLig l)
| pos_mark l os : Forall2 mbase_file l os -> gpos_rule max 6 os (PMarkToMark l)
| pos_context l os : Forall2 (context_file max) l os -> gpos_rule max 7 os (PContextual l)
| pos_chained l os : Forall2 (chained_file max) l os -> gpos_rule max 8 os (PChained l)
| pos_extension t os p : t <= 6 -> os <> [] -> gpos_rule max t os p ->
    gpos_rule max 9 (map (fun o => raw (word 1 ++ word t) ++ [IRef Far32 (Some o)]) os) p.
Definition gpos_file {P} (max : Z) (g : layout P positioning) (o : obj) : Prop := layout_file (gpos_rule max) g o.
(** The rules the reader can read: no marks on marks, and no two ligatures in a
    subtable (C50). *)
Definition pos_readable (p : positioning) : Prop :=
  match p with
  | PMarkToMark _ => False
  | PMarkToLig l => Forall (fun m => (length (ml_ligs m) <= 1)%nat) l
  | _ => True
  end.
Definition gpos_readable {P} (g : layout P positioning) : Prop := Forall (fun l => pos_readable (lu_rule l)) (ly_lookups g).

(** ** Which tables can be written (up to the offsets) and what is read back *)
Definition pos_ok (p : positioning) : Prop :=
  match p with
  | PSingle l => countable l /\ Forall spos_ok l
  | PPair l => countable l /\ Forall ppos_ok l
  | PCursive l => countable l /\ Forall (glyph_map entry_exit_ok) l
  | PMarkToBase l | PMarkToMark l => countable l /\ Forall mbase_ok l
  | PMarkToLig l => countable l /\ Forall mlig_ok l
  | PContextual l => concat l = []
  | PChained l => countable (concat l) /\ Forall chained_rule_ok (concat l)
  end.
(** The same positioning as far as glyphs go: C48 and C50 say what the differences
    are; rules are one to a subtable. *)
Inductive pos_same : positioning -> positioning -> Prop :=
| same_singles l l' : Forall2 same_single l l' -> pos_same (PSingle l) (PSingle l')
| same_pairs l : pos_same (PPair l) (PPair (map pairs_without_zeros l))
| same_cursive l : pos_same (PCursive l) (PCursive l)
| same_base l : pos_same (PMarkToBase l) (PMarkToBase (map mbase_kept l))
| same_lig l : pos_same (PMarkToLig l) (PMarkToLig (map mlig_kept l))
| same_mark l : pos_same (PMarkToMark l) (PMarkToMark (map mbase_kept l))
| same_context l : pos_same (PContextual l) (PContextual [])
| same_chained l : pos_same (PChained l) (PChained (map (fun r => [r]) (concat l))).
Definition gpos_ok {P} (g : layout P positioning) : Prop := layout_ok pos_ok g.
Definition gpos_same {P} (g g' : layout P positioning) : Prop := layout_same pos_same g g'.

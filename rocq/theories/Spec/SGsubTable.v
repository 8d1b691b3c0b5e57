(** GSUB tables as they are in a file, and which can be written. *)
From Coq Require Import List ZArith Sorted.
Import ListNotations.
From Verif.Model Require Import MBase MTag MOffset MContext MLookup MGsub.
From Verif.Spec Require Import SBase SGlyph SOffset SLayout SContext SGsub SScript.
Open Scope Z_scope.

(** ** Subtables.  [..._file v o]: [o] is a subtable that means [v]. *)
(** the second part excludes what C45 is about *)
Definition single_file (m : single) (o : obj) : Prop :=
  increasing (map fst m) /\ Forall is_u16 (map fst m) /\ single_obj m o /\ (is_format 2 o \/ Forall short_move m).
Definition multiple_file (m : multiple) (o : obj) : Prop :=
  increasing (map fst m) /\ countable m /\ Forall glyph_list (map snd m) /\ multiple_obj m o.
Definition ligature_file (m : ligatures) (o : obj) : Prop :=
  exists sets, ligs_obj sets o /\ lig_sets_ok sets /\ map_of (lig_entries sets) m.
(** contexts: [max] is the number of the last glyph *)
Inductive context_file (max : Z) : list context_rule -> obj -> Prop :=
| context1 g c sets : cov_obj g c -> sets_ok unchained_ok sets ->
    context_file max (map (fun gr => rule_of (alone (fst gr :: fst (snd gr))) (snd (snd gr))) (listed g sets)) (seq1_obj c sets)
| context2 g c m k sets rules : cov_obj g c -> classes_obj m k -> sets_ok unchained_ok sets -> is_u16 max ->
    Forall2 (fun kr rule => exists slots, Forall2 (class_slot m max) (fst kr :: fst (snd kr)) slots /\ rule = rule_of slots (snd (snd kr)))
      (listed (class_numbers sets) sets) rules ->
    context_file max rules (seq2_obj c k sets)
| context3 gs os ss recs : Forall2 cov_obj gs os -> Forall2 glyph_set gs ss -> countable os -> records_ok recs ->
    context_file max [rule_of ss recs] (context3_obj os recs).
Inductive chained_file (max : Z) : list chained_rule -> obj -> Prop :=
| chained1 g c sets : cov_obj g c -> sets_ok chained_ok sets ->
    chained_file max (map (fun gr => mk_chained (alone (back_of (snd gr))) (alone (ahead_of (snd gr)))
      (rule_of (alone (fst gr :: input_of (snd gr))) (snd (snd gr)))) (listed g sets)) (chain1_obj c sets)
| chained2 g c mb mi ma b i a sets rules : cov_obj g c -> classes_obj mb b -> classes_obj mi i -> classes_obj ma a ->
    sets_ok chained_ok sets -> is_u16 max ->
    Forall2 (fun kr rule => exists sb si sa, Forall2 (class_slot mb max) (back_of (snd kr)) sb /\
              Forall2 (class_slot mi max) (fst kr :: input_of (snd kr)) si /\ Forall2 (class_slot ma max) (ahead_of (snd kr)) sa /\
              rule = mk_chained sb sa (rule_of si (snd (snd kr))))
            (listed (class_numbers sets) sets) rules ->
    chained_file max rules (chain2_obj c b i a sets)
| chained3 gb gi ga ob oi oa sb si sa recs : Forall2 cov_obj gb ob -> Forall2 cov_obj gi oi -> Forall2 cov_obj ga oa ->
    Forall2 glyph_set gb sb -> Forall2 glyph_set gi si -> Forall2 glyph_set ga sa ->
    countable ob -> countable oi -> countable oa -> records_ok recs ->
    chained_file max [mk_chained sb sa (rule_of si recs)] (chain3_obj ob oi oa recs).
Inductive reverse_file : reverse_subst -> obj -> Prop :=
| reverse1 m c gb ga ob oa sb sa : increasing (map fst m) -> cov_obj (map fst m) c -> countable m -> Forall is_u16 (map snd m) ->
    Forall2 cov_obj gb ob -> Forall2 cov_obj ga oa -> Forall2 glyph_set gb sb -> Forall2 glyph_set ga sa -> countable ob -> countable oa ->
    reverse_file (mk_reverse m sb sa) (reverse_obj c ob oa (map snd m)).

(** ** Lookups.  [gsub_rule max t subs s]: subtables of a lookup of type [t] that
    mean [s]; type 7 wraps subtables of one other type. *)
Inductive gsub_rule (max : Z) : Z -> list obj -> substitution -> Prop :=
| rule_single l os : Forall2 single_file l os -> gsub_rule max 1 os (Single l)
| rule_multiple l os : Forall2 multiple_file l os -> gsub_rule max 2 os (Multiple l)
| rule_alternate l os : Forall2 multiple_file l os -> gsub_rule max 3 os (Alternate l)
| rule_ligature l os : Forall2 ligature_file l os -> gsub_rule max 4 os (Ligature l)
| rule_context l os : Forall2 (context_file max) l os -> gsub_rule max 5 os (Contextual l)
| rule_chained l os : Forall2 (chained_file max) l os -> gsub_rule max 6 os (ChainedContextual l)
| rule_reverse l os : Forall2 reverse_file l os -> gsub_rule max 8 os (ReverseChain l)
| rule_extension t os s : t <= 6 -> os <> [] -> gsub_rule max t os s ->
    gsub_rule max 7 (map (fun o => raw (word 1 ++ word t) ++ [IRef Far32 (Some o)]) os) s.
(** ** The table; features have no parameters *)
Inductive layout_file {P R} (rule : Z -> list obj -> R -> Prop) (g : layout P R) : obj -> Prop :=
| layout_file1 s so f fo os : scripts_obj s so -> shows_scripts s (ly_scripts g) ->
    features_obj f fo -> ly_features g = map (fun x => (x, None)) f ->
    Forall2 (fun l o => exists t subs, lookup_obj t (lu_flags l) (lu_set l) subs o /\ rule t subs (lu_rule l)) (ly_lookups g) os -> countable os ->
    layout_file rule g (table_obj so fo os).
Definition gsub_file {P} (max : Z) (g : layout P substitution) (o : obj) : Prop := layout_file (gsub_rule max) g o.

(** ** Which tables can be written (up to the offsets) and what is read back *)
Definition subst_ok (s : substitution) : Prop :=
  match s with
  | Single l => countable l /\ Forall (fun m => glyph_map is_u16 m /\ ((exists d, single_by d m) -> Forall short_move m)) l
  | Multiple l | Alternate l => countable l /\ Forall (glyph_map glyph_list) l
  | Ligature l => countable l /\ Forall lig_map l
  | Contextual l => concat l = []
  | ChainedContextual l => countable (concat l) /\ Forall chained_rule_ok (concat l)
  | ReverseChain l => countable l /\ Forall reverse_ok l
  end.
(** rules are written one to a subtable *)
Definition subst_normal (s : substitution) : substitution :=
  match s with
  | Contextual _ => Contextual []
  | ChainedContextual l => ChainedContextual (map (fun r => [r]) (concat l))
  | _ => s
  end.
Definition lookup_flags_ok {R} (l : lookup R) : Prop :=
  is_u16 (lu_flags l) /\ match lu_set l with Some m => is_u16 m /\ has_set (lu_flags l) = true | None => has_set (lu_flags l) = false end.
Definition layout_ok {P R} (ok : R -> Prop) (g : layout P R) : Prop :=
  scripts_ok (ly_scripts g) /\ countable (ly_features g) /\ Forall (fun f => feature_ok (fst f)) (ly_features g) /\
  countable (ly_lookups g) /\ Forall (fun l => lookup_flags_ok l /\ ok (lu_rule l)) (ly_lookups g).
(** [g'] is [g] with related rules and without the parameters of features *)
Definition lookup_same {R} (same : R -> R -> Prop) (l l' : lookup R) : Prop :=
  lu_flags l' = lu_flags l /\ lu_set l' = lu_set l /\ same (lu_rule l) (lu_rule l').
Definition layout_same {P R} (same : R -> R -> Prop) (g g' : layout P R) : Prop :=
  ly_scripts g' = ly_scripts g /\ ly_features g' = map (fun f => (fst f, None)) (ly_features g) /\
  Forall2 (lookup_same same) (ly_lookups g) (ly_lookups g').
Definition layout_normal {P R} (normal : R -> R) (g : layout P R) : layout P R :=
  mk_layout (map (fun l => mk_lookup (lu_flags l) (lu_set l) (normal (lu_rule l))) (ly_lookups g)) (ly_scripts g)
    (map (fun f => (fst f, None)) (ly_features g)).
Definition gsub_ok {P} (g : layout P substitution) : Prop := layout_ok subst_ok g.
Definition gsub_normal {P} (g : layout P substitution) : layout P substitution := layout_normal subst_normal g.

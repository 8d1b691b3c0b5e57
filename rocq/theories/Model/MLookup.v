(** What GSUB and GPOS have in common: script lists, feature lists, lookups and
    the table header.  crates/otspec/src/layout/common.rs, src/layout/common.rs,
    crates/otspec/src/tables/{GSUB,GPOS}.rs, src/tables/{GSUB,GPOS}.rs. *)
From Verif.Model Require Import MBase MMap MTag MGlyph MOffset MLayout MLow.

(** ** Script lists, low level *)
(** LangSys, otspec common.rs:29-33 *)
Record langsys_low := mk_langsys_low { lw_order : Z; lw_required : Z; lw_features : list Z }.
Definition langsys_enc (l : langsys_low) : res obj :=
  Ok (raw (ser_u16 (lw_order l) ++ ser_u16 (lw_required l)) ++ words_enc (lw_features l)).
Definition langsys_de : parser langsys_low :=
  o <-- de_u16 ;; r <-- de_u16 ;; f <-- de_words ;; pret (mk_langsys_low o r f).
(** ScriptRecord, LangSysRecord, FeatureRecord (otspec common.rs:15-18, 25-28,
    39-42): a tag and an offset; an array of them is an embedded [Counted] field *)
Definition record_enc {A} (enc : A -> res obj) (r : list Z * option A) : res item :=
  l <- link_enc enc (snd r) ;; Ok (IGroup (raw (ser_tag (fst r)) ++ [l])).
Definition records_enc {A} (enc : A -> res obj) (l : list (list Z * option A)) : res (list item) :=
  is <- rmapM (record_enc enc) l ;; Ok (raw (ser_u16 (u16 (Z.of_nat (length l)))) ++ [IGroup is]).
Definition record_de {A} (p : parser A) : parser (list Z * option A) :=
  t <-- de_tag ;; o <-- de_off16 p ;; pret (t, o).
(** Script, otspec common.rs:19-24 *)
Record script_low := mk_script_low { sl_default : option langsys_low; sl_records : list (list Z * option langsys_low) }.
Definition script_enc (s : script_low) : res obj :=
  d <- link_enc langsys_enc (sl_default s) ;;
  r <- records_enc langsys_enc (sl_records s) ;;
  Ok (d :: r).
Definition script_de : parser script_low := with_base (
  d <-- de_off16 langsys_de ;; r <-- de_counted16 (record_de langsys_de) ;; pret (mk_script_low d r)).
(** ScriptList, otspec common.rs:10-14 *)
Definition scripts_low : Type := list (list Z * option script_low).
Definition scripts_enc (l : scripts_low) : res obj := records_enc script_enc l.
Definition scripts_de : parser scripts_low := with_base (de_counted16 (record_de script_de)).
(** FeatureTable, otspec common.rs:43-46: featureParamsOffset, lookupListIndices *)
Definition feature_low : Type := Z * list Z.
Definition feature_enc (f : feature_low) : res obj := Ok (raw (ser_u16 (fst f)) ++ words_enc (snd f)).
Definition feature_de : parser feature_low := p <-- de_u16 ;; l <-- de_words ;; pret (p, l).
(** FeatureList, otspec common.rs:34-38 *)
Definition features_low : Type := list (list Z * option feature_low).
Definition features_enc (l : features_low) : res obj := records_enc feature_enc l.
Definition features_de : parser features_low := with_base (de_counted16 (record_de feature_de)).

(** ** Script lists, high level (src/layout/common.rs:34-62).  Indices are
    [usize]. *)
Record langsys := mk_langsys { lg_required : option Z; lg_features : list Z }.
Record script := mk_script { sc_default : option langsys; sc_langs : list (list Z * langsys) }.
Definition scripts : Type := list (list Z * script).
(** [P] stands for FeatureParams *)
Definition features (P : Type) : Type := list (list Z * list Z * option P).
(** common.rs:63-74 *)
Definition langsys_from_low (l : langsys_low) : langsys :=
  mk_langsys (if lw_required l =? 65535 then None else Some (lw_required l)) (lw_features l).
(** common.rs:76-84 *)
Definition langsys_to_low (l : langsys) : langsys_low :=
  mk_langsys_low 0 (u16 (match lg_required l with Some r => r | None => 65535 end)) (map u16 (lg_features l)).
(** common.rs:86-99; a null offset is unwrapped *)
Fixpoint langs_from_low (l : list (list Z * option langsys_low)) (m : list (list Z * langsys)) : res (list (list Z * langsys)) :=
  match l with
  | [] => Ok m
  | (t, o) :: l' => ls <- unwrap o ;; langs_from_low l' (bm_insert lex_ltb t (langsys_from_low ls) m)
  end.
Definition script_from_low (s : script_low) : res script :=
  m <- langs_from_low (sl_records s) [] ;;
  Ok (mk_script (option_map langsys_from_low (sl_default s)) m).
(** common.rs:101-125 *)
Definition script_to_low (s : script) : script_low :=
  mk_script_low (option_map langsys_to_low (sc_default s))
    (map (fun kv => (fst kv, Some (langsys_to_low (snd kv)))) (sc_langs s)).
(** common.rs:127-144 *)
Definition scripts_to_low (s : scripts) : scripts_low := map (fun kv => (fst kv, Some (script_to_low (snd kv)))) s.
(** common.rs:146-156 *)
Fixpoint scripts_from_low' (l : scripts_low) (m : scripts) : res scripts :=
  match l with
  | [] => Ok m
  | (t, o) :: l' => s <- unwrap o ;; h <- script_from_low s ;; scripts_from_low' l' (bm_insert lex_ltb t h m)
  end.
Definition scripts_from_low (l : scripts_low) : res scripts := scripts_from_low' l [].
(** common.rs:216-227 *)
Definition features_from_low {P} (l : features_low) : res (features P) :=
  rmapM (fun r : list Z * option feature_low => f <- unwrap (snd r) ;; Ok (fst r, snd f, None)) l.
(** common.rs:229-246: the parameters are dropped *)
Definition features_to_low {P} (l : features P) : features_low :=
  map (fun f => (fst (fst f), Some (0, map u16 (snd (fst f))))) l.

(** One list at a time, as the table reader and writer do *)
Definition scripts_read : parser scripts := s <-- scripts_de ;; plift (scripts_from_low s).
Definition scripts_write (s : scripts) : res obj := scripts_enc (scripts_to_low s).
Definition features_read {P} : parser (features P) := f <-- features_de ;; plift (features_from_low f).
Definition features_write {P} (f : features P) : res obj := features_enc (features_to_low f).

(** ** Lookups; [S] is GSUBSubtable or GPOSSubtable.  Subtable offsets always
    have a target, both when read (there is no null check) and when converted,
    and are modelled by their targets. *)
Record lookup_low (S : Type) := mk_lookup_low { lk_type : Z; lk_flag : Z; lk_subs : list S; lk_set : option Z }.
Arguments mk_lookup_low {S}. Arguments lk_type {S}. Arguments lk_flag {S}. Arguments lk_subs {S}. Arguments lk_set {S}.
(** GSUBLookup, otspec tables/GSUB.rs:61-92; GPOSLookup has the same code.  The
    mark filtering set is written if the flag says so and there is one; with the
    flag and no set the announced size is two more than what is written, which
    is not modelled. *)
Definition lookup_enc {S} (enc : S -> res obj) (l : lookup_low S) : res obj :=
  is <- rmapM (fun s => b <- enc s ;; Ok (IRef Off16 (Some b))) (lk_subs l) ;;
  Ok (raw (ser_u16 (lk_type l) ++ ser_u16 (lk_flag l) ++ ser_u16 (u16 (Z.of_nat (length (lk_subs l))))) ++ [IGroup is] ++
      raw (if contains (lk_flag l) 16 then match lk_set l with Some m => ser_u16 m | None => [] end else [])).
(** one turn of the loop at otspec tables/GSUB.rs:139-146 *)
Definition de_sub {S} (p : parser S) : parser S :=
  off <-- de_u16 ;;
  fun r => match top_of_table r with
           | Ok t => match p (mkrd (rd_input r) (t + Z.to_nat off) (rd_stack r)) with
                     | Ok (x, r2) => Ok (x, mkrd (rd_input r2) (rd_ptr r) (rd_stack r2))
                     | Err => Err | Panic => Panic end
           | Err => Err | Panic => Panic end.
(** otspec tables/GSUB.rs:128-160; [de t] reads a subtable of type [t] *)
Definition lookup_de {S} (de : Z -> parser S) : parser (lookup_low S) := with_base (
  t <-- de_u16 ;; f <-- de_u16 ;; n <-- de_u16 ;;
  l <-- de_counted (de_sub (de t)) (Z.to_nat n) ;;
  m <-- (if contains f 16 then m <-- de_u16 ;; pret (Some m) else pret None) ;;
  pret (mk_lookup_low t f l m)).
(** GSUBLookupList, GPOSLookupList *)
Definition lookups_low S : Type := list (option (lookup_low S)).
Definition lookups_enc {S} (enc : S -> res obj) (l : lookups_low S) : res obj := vec_enc (lookup_enc enc) l.
Definition lookups_de {S} (de : Z -> parser S) : parser (lookups_low S) := with_base (de_vec16 (lookup_de de)).

(** ** The table: GSUB10, GPOS10 (otspec tables/GSUB.rs:17-23).  Not marked
    [offset_base]: offsets are relative to the start of the data. *)
Record table_low S := mk_table_low { tl_scripts : option scripts_low; tl_features : option features_low; tl_lookups : option (lookups_low S) }.
Arguments mk_table_low {S}. Arguments tl_scripts {S}. Arguments tl_features {S}. Arguments tl_lookups {S}.
Definition table_enc {S} (enc : S -> res obj) (t : table_low S) : res obj :=
  s <- link_enc scripts_enc (tl_scripts t) ;;
  f <- link_enc features_enc (tl_features t) ;;
  l <- link_enc (lookups_enc enc) (tl_lookups t) ;;
  Ok (raw (ser_u16 1 ++ ser_u16 0) ++ [s; f; l]).
(** from_bytes of src/tables/{GSUB,GPOS}.rs: the version is checked by peeking *)
Definition table_de {S} (de : Z -> parser S) : parser (table_low S) := fun r =>
  match peek r 4 with
  | Ok ([0; 1; 0; 0], _) =>
      (_ <-- de_u16 ;; _ <-- de_u16 ;;
       s <-- de_off16 scripts_de ;; f <-- de_off16 features_de ;; l <-- de_off16 (lookups_de de) ;;
       pret (mk_table_low s f l)) r
  | Ok _ => Err
  | Err => Err
  | Panic => Panic
  end.

(** The user's view: Lookup<T> and GPOSGSUB<T>, src/layout/common.rs:158-167, 248-260 *)
Record lookup (R : Type) := mk_lookup { lu_flags : Z; lu_set : option Z; lu_rule : R }.
Arguments mk_lookup {R}. Arguments lu_flags {R}. Arguments lu_set {R}. Arguments lu_rule {R}.
Record layout (P R : Type) := mk_layout { ly_lookups : list (lookup R); ly_scripts : scripts; ly_features : features P }.
Arguments mk_layout {P R}. Arguments ly_lookups {P R}. Arguments ly_scripts {P R}. Arguments ly_features {P R}.
(** src/tables/GSUB.rs:173-202, 256-272 and the same in GPOS.rs: [subs t l] is
    subtables_from_lowlevel; [typ] and [subtables] are lookup_type and the match in
    Lookup::to_lowlevel *)
Definition layout_from_low {P S R} (subs : Z -> list S -> res R) (t : table_low S) : res (layout P R) :=
  ls <- rmapM (fun l : lookup_low S => r <- subs (lk_type l) (lk_subs l) ;; Ok (mk_lookup (lk_flag l) (lk_set l) r))
          (concat (map (fun o => match o with Some l => [l] | None => [] end) (match tl_lookups t with Some l => l | None => [] end))) ;;
  s <- scripts_from_low (match tl_scripts t with Some s => s | None => [] end) ;;
  f <- features_from_low (match tl_features t with Some f => f | None => [] end) ;;
  Ok (mk_layout ls s f).
Definition layout_to_low {P S R} (typ : R -> Z) (subtables : R -> res (list S)) (g : layout P R) : res (table_low S) :=
  ls <- rmapM (fun l => ss <- subtables (lu_rule l) ;; Ok (Some (mk_lookup_low (typ (lu_rule l)) (lu_flags l) ss (lu_set l)))) (ly_lookups g) ;;
  Ok (mk_table_low (Some (scripts_to_low (ly_scripts g))) (Some (features_to_low (ly_features g))) (Some ls)).

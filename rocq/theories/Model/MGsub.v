(** GSUB subtables: crates/otspec/src/layout/gsub{1,2,3,4,8}.rs,
    src/layout/gsub{1,2,3,4,8}.rs, crates/otspec/src/tables/GSUB.rs,
    src/tables/GSUB.rs. *)
From Verif.Model Require Import MBase MMap MTag MGlyph MOffset MLayout MLow MContext MLookup.

(** ** Low level: GSUBSubtable, otspec tables/GSUB.rs:189-204 *)
(** Ligature, otspec gsub4.rs:27-30: ligatureGlyph, componentGlyphIDs *)
Definition ligature : Type := Z * list Z.
Inductive gsub_sub :=
| G11 (format : Z) (cov : option (list Z)) (delta : Z)
| G12 (format : Z) (cov : option (list Z)) (subst : list Z)
| G21 (format : Z) (cov : option (list Z)) (seqs : list (option (list Z)))
| G31 (format : Z) (cov : option (list Z)) (sets : list (option (list Z)))
| G41 (format : Z) (cov : option (list Z)) (sets : list (option (list (option ligature))))
| G5 (s : seq_low)
| G6 (s : chain_low)
| G7 (format type : Z) (s : gsub_sub)
| G81 (format : Z) (cov : option (list Z)) (back ahead : list (option (list Z))) (subst : list Z).

(** Ligature::to_bytes, otspec gsub4.rs:32-38 *)
Definition lig_enc (l : ligature) : res obj :=
  n <- chk_u 16 (u16 (Z.of_nat (length (snd l))) + 1) ;;
  Ok (raw (ser_u16 (fst l) ++ ser_u16 n ++ concat (map ser_u16 (snd l)))).
(** Ligature::from_bytes, otspec gsub4.rs:40-50 *)
Definition lig_de : parser ligature :=
  g <-- de_u16 ;; n <-- de_u16 ;;
  if n =? 0 then ppanic else
  c <-- de_counted de_u16 (Z.to_nat (n - 1)) ;; pret (g, c).
(** the derived [Serialize] of the other structures; extension subtables are
    only read: they are never made by [to_lowlevel] *)
Definition gsub_enc (s : gsub_sub) : res obj :=
  match s with
  | G11 f c d => l <- link_enc cov_enc c ;; Ok (raw (ser_u16 f) ++ [l] ++ raw (ser_i16 d))
  | G12 f c ss => l <- link_enc cov_enc c ;; Ok (raw (ser_u16 f) ++ [l] ++ words_enc ss)
  | G21 f c ss | G31 f c ss =>
      l <- link_enc cov_enc c ;; v <- vec_enc (fun s => Ok (words_enc s)) ss ;; Ok (raw (ser_u16 f) ++ [l] ++ v)
  | G41 f c ss =>
      l <- link_enc cov_enc c ;; v <- vec_enc (vec_enc lig_enc) ss ;; Ok (raw (ser_u16 f) ++ [l] ++ v)
  | G5 s => seq_enc s
  | G6 s => chain_enc s
  | G7 _ _ _ => Panic
  | G81 f c b a ss =>
      l <- link_enc cov_enc c ;; b' <- vec_enc cov_enc b ;; a' <- vec_enc cov_enc a ;;
      Ok (raw (ser_u16 f) ++ [l] ++ b' ++ a' ++ words_enc ss)
  end.
(** the derived [Deserialize]s *)
Definition g11_de : parser gsub_sub := with_base (f <-- de_u16 ;; c <-- de_cov ;; d <-- de_i16 ;; pret (G11 f c d)).
Definition g12_de : parser gsub_sub := with_base (f <-- de_u16 ;; c <-- de_cov ;; s <-- de_words ;; pret (G12 f c s)).
Definition g21_de : parser gsub_sub := with_base (f <-- de_u16 ;; c <-- de_cov ;; s <-- de_vec16 de_words ;; pret (G21 f c s)).
Definition g31_de : parser gsub_sub := with_base (f <-- de_u16 ;; c <-- de_cov ;; s <-- de_vec16 de_words ;; pret (G31 f c s)).
Definition g41_de : parser gsub_sub := with_base (
  f <-- de_u16 ;; c <-- de_cov ;; s <-- de_vec16 (with_base (de_vec16 lig_de)) ;; pret (G41 f c s)).
Definition g81_de : parser gsub_sub := with_base (
  f <-- de_u16 ;; c <-- de_cov ;; b <-- de_vec16 cov_de ;; a <-- de_vec16 cov_de ;; s <-- de_words ;; pret (G81 f c b a s)).
(** deserialize_gsub1, otspec gsub1.rs:22-39 *)
Definition g1_de : parser gsub_sub := by_format (fun s =>
  match s with [0; 1] => g11_de | [0; 2] => g12_de | _ => perr end).
(** GSUBSubtable::deserialize, otspec tables/GSUB.rs:94-126, without extensions *)
Definition gsub_plain_de (t : Z) : parser gsub_sub :=
  match t with
  | 1 => g1_de | 2 => g21_de | 3 => g31_de | 4 => g41_de
  | 5 => s <-- seq_de ;; pret (G5 s)
  | 6 => s <-- chain_de ;; pret (G6 s)
  | 8 => g81_de
  | _ => ppanic
  end.
(** ExtensionSubstFormat1::from_bytes, otspec tables/GSUB.rs:162-187 *)
Definition de_sub32 {S} (p : parser S) : parser S :=
  off <-- de_u32 ;;
  fun r => match top_of_table r with
           | Ok t => match p (mkrd (rd_input r) (t + Z.to_nat off) (rd_stack r)) with
                     | Ok (x, r2) => Ok (x, mkrd (rd_input r2) (rd_ptr r) (rd_stack r2))
                     | Err => Err | Panic => Panic end
           | Err => Err | Panic => Panic end.
Definition g7_de : parser gsub_sub := with_base (
  f <-- de_u16 ;; t <-- de_u16 ;;
  if 6 <? t then perr else s <-- de_sub32 (gsub_plain_de t) ;; pret (G7 f t s)).
Definition gsub_de (t : Z) : parser gsub_sub := if t =? 7 then g7_de else gsub_plain_de t.

(** ** High level *)
Definition single := list (Z * Z).
Definition multiple := list (Z * list Z).
Definition ligatures := list (list Z * Z).
(** ReverseChainSubst, gsub8.rs:9-18 *)
Record reverse_subst := mk_reverse { rv_map : list (Z * Z); rv_back : list slot; rv_ahead : list slot }.

(** the loop at gsub1.rs:25-30 *)
Fixpoint one_delta (delta : Z) (m : single) : bool :=
  match m with
  | [] => true
  | (l, r) :: m' => if i16 (i16 l + delta) =? i16 r then one_delta delta m' else false
  end.
(** best_format, gsub1.rs:18-37 *)
Definition single_format (m : single) : Z * Z :=
  match m with
  | [] => (2, 0)
  | (l, r) :: m' => let delta := i16 (i16 r - i16 l) in (if one_delta delta m' then 1 else 2, delta)
  end.
(** to_lowlevel, gsub1.rs:64-84 *)
Definition single_to_low (m : single) : gsub_sub :=
  let (format, delta) := single_format m in
  if format =? 1 then G11 1 (Some (map fst m)) delta
  else G12 2 (Some (map fst m)) (map snd m).
(** gsub1.rs:44-48: [glyph as i16 + delta] may overflow *)
Fixpoint single_apply_delta (d : Z) (gs : list Z) (m : single) : res single :=
  match gs with
  | [] => Ok m
  | g :: gs' => s <- chk_i 16 (i16 g + d) ;; single_apply_delta d gs' (bm_insert Z.ltb g (u16 s) m)
  end.
(** from_lowlevel, gsub1.rs:39-62 *)
Definition single_from_low (s : gsub_sub) : res single :=
  match s with
  | G11 _ c d => single_apply_delta d (cov_or_nah c) []
  | G12 _ c ss => Ok (bm_of_list Z.ltb (combine (cov_or_nah c) ss))
  | _ => Panic
  end.

Definition or_default (o : option (list Z)) : list Z := match o with Some l => l | None => [] end.
(** gsub2.rs:15-53, gsub3.rs:15-53 *)
Definition multiple_to_low (m : multiple) : gsub_sub := G21 1 (Some (map fst m)) (map (fun kv => Some (snd kv)) m).
Definition multiple_from_low (s : gsub_sub) : res multiple :=
  match s with G21 _ c ss => Ok (bm_of_list Z.ltb (combine (cov_or_nah c) (map or_default ss))) | _ => Panic end.
Definition alternate_to_low (m : multiple) : gsub_sub := G31 1 (Some (map fst m)) (map (fun kv => Some (snd kv)) m).
Definition alternate_from_low (s : gsub_sub) : res multiple :=
  match s with G31 _ c ss => Ok (bm_of_list Z.ltb (combine (cov_or_nah c) (map or_default ss))) | _ => Panic end.

(** [sort_by_key(|a| -(a.len()))], a stable sort, gsub4.rs:19 *)
Fixpoint insert_long (k : list Z) (l : list (list Z)) : list (list Z) :=
  match l with
  | [] => [k]
  | x :: l' => if (length x <=? length k)%nat then k :: l else x :: insert_long k l'
  end.
Definition sort_long (ks : list (list Z)) : list (list Z) := fold_right insert_long [] ks.
(** gsub4.rs:20-26 *)
Fixpoint split_keys (ks : list (list Z)) (m : list (Z * list (list Z))) : res (list (Z * list (list Z))) :=
  match ks with
  | [] => Ok m
  | k :: ks' =>
      match k with
      | [] => Panic
      | g :: _ =>
          let old := match bm_get Z.ltb g m with Some l => l | None => [] end in
          split_keys ks' (bm_insert Z.ltb g (old ++ [k]) m)
      end
  end.
(** to_lowlevel, gsub4.rs:15-57; the map is asked for each key ([get].unwrap()) *)
Definition lig_of (m : ligatures) (k : list Z) : res (option ligature) :=
  g <- unwrap (bm_get lex_ltb k m) ;; Ok (Some (g, tl k)).
Definition lig_to_low (m : ligatures) : res gsub_sub :=
  sp <- split_keys (sort_long (map fst m)) [] ;;
  sets <- rmapM (fun kv : Z * list (list Z) => l <- rmapM (lig_of m) (snd kv) ;; Ok (Some l)) sp ;;
  Ok (G41 1 (Some (map fst sp)) sets).
(** from_lowlevel, gsub4.rs:59-87; null offsets are unwrapped *)
Definition set_entries (gs : Z * option (list (option ligature))) : res (list (list Z * Z)) :=
  l <- unwrap (snd gs) ;;
  rmapM (fun o => x <- unwrap o ;; Ok (fst gs :: snd x, fst x)) l.
Definition lig_from_low (s : gsub_sub) : res ligatures :=
  match s with
  | G41 _ c ss =>
      g <- unwrap c ;;
      es <- rmapM set_entries (combine g ss) ;;
      Ok (bm_of_list lex_ltb (concat es))
  | _ => Panic
  end.

(** gsub8.rs:20-53, 55-84 *)
Definition reverse_to_low (r : reverse_subst) : gsub_sub :=
  G81 1 (Some (map fst (rv_map r))) (map Some (rv_back r)) (map Some (rv_ahead r)) (map snd (rv_map r)).
Definition reverse_from_low (s : gsub_sub) : res reverse_subst :=
  match s with
  | G81 _ c b a ss =>
      Ok (mk_reverse (bm_of_list Z.ltb (combine (cov_or_nah c) ss)) (map cov_to_slot b) (map cov_to_slot a))
  | _ => Panic
  end.
(** contextual.rs:129-142, 315-318 in part *)
Definition context_from_low (max : Z) (s : gsub_sub) : res (list context_rule) :=
  match s with G5 l => Ok (seq_from_low max l) | _ => Panic end.
Definition chained_from_low (max : Z) (s : gsub_sub) : res (list chained_rule) :=
  match s with G6 l => Ok (chain_from_low max l) | _ => Panic end.

(** One subtable at a time: deserializing it and converting what was read, as
    the table reader does for each (src/tables/GSUB.rs:120-171), and the
    conversion before serializing (204-246). *)
Definition single_read : parser single := s <-- gsub_de 1 ;; plift (single_from_low s).
Definition multiple_read : parser multiple := s <-- gsub_de 2 ;; plift (multiple_from_low s).
Definition alternate_read : parser multiple := s <-- gsub_de 3 ;; plift (alternate_from_low s).
Definition ligature_read : parser ligatures := s <-- gsub_de 4 ;; plift (lig_from_low s).
Definition context_read (max : Z) : parser (list context_rule) := s <-- gsub_de 5 ;; plift (context_from_low max s).
Definition chained_read (max : Z) : parser (list chained_rule) := s <-- gsub_de 6 ;; plift (chained_from_low max s).
Definition reverse_read : parser reverse_subst := s <-- gsub_de 8 ;; plift (reverse_from_low s).
Definition single_write (m : single) : res obj := gsub_enc (single_to_low m).
Definition multiple_write (m : multiple) : res obj := gsub_enc (multiple_to_low m).
Definition alternate_write (m : multiple) : res obj := gsub_enc (alternate_to_low m).
Definition ligature_write (m : ligatures) : res obj := s <- lig_to_low m ;; gsub_enc s.
Definition context_write (l : list context_rule) : res (list obj) := rmapM (fun r => gsub_enc (G5 (seq_to_low r))) l.
Definition chained_write (l : list chained_rule) : res (list obj) := rmapM (fun r => gsub_enc (G6 (chain_to_low r))) l.
Definition reverse_write (r : reverse_subst) : res obj := gsub_enc (reverse_to_low r).

(** Substitution, src/tables/GSUB.rs:22-38 *)
Inductive substitution :=
| Single (l : list single)
| Multiple (l : list multiple)
| Alternate (l : list multiple)
| Ligature (l : list ligatures)
| Contextual (l : list (list context_rule))
| ChainedContextual (l : list (list chained_rule))
| ReverseChain (l : list reverse_subst).
(** src/tables/GSUB.rs:56-68 *)
Definition gsub_type (s : substitution) : Z :=
  match s with
  | Single _ => 1 | Multiple _ => 2 | Alternate _ => 3 | Ligature _ => 4
  | Contextual _ => 5 | ChainedContextual _ => 6 | ReverseChain _ => 8
  end.
(** add_subtable_break, src/tables/GSUB.rs:40-53 *)
Definition add_subtable_break (s : substitution) : substitution :=
  match s with
  | Single v => Single (v ++ [[]])
  | Multiple v => Multiple (v ++ [[]])
  | Alternate v => Alternate (v ++ [[]])
  | Ligature v => Ligature (v ++ [[]])
  | Contextual v => Contextual (v ++ [[]])
  | ChainedContextual v => ChainedContextual (v ++ [[]])
  | ReverseChain v => ReverseChain (v ++ [mk_reverse [] [] []])
  end.
(** src/tables/GSUB.rs:204-246 *)
Definition gsub_subtables (s : substitution) : res (list gsub_sub) :=
  match s with
  | Single l => Ok (map single_to_low l)
  | Multiple l => Ok (map multiple_to_low l)
  | Alternate l => Ok (map alternate_to_low l)
  | Ligature l => rmapM lig_to_low l
  | Contextual l => Ok (map (fun r => G5 (seq_to_low r)) (concat l))
  | ChainedContextual l => Ok (map (fun r => G6 (chain_to_low r)) (concat l))
  | ReverseChain l => Ok (map reverse_to_low l)
  end.
(** subtables_from_lowlevel, src/tables/GSUB.rs:120-171, without extensions *)
Definition gsub_plain_from_low (max t : Z) (l : list gsub_sub) : res substitution :=
  match t with
  | 1 => rmap Single (rmapM single_from_low l)
  | 2 => rmap Multiple (rmapM multiple_from_low l)
  | 3 => rmap Alternate (rmapM alternate_from_low l)
  | 4 => rmap Ligature (rmapM lig_from_low l)
  | 5 => rmap Contextual (rmapM (context_from_low max) l)
  | 6 => rmap ChainedContextual (rmapM (chained_from_low max) l)
  | 8 => rmap ReverseChain (rmapM reverse_from_low l)
  | _ => Panic
  end.
(** extension_from_lowlevel, src/tables/GSUB.rs:93-118; [is_all_the_same] of the
    types, which must not be empty *)
Definition gsub_from_low (max t : Z) (l : list gsub_sub) : res substitution :=
  if t =? 7 then
    es <- rmapM (fun s => match s with G7 _ t' s' => Ok (t', s') | _ => Panic end) l ;;
    match es with
    | [] => Panic
    | (t', _) :: _ =>
        if forallb (fun e : Z * gsub_sub => fst e =? t') es then gsub_plain_from_low max t' (map snd es) else Panic
    end
  else gsub_plain_from_low max t l.

(** from_bytes and to_bytes, src/tables/GSUB.rs:74-91, 274-281 *)
Definition gsub_read {P} (max : Z) : parser (layout P substitution) :=
  t <-- table_de gsub_de ;; plift (layout_from_low (gsub_from_low max) t).
Definition gsub_write {P} (g : layout P substitution) : res (list Z) :=
  t <- layout_to_low gsub_type gsub_subtables g ;;
  o <- table_enc gsub_enc t ;;
  to_bytes o.

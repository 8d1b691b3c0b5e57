(** The glyph definition table: src/tables/GDEF.rs. *)
From Verif.Model Require Import MBase MMap MPacked MOffset MLayout MLow MIvs.

(** GDEF.rs:81-99.  [placed]: whether the offset to the device table holds a
    number; it does in a caret value that was read, and does not in one built
    with [Offset16::to]. *)
Inductive caret :=
| Caret1 (coordinate : Z)
| Caret2 (point : Z)
| Caret3 (coordinate : Z) (dev : option device) (placed : bool).
(** GDEF.rs:160-169 *)
Inductive glyph_class := BaseGlyph | LigatureGlyph | MarkGlyph | ComponentGlyph.
Definition class_num (c : glyph_class) : Z :=
  match c with BaseGlyph => 1 | LigatureGlyph => 2 | MarkGlyph => 3 | ComponentGlyph => 4 end.
(** GDEF.rs:170-179 *)
Definition class_of (n : Z) : glyph_class :=
  if n =? 2 then LigatureGlyph else if n =? 3 then MarkGlyph else if n =? 4 then ComponentGlyph else BaseGlyph.
(** GDEF.rs:182-195; maps and sets are lists in the order of the keys *)
Record gdef := mk_gdef {
  gd_classes : list (Z * glyph_class);
  gd_attach : list (Z * list Z);
  gd_carets : list (Z * list caret);
  gd_marks : list (Z * Z);
  gd_sets : option (list (list Z));
  gd_ivs : option ivs }.

(** ** Reading *)
(** CaretValue::from_bytes, GDEF.rs:135-156 *)
Definition caret_de : parser caret :=
  format <-- de_u16 ;;
  if format =? 1 then z <-- de_i16 ;; pret (Caret1 z)
  else if format =? 2 then z <-- de_u16 ;; pret (Caret2 z)
  else if format =? 3 then z <-- de_i16 ;; d <-- de_off16 dv_de ;; pret (Caret3 z d true)
  else perr.
(** AttachList, AttachPoint: GDEF.rs:51-59 *)
Definition attach_de : parser (option (list Z) * list (option (list Z))) :=
  with_base (c <-- de_cov ;; ps <-- de_vec16 de_words ;; pret (c, ps)).
(** LigGlyph, LigCaretList: GDEF.rs:61-70 *)
Definition lig_glyph_de : parser (list (option caret)) := with_base (de_vec16 caret_de).
Definition lig_carets_de : parser (option (list Z) * list (option (list (option caret)))) :=
  with_base (c <-- de_cov ;; ls <-- de_vec16 lig_glyph_de ;; pret (c, ls)).
(** MarkGlyphSets, GDEF.rs:72-75: not an offset base *)
Definition mark_sets_de : parser (Z * list (option (list Z))) :=
  f <-- de_u16 ;; cs <-- de_vec32 cov_de ;; pret (f, cs).

(** From<MarkGlyphSets>, GDEF.rs:197-206 *)
Definition sets_from (cs : list (option (list Z))) : res (list (list Z)) :=
  rmapM (fun o => g <- unwrap o ;; Ok (bs_of_list g)) cs.
(** From<AttachList>, GDEF.rs:208-223 *)
Definition attach_from (a : option (list Z) * list (option (list Z))) : res (list (Z * list Z)) :=
  gs <- unwrap (fst a) ;;
  l <- rmapM (fun gp => p <- unwrap (snd gp) ;; Ok (fst gp, p)) (combine gs (snd a)) ;;
  Ok (bm_of_list Z.ltb l).
(** From<LigCaretList>, GDEF.rs:225-244 *)
Definition carets_from (a : option (list Z) * list (option (list (option caret)))) : res (list (Z * list caret)) :=
  l <- rmapM (fun lg => match fst lg with
                        | Some cs => v <- rmapM unwrap cs ;; Ok [(snd lg, v)]
                        | None => Ok []
                        end) (combine (snd a) (cov_or_nah (fst a))) ;;
  Ok (bm_of_list Z.ltb (concat l)).
Definition or_empty {A B} (f : A -> res (list B)) (o : option A) : res (list B) :=
  match o with Some a => f a | None => Ok [] end.

(** GDEF::from_bytes, GDEF.rs:21-28, 246-281.  The core is not an offset base. *)
Definition gdef_read : parser gdef :=
  major <-- de_u16 ;;
  minor <-- de_u16 ;;
  gc <-- de_off16 cd_de ;;
  al <-- de_off16 attach_de ;;
  lc <-- de_off16 lig_carets_de ;;
  mc <-- de_off16 cd_de ;;
  sets <-- (if 1 <? minor
            then o <-- de_off16 mark_sets_de ;;
                 plift (match o with Some fc => l <- sets_from (snd fc) ;; Ok (Some l) | None => Ok None end)
            else pret None) ;;
  vs <-- (if 2 <? minor then de_off32 ivs_de else pret None) ;;
  plift (a <- or_empty attach_from al ;;
         l <- or_empty carets_from lc ;;
         Ok (mk_gdef (match gc with Some m => map (fun kv => (fst kv, class_of (snd kv))) m | None => [] end)
                     a l (match mc with Some m => m | None => [] end) sets vs)).

(** ** Writing *)
(** CaretValue, GDEF.rs:101-133.  The size of a caret value is that of its bytes
    (lib.rs:159-163), which are computed and unwrapped before the offset to the
    device table is known (offsets.rs:177-188). *)
Definition caret_enc (c : caret) : res obj :=
  match c with
  | Caret1 z => Ok (raw (ser_u16 1 ++ ser_i16 z))
  | Caret2 z => Ok (raw (ser_u16 2 ++ ser_u16 z))
  | Caret3 z None _ => Ok (raw (ser_u16 3 ++ ser_i16 z) ++ [IRef Off16 None])
  | Caret3 z (Some d) placed =>
      if placed then o <- blob dv_ser d ;; Ok (raw (ser_u16 3 ++ ser_i16 z) ++ [IRef Off16 (Some o)])
      else Panic
  end.
(** gcd_to_offset, mac_to_offset: GDEF.rs:296-307, 328-336 *)
Definition classes_to (m : list (Z * Z)) : res item :=
  match m with [] => Ok (IRef Off16 None) | _ => link_enc cd_enc (Some m) end.
(** apl_to_offset, GDEF.rs:308-327 *)
Definition attach_to (m : list (Z * list Z)) : res item :=
  match m with
  | [] => Ok (IRef Off16 None)
  | _ => c <- link_enc cov_enc (Some (map fst m)) ;;
         ps <- vec_enc (fun p => Ok (words_enc p)) (map (fun kv => Some (snd kv)) m) ;;
         Ok (IRef Off16 (Some ([c] ++ ps)))
  end.
(** lcl_to_offset, GDEF.rs:337-362 *)
Definition carets_to (m : list (Z * list caret)) : res item :=
  match m with
  | [] => Ok (IRef Off16 None)
  | _ => c <- link_enc cov_enc (Some (map fst m)) ;;
         ls <- vec_enc (fun cs => vec_enc caret_enc (map Some cs)) (map (fun kv => Some (snd kv)) m) ;;
         Ok (IRef Off16 (Some ([c] ++ ls)))
  end.
(** mgs_to_offset, GDEF.rs:363-379 *)
Definition sets_to (o : option (list (list Z))) : res item :=
  match o with
  | None => Ok (IRef Off16 None)
  | Some l => cs <- vec32_enc cov_enc l ;; Ok (IRef Off16 (Some (raw (ser_u16 1) ++ cs)))
  end.
(** GDEF::to_bytes, GDEF.rs:30-49, 283-293, 382-411.  The item variation store is
    written as one block of bytes: it has a [to_bytes] of its own, and neither a
    size nor offset fields (itemvariationstore.rs:151-171, lib.rs:152-166). *)
Definition gdef_enc (g : gdef) : res obj :=
  gc <- classes_to (map (fun kv => (fst kv, class_num (snd kv))) (gd_classes g)) ;;
  al <- attach_to (gd_attach g) ;;
  lc <- carets_to (gd_carets g) ;;
  mc <- classes_to (gd_marks g) ;;
  sets <- sets_to (gd_sets g) ;;
  match gd_ivs g with
  | None => Ok (raw (ser_u16 1 ++ ser_u16 2) ++ [gc; al; lc; mc; sets])
  | Some s => vs <- blob ivs_ser s ;;
              Ok (raw (ser_u16 1 ++ ser_u16 3) ++ [gc; al; lc; mc; sets; link32 vs])
  end.
Definition gdef_write (g : gdef) : res (list Z) := o <- gdef_enc g ;; to_bytes o.

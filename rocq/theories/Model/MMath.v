(** The mathematical typesetting table: src/tables/MATH.rs.  It is only read
    (saving a loaded MATH table is unimplemented, table_store.rs:658). *)
From Coq Require Import String List ZArith Bool.
Import ListNotations.
From Verif.Model Require Import MBase MMap MOffset MLayout MLow.
Open Scope Z_scope.

(** MathValueRecord, MATH.rs:13-16: an embedded structure, so its offset counts
    from the base of the structure it is in *)
Record mvalue := mk_mvalue { mv_value : Z; mv_device : option device }.
Definition mvalue_de : parser mvalue := v <-- de_i16 ;; d <-- de_off16 dv_de ;; pret (mk_mvalue v d).

(** MathConstants, MATH.rs:24-81.  The value records are kept with their names,
    in the order in which they are declared. *)
Definition constant_fields : list string :=
  ["mathLeading"; "axisHeight"; "accentBaseHeight"; "flattenedAccentBaseHeight"; "subscriptShiftDown"; "subscriptTopMax";
   "subscriptBaselineDropMin"; "superscriptShiftUp"; "superscriptShiftUpCramped"; "superscriptBottomMin"; "superscriptBaselineDropMax";
   "subSuperscriptGapMin"; "superscriptBottomMaxWithSubscript"; "spaceAfterScript"; "upperLimitGapMin"; "upperLimitBaselineRiseMin";
   "lowerLimitGapMin"; "lowerLimitBaselineDropMin"; "stackTopShiftUp"; "stackTopDisplayStyleShiftUp"; "stackBottomShiftDown";
   "stackBottomDisplayStyleShiftDown"; "stackGapMin"; "stackDisplayStyleGapMin"; "stretchStackTopShiftUp"; "stretchStackBottomShiftDown";
   "stretchStackGapAboveMin"; "stretchStackGapBelowMin"; "fractionNumeratorShiftUp"; "fractionNumeratorDisplayStyleShiftUp";
   "fractionDenominatorShiftDown"; "fractionDenominatorDisplayStyleShiftDown"; "fractionNumeratorGapMin"; "fractionNumDisplayStyleGapMin";
   "fractionRuleThickness"; "fractionDenominatorGapMin"; "fractionDenomDisplayStyleGapMin"; "skewedFractionHorizontalGap";
   "skewedFractionVerticalGap"; "overbarVerticalGap"; "overbarRuleThickness"; "overbarExtraAscender"; "underbarVerticalGap";
   "underbarRuleThickness"; "underbarExtraDescender"; "radicalVerticalGap"; "radicalDisplayStyleVerticalGap"; "radicalRuleThickness";
   "radicalExtraAscender"; "radicalKernBeforeDegree"; "radicalKernAfterDegree"]%string.
Record mconstants := mk_mconstants {
  mc_script_percent : Z; mc_script_script_percent : Z; mc_formula_height : Z; mc_operator_height : Z;
  mc_values : list (string * mvalue); mc_raise_percent : Z }.
Fixpoint fields_de (names : list string) : parser (list (string * mvalue)) :=
  match names with
  | [] => pret []
  | n :: names' => v <-- mvalue_de ;; vs <-- fields_de names' ;; pret ((n, v) :: vs)
  end.
Definition constants_de : parser mconstants :=
  a <-- de_i16 ;; b <-- de_i16 ;; c <-- de_u16 ;; d <-- de_u16 ;; vs <-- fields_de constant_fields ;; e <-- de_i16 ;;
  pret (mk_mconstants a b c d vs e).

(** MathItalicsCorrectionInfo and MathTopAccentAttachment, MATH.rs:89-96: no
    [offset_base] *)
Definition per_glyph_de : parser (option (list Z) * list mvalue) :=
  c <-- de_cov ;; vs <-- de_counted16 mvalue_de ;; pret (c, vs).

(** MathKern, MATH.rs:216-237: its heights and kerns; no [offset_base] *)
Record mkern := mk_mkern { mk_count : Z; mk_heights : list mvalue; mk_kerns : list mvalue }.
Definition kern_de : parser mkern :=
  n <-- de_u16 ;; hs <-- de_counted mvalue_de (Z.to_nat n) ;; ks <-- de_counted mvalue_de (1 + Z.to_nat n) ;;
  pret (mk_mkern n hs ks).
(** MathKernInfoRecord and MathKernInfo, MATH.rs:97-109 *)
Record mcorners := mk_mcorners { mk_tr : option mkern; mk_tl : option mkern; mk_br : option mkern; mk_bl : option mkern }.
Definition corners_de : parser mcorners :=
  a <-- de_off16 kern_de ;; b <-- de_off16 kern_de ;; c <-- de_off16 kern_de ;; d <-- de_off16 kern_de ;; pret (mk_mcorners a b c d).
Definition kern_info_de : parser (option (list Z) * list mcorners) := with_base (
  c <-- de_cov ;; ks <-- de_counted16 corners_de ;; pret (c, ks)).

(** MathGlyphInfo, MATH.rs:82-88 *)
Record mglyph_info := mk_mglyph_info {
  gi_italics : option (option (list Z) * list mvalue); gi_accents : option (option (list Z) * list mvalue);
  gi_extended : option (list Z); gi_kerns : option (option (list Z) * list mcorners) }.
Definition glyph_info_de : parser mglyph_info := with_base (
  a <-- de_off16 per_glyph_de ;; b <-- de_off16 per_glyph_de ;; c <-- de_cov ;; d <-- de_off16 kern_info_de ;;
  pret (mk_mglyph_info a b c d)).

(** GlyphPartRecord, GlyphAssembly (no [offset_base]), MathGlyphVariantRecord and
    MathGlyphConstruction, MATH.rs:110-129 *)
Record mpart := mk_mpart { mp_glyph : Z; mp_start : Z; mp_end : Z; mp_advance : Z; mp_flags : Z }.
Definition part_de : parser mpart :=
  g <-- de_u16 ;; s <-- de_u16 ;; e <-- de_u16 ;; a <-- de_u16 ;; f <-- de_u16 ;; pret (mk_mpart g s e a f).
Record massembly := mk_massembly { ma_italics : mvalue; ma_parts : list mpart }.
Definition assembly_de : parser massembly := i <-- mvalue_de ;; ps <-- de_counted16 part_de ;; pret (mk_massembly i ps).
Definition variant_de : parser (Z * Z) := g <-- de_u16 ;; a <-- de_u16 ;; pret (g, a).
Record mconstruction := mk_mconstruction { mc_assembly : option massembly; mc_variants : list (Z * Z) }.
Definition construction_de : parser mconstruction := with_base (
  a <-- de_off16 assembly_de ;; vs <-- de_counted16 variant_de ;; pret (mk_mconstruction a vs)).
(** MathVariants, MATH.rs:150-190 *)
Record mvariants := mk_mvariants {
  mv_overlap : Z; mv_vcov : option (list Z); mv_hcov : option (list Z);
  mv_vert : list (option mconstruction); mv_horiz : list (option mconstruction) }.
Definition variants_de : parser mvariants := with_base (
  o <-- de_u16 ;; vc <-- de_cov ;; hc <-- de_cov ;; nv <-- de_u16 ;; nh <-- de_u16 ;;
  v <-- de_counted (de_off16 construction_de) (Z.to_nat nv) ;; h <-- de_counted (de_off16 construction_de) (Z.to_nat nh) ;;
  pret (mk_mvariants o vc hc v h)).

(** MATH, MATH.rs:241-259 *)
Record math := mk_math {
  mt_constants : mconstants;
  mt_italics : list (Z * mvalue); mt_accents : list (Z * mvalue); mt_extended : list Z; mt_kerning : list (Z * mcorners);
  mt_overlap : option Z; mt_vertical : list (Z * mconstruction); mt_horizontal : list (Z * mconstruction) }.
(** [zip] and [collect] into a BTreeMap, MATH.rs:270-302; a glyph that is given
    twice has its last entry *)
Definition zipped {A} (c : option (list Z)) (l : list A) : list (Z * A) := combine (cov_or_nah c) l.
Definition collected {A} (o : option (option (list Z) * list A)) : list (Z * A) :=
  match o with Some (c, l) => bm_of_list Z.ltb (zipped c l) | None => [] end.
(** MATH.rs:319-338: null offsets are dropped *)
Definition linked_only {A} (l : list (Z * option A)) : list (Z * A) :=
  concat (map (fun kv => match snd kv with Some x => [(fst kv, x)] | None => [] end) l).
(** MATH::from_bytes, MATH.rs:262-342 *)
Definition math_read : parser math :=
  _ <-- de_u16 ;; _ <-- de_u16 ;; c <-- de_off16 constants_de ;; g <-- de_off16 glyph_info_de ;; v <-- de_off16 variants_de ;;
  match c with
  | None => perr
  | Some c => pret (mk_math c
      (match g with Some g => collected (gi_italics g) | None => [] end)
      (match g with Some g => collected (gi_accents g) | None => [] end)
      (match g with Some g => bs_of_list (cov_or_nah (gi_extended g)) | None => [] end)
      (match g with Some g => collected (gi_kerns g) | None => [] end)
      (option_map mv_overlap v)
      (match v with Some v => bm_of_list Z.ltb (linked_only (zipped (mv_vcov v) (mv_vert v))) | None => [] end)
      (match v with Some v => bm_of_list Z.ltb (linked_only (zipped (mv_hcov v) (mv_horiz v))) | None => [] end))
  end.

(** Fixed-layout tables: head, hhea, maxp, fvar, gasp, cvt, fpgm, prep, OS/2. *)
From Verif.Model Require Import MBase MTag MFixed.

(** chrono::NaiveDateTime as (seconds since 1904-01-01T00:00:00, nanoseconds).
    The bounds are those of chrono 0.4's NaiveDateTime (years -262144 to
    262143); arithmetic beyond them panics. *)
Record date := mk_date { dt_secs : Z; dt_nanos : Z }.
Definition chrono_min : Z := -8332550092800.
Definition chrono_max : Z := 8212381257599.
(** crates/otspec/src/types.rs:230-239: [timestamp()] drops the nanoseconds. *)
Definition ser_date (d : date) : list Z := ser_i64 (dt_secs d).
(** types.rs:240-247: [epoch + Duration::seconds(diff)] panics outside chrono's range. *)
Definition de_date : parser date :=
  diff <-- de_i64 ;;
  if (chrono_min <=? diff) && (diff <=? chrono_max) then pret (mk_date diff 0) else ppanic.

(** head: crates/otspec/src/tables/head.rs:5-24 (tables! macro: fields in order, each with its own codec) *)
Record head_tbl := mk_head_tbl {
  hd_majorVersion : Z;
  hd_minorVersion : Z;
  hd_fontRevision : dyadic;
  hd_checksumAdjustment : Z;
  hd_magicNumber : Z;
  hd_flags : Z;
  hd_unitsPerEm : Z;
  hd_created : date;
  hd_modified : date;
  hd_xMin : Z;
  hd_yMin : Z;
  hd_xMax : Z;
  hd_yMax : Z;
  hd_macStyle : Z;
  hd_lowestRecPPEM : Z;
  hd_fontDirectionHint : Z;
  hd_indexToLocFormat : Z;
  hd_glyphDataFormat : Z }.
Definition ser_head_tbl (x : head_tbl) : list Z :=
  concat [ser_u16 (hd_majorVersion x);
          ser_u16 (hd_minorVersion x);
          ser_fixed (hd_fontRevision x);
          ser_u32 (hd_checksumAdjustment x);
          ser_u32 (hd_magicNumber x);
          ser_u16 (hd_flags x);
          ser_u16 (hd_unitsPerEm x);
          ser_date (hd_created x);
          ser_date (hd_modified x);
          ser_i16 (hd_xMin x);
          ser_i16 (hd_yMin x);
          ser_i16 (hd_xMax x);
          ser_i16 (hd_yMax x);
          ser_u16 (hd_macStyle x);
          ser_u16 (hd_lowestRecPPEM x);
          ser_i16 (hd_fontDirectionHint x);
          ser_i16 (hd_indexToLocFormat x);
          ser_i16 (hd_glyphDataFormat x)].
Definition de_head_tbl : parser head_tbl :=
  v0 <-- de_u16 ;;
  v1 <-- de_u16 ;;
  v2 <-- de_fixed ;;
  v3 <-- de_u32 ;;
  v4 <-- de_u32 ;;
  v5 <-- de_u16 ;;
  v6 <-- de_u16 ;;
  v7 <-- de_date ;;
  v8 <-- de_date ;;
  v9 <-- de_i16 ;;
  v10 <-- de_i16 ;;
  v11 <-- de_i16 ;;
  v12 <-- de_i16 ;;
  v13 <-- de_u16 ;;
  v14 <-- de_u16 ;;
  v15 <-- de_i16 ;;
  v16 <-- de_i16 ;;
  v17 <-- de_i16 ;;
  pret (mk_head_tbl v0 v1 v2 v3 v4 v5 v6 v7 v8 v9 v10 v11 v12 v13 v14 v15 v16 v17).

(** hhea: src/tables/hhea.rs:8-27 *)
Record hhea := mk_hhea {
  hh_majorVersion : Z;
  hh_minorVersion : Z;
  hh_ascender : Z;
  hh_descender : Z;
  hh_lineGap : Z;
  hh_advanceWidthMax : Z;
  hh_minLeftSideBearing : Z;
  hh_minRightSideBearing : Z;
  hh_xMaxExtent : Z;
  hh_caretSlopeRise : Z;
  hh_caretSlopeRun : Z;
  hh_caretOffset : Z;
  hh_reserved0 : Z;
  hh_reserved1 : Z;
  hh_reserved2 : Z;
  hh_reserved3 : Z;
  hh_metricDataFormat : Z;
  hh_numberOfHMetrics : Z }.
Definition ser_hhea (x : hhea) : list Z :=
  concat [ser_u16 (hh_majorVersion x);
          ser_u16 (hh_minorVersion x);
          ser_i16 (hh_ascender x);
          ser_i16 (hh_descender x);
          ser_i16 (hh_lineGap x);
          ser_u16 (hh_advanceWidthMax x);
          ser_i16 (hh_minLeftSideBearing x);
          ser_i16 (hh_minRightSideBearing x);
          ser_i16 (hh_xMaxExtent x);
          ser_i16 (hh_caretSlopeRise x);
          ser_i16 (hh_caretSlopeRun x);
          ser_i16 (hh_caretOffset x);
          ser_i16 (hh_reserved0 x);
          ser_i16 (hh_reserved1 x);
          ser_i16 (hh_reserved2 x);
          ser_i16 (hh_reserved3 x);
          ser_i16 (hh_metricDataFormat x);
          ser_u16 (hh_numberOfHMetrics x)].
Definition de_hhea : parser hhea :=
  v0 <-- de_u16 ;;
  v1 <-- de_u16 ;;
  v2 <-- de_i16 ;;
  v3 <-- de_i16 ;;
  v4 <-- de_i16 ;;
  v5 <-- de_u16 ;;
  v6 <-- de_i16 ;;
  v7 <-- de_i16 ;;
  v8 <-- de_i16 ;;
  v9 <-- de_i16 ;;
  v10 <-- de_i16 ;;
  v11 <-- de_i16 ;;
  v12 <-- de_i16 ;;
  v13 <-- de_i16 ;;
  v14 <-- de_i16 ;;
  v15 <-- de_i16 ;;
  v16 <-- de_i16 ;;
  v17 <-- de_u16 ;;
  pret (mk_hhea v0 v1 v2 v3 v4 v5 v6 v7 v8 v9 v10 v11 v12 v13 v14 v15 v16 v17).

(** maxp10: src/tables/maxp.rs:13-28 *)
Record maxp10 := mk_maxp10 {
  m10_numGlyphs : Z;
  m10_maxPoints : Z;
  m10_maxContours : Z;
  m10_maxCompositePoints : Z;
  m10_maxCompositeContours : Z;
  m10_maxZones : Z;
  m10_maxTwilightPoints : Z;
  m10_maxStorage : Z;
  m10_maxFunctionDefs : Z;
  m10_maxInstructionDefs : Z;
  m10_maxStackElements : Z;
  m10_maxSizeOfInstructions : Z;
  m10_maxComponentElements : Z;
  m10_maxComponentDepth : Z }.
Definition ser_maxp10 (x : maxp10) : list Z :=
  concat [ser_u16 (m10_numGlyphs x);
          ser_u16 (m10_maxPoints x);
          ser_u16 (m10_maxContours x);
          ser_u16 (m10_maxCompositePoints x);
          ser_u16 (m10_maxCompositeContours x);
          ser_u16 (m10_maxZones x);
          ser_u16 (m10_maxTwilightPoints x);
          ser_u16 (m10_maxStorage x);
          ser_u16 (m10_maxFunctionDefs x);
          ser_u16 (m10_maxInstructionDefs x);
          ser_u16 (m10_maxStackElements x);
          ser_u16 (m10_maxSizeOfInstructions x);
          ser_u16 (m10_maxComponentElements x);
          ser_u16 (m10_maxComponentDepth x)].
Definition de_maxp10 : parser maxp10 :=
  v0 <-- de_u16 ;;
  v1 <-- de_u16 ;;
  v2 <-- de_u16 ;;
  v3 <-- de_u16 ;;
  v4 <-- de_u16 ;;
  v5 <-- de_u16 ;;
  v6 <-- de_u16 ;;
  v7 <-- de_u16 ;;
  v8 <-- de_u16 ;;
  v9 <-- de_u16 ;;
  v10 <-- de_u16 ;;
  v11 <-- de_u16 ;;
  v12 <-- de_u16 ;;
  v13 <-- de_u16 ;;
  pret (mk_maxp10 v0 v1 v2 v3 v4 v5 v6 v7 v8 v9 v10 v11 v12 v13).

(** VariationAxisRecord: src/tables/fvar.rs:22-29 *)
Record axis_record := mk_axis_record {
  ax_axisTag : list Z;
  ax_minValue : dyadic;
  ax_defaultValue : dyadic;
  ax_maxValue : dyadic;
  ax_flags : Z;
  ax_axisNameID : Z }.
Definition ser_axis_record (x : axis_record) : list Z :=
  concat [ser_tag (ax_axisTag x);
          ser_fixed (ax_minValue x);
          ser_fixed (ax_defaultValue x);
          ser_fixed (ax_maxValue x);
          ser_u16 (ax_flags x);
          ser_u16 (ax_axisNameID x)].
Definition de_axis_record : parser axis_record :=
  v0 <-- de_tag ;;
  v1 <-- de_fixed ;;
  v2 <-- de_fixed ;;
  v3 <-- de_fixed ;;
  v4 <-- de_u16 ;;
  v5 <-- de_u16 ;;
  pret (mk_axis_record v0 v1 v2 v3 v4 v5).

(** fvarcore: src/tables/fvar.rs:12-21 *)
Record fvarcore := mk_fvarcore {
  fc_majorVersion : Z;
  fc_minorVersion : Z;
  fc_axesArrayOffset : Z;
  fc_reserved : Z;
  fc_axisCount : Z;
  fc_axisSize : Z;
  fc_instanceCount : Z;
  fc_instanceSize : Z }.
Definition ser_fvarcore (x : fvarcore) : list Z :=
  concat [ser_u16 (fc_majorVersion x);
          ser_u16 (fc_minorVersion x);
          ser_u16 (fc_axesArrayOffset x);
          ser_u16 (fc_reserved x);
          ser_u16 (fc_axisCount x);
          ser_u16 (fc_axisSize x);
          ser_u16 (fc_instanceCount x);
          ser_u16 (fc_instanceSize x)].
Definition de_fvarcore : parser fvarcore :=
  v0 <-- de_u16 ;;
  v1 <-- de_u16 ;;
  v2 <-- de_u16 ;;
  v3 <-- de_u16 ;;
  v4 <-- de_u16 ;;
  v5 <-- de_u16 ;;
  v6 <-- de_u16 ;;
  v7 <-- de_u16 ;;
  pret (mk_fvarcore v0 v1 v2 v3 v4 v5 v6 v7).

(** GaspRecord: src/tables/gasp.rs:10-13; the flag set is its raw u16 bits (bitflags struct with derived codec) *)
Record gasp_record := mk_gasp_record {
  gr_rangeMaxPPEM : Z;
  gr_rangeGaspBehavior : Z }.
Definition ser_gasp_record (x : gasp_record) : list Z :=
  concat [ser_u16 (gr_rangeMaxPPEM x);
          ser_u16 (gr_rangeGaspBehavior x)].
Definition de_gasp_record : parser gasp_record :=
  v0 <-- de_u16 ;;
  v1 <-- de_u16 ;;
  pret (mk_gasp_record v0 v1).

(** Panose: src/tables/os2.rs:215-226 *)
Record panose := mk_panose {
  pan_panose0 : Z;
  pan_panose1 : Z;
  pan_panose2 : Z;
  pan_panose3 : Z;
  pan_panose4 : Z;
  pan_panose5 : Z;
  pan_panose6 : Z;
  pan_panose7 : Z;
  pan_panose8 : Z;
  pan_panose9 : Z }.
Definition ser_panose (x : panose) : list Z :=
  concat [ser_u8 (pan_panose0 x);
          ser_u8 (pan_panose1 x);
          ser_u8 (pan_panose2 x);
          ser_u8 (pan_panose3 x);
          ser_u8 (pan_panose4 x);
          ser_u8 (pan_panose5 x);
          ser_u8 (pan_panose6 x);
          ser_u8 (pan_panose7 x);
          ser_u8 (pan_panose8 x);
          ser_u8 (pan_panose9 x)].
Definition de_panose : parser panose :=
  v0 <-- de_u8 ;;
  v1 <-- de_u8 ;;
  v2 <-- de_u8 ;;
  v3 <-- de_u8 ;;
  v4 <-- de_u8 ;;
  v5 <-- de_u8 ;;
  v6 <-- de_u8 ;;
  v7 <-- de_u8 ;;
  v8 <-- de_u8 ;;
  v9 <-- de_u8 ;;
  pret (mk_panose v0 v1 v2 v3 v4 v5 v6 v7 v8 v9).

(** os2core: src/tables/os2.rs:227-258 *)
Record os2core := mk_os2core {
  oc_version : Z;
  oc_xAvgCharWidth : Z;
  oc_usWeightClass : Z;
  oc_usWidthClass : Z;
  oc_fsType : Z;
  oc_ySubscriptXSize : Z;
  oc_ySubscriptYSize : Z;
  oc_ySubscriptXOffset : Z;
  oc_ySubscriptYOffset : Z;
  oc_ySuperscriptXSize : Z;
  oc_ySuperscriptYSize : Z;
  oc_ySuperscriptXOffset : Z;
  oc_ySuperscriptYOffset : Z;
  oc_yStrikeoutSize : Z;
  oc_yStrikeoutPosition : Z;
  oc_sFamilyClass : Z;
  oc_panose : panose;
  oc_ulUnicodeRange1 : Z;
  oc_ulUnicodeRange2 : Z;
  oc_ulUnicodeRange3 : Z;
  oc_ulUnicodeRange4 : Z;
  oc_achVendID : list Z;
  oc_fsSelection : Z;
  oc_usFirstCharIndex : Z;
  oc_usLastCharIndex : Z;
  oc_sTypoAscender : Z;
  oc_sTypoDescender : Z;
  oc_sTypoLineGap : Z;
  oc_usWinAscent : Z;
  oc_usWinDescent : Z }.
Definition ser_os2core (x : os2core) : list Z :=
  concat [ser_u16 (oc_version x);
          ser_i16 (oc_xAvgCharWidth x);
          ser_u16 (oc_usWeightClass x);
          ser_u16 (oc_usWidthClass x);
          ser_u16 (oc_fsType x);
          ser_i16 (oc_ySubscriptXSize x);
          ser_i16 (oc_ySubscriptYSize x);
          ser_i16 (oc_ySubscriptXOffset x);
          ser_i16 (oc_ySubscriptYOffset x);
          ser_i16 (oc_ySuperscriptXSize x);
          ser_i16 (oc_ySuperscriptYSize x);
          ser_i16 (oc_ySuperscriptXOffset x);
          ser_i16 (oc_ySuperscriptYOffset x);
          ser_i16 (oc_yStrikeoutSize x);
          ser_i16 (oc_yStrikeoutPosition x);
          ser_i16 (oc_sFamilyClass x);
          ser_panose (oc_panose x);
          ser_u32 (oc_ulUnicodeRange1 x);
          ser_u32 (oc_ulUnicodeRange2 x);
          ser_u32 (oc_ulUnicodeRange3 x);
          ser_u32 (oc_ulUnicodeRange4 x);
          ser_tag (oc_achVendID x);
          ser_u16 (oc_fsSelection x);
          ser_u16 (oc_usFirstCharIndex x);
          ser_u16 (oc_usLastCharIndex x);
          ser_i16 (oc_sTypoAscender x);
          ser_i16 (oc_sTypoDescender x);
          ser_i16 (oc_sTypoLineGap x);
          ser_u16 (oc_usWinAscent x);
          ser_u16 (oc_usWinDescent x)].
Definition de_os2core : parser os2core :=
  v0 <-- de_u16 ;;
  v1 <-- de_i16 ;;
  v2 <-- de_u16 ;;
  v3 <-- de_u16 ;;
  v4 <-- de_u16 ;;
  v5 <-- de_i16 ;;
  v6 <-- de_i16 ;;
  v7 <-- de_i16 ;;
  v8 <-- de_i16 ;;
  v9 <-- de_i16 ;;
  v10 <-- de_i16 ;;
  v11 <-- de_i16 ;;
  v12 <-- de_i16 ;;
  v13 <-- de_i16 ;;
  v14 <-- de_i16 ;;
  v15 <-- de_i16 ;;
  v16 <-- de_panose ;;
  v17 <-- de_u32 ;;
  v18 <-- de_u32 ;;
  v19 <-- de_u32 ;;
  v20 <-- de_u32 ;;
  v21 <-- de_tag ;;
  v22 <-- de_u16 ;;
  v23 <-- de_u16 ;;
  v24 <-- de_u16 ;;
  v25 <-- de_i16 ;;
  v26 <-- de_i16 ;;
  v27 <-- de_i16 ;;
  v28 <-- de_u16 ;;
  v29 <-- de_u16 ;;
  pret (mk_os2core v0 v1 v2 v3 v4 v5 v6 v7 v8 v9 v10 v11 v12 v13 v14 v15 v16 v17 v18 v19 v20 v21 v22 v23 v24 v25 v26 v27 v28 v29).

(** os2v1: src/tables/os2.rs:260-263 *)
Record os2v1 := mk_os2v1 {
  o1_ulCodePageRange1 : Z;
  o1_ulCodePageRange2 : Z }.
Definition ser_os2v1 (x : os2v1) : list Z :=
  concat [ser_u32 (o1_ulCodePageRange1 x);
          ser_u32 (o1_ulCodePageRange2 x)].
Definition de_os2v1 : parser os2v1 :=
  v0 <-- de_u32 ;;
  v1 <-- de_u32 ;;
  pret (mk_os2v1 v0 v1).

(** os2v2: src/tables/os2.rs:265-271 *)
Record os2v2 := mk_os2v2 {
  o2_sxHeight : Z;
  o2_sCapHeight : Z;
  o2_usDefaultChar : Z;
  o2_usBreakChar : Z;
  o2_usMaxContext : Z }.
Definition ser_os2v2 (x : os2v2) : list Z :=
  concat [ser_i16 (o2_sxHeight x);
          ser_i16 (o2_sCapHeight x);
          ser_u16 (o2_usDefaultChar x);
          ser_u16 (o2_usBreakChar x);
          ser_u16 (o2_usMaxContext x)].
Definition de_os2v2 : parser os2v2 :=
  v0 <-- de_i16 ;;
  v1 <-- de_i16 ;;
  v2 <-- de_u16 ;;
  v3 <-- de_u16 ;;
  v4 <-- de_u16 ;;
  pret (mk_os2v2 v0 v1 v2 v3 v4).

(** os2v5: src/tables/os2.rs:272-275 *)
Record os2v5 := mk_os2v5 {
  o5_usLowerOpticalPointSize : Z;
  o5_usUpperOpticalPointSize : Z }.
Definition ser_os2v5 (x : os2v5) : list Z :=
  concat [ser_u16 (o5_usLowerOpticalPointSize x);
          ser_u16 (o5_usUpperOpticalPointSize x)].
Definition de_os2v5 : parser os2v5 :=
  v0 <-- de_u16 ;;
  v1 <-- de_u16 ;;
  pret (mk_os2v5 v0 v1).
(** src/tables/maxp.rs:9-11, 36-41, 54-61.  [version] is the raw bits of a U16F16
    (0.5 is 32768, 1.0 is 65536). *)
Inductive maxp_variant := Maxp05 (numGlyphs : Z) | Maxp10 (m : maxp10).
Record maxp := mk_maxp { mx_version : Z; mx_table : maxp_variant }.
(** types.rs:191-204 (Version16Dot16).  [to_num::<u8>] of a value above 255
    overflows; [frac * 160] is exact in binary32 and truncated by [as u8]. *)
Definition ser_version16dot16 (v : Z) : res (list Z) :=
  major <- chk_u 8 (v / 65536) ;;
  let minor := (v mod 65536) * 160 / 65536 in
  Ok (concat [ser_u8 0; ser_u8 major; ser_u8 minor; ser_u8 0]).
(** maxp.rs:43-50, 54 (derived) *)
Definition ser_maxp (m : maxp) : res (list Z) :=
  v <- ser_version16dot16 (mx_version m) ;;
  Ok (v ++ match mx_table m with Maxp05 n => ser_u16 n | Maxp10 t => ser_maxp10 t end).
(** maxp.rs:122-143 *)
Definition de_maxp : parser maxp :=
  version <-- de_i32 ;;
  if version =? 0x00005000 then n <-- de_u16 ;; pret (mk_maxp 32768 (Maxp05 n))
  else if version =? 0x00010000 then t <-- de_maxp10 ;; pret (mk_maxp 65536 (Maxp10 t))
  else perr.
(** maxp.rs:107-112 *)
Definition num_glyphs (m : maxp) : Z :=
  match mx_table m with Maxp05 n => n | Maxp10 t => m10_numGlyphs t end.
(** maxp.rs:114-119 *)
Definition set_num_glyphs (m : maxp) (n : Z) : maxp :=
  mk_maxp (mx_version m)
    match mx_table m with
    | Maxp05 _ => Maxp05 n
    | Maxp10 t => Maxp10 (mk_maxp10 n (m10_maxPoints t) (m10_maxContours t)
        (m10_maxCompositePoints t) (m10_maxCompositeContours t) (m10_maxZones t)
        (m10_maxTwilightPoints t) (m10_maxStorage t) (m10_maxFunctionDefs t)
        (m10_maxInstructionDefs t) (m10_maxStackElements t) (m10_maxSizeOfInstructions t)
        (m10_maxComponentElements t) (m10_maxComponentDepth t))
    end.
(** maxp.rs:77-105 *)
Definition maxp_new10 (numGlyphs maxPoints maxContours maxCompositePoints maxCompositeContours
    maxComponentElements maxComponentDepth : Z) : maxp :=
  mk_maxp 65536 (Maxp10 (mk_maxp10 numGlyphs maxPoints maxContours maxCompositePoints
    maxCompositeContours 1 0 0 0 0 0 0 maxComponentElements maxComponentDepth)).
(** maxp.rs:65-72 *)
Definition maxp_new05 (n : Z) : maxp := mk_maxp 32768 (Maxp05 n).

(** src/tables/gasp.rs:15-18 *)
Record gasp := mk_gasp { ga_version : Z; ga_ranges : list gasp_record }.
Definition ser_gasp (g : gasp) : res (list Z) :=
  rs <- ser_counted (fun r => Ok (ser_gasp_record r)) (ga_ranges g) ;;
  Ok (ser_u16 (ga_version g) ++ rs).
Definition de_gasp : parser gasp :=
  v <-- de_u16 ;; rs <-- de_counted16 de_gasp_record ;; pret (mk_gasp v rs).

(** src/tables/cvt.rs:26-33 *)
Definition ser_cvt (v : list Z) : list Z := concat (map ser_i16 v).
(** src/tables/cvt.rs:15-24: a loop while input remains.  The fuel is the
    number of remaining bytes (each iteration consumes two). *)
Fixpoint de_cvt_loop (fuel : nat) : parser (list Z) := fun r =>
  if (rd_ptr r <? length (rd_input r))%nat then
    match fuel with
    | O => Panic
    | S k => (v <-- de_i16 ;; vs <-- de_cvt_loop k ;; pret (v :: vs)) r
    end
  else Ok ([], r).
Definition de_cvt : parser (list Z) := fun r =>
  de_cvt_loop (length (rd_input r) - rd_ptr r) r.

(** src/tables/fpgm.rs:14-26, src/tables/prep.rs:14-26: the whole input, whatever
    the read position. *)
Definition ser_fpgm (v : list Z) : list Z := concat (map ser_u8 v).
Definition de_fpgm : parser (list Z) := fun r => Ok (rd_input r, r).

(** src/tables/fvar.rs:35-44 *)
Record instance_record := mk_instance {
  in_subfamilyNameID : Z; in_flags : Z; in_coordinates : list dyadic;
  in_postscriptNameID : option Z }.
(** fvar.rs:77-82 *)
Record fvar := mk_fvar { fv_axes : list axis_record; fv_instances : list instance_record }.
(** fvar.rs:48-71 *)
Definition de_instance (axis_count : Z) (has_ps : bool) : parser instance_record :=
  sub <-- de_u16 ;;
  flags <-- de_u16 ;;
  coords <-- de_counted de_fixed (Z.to_nat axis_count) ;;
  ps <-- (if has_ps then (x <-- de_u16 ;; pret (Some x)) else pret None) ;;
  pret (mk_instance sub flags coords ps).
(** fvar.rs:84-108.  [core.axisCount * 4 + 6] is u16 arithmetic, evaluated once
    per instance; [c.ptr = top_of_table + offset] is not bounds-checked. *)
Definition de_fvar : parser fvar := fun r0 =>
  let r := rd_push r0 in
  match de_fvarcore r with
  | Ok (core, r1) =>
      match top_of_table r1 with
      | Ok top =>
        let r2 := mkrd (rd_input r1) (top + Z.to_nat (fc_axesArrayOffset core)) (rd_stack r1) in
        (axes <-- de_counted de_axis_record (Z.to_nat (fc_axisCount core)) ;;
         insts <-- de_counted
                     (fun r => match a <- chk_u 16 (fc_axisCount core * 4) ;; chk_u 16 (a + 6) with
                               | Ok sz => de_instance (fc_axisCount core) (fc_instanceSize core =? sz) r
                               | Err => Err | Panic => Panic end)
                     (Z.to_nat (fc_instanceCount core)) ;;
         pret (mk_fvar axes insts)) r2
      | Err => Err | Panic => Panic
      end
  | Err => Err | Panic => Panic
  end.
Definition is_some {A} (o : option A) : bool := match o with Some _ => true | None => false end.
(** fvar.rs:110-149 *)
Definition ser_instance (has_ps : bool) (i : instance_record) : res (list Z) :=
  ps <- (if has_ps then n <- unwrap (in_postscriptNameID i) ;; Ok (ser_u16 n) else Ok []) ;;
  Ok (ser_u16 (in_subfamilyNameID i) ++ ser_u16 0 ++
      concat (map ser_fixed (in_coordinates i)) ++ ps).
Definition ser_fvar (f : fvar) : res (list Z) :=
  let has_ps := existsb (fun x => is_some (in_postscriptNameID x)) (fv_instances f) in
  if has_ps && negb (forallb (fun x => is_some (in_postscriptNameID x)) (fv_instances f)) then Err
  else
    let core := mk_fvarcore 1 0 16 2 (u16 (Z.of_nat (length (fv_axes f)))) 20
                  (u16 (Z.of_nat (length (fv_instances f))))
                  (u16 (Z.of_nat (length (fv_axes f)) * 4 + if has_ps then 6 else 4)) in
    insts <- rmapM (ser_instance has_ps) (fv_instances f) ;;
    Ok (ser_fvarcore core ++ concat (map ser_axis_record (fv_axes f)) ++ concat insts).

(** src/tables/os2.rs:281-360.  The fields up to usWinDescent are the [os2core]
    record they are copied from and to (os2.rs:364-407, 439-473). *)
Record os2 := mk_os2 {
  os_core : os2core;
  os_ulCodePageRange1 : option Z; os_ulCodePageRange2 : option Z;
  os_sxHeight : option Z; os_sCapHeight : option Z; os_usDefaultChar : option Z;
  os_usBreakChar : option Z; os_usMaxContext : option Z;
  os_usLowerOpticalPointSize : option Z; os_usUpperOpticalPointSize : option Z }.
Definition unwrap_or (o : option Z) (d : Z) : Z := match o with Some x => x | None => d end.
(** os2.rs:362-434 *)
Definition ser_os2 (o : os2) : list Z :=
  let version := oc_version (os_core o) in
  ser_os2core (os_core o) ++
  (if version >? 0 then
     ser_os2v1 (mk_os2v1 (unwrap_or (os_ulCodePageRange1 o) 0) (unwrap_or (os_ulCodePageRange2 o) 0))
   else []) ++
  (if version >? 1 then
     ser_os2v2 (mk_os2v2 (unwrap_or (os_sxHeight o) 0) (unwrap_or (os_sCapHeight o) 0)
       (unwrap_or (os_usDefaultChar o) 0) (unwrap_or (os_usBreakChar o) 0)
       (unwrap_or (os_usMaxContext o) 0))
   else []) ++
  (if version >? 4 then
     ser_os2v5 (mk_os2v5 (unwrap_or (os_usLowerOpticalPointSize o) 0)
       (unwrap_or (os_usUpperOpticalPointSize o) 0))
   else []).
(** os2.rs:436-500 *)
Definition de_os2 : parser os2 :=
  core <-- de_os2core ;;
  v1 <-- (if oc_version core >? 0 then (x <-- de_os2v1 ;; pret (Some x)) else pret None) ;;
  v2 <-- (if oc_version core >? 1 then (x <-- de_os2v2 ;; pret (Some x)) else pret None) ;;
  v5 <-- (if oc_version core >? 4 then (x <-- de_os2v5 ;; pret (Some x)) else pret None) ;;
  pret (mk_os2 core (option_map o1_ulCodePageRange1 v1) (option_map o1_ulCodePageRange2 v1)
          (option_map o2_sxHeight v2) (option_map o2_sCapHeight v2)
          (option_map o2_usDefaultChar v2) (option_map o2_usBreakChar v2)
          (option_map o2_usMaxContext v2)
          (option_map o5_usLowerOpticalPointSize v5) (option_map o5_usUpperOpticalPointSize v5)).

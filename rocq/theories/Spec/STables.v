(** What it means for the fields of a fixed-layout table to be writable. *)
From Verif.Model Require Import MBase MTag MFixed MTables.
From Verif.Spec Require Import SBase.

(** A binary32 value that is the value of some 16.16 bit pattern which the
    conversion preserves (C05 says which patterns those are). *)
Definition fixed_value (x : dyadic) : Prop :=
  exists p, in_range I32 p /\ x = fixed_from_packed p /\ fixed_as_packed x = p.
(** A date within chrono's range with no fractional seconds. *)
Definition date_ok (d : date) : Prop :=
  chrono_min <= dt_secs d <= chrono_max /\ dt_nanos d = 0.
(** Four printable ASCII characters. *)
Definition good_tag (t : list Z) : Prop :=
  length t = 4%nat /\ Forall (fun b => 0x20 <= b <= 0x7E) t.
(** Every field of a [head_tbl] is within the range of its type. *)
Definition head_tbl_ok (x : head_tbl) : Prop :=
  in_range U16 (hd_majorVersion x) /\
  in_range U16 (hd_minorVersion x) /\
  fixed_value (hd_fontRevision x) /\
  in_range U32 (hd_checksumAdjustment x) /\
  in_range U32 (hd_magicNumber x) /\
  in_range U16 (hd_flags x) /\
  in_range U16 (hd_unitsPerEm x) /\
  date_ok (hd_created x) /\
  date_ok (hd_modified x) /\
  in_range I16 (hd_xMin x) /\
  in_range I16 (hd_yMin x) /\
  in_range I16 (hd_xMax x) /\
  in_range I16 (hd_yMax x) /\
  in_range U16 (hd_macStyle x) /\
  in_range U16 (hd_lowestRecPPEM x) /\
  in_range I16 (hd_fontDirectionHint x) /\
  in_range I16 (hd_indexToLocFormat x) /\
  in_range I16 (hd_glyphDataFormat x).
(** Every field of a [hhea] is within the range of its type. *)
Definition hhea_ok (x : hhea) : Prop :=
  in_range U16 (hh_majorVersion x) /\
  in_range U16 (hh_minorVersion x) /\
  in_range I16 (hh_ascender x) /\
  in_range I16 (hh_descender x) /\
  in_range I16 (hh_lineGap x) /\
  in_range U16 (hh_advanceWidthMax x) /\
  in_range I16 (hh_minLeftSideBearing x) /\
  in_range I16 (hh_minRightSideBearing x) /\
  in_range I16 (hh_xMaxExtent x) /\
  in_range I16 (hh_caretSlopeRise x) /\
  in_range I16 (hh_caretSlopeRun x) /\
  in_range I16 (hh_caretOffset x) /\
  in_range I16 (hh_reserved0 x) /\
  in_range I16 (hh_reserved1 x) /\
  in_range I16 (hh_reserved2 x) /\
  in_range I16 (hh_reserved3 x) /\
  in_range I16 (hh_metricDataFormat x) /\
  in_range U16 (hh_numberOfHMetrics x).
(** Every field of a [maxp10] is within the range of its type. *)
Definition maxp10_ok (x : maxp10) : Prop :=
  in_range U16 (m10_numGlyphs x) /\
  in_range U16 (m10_maxPoints x) /\
  in_range U16 (m10_maxContours x) /\
  in_range U16 (m10_maxCompositePoints x) /\
  in_range U16 (m10_maxCompositeContours x) /\
  in_range U16 (m10_maxZones x) /\
  in_range U16 (m10_maxTwilightPoints x) /\
  in_range U16 (m10_maxStorage x) /\
  in_range U16 (m10_maxFunctionDefs x) /\
  in_range U16 (m10_maxInstructionDefs x) /\
  in_range U16 (m10_maxStackElements x) /\
  in_range U16 (m10_maxSizeOfInstructions x) /\
  in_range U16 (m10_maxComponentElements x) /\
  in_range U16 (m10_maxComponentDepth x).
(** Every field of a [axis_record] is within the range of its type. *)
Definition axis_record_ok (x : axis_record) : Prop :=
  good_tag (ax_axisTag x) /\
  fixed_value (ax_minValue x) /\
  fixed_value (ax_defaultValue x) /\
  fixed_value (ax_maxValue x) /\
  in_range U16 (ax_flags x) /\
  in_range U16 (ax_axisNameID x).
(** Every field of a [fvarcore] is within the range of its type. *)
Definition fvarcore_ok (x : fvarcore) : Prop :=
  in_range U16 (fc_majorVersion x) /\
  in_range U16 (fc_minorVersion x) /\
  in_range U16 (fc_axesArrayOffset x) /\
  in_range U16 (fc_reserved x) /\
  in_range U16 (fc_axisCount x) /\
  in_range U16 (fc_axisSize x) /\
  in_range U16 (fc_instanceCount x) /\
  in_range U16 (fc_instanceSize x).
(** Every field of a [gasp_record] is within the range of its type. *)
Definition gasp_record_ok (x : gasp_record) : Prop :=
  in_range U16 (gr_rangeMaxPPEM x) /\
  in_range U16 (gr_rangeGaspBehavior x).
(** Every field of a [panose] is within the range of its type. *)
Definition panose_ok (x : panose) : Prop :=
  in_range U8 (pan_panose0 x) /\
  in_range U8 (pan_panose1 x) /\
  in_range U8 (pan_panose2 x) /\
  in_range U8 (pan_panose3 x) /\
  in_range U8 (pan_panose4 x) /\
  in_range U8 (pan_panose5 x) /\
  in_range U8 (pan_panose6 x) /\
  in_range U8 (pan_panose7 x) /\
  in_range U8 (pan_panose8 x) /\
  in_range U8 (pan_panose9 x).
(** Every field of a [os2core] is within the range of its type. *)
Definition os2core_ok (x : os2core) : Prop :=
  in_range U16 (oc_version x) /\
  in_range I16 (oc_xAvgCharWidth x) /\
  in_range U16 (oc_usWeightClass x) /\
  in_range U16 (oc_usWidthClass x) /\
  in_range U16 (oc_fsType x) /\
  in_range I16 (oc_ySubscriptXSize x) /\
  in_range I16 (oc_ySubscriptYSize x) /\
  in_range I16 (oc_ySubscriptXOffset x) /\
  in_range I16 (oc_ySubscriptYOffset x) /\
  in_range I16 (oc_ySuperscriptXSize x) /\
  in_range I16 (oc_ySuperscriptYSize x) /\
  in_range I16 (oc_ySuperscriptXOffset x) /\
  in_range I16 (oc_ySuperscriptYOffset x) /\
  in_range I16 (oc_yStrikeoutSize x) /\
  in_range I16 (oc_yStrikeoutPosition x) /\
  in_range I16 (oc_sFamilyClass x) /\
  panose_ok (oc_panose x) /\
  in_range U32 (oc_ulUnicodeRange1 x) /\
  in_range U32 (oc_ulUnicodeRange2 x) /\
  in_range U32 (oc_ulUnicodeRange3 x) /\
  in_range U32 (oc_ulUnicodeRange4 x) /\
  good_tag (oc_achVendID x) /\
  in_range U16 (oc_fsSelection x) /\
  in_range U16 (oc_usFirstCharIndex x) /\
  in_range U16 (oc_usLastCharIndex x) /\
  in_range I16 (oc_sTypoAscender x) /\
  in_range I16 (oc_sTypoDescender x) /\
  in_range I16 (oc_sTypoLineGap x) /\
  in_range U16 (oc_usWinAscent x) /\
  in_range U16 (oc_usWinDescent x).
(** Every field of a [os2v1] is within the range of its type. *)
Definition os2v1_ok (x : os2v1) : Prop :=
  in_range U32 (o1_ulCodePageRange1 x) /\
  in_range U32 (o1_ulCodePageRange2 x).
(** Every field of a [os2v2] is within the range of its type. *)
Definition os2v2_ok (x : os2v2) : Prop :=
  in_range I16 (o2_sxHeight x) /\
  in_range I16 (o2_sCapHeight x) /\
  in_range U16 (o2_usDefaultChar x) /\
  in_range U16 (o2_usBreakChar x) /\
  in_range U16 (o2_usMaxContext x).
(** Every field of a [os2v5] is within the range of its type. *)
Definition os2v5_ok (x : os2v5) : Prop :=
  in_range U16 (o5_usLowerOpticalPointSize x) /\
  in_range U16 (o5_usUpperOpticalPointSize x).
(** A maxp whose version matches its contents. *)
Definition maxp_ok (m : maxp) : Prop :=
  match mx_table m with
  | Maxp05 n => mx_version m = 32768 /\ in_range U16 n
  | Maxp10 t => mx_version m = 65536 /\ maxp10_ok t
  end.
Definition gasp_ok (g : gasp) : Prop :=
  in_range U16 (ga_version g) /\ Forall gasp_record_ok (ga_ranges g) /\
  Z.of_nat (length (ga_ranges g)) <= 65535.
Definition instance_ok (axes : nat) (ps : bool) (i : instance_record) : Prop :=
  in_range U16 (in_subfamilyNameID i) /\ length (in_coordinates i) = axes /\
  Forall fixed_value (in_coordinates i) /\
  match in_postscriptNameID i with
  | Some n => ps = true /\ in_range U16 n
  | None => ps = false
  end.
(** The optional OS/2 fields present are exactly those of the version. *)
Definition opt_ok (t : prim) (present : Prop) (o : option Z) : Prop :=
  match o with Some v => present /\ in_range t v | None => ~ present end.
Definition os2_ok (o : os2) : Prop :=
  let v := oc_version (os_core o) in
  os2core_ok (os_core o) /\
  opt_ok U32 (1 <= v) (os_ulCodePageRange1 o) /\ opt_ok U32 (1 <= v) (os_ulCodePageRange2 o) /\
  opt_ok I16 (2 <= v) (os_sxHeight o) /\ opt_ok I16 (2 <= v) (os_sCapHeight o) /\
  opt_ok U16 (2 <= v) (os_usDefaultChar o) /\ opt_ok U16 (2 <= v) (os_usBreakChar o) /\
  opt_ok U16 (2 <= v) (os_usMaxContext o) /\
  opt_ok U16 (5 <= v) (os_usLowerOpticalPointSize o) /\
  opt_ok U16 (5 <= v) (os_usUpperOpticalPointSize o).

(** ** Where the OpenType specification puts each field.
    [field bs off w v]: the [w] bytes of [bs] at offset [off] are the big-endian
    digits of [v] (two's complement if [v] is negative). *)
Definition field (bs : list Z) (off w : nat) (v : Z) : Prop :=
  length (firstn w (skipn off bs)) = w /\ big_endian (firstn w (skipn off bs)) v.
(** OpenType 'head' table; 54 bytes. *)
Definition head_layout (h : head_tbl) (bs : list Z) : Prop :=
  field bs 0 2 (hd_majorVersion h) /\
  field bs 2 2 (hd_minorVersion h) /\
  field bs 4 4 (fixed_as_packed (hd_fontRevision h)) /\
  field bs 8 4 (hd_checksumAdjustment h) /\
  field bs 12 4 (hd_magicNumber h) /\
  field bs 16 2 (hd_flags h) /\
  field bs 18 2 (hd_unitsPerEm h) /\
  field bs 20 8 (dt_secs (hd_created h)) /\
  field bs 28 8 (dt_secs (hd_modified h)) /\
  field bs 36 2 (hd_xMin h) /\
  field bs 38 2 (hd_yMin h) /\
  field bs 40 2 (hd_xMax h) /\
  field bs 42 2 (hd_yMax h) /\
  field bs 44 2 (hd_macStyle h) /\
  field bs 46 2 (hd_lowestRecPPEM h) /\
  field bs 48 2 (hd_fontDirectionHint h) /\
  field bs 50 2 (hd_indexToLocFormat h) /\
  field bs 52 2 (hd_glyphDataFormat h).
(** OpenType 'hhea' table; 36 bytes. *)
Definition hhea_layout (h : hhea) (bs : list Z) : Prop :=
  field bs 0 2 (hh_majorVersion h) /\
  field bs 2 2 (hh_minorVersion h) /\
  field bs 4 2 (hh_ascender h) /\
  field bs 6 2 (hh_descender h) /\
  field bs 8 2 (hh_lineGap h) /\
  field bs 10 2 (hh_advanceWidthMax h) /\
  field bs 12 2 (hh_minLeftSideBearing h) /\
  field bs 14 2 (hh_minRightSideBearing h) /\
  field bs 16 2 (hh_xMaxExtent h) /\
  field bs 18 2 (hh_caretSlopeRise h) /\
  field bs 20 2 (hh_caretSlopeRun h) /\
  field bs 22 2 (hh_caretOffset h) /\
  field bs 24 2 (hh_reserved0 h) /\
  field bs 26 2 (hh_reserved1 h) /\
  field bs 28 2 (hh_reserved2 h) /\
  field bs 30 2 (hh_reserved3 h) /\
  field bs 32 2 (hh_metricDataFormat h) /\
  field bs 34 2 (hh_numberOfHMetrics h).
(** OpenType 'maxp' table version 1.0; 32 bytes. *)
Definition maxp10_layout (h : maxp10) (bs : list Z) : Prop :=
  field bs 0 4 (0x00010000) /\
  field bs 4 2 (m10_numGlyphs h) /\
  field bs 6 2 (m10_maxPoints h) /\
  field bs 8 2 (m10_maxContours h) /\
  field bs 10 2 (m10_maxCompositePoints h) /\
  field bs 12 2 (m10_maxCompositeContours h) /\
  field bs 14 2 (m10_maxZones h) /\
  field bs 16 2 (m10_maxTwilightPoints h) /\
  field bs 18 2 (m10_maxStorage h) /\
  field bs 20 2 (m10_maxFunctionDefs h) /\
  field bs 22 2 (m10_maxInstructionDefs h) /\
  field bs 24 2 (m10_maxStackElements h) /\
  field bs 26 2 (m10_maxSizeOfInstructions h) /\
  field bs 28 2 (m10_maxComponentElements h) /\
  field bs 30 2 (m10_maxComponentDepth h).
(** OpenType 'OS/2' table, version 0 fields; 78 bytes. *)
Definition os2_layout (h : os2core) (bs : list Z) : Prop :=
  field bs 0 2 (oc_version h) /\
  field bs 2 2 (oc_xAvgCharWidth h) /\
  field bs 4 2 (oc_usWeightClass h) /\
  field bs 6 2 (oc_usWidthClass h) /\
  field bs 8 2 (oc_fsType h) /\
  field bs 10 2 (oc_ySubscriptXSize h) /\
  field bs 12 2 (oc_ySubscriptYSize h) /\
  field bs 14 2 (oc_ySubscriptXOffset h) /\
  field bs 16 2 (oc_ySubscriptYOffset h) /\
  field bs 18 2 (oc_ySuperscriptXSize h) /\
  field bs 20 2 (oc_ySuperscriptYSize h) /\
  field bs 22 2 (oc_ySuperscriptXOffset h) /\
  field bs 24 2 (oc_ySuperscriptYOffset h) /\
  field bs 26 2 (oc_yStrikeoutSize h) /\
  field bs 28 2 (oc_yStrikeoutPosition h) /\
  field bs 30 2 (oc_sFamilyClass h) /\
  field bs 32 1 (pan_panose0 (oc_panose h)) /\
  field bs 33 1 (pan_panose1 (oc_panose h)) /\
  field bs 34 1 (pan_panose2 (oc_panose h)) /\
  field bs 35 1 (pan_panose3 (oc_panose h)) /\
  field bs 36 1 (pan_panose4 (oc_panose h)) /\
  field bs 37 1 (pan_panose5 (oc_panose h)) /\
  field bs 38 1 (pan_panose6 (oc_panose h)) /\
  field bs 39 1 (pan_panose7 (oc_panose h)) /\
  field bs 40 1 (pan_panose8 (oc_panose h)) /\
  field bs 41 1 (pan_panose9 (oc_panose h)) /\
  field bs 42 4 (oc_ulUnicodeRange1 h) /\
  field bs 46 4 (oc_ulUnicodeRange2 h) /\
  field bs 50 4 (oc_ulUnicodeRange3 h) /\
  field bs 54 4 (oc_ulUnicodeRange4 h) /\
  field bs 58 1 (nth 0 (oc_achVendID h) 0) /\
  field bs 59 1 (nth 1 (oc_achVendID h) 0) /\
  field bs 60 1 (nth 2 (oc_achVendID h) 0) /\
  field bs 61 1 (nth 3 (oc_achVendID h) 0) /\
  field bs 62 2 (oc_fsSelection h) /\
  field bs 64 2 (oc_usFirstCharIndex h) /\
  field bs 66 2 (oc_usLastCharIndex h) /\
  field bs 68 2 (oc_sTypoAscender h) /\
  field bs 70 2 (oc_sTypoDescender h) /\
  field bs 72 2 (oc_sTypoLineGap h) /\
  field bs 74 2 (oc_usWinAscent h) /\
  field bs 76 2 (oc_usWinDescent h).
(** The fields later versions of 'OS/2' append. *)
Definition os2_extra_layout (o : os2) (bs : list Z) : Prop :=
  let v := oc_version (os_core o) in
  (v > 0 ->
    field bs 78 4 (unwrap_or (os_ulCodePageRange1 o) 0) /\
    field bs 82 4 (unwrap_or (os_ulCodePageRange2 o) 0)) /\
  (v > 1 ->
    field bs 86 2 (unwrap_or (os_sxHeight o) 0) /\
    field bs 88 2 (unwrap_or (os_sCapHeight o) 0) /\
    field bs 90 2 (unwrap_or (os_usDefaultChar o) 0) /\
    field bs 92 2 (unwrap_or (os_usBreakChar o) 0) /\
    field bs 94 2 (unwrap_or (os_usMaxContext o) 0)) /\
  (v > 4 ->
    field bs 96 2 (unwrap_or (os_usLowerOpticalPointSize o) 0) /\
    field bs 98 2 (unwrap_or (os_usUpperOpticalPointSize o) 0)).

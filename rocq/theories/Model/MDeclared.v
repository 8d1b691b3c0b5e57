(** The [tables!] invocations of the library, token by token (comments left out;
    the ones in test modules are not included).  Transcribed by a script. *)
From Coq Require Import String List.
Import ListNotations.
From Verif.Model Require Import MBase MDerive MMacro.
Open Scope string_scope.

(** crates/otspec/src/layout/classdef.rs:11-24 *)
Definition src_layout_classdef_11 : list tok :=
  [Id "ClassDefFormat1";
     Group Brace [Id "uint16"; Id "startGlyphID"; Id "Counted"; Group Parens [Id "uint16"]; Id "classValueArray"];
   Id "ClassDefFormat2";
     Group Brace [Id "Counted"; Group Parens [Id "ClassRangeRecord"]; Id "classRangeRecords"];
   Id "ClassRangeRecord";
     Group Brace [Id "uint16"; Id "startGlyphID"; Id "uint16"; Id "endGlyphID"; Id "uint16"; Id "class"]].

(** crates/otspec/src/layout/common.rs:9-103 *)
Definition src_layout_common_9 : list tok :=
  [Id "ScriptList"; Group Bracket [Id "default"];
     Group Brace [Group Bracket [Id "offset_base"]; Group Bracket [Id "embed"]; Id "Counted"; Group Parens [Id
       "ScriptRecord"]; Id "scriptRecords"];
   Id "ScriptRecord"; Group Bracket [Id "embedded"]; Group Bracket [Id "nodebug"];
     Group Brace [Id "Tag"; Id "scriptTag"; Id "Offset16"; Group Parens [Id "Script"]; Id "script"];
   Id "Script";
     Group Brace [Group Bracket [Id "offset_base"]; Id "Offset16"; Group Parens [Id "LangSys"]; Id "defaultLangSys";
       Group Bracket [Id "embed"]; Id "Counted"; Group Parens [Id "LangSysRecord"]; Id "langSysRecords"];
   Id "LangSysRecord"; Group Bracket [Id "embedded"];
     Group Brace [Id "Tag"; Id "langSysTag"; Id "Offset16"; Group Parens [Id "LangSys"]; Id "langSys"];
   Id "LangSys";
     Group Brace [Id "uint16"; Id "lookupOrderOffset"; Id "uint16"; Id "requiredFeatureIndex"; Id "Counted"; Group
       Parens [Id "uint16"]; Id "featureIndices"];
   Id "FeatureList"; Group Bracket [Id "default"];
     Group Brace [Group Bracket [Id "offset_base"]; Group Bracket [Id "embed"]; Id "Counted"; Group Parens [Id
       "FeatureRecord"]; Id "featureRecords"];
   Id "FeatureRecord"; Group Bracket [Id "embedded"];
     Group Brace [Id "Tag"; Id "featureTag"; Id "Offset16"; Group Parens [Id "FeatureTable"]; Id "feature"];
   Id "FeatureTable";
     Group Brace [Id "uint16"; Id "featureParamsOffset"; Id "Counted"; Group Parens [Id "uint16"]; Id
       "lookupListIndices"];
   Id "cvFeatureParams";
     Group Brace [Id "uint16"; Id "format"; Id "uint16"; Id "featUiLabelNameId"; Id "uint16"; Id
       "featUiTooltipTextNameId"; Id "uint16"; Id "sampleTextNameId"; Id "uint16"; Id "numNamedParameters"; Id
       "uint16"; Id "firstParamUiLabelNameId"];
   Id "sizeFeatureParams";
     Group Brace [Id "uint16"; Id "designSize"; Id "uint16"; Id "subfamilyIdentifier"; Id "uint16"; Id
       "subfamilyNameID"; Id "uint16"; Id "smallest"; Id "uint16"; Id "largest"];
   Id "MarkArray"; Group Bracket [Id "default"];
     Group Brace [Group Bracket [Id "offset_base"]; Group Bracket [Id "embed"]; Id "Counted"; Group Parens [Id
       "MarkRecord"]; Id "markRecords"];
   Id "MarkRecord"; Group Bracket [Id "embedded"];
     Group Brace [Id "uint16"; Id "markClass"; Id "Offset16"; Group Parens [Id "Anchor"]; Id "markAnchor"];
   Id "FeatureVariations";
     Group Brace [Id "uint16"; Id "majorVersion"; Id "uint16"; Id "minorVersion"; Id "Counted32"; Group Parens [Id
       "FeatureVariationRecord"]; Id "featureVariationRecords"];
   Id "FeatureVariationRecord";
     Group Brace [Id "Offset32"; Group Parens [Id "ConditionSet"]; Id "conditionSet"; Id "Offset32"; Group Parens [Id
       "FeatureTableSubstitution"]; Id "featureTableSubstitution"];
   Id "ConditionSet";
     Group Brace [Id "CountedOffset32"; Group Parens [Id "ConditionFormat1"]; Id "conditions"];
   Id "ConditionFormat1";
     Group Brace [Id "uint16"; Id "format"; Id "uint16"; Id "axisIndex"; Id "F2DOT14"; Id "filterRangeMinValue"; Id
       "F2DOT14"; Id "filterRangeMaxValue"];
   Id "FeatureTableSubstitution";
     Group Brace [Id "uint16"; Id "majorVersion"; Id "uint16"; Id "minorVersion"; Id "Counted"; Group Parens [Id
       "FeatureTableSubstitutionRecord"]; Id "substitutions"];
   Id "FeatureTableSubstitutionRecord";
     Group Brace [Id "uint16"; Id "featureIndex"; Id "Offset32"; Group Parens [Id "FeatureTable"]; Id
       "alternateFeature"]].

(** crates/otspec/src/layout/contextual.rs:9-63 *)
Definition src_layout_contextual_9 : list tok :=
  [Id "SequenceLookupRecord";
     Group Brace [Id "uint16"; Id "sequenceIndex"; Id "uint16"; Id "lookupIndex"];
   Id "SequenceContextFormat1";
     Group Brace [Group Bracket [Id "offset_base"]; Id "uint16"; Id "format"; Id "Offset16"; Group Parens [Id
       "Coverage"]; Id "coverage"; Id "CountedOffset16"; Group Parens [Id "SequenceRuleSet"]; Id "seqRuleSets"];
   Id "SequenceRuleSet";
     Group Brace [Group Bracket [Id "offset_base"]; Id "CountedOffset16"; Group Parens [Id "SequenceRule"]; Id
       "sequenceRules"];
   Id "SequenceContextFormat2";
     Group Brace [Group Bracket [Id "offset_base"]; Id "uint16"; Id "format"; Id "Offset16"; Group Parens [Id
       "Coverage"]; Id "coverage"; Id "Offset16"; Group Parens [Id "ClassDef"]; Id "classDef"; Id "CountedOffset16";
       Group Parens [Id "SequenceRuleSet"]; Id "classSeqRuleSets"];
   Id "ChainedSequenceContextFormat1";
     Group Brace [Group Bracket [Id "offset_base"]; Id "uint16"; Id "format"; Id "Offset16"; Group Parens [Id
       "Coverage"]; Id "coverage"; Id "CountedOffset16"; Group Parens [Id "ChainedSequenceRuleSet"]; Id
       "chainedSeqRuleSets"];
   Id "ChainedSequenceRuleSet";
     Group Brace [Group Bracket [Id "offset_base"]; Id "CountedOffset16"; Group Parens [Id "ChainedSequenceRule"]; Id
       "chainedSequenceRules"];
   Id "ChainedSequenceContextFormat2";
     Group Brace [Group Bracket [Id "offset_base"]; Id "uint16"; Id "format"; Id "Offset16"; Group Parens [Id
       "Coverage"]; Id "coverage"; Id "Offset16"; Group Parens [Id "ClassDef"]; Id "backtrackClassDef"; Id "Offset16";
       Group Parens [Id "ClassDef"]; Id "inputClassDef"; Id "Offset16"; Group Parens [Id "ClassDef"]; Id
       "lookaheadClassDef"; Id "CountedOffset16"; Group Parens [Id "ChainedSequenceRuleSet"]; Id
       "chainedClassSeqRuleSets"];
   Id "ChainedSequenceContextFormat3";
     Group Brace [Group Bracket [Id "offset_base"]; Id "uint16"; Id "format"; Id "CountedOffset16"; Group Parens [Id
       "Coverage"]; Id "backtrackCoverages"; Id "CountedOffset16"; Group Parens [Id "Coverage"]; Id "inputCoverages";
       Id "CountedOffset16"; Group Parens [Id "Coverage"]; Id "lookaheadCoverages"; Id "Counted"; Group Parens [Id
       "SequenceLookupRecord"]; Id "seqLookupRecords"]].

(** crates/otspec/src/layout/coverage.rs:8-20 *)
Definition src_layout_coverage_8 : list tok :=
  [Id "CoverageFormat1";
     Group Brace [Id "Counted"; Group Parens [Id "uint16"]; Id "glyphArray"];
   Id "CoverageFormat2";
     Group Brace [Id "Counted"; Group Parens [Id "RangeRecord"]; Id "rangeRecords"];
   Id "RangeRecord";
     Group Brace [Id "uint16"; Id "startGlyphID"; Id "uint16"; Id "endGlyphID"; Id "uint16"; Id "startCoverageIndex"]].

(** crates/otspec/src/layout/gpos3.rs:7-19 *)
Definition src_layout_gpos3_7 : list tok :=
  [Id "CursivePosFormat1";
     Group Brace [Group Bracket [Id "offset_base"]; Id "uint16"; Id "posFormat"; Id "Offset16"; Group Parens [Id
       "Coverage"]; Id "coverage"; Group Bracket [Id "embed"]; Id "Counted"; Group Parens [Id "EntryExitRecord"]; Id
       "entryExitRecord"];
   Id "EntryExitRecord"; Group Bracket [Id "embedded"];
     Group Brace [Id "Offset16"; Group Parens [Id "Anchor"]; Id "entryAnchor"; Id "Offset16"; Group Parens [Id
       "Anchor"]; Id "exitAnchor"]].

(** crates/otspec/src/layout/gpos4.rs:9-25 *)
Definition src_layout_gpos4_9 : list tok :=
  [Id "MarkBasePosFormat1"; Group Bracket [Id "nodeserialize"];
     Group Brace [Group Bracket [Id "offset_base"]; Id "uint16"; Id "posFormat"; Id "Offset16"; Group Parens [Id
       "Coverage"]; Id "markCoverage"; Id "Offset16"; Group Parens [Id "Coverage"]; Id "baseCoverage"; Id "uint16"; Id
       "markClassCount"; Id "Offset16"; Group Parens [Id "MarkArray"]; Id "markArray"; Id "Offset16"; Group Parens [Id
       "BaseArray"]; Id "baseArray"];
   Id "BaseArray"; Group Bracket [Id "nodeserialize"]; Group Bracket [Id "default"];
     Group Brace [Group Bracket [Id "offset_base"]; Group Bracket [Id "embed"]; Id "Counted"; Group Parens [Id
       "BaseRecord"]; Id "baseRecords"]].

(** crates/otspec/src/layout/gpos5.rs:12-33 *)
Definition src_layout_gpos5_12 : list tok :=
  [Id "MarkLigPosFormat1"; Group Bracket [Id "nodeserialize"];
     Group Brace [Group Bracket [Id "offset_base"]; Id "uint16"; Id "posFormat"; Id "Offset16"; Group Parens [Id
       "Coverage"]; Id "markCoverage"; Id "Offset16"; Group Parens [Id "Coverage"]; Id "ligatureCoverage"; Id
       "uint16"; Id "markClassCount"; Id "Offset16"; Group Parens [Id "MarkArray"]; Id "markArray"; Id "Offset16";
       Group Parens [Id "LigatureArray"]; Id "ligatureArray"];
   Id "LigatureArray"; Group Bracket [Id "nodeserialize"]; Group Bracket [Id "default"];
     Group Brace [Group Bracket [Id "offset_base"]; Id "CountedOffset16"; Group Parens [Id "LigatureAttach"]; Id
       "ligatureAttach"];
   Id "LigatureAttach"; Group Bracket [Id "nodeserialize"]; Group Bracket [Id "default"];
     Group Brace [Group Bracket [Id "offset_base"]; Group Bracket [Id "embed"]; Id "Counted"; Group Parens [Id
       "ComponentRecord"]; Id "componentRecords"]].

(** crates/otspec/src/layout/gpos6.rs:9-25 *)
Definition src_layout_gpos6_9 : list tok :=
  [Id "MarkMarkPosFormat1"; Group Bracket [Id "nodeserialize"];
     Group Brace [Group Bracket [Id "offset_base"]; Id "uint16"; Id "posFormat"; Id "Offset16"; Group Parens [Id
       "Coverage"]; Id "mark1Coverage"; Id "Offset16"; Group Parens [Id "Coverage"]; Id "mark2Coverage"; Id "uint16";
       Id "markClassCount"; Id "Offset16"; Group Parens [Id "MarkArray"]; Id "mark1Array"; Id "Offset16"; Group Parens
       [Id "Mark2Array"]; Id "mark2Array"];
   Id "Mark2Array"; Group Bracket [Id "nodeserialize"]; Group Bracket [Id "default"];
     Group Brace [Group Bracket [Id "offset_base"]; Group Bracket [Id "embed"]; Id "Counted"; Group Parens [Id
       "Mark2Record"]; Id "mark2Records"]].

(** crates/otspec/src/layout/gsub1.rs:7-20 *)
Definition src_layout_gsub1_7 : list tok :=
  [Id "SingleSubstFormat1";
     Group Brace [Group Bracket [Id "offset_base"]; Id "uint16"; Id "substFormat"; Id "Offset16"; Group Parens [Id
       "Coverage"]; Id "coverage"; Id "int16"; Id "deltaGlyphID"];
   Id "SingleSubstFormat2";
     Group Brace [Group Bracket [Id "offset_base"]; Id "uint16"; Id "substFormat"; Id "Offset16"; Group Parens [Id
       "Coverage"]; Id "coverage"; Id "Counted"; Group Parens [Id "uint16"]; Id "substituteGlyphIDs"]].

(** crates/otspec/src/layout/gsub2.rs:6-16 *)
Definition src_layout_gsub2_6 : list tok :=
  [Id "MultipleSubstFormat1";
     Group Brace [Group Bracket [Id "offset_base"]; Id "uint16"; Id "substFormat"; Id "Offset16"; Group Parens [Id
       "Coverage"]; Id "coverage"; Id "CountedOffset16"; Group Parens [Id "Sequence"]; Id "sequences"];
   Id "Sequence"; Group Bracket [Id "default"];
     Group Brace [Id "Counted"; Group Parens [Id "uint16"]; Id "substituteGlyphIDs"]].

(** crates/otspec/src/layout/gsub3.rs:6-16 *)
Definition src_layout_gsub3_6 : list tok :=
  [Id "AlternateSubstFormat1";
     Group Brace [Group Bracket [Id "offset_base"]; Id "uint16"; Id "substFormat"; Id "Offset16"; Group Parens [Id
       "Coverage"]; Id "coverage"; Id "CountedOffset16"; Group Parens [Id "AlternateSet"]; Id "alternateSets"];
   Id "AlternateSet"; Group Bracket [Id "default"];
     Group Brace [Id "Counted"; Group Parens [Id "uint16"]; Id "alternateGlyphIDs"]].

(** crates/otspec/src/layout/gsub4.rs:9-20 *)
Definition src_layout_gsub4_9 : list tok :=
  [Id "LigatureSubstFormat1";
     Group Brace [Group Bracket [Id "offset_base"]; Id "uint16"; Id "substFormat"; Id "Offset16"; Group Parens [Id
       "Coverage"]; Id "coverage"; Id "CountedOffset16"; Group Parens [Id "LigatureSet"]; Id "ligatureSet"];
   Id "LigatureSet";
     Group Brace [Group Bracket [Id "offset_base"]; Id "CountedOffset16"; Group Parens [Id "Ligature"]; Id
       "ligatureOffsets"]].

(** crates/otspec/src/layout/gsub8.rs:6-15 *)
Definition src_layout_gsub8_6 : list tok :=
  [Id "ReverseChainSingleSubstFormat1";
     Group Brace [Group Bracket [Id "offset_base"]; Id "uint16"; Id "substFormat"; Id "Offset16"; Group Parens [Id
       "Coverage"]; Id "coverage"; Id "CountedOffset16"; Group Parens [Id "Coverage"]; Id "backtrackCoverages"; Id
       "CountedOffset16"; Group Parens [Id "Coverage"]; Id "lookaheadCoverages"; Id "Counted"; Group Parens [Id
       "uint16"]; Id "substituteGlyphIDs"]].

(** crates/otspec/src/tables/GPOS.rs:17-44 *)
Definition src_tables_GPOS_17 : list tok :=
  [Id "GPOS10";
     Group Brace [Id "uint16"; Id "majorVersion"; Id "uint16"; Id "minorVersion"; Id "Offset16"; Group Parens [Id
       "ScriptList"]; Id "scriptList"; Id "Offset16"; Group Parens [Id "FeatureList"]; Id "featureList"; Id
       "Offset16"; Group Parens [Id "GPOSLookupList"]; Id "lookupList"];
   Id "GPOS11";
     Group Brace [Id "uint16"; Id "majorVersion"; Id "uint16"; Id "minorVersion"; Id "Offset16"; Group Parens [Id
       "ScriptList"]; Id "scriptList"; Id "Offset16"; Group Parens [Id "FeatureList"]; Id "featureList"; Id
       "Offset16"; Group Parens [Id "GPOSLookupList"]; Id "lookupList"; Id "Offset32"; Group Parens [Id
       "FeatureVariations"]; Id "featureVariations"];
   Id "GPOSLookupList";
     Group Brace [Group Bracket [Id "offset_base"]; Id "CountedOffset16"; Group Parens [Id "GPOSLookup"]; Id
       "lookups"];
   Id "ExtensionPosFormat1"; Group Bracket [Id "nodeserialize"];
     Group Brace [Group Bracket [Id "offset_base"]; Id "uint16"; Id "substFormat"; Id "uint16"; Id
       "extensionLookupType"; Id "Offset32"; Group Parens [Id "GPOSSubtable"]; Id "extension"]].

(** crates/otspec/src/tables/GSUB.rs:16-44 *)
Definition src_tables_GSUB_16 : list tok :=
  [Id "GSUB10";
     Group Brace [Id "uint16"; Id "majorVersion"; Id "uint16"; Id "minorVersion"; Id "Offset16"; Group Parens [Id
       "ScriptList"]; Id "scriptList"; Id "Offset16"; Group Parens [Id "FeatureList"]; Id "featureList"; Id
       "Offset16"; Group Parens [Id "GSUBLookupList"]; Id "lookupList"];
   Id "GSUB11";
     Group Brace [Id "uint16"; Id "majorVersion"; Id "uint16"; Id "minorVersion"; Id "Offset16"; Group Parens [Id
       "ScriptList"]; Id "scriptList"; Id "Offset16"; Group Parens [Id "FeatureList"]; Id "featureList"; Id
       "Offset16"; Group Parens [Id "GSUBLookupList"]; Id "lookupList"; Id "Offset32"; Group Parens [Id
       "FeatureVariations"]; Id "featureVariations"];
   Id "GSUBLookupList";
     Group Brace [Group Bracket [Id "offset_base"]; Id "CountedOffset16"; Group Parens [Id "GSUBLookup"]; Id
       "lookups"];
   Id "ExtensionSubstFormat1"; Group Bracket [Id "nodeserialize"];
     Group Brace [Group Bracket [Id "offset_base"]; Id "uint16"; Id "substFormat"; Id "uint16"; Id
       "extensionLookupType"; Id "Offset32"; Group Parens [Id "GSUBSubtable"]; Id "extension"]].

(** crates/otspec/src/tables/avar.rs:5-20 *)
Definition src_tables_avar_5 : list tok :=
  [Id "AxisValueMap";
     Group Brace [Id "F2DOT14"; Id "fromCoordinate"; Id "F2DOT14"; Id "toCoordinate"];
   Id "SegmentMap";
     Group Brace [Id "Counted"; Group Parens [Id "AxisValueMap"]; Id "axisValueMaps"];
   Id "avar";
     Group Brace [Id "uint16"; Id "majorVersion"; Id "uint16"; Id "minorVersion"; Id "uint16"; Id "reserved"; Id
       "Counted"; Group Parens [Id "SegmentMap"]; Id "axisSegmentMaps"]].

(** crates/otspec/src/tables/head.rs:5-24 *)
Definition src_tables_head_5 : list tok :=
  [Id "head";
     Group Brace [Id "uint16"; Id "majorVersion"; Id "uint16"; Id "minorVersion"; Id "Fixed"; Id "fontRevision"; Id
       "uint32"; Id "checksumAdjustment"; Id "uint32"; Id "magicNumber"; Id "uint16"; Id "flags"; Id "uint16"; Id
       "unitsPerEm"; Id "LONGDATETIME"; Id "created"; Id "LONGDATETIME"; Id "modified"; Id "int16"; Id "xMin"; Id
       "int16"; Id "yMin"; Id "int16"; Id "xMax"; Id "int16"; Id "yMax"; Id "uint16"; Id "macStyle"; Id "uint16"; Id
       "lowestRecPPEM"; Id "int16"; Id "fontDirectionHint"; Id "int16"; Id "indexToLocFormat"; Id "int16"; Id
       "glyphDataFormat"]].

(** src/otvar/itemvariationstore.rs:7-24 *)
Definition src_otvar_itemvariationstore_7 : list tok :=
  [Id "RegionAxisCoordinates";
     Group Brace [Id "F2DOT14"; Id "startCoord"; Id "F2DOT14"; Id "peakCoord"; Id "F2DOT14"; Id "endCoord"];
   Id "ItemVariationDataHeader";
     Group Brace [Id "uint16"; Id "itemCount"; Id "uint16"; Id "shortDeltaCount"; Id "Counted"; Group Parens [Id
       "uint16"]; Id "regionIndexes"];
   Id "ItemVariationStoreInternal";
     Group Brace [Id "uint16"; Id "format"; Id "Offset32"; Group Parens [Id "VariationRegionList"]; Id
       "variationRegionList"; Id "CountedOffset32"; Group Parens [Id "ItemVariationData"]; Id "itemVariationData"]].

(** src/tables/GDEF.rs:20-76 *)
Definition src_tables_GDEF_20 : list tok :=
  [Id "gdefcore11";
     Group Brace [Id "uint16"; Id "majorVersion"; Id "uint16"; Id "minorVersion"; Id "Offset16"; Group Parens [Id
       "ClassDef"]; Id "glyphClassDef"; Id "Offset16"; Group Parens [Id "AttachList"]; Id "attachList"; Id "Offset16";
       Group Parens [Id "LigCaretList"]; Id "ligCaretList"; Id "Offset16"; Group Parens [Id "ClassDef"]; Id
       "markAttachClassDef"];
   Id "gdefcore12";
     Group Brace [Id "uint16"; Id "majorVersion"; Id "uint16"; Id "minorVersion"; Id "Offset16"; Group Parens [Id
       "ClassDef"]; Id "glyphClassDef"; Id "Offset16"; Group Parens [Id "AttachList"]; Id "attachList"; Id "Offset16";
       Group Parens [Id "LigCaretList"]; Id "ligCaretList"; Id "Offset16"; Group Parens [Id "ClassDef"]; Id
       "markAttachClassDef"; Id "Offset16"; Group Parens [Id "MarkGlyphSets"]; Id "markGlyphSets"];
   Id "gdefcore13";
     Group Brace [Id "uint16"; Id "majorVersion"; Id "uint16"; Id "minorVersion"; Id "Offset16"; Group Parens [Id
       "ClassDef"]; Id "glyphClassDef"; Id "Offset16"; Group Parens [Id "AttachList"]; Id "attachList"; Id "Offset16";
       Group Parens [Id "LigCaretList"]; Id "ligCaretList"; Id "Offset16"; Group Parens [Id "ClassDef"]; Id
       "markAttachClassDef"; Id "Offset16"; Group Parens [Id "MarkGlyphSets"]; Id "markGlyphSets"; Id "Offset32";
       Group Parens [Id "ItemVariationStore"]; Id "itemVarStore"];
   Id "AttachList";
     Group Brace [Group Bracket [Id "offset_base"]; Id "Offset16"; Group Parens [Id "Coverage"]; Id "coverage"; Id
       "CountedOffset16"; Group Parens [Id "AttachPoint"]; Id "attachPoints"];
   Id "AttachPoint";
     Group Brace [Id "Counted"; Group Parens [Id "uint16"]; Id "pointIndices"];
   Id "LigCaretList";
     Group Brace [Group Bracket [Id "offset_base"]; Id "Offset16"; Group Parens [Id "Coverage"]; Id "coverage"; Id
       "CountedOffset16"; Group Parens [Id "LigGlyph"]; Id "ligGlyph"];
   Id "LigGlyph";
     Group Brace [Group Bracket [Id "offset_base"]; Id "CountedOffset16"; Group Parens [Id "CaretValue"]; Id
       "caretValue"];
   Id "MarkGlyphSets";
     Group Brace [Id "uint16"; Id "format"; Id "CountedOffset32"; Group Parens [Id "Coverage"]; Id "coverage"]].

(** src/tables/MATH.rs:12-129 *)
Definition src_tables_MATH_12 : list tok :=
  [Id "MathValueRecord"; Group Bracket [Id "embedded"];
     Group Brace [Id "FWORD"; Id "value"; Id "Offset16"; Group Parens [Id "Device"]; Id "device"];
   Id "MATHinternal";
     Group Brace [Id "uint16"; Id "majorVersion"; Id "uint16"; Id "minorVersion"; Id "Offset16"; Group Parens [Id
       "MathConstants"]; Id "mathConstants"; Id "Offset16"; Group Parens [Id "MathGlyphInfo"]; Id "mathGlyphInfo"; Id
       "Offset16"; Group Parens [Id "MathVariants"]; Id "mathVariants"];
   Id "MathConstants";
     Group Brace [Id "int16"; Id "scriptPercentScaleDown"; Id "int16"; Id "scriptScriptPercentScaleDown"; Id "UFWORD";
       Id "delimitedSubFormulaMinHeight"; Id "UFWORD"; Id "displayOperatorMinHeight"; Id "MathValueRecord"; Id
       "mathLeading"; Id "MathValueRecord"; Id "axisHeight"; Id "MathValueRecord"; Id "accentBaseHeight"; Id
       "MathValueRecord"; Id "flattenedAccentBaseHeight"; Id "MathValueRecord"; Id "subscriptShiftDown"; Id
       "MathValueRecord"; Id "subscriptTopMax"; Id "MathValueRecord"; Id "subscriptBaselineDropMin"; Id
       "MathValueRecord"; Id "superscriptShiftUp"; Id "MathValueRecord"; Id "superscriptShiftUpCramped"; Id
       "MathValueRecord"; Id "superscriptBottomMin"; Id "MathValueRecord"; Id "superscriptBaselineDropMax"; Id
       "MathValueRecord"; Id "subSuperscriptGapMin"; Id "MathValueRecord"; Id "superscriptBottomMaxWithSubscript"; Id
       "MathValueRecord"; Id "spaceAfterScript"; Id "MathValueRecord"; Id "upperLimitGapMin"; Id "MathValueRecord"; Id
       "upperLimitBaselineRiseMin"; Id "MathValueRecord"; Id "lowerLimitGapMin"; Id "MathValueRecord"; Id
       "lowerLimitBaselineDropMin"; Id "MathValueRecord"; Id "stackTopShiftUp"; Id "MathValueRecord"; Id
       "stackTopDisplayStyleShiftUp"; Id "MathValueRecord"; Id "stackBottomShiftDown"; Id "MathValueRecord"; Id
       "stackBottomDisplayStyleShiftDown"; Id "MathValueRecord"; Id "stackGapMin"; Id "MathValueRecord"; Id
       "stackDisplayStyleGapMin"; Id "MathValueRecord"; Id "stretchStackTopShiftUp"; Id "MathValueRecord"; Id
       "stretchStackBottomShiftDown"; Id "MathValueRecord"; Id "stretchStackGapAboveMin"; Id "MathValueRecord"; Id
       "stretchStackGapBelowMin"; Id "MathValueRecord"; Id "fractionNumeratorShiftUp"; Id "MathValueRecord"; Id
       "fractionNumeratorDisplayStyleShiftUp"; Id "MathValueRecord"; Id "fractionDenominatorShiftDown"; Id
       "MathValueRecord"; Id "fractionDenominatorDisplayStyleShiftDown"; Id "MathValueRecord"; Id
       "fractionNumeratorGapMin"; Id "MathValueRecord"; Id "fractionNumDisplayStyleGapMin"; Id "MathValueRecord"; Id
       "fractionRuleThickness"; Id "MathValueRecord"; Id "fractionDenominatorGapMin"; Id "MathValueRecord"; Id
       "fractionDenomDisplayStyleGapMin"; Id "MathValueRecord"; Id "skewedFractionHorizontalGap"; Id
       "MathValueRecord"; Id "skewedFractionVerticalGap"; Id "MathValueRecord"; Id "overbarVerticalGap"; Id
       "MathValueRecord"; Id "overbarRuleThickness"; Id "MathValueRecord"; Id "overbarExtraAscender"; Id
       "MathValueRecord"; Id "underbarVerticalGap"; Id "MathValueRecord"; Id "underbarRuleThickness"; Id
       "MathValueRecord"; Id "underbarExtraDescender"; Id "MathValueRecord"; Id "radicalVerticalGap"; Id
       "MathValueRecord"; Id "radicalDisplayStyleVerticalGap"; Id "MathValueRecord"; Id "radicalRuleThickness"; Id
       "MathValueRecord"; Id "radicalExtraAscender"; Id "MathValueRecord"; Id "radicalKernBeforeDegree"; Id
       "MathValueRecord"; Id "radicalKernAfterDegree"; Id "int16"; Id "radicalDegreeBottomRaisePercent"];
   Id "MathGlyphInfo";
     Group Brace [Group Bracket [Id "offset_base"]; Id "Offset16"; Group Parens [Id "MathItalicsCorrectionInfo"]; Id
       "mathItalicsCorrectionInfo"; Id "Offset16"; Group Parens [Id "MathTopAccentAttachment"]; Id
       "mathTopAccentAttachment"; Id "Offset16"; Group Parens [Id "Coverage"]; Id "extendedShapeCoverage"; Id
       "Offset16"; Group Parens [Id "MathKernInfo"]; Id "mathKernInfo"];
   Id "MathItalicsCorrectionInfo";
     Group Brace [Id "Offset16"; Group Parens [Id "Coverage"]; Id "italicsCorrectionCoverage"; Id "Counted"; Group
       Parens [Id "MathValueRecord"]; Id "italicsCorrection"];
   Id "MathTopAccentAttachment";
     Group Brace [Id "Offset16"; Group Parens [Id "Coverage"]; Id "topAccentCoverage"; Id "Counted"; Group Parens [Id
       "MathValueRecord"]; Id "topAccentAttachment"];
   Id "MathKernInfo";
     Group Brace [Group Bracket [Id "offset_base"]; Id "Offset16"; Group Parens [Id "Coverage"]; Id
       "mathKernCoverage"; Group Bracket [Id "embed"]; Id "Counted"; Group Parens [Id "MathKernInfoRecord"]; Id
       "mathKernInfoRecords"];
   Id "MathKernInfoRecord"; Group Bracket [Id "embedded"];
     Group Brace [Id "Offset16"; Group Parens [Id "MathKern"]; Id "topRightMathKern"; Id "Offset16"; Group Parens [Id
       "MathKern"]; Id "topLeftMathKern"; Id "Offset16"; Group Parens [Id "MathKern"]; Id "bottomRightMathKern"; Id
       "Offset16"; Group Parens [Id "MathKern"]; Id "bottomLeftMathKern"];
   Id "MathGlyphConstruction";
     Group Brace [Group Bracket [Id "offset_base"]; Id "Offset16"; Group Parens [Id "GlyphAssembly"]; Id
       "glyphAssembly"; Id "Counted"; Group Parens [Id "MathGlyphVariantRecord"]; Id "mathGlyphVariantRecord"];
   Id "MathGlyphVariantRecord";
     Group Brace [Id "uint16"; Id "variantGlyph"; Id "UFWORD"; Id "advanceMeasurement"];
   Id "GlyphAssembly";
     Group Brace [Id "MathValueRecord"; Id "italicsCorrection"; Id "Counted"; Group Parens [Id "GlyphPartRecord"]; Id
       "partRecords"];
   Id "GlyphPartRecord";
     Group Brace [Id "uint16"; Id "glyphID"; Id "UFWORD"; Id "startConnectorLength"; Id "UFWORD"; Id
       "endConnectorLength"; Id "UFWORD"; Id "fullAdvance"; Id "uint16"; Id "partFlags"]].

(** src/tables/STAT.rs:13-67 *)
Definition src_tables_STAT_13 : list tok :=
  [Id "STATcore";
     Group Brace [Id "uint16"; Id "majorVersion"; Id "uint16"; Id "minorVersion"; Id "uint16"; Id "designAxisSize"; Id
       "uint16"; Id "designAxisCount"; Id "uint32"; Id "designAxesOffset"; Id "uint16"; Id "axisValueCount"; Id
       "uint32"; Id "offsetToAxisValueOffsets"];
   Id "AxisRecord";
     Group Brace [Id "Tag"; Id "axisTag"; Id "uint16"; Id "axisNameID"; Id "uint16"; Id "axisOrdering"];
   Id "AxisValueFormat1";
     Group Brace [Id "uint16"; Id "format"; Id "uint16"; Id "axisIndex"; Id "uint16"; Id "flags"; Id "uint16"; Id
       "valueNameID"; Id "Fixed"; Id "value"];
   Id "AxisValueFormat2";
     Group Brace [Id "uint16"; Id "format"; Id "uint16"; Id "axisIndex"; Id "uint16"; Id "flags"; Id "uint16"; Id
       "valueNameID"; Id "Fixed"; Id "nominalValue"; Id "Fixed"; Id "rangeMinValue"; Id "Fixed"; Id "rangeMaxValue"];
   Id "AxisValueFormat3";
     Group Brace [Id "uint16"; Id "format"; Id "uint16"; Id "axisIndex"; Id "uint16"; Id "flags"; Id "uint16"; Id
       "valueNameID"; Id "Fixed"; Id "value"; Id "Fixed"; Id "linkedValue"];
   Id "AxisValueFormat4Core";
     Group Brace [Id "uint16"; Id "format"; Id "uint16"; Id "axisCount"; Id "uint16"; Id "flags"; Id "uint16"; Id
       "valueNameID"];
   Id "AxisValueFormat4AxisValue";
     Group Brace [Id "uint16"; Id "axisIndex"; Id "Fixed"; Id "value"]].

(** src/tables/cmap.rs:15-29 *)
Definition src_tables_cmap_15 : list tok :=
  [Id "EncodingRecord";
     Group Brace [Id "uint16"; Id "platformID"; Id "uint16"; Id "encodingID"; Id "uint32"; Id "subtableOffset"];
   Id "CmapHeader";
     Group Brace [Group Bracket [Id "offset_base"]; Id "uint16"; Id "version"; Id "Counted"; Group Parens [Id
       "EncodingRecord"]; Id "encodingRecords"]].

(** src/tables/cmap.rs:330-344 *)
Definition src_tables_cmap_330 : list tok :=
  [Id "cmap12";
     Group Brace [Id "uint16"; Id "format"; Id "uint16"; Id "reserved"; Id "uint32"; Id "length"; Id "uint32"; Id
       "language"; Id "Counted32"; Group Parens [Id "SequentialMapGroup"]; Id "groups"];
   Id "SequentialMapGroup";
     Group Brace [Id "uint32"; Id "startCharCode"; Id "uint32"; Id "endCharCode"; Id "uint32"; Id "startGlyphID"]].

(** src/tables/cmap.rs:412-439 *)
Definition src_tables_cmap_412 : list tok :=
  [Id "cmap14";
     Group Brace [Group Bracket [Id "offset_base"]; Id "uint16"; Id "format"; Id "uint32"; Id "length"; Group Bracket
       [Id "embed"]; Id "Counted32"; Group Parens [Id "VariationSelector"]; Id "varSelector"];
   Id "VariationSelector"; Group Bracket [Id "embedded"];
     Group Brace [Id "uint24"; Id "varSelector"; Id "Offset32"; Group Parens [Id "DefaultUVS"]; Id "defaultUVS"; Id
       "Offset32"; Group Parens [Id "NonDefaultUVS"]; Id "nonDefaultUVS"];
   Id "DefaultUVS";
     Group Brace [Id "Counted32"; Group Parens [Id "UnicodeRange"]; Id "ranges"];
   Id "UnicodeRange";
     Group Brace [Id "uint24"; Id "startUnicodeValue"; Id "uint8"; Id "additionalCount"];
   Id "NonDefaultUVS";
     Group Brace [Id "Counted32"; Group Parens [Id "UVSMapping"]; Id "uvsMappings"];
   Id "UVSMapping";
     Group Brace [Id "uint24"; Id "unicodeValue"; Id "uint16"; Id "glyphID"]].

(** src/tables/fvar.rs:11-30 *)
Definition src_tables_fvar_11 : list tok :=
  [Id "fvarcore";
     Group Brace [Id "uint16"; Id "majorVersion"; Id "uint16"; Id "minorVersion"; Id "uint16"; Id "axesArrayOffset";
       Id "uint16"; Id "reserved"; Id "uint16"; Id "axisCount"; Id "uint16"; Id "axisSize"; Id "uint16"; Id
       "instanceCount"; Id "uint16"; Id "instanceSize"];
   Id "VariationAxisRecord";
     Group Brace [Id "Tag"; Id "axisTag"; Id "Fixed"; Id "minValue"; Id "Fixed"; Id "defaultValue"; Id "Fixed"; Id
       "maxValue"; Id "uint16"; Id "flags"; Id "uint16"; Id "axisNameID"]].

(** src/tables/gasp.rs:9-19 *)
Definition src_tables_gasp_9 : list tok :=
  [Id "GaspRecord";
     Group Brace [Id "uint16"; Id "rangeMaxPPEM"; Id "RangeGaspBehaviorFlags"; Id "rangeGaspBehavior"];
   Id "gasp";
     Group Brace [Id "uint16"; Id "version"; Id "Counted"; Group Parens [Id "GaspRecord"]; Id "gaspRanges"]].

(** src/tables/glyf/glyph.rs:13-20 *)
Definition src_tables_glyf_glyph_13 : list tok :=
  [Id "GlyphCore";
     Group Brace [Id "int16"; Id "xMin"; Id "int16"; Id "yMin"; Id "int16"; Id "xMax"; Id "int16"; Id "yMax"]].

(** src/tables/gvar.rs:21-31 *)
Definition src_tables_gvar_21 : list tok :=
  [Id "gvarcore";
     Group Brace [Id "uint16"; Id "majorVersion"; Id "uint16"; Id "minorVersion"; Id "uint16"; Id "axisCount"; Id
       "uint16"; Id "sharedTupleCount"; Id "u32"; Id "sharedTuplesOffset"; Id "uint16"; Id "glyphCount"; Id "uint16";
       Id "flags"; Id "u32"; Id "glyphVariationDataArrayOffset"]].

(** src/tables/hhea.rs:8-27 *)
Definition src_tables_hhea_8 : list tok :=
  [Id "hhea";
     Group Brace [Id "uint16"; Id "majorVersion"; Id "uint16"; Id "minorVersion"; Id "FWORD"; Id "ascender"; Id
       "FWORD"; Id "descender"; Id "FWORD"; Id "lineGap"; Id "UFWORD"; Id "advanceWidthMax"; Id "FWORD"; Id
       "minLeftSideBearing"; Id "FWORD"; Id "minRightSideBearing"; Id "FWORD"; Id "xMaxExtent"; Id "int16"; Id
       "caretSlopeRise"; Id "int16"; Id "caretSlopeRun"; Id "int16"; Id "caretOffset"; Id "int16"; Id "reserved0"; Id
       "int16"; Id "reserved1"; Id "int16"; Id "reserved2"; Id "int16"; Id "reserved3"; Id "int16"; Id
       "metricDataFormat"; Id "uint16"; Id "numberOfHMetrics"]].

(** src/tables/maxp.rs:8-28 *)
Definition src_tables_maxp_8 : list tok :=
  [Id "maxp05";
     Group Brace [Id "uint16"; Id "numGlyphs"];
   Id "maxp10";
     Group Brace [Id "uint16"; Id "numGlyphs"; Id "uint16"; Id "maxPoints"; Id "uint16"; Id "maxContours"; Id
       "uint16"; Id "maxCompositePoints"; Id "uint16"; Id "maxCompositeContours"; Id "uint16"; Id "maxZones"; Id
       "uint16"; Id "maxTwilightPoints"; Id "uint16"; Id "maxStorage"; Id "uint16"; Id "maxFunctionDefs"; Id "uint16";
       Id "maxInstructionDefs"; Id "uint16"; Id "maxStackElements"; Id "uint16"; Id "maxSizeOfInstructions"; Id
       "uint16"; Id "maxComponentElements"; Id "uint16"; Id "maxComponentDepth"]].

(** src/tables/name.rs:111-120 *)
Definition src_tables_name_111 : list tok :=
  [Id "NameRecordInternal";
     Group Brace [Id "uint16"; Id "platformID"; Id "uint16"; Id "encodingID"; Id "uint16"; Id "languageID"; Id
       "uint16"; Id "nameID"; Id "uint16"; Id "length"; Id "uint16"; Id "stringOffset"]].

(** src/tables/os2.rs:214-276 *)
Definition src_tables_os2_214 : list tok :=
  [Id "Panose";
     Group Brace [Id "u8"; Id "panose0"; Id "u8"; Id "panose1"; Id "u8"; Id "panose2"; Id "u8"; Id "panose3"; Id "u8";
       Id "panose4"; Id "u8"; Id "panose5"; Id "u8"; Id "panose6"; Id "u8"; Id "panose7"; Id "u8"; Id "panose8"; Id
       "u8"; Id "panose9"];
   Id "os2core";
     Group Brace [Id "uint16"; Id "version"; Id "int16"; Id "xAvgCharWidth"; Id "uint16"; Id "usWeightClass"; Id
       "uint16"; Id "usWidthClass"; Id "uint16"; Id "fsType"; Id "int16"; Id "ySubscriptXSize"; Id "int16"; Id
       "ySubscriptYSize"; Id "int16"; Id "ySubscriptXOffset"; Id "int16"; Id "ySubscriptYOffset"; Id "int16"; Id
       "ySuperscriptXSize"; Id "int16"; Id "ySuperscriptYSize"; Id "int16"; Id "ySuperscriptXOffset"; Id "int16"; Id
       "ySuperscriptYOffset"; Id "int16"; Id "yStrikeoutSize"; Id "int16"; Id "yStrikeoutPosition"; Id "int16"; Id
       "sFamilyClass"; Id "Panose"; Id "panose"; Id "uint32"; Id "ulUnicodeRange1"; Id "uint32"; Id "ulUnicodeRange2";
       Id "uint32"; Id "ulUnicodeRange3"; Id "uint32"; Id "ulUnicodeRange4"; Id "Tag"; Id "achVendID"; Id "uint16"; Id
       "fsSelection"; Id "uint16"; Id "usFirstCharIndex"; Id "uint16"; Id "usLastCharIndex"; Id "int16"; Id
       "sTypoAscender"; Id "int16"; Id "sTypoDescender"; Id "int16"; Id "sTypoLineGap"; Id "uint16"; Id "usWinAscent";
       Id "uint16"; Id "usWinDescent"];
   Id "os2v1";
     Group Brace [Id "uint32"; Id "ulCodePageRange1"; Id "uint32"; Id "ulCodePageRange2"];
   Id "os2v2";
     Group Brace [Id "int16"; Id "sxHeight"; Id "int16"; Id "sCapHeight"; Id "uint16"; Id "usDefaultChar"; Id
       "uint16"; Id "usBreakChar"; Id "uint16"; Id "usMaxContext"];
   Id "os2v5";
     Group Brace [Id "uint16"; Id "usLowerOpticalPointSize"; Id "uint16"; Id "usUpperOpticalPointSize"]].

(** src/tables/post.rs:274-284 *)
Definition src_tables_post_274 : list tok :=
  [Id "postcore";
     Group Brace [Id "Version16Dot16"; Id "version"; Id "Fixed"; Id "italicAngle"; Id "FWORD"; Id "underlinePosition";
       Id "FWORD"; Id "underlineThickness"; Id "uint32"; Id "isFixedPitch"; Id "uint32"; Id "minMemType42"; Id
       "uint32"; Id "maxMemType42"; Id "uint32"; Id "minMemType1"; Id "uint32"; Id "maxMemType1"]].

(** All of them. *)
Definition invocations : list (list tok) :=
  [src_layout_classdef_11;
   src_layout_common_9;
   src_layout_contextual_9;
   src_layout_coverage_8;
   src_layout_gpos3_7;
   src_layout_gpos4_9;
   src_layout_gpos5_12;
   src_layout_gpos6_9;
   src_layout_gsub1_7;
   src_layout_gsub2_6;
   src_layout_gsub3_6;
   src_layout_gsub4_9;
   src_layout_gsub8_6;
   src_tables_GPOS_17;
   src_tables_GSUB_16;
   src_tables_avar_5;
   src_tables_head_5;
   src_otvar_itemvariationstore_7;
   src_tables_GDEF_20;
   src_tables_MATH_12;
   src_tables_STAT_13;
   src_tables_cmap_15;
   src_tables_cmap_330;
   src_tables_cmap_412;
   src_tables_fvar_11;
   src_tables_gasp_9;
   src_tables_glyf_glyph_13;
   src_tables_gvar_21;
   src_tables_hhea_8;
   src_tables_maxp_8;
   src_tables_name_111;
   src_tables_os2_214;
   src_tables_post_274].

(** What they declare, and the type that a declared name stands for. *)
Definition library : list decl := match rmapM expand invocations with Ok dss => concat dss | _ => [] end.
Definition library_type (n : string) : shape := type_named (List.length library) library n.

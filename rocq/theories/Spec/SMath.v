(** The OpenType format of the mathematical typesetting table, written down
    independently of the code. *)
From Coq Require Import String List ZArith.
Import ListNotations.
From Verif.Model Require Import MBase MLayout MMath.
From Verif.Spec Require Import SBase SGlyph SLayout SContext SGsub SStat.
Open Scope Z_scope.

(** the named value records of the constants table, in the order of the OpenType
    specification *)
Definition opentype_constants : list string :=
  ["mathLeading"; "axisHeight"; "accentBaseHeight"; "flattenedAccentBaseHeight";
   "subscriptShiftDown"; "subscriptTopMax"; "subscriptBaselineDropMin";
   "superscriptShiftUp"; "superscriptShiftUpCramped"; "superscriptBottomMin"; "superscriptBaselineDropMax";
   "subSuperscriptGapMin"; "superscriptBottomMaxWithSubscript"; "spaceAfterScript";
   "upperLimitGapMin"; "upperLimitBaselineRiseMin"; "lowerLimitGapMin"; "lowerLimitBaselineDropMin";
   "stackTopShiftUp"; "stackTopDisplayStyleShiftUp"; "stackBottomShiftDown"; "stackBottomDisplayStyleShiftDown";
   "stackGapMin"; "stackDisplayStyleGapMin";
   "stretchStackTopShiftUp"; "stretchStackBottomShiftDown"; "stretchStackGapAboveMin"; "stretchStackGapBelowMin";
   "fractionNumeratorShiftUp"; "fractionNumeratorDisplayStyleShiftUp"; "fractionDenominatorShiftDown";
   "fractionDenominatorDisplayStyleShiftDown"; "fractionNumeratorGapMin"; "fractionNumDisplayStyleGapMin"; "fractionRuleThickness";
   "fractionDenominatorGapMin"; "fractionDenomDisplayStyleGapMin"; "skewedFractionHorizontalGap"; "skewedFractionVerticalGap";
   "overbarVerticalGap"; "overbarRuleThickness"; "overbarExtraAscender";
   "underbarVerticalGap"; "underbarRuleThickness"; "underbarExtraDescender";
   "radicalVerticalGap"; "radicalDisplayStyleVerticalGap"; "radicalRuleThickness"; "radicalExtraAscender";
   "radicalKernBeforeDegree"; "radicalKernAfterDegree"]%string.

(** Where the offsets inside the constants table, the tables of italics
    corrections and of accent positions, the kern tables and the glyph assemblies
    count from.  In OpenType they count from the start of the table they are in
    ([Own]).  The other possibilities: from the start of the table that contains
    an offset to it ([Outer]); there are no such offsets ([Unused]). *)
Inductive origin := Own | Outer | Unused.
Definition base_of (o : origin) (outer here : Z) : option Z :=
  match o with Own => Some here | Outer => Some outer | Unused => None end.

Section Format.
Variable o : origin.
Variable buf : list Z.

(** an offset, from [base], to something that [R] says is at a position; 0 is an
    offset to nothing *)
Definition pointer {A} (base : option Z) (R : Z -> A -> Prop) (bs : list Z) (x : option A) : Prop :=
  match x with
  | None => bs = word 0
  | Some a => exists b off, base = Some b /\ 1 <= off <= 65535 /\ bs = word off /\ R (b + off) a
  end.
(** a coverage table (a range may not contain glyph 65535) *)
Definition coverage_at (pos : Z) (g : list Z) : Prop :=
  exists bs, found buf pos bs /\ cov_bytes bs g /\ (firstn 2 bs = word 1 \/ ~ In 65535 g).
(** a device table, or an index into the item variations *)
Definition device_at (pos : Z) (d : device) : Prop :=
  (exists s e f vs pad bs, found buf pos bs /\ 0 <= f <= 3 /\ dev_sized s e vs /\ Forall (fits_bits (bits_per_value f)) vs /\
     dev_bytes s e f vs pad bs /\ d = mk_device s e (Some f) vs) \/
  (exists s e, found buf pos (word s ++ word e ++ word 32768) /\ is_u16 s /\ is_u16 e /\ d = mk_device s e (Some 32768) []).
Definition is_i16 (z : Z) : Prop := -32768 <= z <= 32767.
(** a number and an offset to adjustments of it *)
Definition value_rec (base : option Z) (v : mvalue) (bs : list Z) : Prop :=
  is_i16 (mv_value v) /\ exists p, pointer base device_at p (mv_device v) /\ bs = word (mv_value v) ++ p.
Definition value_recs (base : option Z) (l : list mvalue) (bs : list Z) : Prop :=
  exists bss, Forall2 (value_rec base) l bss /\ bs = concat bss.
(** a count and the elements *)
Definition counted_of {A} (R : A -> list Z -> Prop) (l : list A) (bs : list Z) : Prop :=
  countable l /\ exists bss, Forall2 R l bss /\ bs = word (Z.of_nat (length l)) ++ concat bss.

Definition constants_at (outer pos : Z) (c : mconstants) : Prop :=
  is_i16 (mc_script_percent c) /\ is_i16 (mc_script_script_percent c) /\ is_u16 (mc_formula_height c) /\ is_u16 (mc_operator_height c) /\
  is_i16 (mc_raise_percent c) /\ map fst (mc_values c) = opentype_constants /\
  exists bs, value_recs (base_of o outer pos) (map snd (mc_values c)) bs /\
    found buf pos (word (mc_script_percent c) ++ word (mc_script_script_percent c) ++ word (mc_formula_height c) ++
                   word (mc_operator_height c) ++ bs ++ word (mc_raise_percent c)).
(** numbers for the glyphs of a coverage table *)
Definition per_glyph_at (outer pos : Z) (t : option (list Z) * list mvalue) : Prop :=
  exists p bs, pointer (base_of o outer pos) coverage_at p (fst t) /\ counted_of (value_rec (base_of o outer pos)) (snd t) bs /\
    found buf pos (p ++ bs).
(** kerns, each for the heights up to the next given height *)
Definition kern_at (outer pos : Z) (k : mkern) : Prop :=
  mk_count k = Z.of_nat (length (mk_heights k)) /\ countable (mk_heights k) /\ length (mk_kerns k) = S (length (mk_heights k)) /\
  exists hs ks, value_recs (base_of o outer pos) (mk_heights k) hs /\ value_recs (base_of o outer pos) (mk_kerns k) ks /\
    found buf pos (word (mk_count k) ++ hs ++ ks).
Definition corners (base : Z) (c : mcorners) (bs : list Z) : Prop :=
  exists b1 b2 b3 b4, pointer (Some base) (kern_at base) b1 (mk_tr c) /\ pointer (Some base) (kern_at base) b2 (mk_tl c) /\
    pointer (Some base) (kern_at base) b3 (mk_br c) /\ pointer (Some base) (kern_at base) b4 (mk_bl c) /\ bs = b1 ++ b2 ++ b3 ++ b4.
Definition kern_info_at (pos : Z) (t : option (list Z) * list mcorners) : Prop :=
  exists p bs, pointer (Some pos) coverage_at p (fst t) /\ counted_of (corners pos) (snd t) bs /\ found buf pos (p ++ bs).
Definition glyph_info_at (pos : Z) (g : mglyph_info) : Prop :=
  exists b1 b2 b3 b4, pointer (Some pos) (per_glyph_at pos) b1 (gi_italics g) /\ pointer (Some pos) (per_glyph_at pos) b2 (gi_accents g) /\
    pointer (Some pos) coverage_at b3 (gi_extended g) /\ pointer (Some pos) kern_info_at b4 (gi_kerns g) /\
    found buf pos (b1 ++ b2 ++ b3 ++ b4).

Definition part_rec (p : mpart) (bs : list Z) : Prop :=
  Forall is_u16 [mp_glyph p; mp_start p; mp_end p; mp_advance p; mp_flags p] /\
  bs = words [mp_glyph p; mp_start p; mp_end p; mp_advance p; mp_flags p].
Definition assembly_at (outer pos : Z) (a : massembly) : Prop :=
  exists b1 b2, value_rec (base_of o outer pos) (ma_italics a) b1 /\ counted_of part_rec (ma_parts a) b2 /\ found buf pos (b1 ++ b2).
Definition variant_rec (v : Z * Z) (bs : list Z) : Prop := is_u16 (fst v) /\ is_u16 (snd v) /\ bs = word (fst v) ++ word (snd v).
Definition construction_at (pos : Z) (c : mconstruction) : Prop :=
  exists b1 b2, pointer (Some pos) (assembly_at pos) b1 (mc_assembly c) /\ counted_of variant_rec (mc_variants c) b2 /\ found buf pos (b1 ++ b2).
Definition constructions (base : Z) (l : list (option mconstruction)) (bs : list Z) : Prop :=
  exists bss, Forall2 (fun c b => pointer (Some base) construction_at b c) l bss /\ bs = concat bss.
Definition variants_at (pos : Z) (v : mvariants) : Prop :=
  is_u16 (mv_overlap v) /\ countable (mv_vert v) /\ countable (mv_horiz v) /\
  exists b1 b2 b3 b4, pointer (Some pos) coverage_at b1 (mv_vcov v) /\ pointer (Some pos) coverage_at b2 (mv_hcov v) /\
    constructions pos (mv_vert v) b3 /\ constructions pos (mv_horiz v) b4 /\
    found buf pos (word (mv_overlap v) ++ b1 ++ b2 ++ word (Z.of_nat (length (mv_vert v))) ++ word (Z.of_nat (length (mv_horiz v))) ++ b3 ++ b4).

(** ** What the table says *)
(** the n-th glyph of a coverage table gets the n-th record; a glyph that is
    given twice has the last one *)
Definition glyphs (c : option (list Z)) : list Z := match c with Some g => g | None => [] end.
Definition assigns {A} (l : list (Z * A)) (m : list (Z * A)) : Prop :=
  increasing (map fst m) /\ forall k v, In (k, v) m <-> last_entry l k v.
Definition table_of {A} (t : option (option (list Z) * list A)) : list (Z * A) :=
  match t with Some (c, l) => combine (glyphs c) l | None => [] end.
(** only the records that are there *)
Definition given_in {A} (c : option (list Z)) (l : list (option A)) : list (Z * A) :=
  concat (map (fun kv => match snd kv with Some x => [(fst kv, x)] | None => [] end) (combine (glyphs c) l)).

Inductive math_file : math -> Prop :=
| math_file1 major minor b1 b2 b3 c g v t :
    is_u16 major -> is_u16 minor ->
    pointer (Some 0) (constants_at 0) b1 (Some c) -> pointer (Some 0) glyph_info_at b2 g -> pointer (Some 0) variants_at b3 v ->
    found buf 0 (word major ++ word minor ++ b1 ++ b2 ++ b3) ->
    mt_constants t = c ->
    assigns (match g with Some g => table_of (gi_italics g) | None => [] end) (mt_italics t) ->
    assigns (match g with Some g => table_of (gi_accents g) | None => [] end) (mt_accents t) ->
    increasing (mt_extended t) -> (forall x, In x (mt_extended t) <-> In x (match g with Some g => glyphs (gi_extended g) | None => [] end)) ->
    assigns (match g with Some g => table_of (gi_kerns g) | None => [] end) (mt_kerning t) ->
    mt_overlap t = match v with Some v => Some (mv_overlap v) | None => None end ->
    assigns (match v with Some v => given_in (mv_vcov v) (mv_vert v) | None => [] end) (mt_vertical t) ->
    assigns (match v with Some v => given_in (mv_hcov v) (mv_horiz v) | None => [] end) (mt_horizontal t) ->
    math_file t.
End Format.

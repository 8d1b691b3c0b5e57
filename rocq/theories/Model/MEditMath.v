(** ttf-edit-math: crates/fonttools-cli/src/bin/ttf-edit-math.rs.

    What the tool prints is kept as a tree; how serde_json writes a tree as text
    is left out, and so is the argument parser. *)
From Coq Require Import String.
From Verif.Model Require Import MBase MTag MMap MFont MFixed MTables MMetrics MGlyph MGlyf MStore MPost MCmap MOffset MLayout MLow MMath MCli.
Open Scope Z_scope.

(** JSON values; a text is the list of its bytes.  [serialize_i16] and the
    derived serializers of integers and of [Option] give [JNum] and [JNull]. *)
Inductive json :=
| JNull
| JNum (n : Z)
| JStr (s : list Z)
| JArr (l : list json)
| JObj (l : list (list Z * json)).

(** [format!("{:}", n)] for a [u16] (Rust's standard library); the fuel bounds
    the number of digits *)
Fixpoint decimal_digits (fuel : nat) (n : Z) : list Z :=
  match fuel with
  | O => []
  | S k => (if n <? 10 then [] else decimal_digits k (n / 10)) ++ [48 + n mod 10]
  end.
Definition format_decimal (n : Z) : list Z := decimal_digits (S (Z.to_nat (Z.log2 n))) n.
(** ttf-edit-math.rs:214-217, 225-228, 238-241, 252-255 *)
Definition glyph_label (names : list (list Z)) (g : Z) : list Z :=
  match nth_error names (Z.to_nat g) with
  | Some n => n
  | None => 92 :: format_decimal g
  end.
(** [collect] into a [BTreeMap<String, _>], and into a [BTreeSet<String>] *)
Definition by_label {A} (names : list (list Z)) (l : list (Z * A)) : list (list Z * A) :=
  bm_of_list lex_ltb (map (fun gv => (glyph_label names (fst gv), snd gv)) l).
Definition label_set (names : list (list Z)) (l : list Z) : list (list Z) :=
  map fst (bm_of_list lex_ltb (map (fun g => (glyph_label names g, tt)) l)).

(** A field that is skipped: [skip_serializing_if] *)
Definition unless (skip : bool) (name : string) (j : json) : list (list Z * json) :=
  if skip then [] else [(ascii_bytes name, j)].
(** get_math_record, ttf-edit-math.rs:10-15 *)
Definition value_json (v : mvalue) : json := JNum (mv_value v).
(** SimpleKernRecord, ttf-edit-math.rs:133-148 *)
Definition kern_json (k : mkern) : json :=
  let heights := map mv_value (mk_heights k) in
  let kerns := map mv_value (mk_kerns k) in
  JObj (unless (match heights with [] => true | _ => false end) "correction_height" (JArr (map JNum heights)) ++
        unless (match kerns with [] => true | _ => false end) "kern_values" (JArr (map JNum kerns))).
Definition corner_json (name : string) (o : option mkern) : list (list Z * json) :=
  match o with Some k => [(ascii_bytes name, kern_json k)] | None => [] end.
(** SimpleMathKern, ttf-edit-math.rs:150-171 *)
Definition corners_json (c : mcorners) : json :=
  JObj (corner_json "top_right" (mk_tr c) ++ corner_json "bottom_left" (mk_bl c) ++
        corner_json "bottom_right" (mk_br c) ++ corner_json "top_left" (mk_tl c)).
(** MathConstantsDef, ttf-edit-math.rs:17-131 *)
Definition constants_json (c : mconstants) : json :=
  JObj ([(ascii_bytes "scriptPercentScaleDown", JNum (mc_script_percent c));
         (ascii_bytes "scriptScriptPercentScaleDown", JNum (mc_script_script_percent c));
         (ascii_bytes "delimitedSubFormulaMinHeight", JNum (mc_formula_height c));
         (ascii_bytes "displayOperatorMinHeight", JNum (mc_operator_height c))] ++
        map (fun nv => (ascii_bytes (fst nv), value_json (snd nv))) (mc_values c) ++
        [(ascii_bytes "radicalDegreeBottomRaisePercent", JNum (mc_raise_percent c))]).
Definition map_json {A} (f : A -> json) (m : list (list Z * A)) : json := JObj (map (fun kv => (fst kv, f (snd kv))) m).
(** MathEvenEasier and simplify, ttf-edit-math.rs:182-262; get_mgc_map
    (182-190) prints the number 1 whatever it is given *)
Definition dump_math (t : math) (names : list (list Z)) : json :=
  JObj [(ascii_bytes "constants", constants_json (mt_constants t));
        (ascii_bytes "italic_correction", map_json value_json (by_label names (mt_italics t)));
        (ascii_bytes "top_accent_attachment", map_json value_json (by_label names (mt_accents t)));
        (ascii_bytes "extended_shapes", JArr (map JStr (label_set names (mt_extended t))));
        (ascii_bytes "kerning", map_json corners_json (by_label names (mt_kerning t)));
        (ascii_bytes "min_overlap", match mt_overlap t with Some n => JNum n | None => JNull end);
        (ascii_bytes "vertical_extensions", JNum 1);
        (ascii_bytes "horizontal_extensions", JNum 1)].

(** The parsers of the other tables: none of them is looked into. *)
Definition math_codecs : codecs (option math) :=
  mk_codecs _ (fun tag d => if MTag.bytes_eqb tag TAG_MATH then rmap Some (from_bytes math_read d) else Ok None)
    (fun _ _ _ => Ok None) (fun _ _ => Ok None) (fun _ _ => Panic) (fun _ _ _ => Ok []).
Definition sel_math (l : loaded (known (option math))) : option math :=
  match l with LOther _ (KRest (Some t)) => Some t | _ => None end.

(** main, ttf-edit-math.rs:264-300, for the mode "dump" (else "load"): what is
    printed, if anything.  The font is not saved. *)
Definition edit_math (hash : cmapping -> Z) (dump : bool) (file : list Z) : res (option json) :=
  match font_load (K math_codecs hash) file with
  | Ok (_, s) =>
      fst (sbind (get_table math_codecs hash TAG_post sel_post) (fun p =>
        let names := match po_glyphnames p with Some ns => ns | None => [] end in
        if dump then
          sbind (get_table math_codecs hash TAG_MATH sel_math) (fun t => slift (Ok (Some (dump_math t names))))
        else slift (Ok None)) s)
  | _ => Panic
  end.

(** Independent vocabulary for ttf-edit-math. *)
From Coq Require Import String Sorted.
From Verif.Model Require Import MBase MTag MMap MFont MTables MMetrics MGlyph MGlyf MStore MPost MCli MMath MEditMath.
From Verif.Spec Require Import SBase SCli.
Open Scope Z_scope.

(** The value of the MATH table of a file (C69), of the post table: [post_is]. *)
Definition math_is (m : list (list Z * list Z)) (t : math) : Prop :=
  exists d, bytes_of m TAG_MATH = Some d /\ from_bytes math_read d = Ok t.
(** A font can be opened: head can be read; if there is none, there is no loca
    either. *)
Definition opens (m : list (list Z * list Z)) : Prop :=
  (exists h, head_is m h) \/ (bytes_of m TAG_head = None /\ bytes_of m TAG_loca = None).
(** The glyph names of post, if it has any. *)
Definition names_in (p : post) : list (list Z) := match po_glyphnames p with Some ns => ns | None => [] end.

(** [ds] is the number [n] in decimal digits, without a leading zero. *)
Definition in_decimal (ds : list Z) (n : Z) : Prop :=
  ds <> [] /\ Forall (fun d => 48 <= d <= 57) ds /\ (hd 0 ds = 48 -> ds = [48]) /\
  fold_left (fun a d => 10 * a + (d - 48)) ds 0 = n.
(** How glyph [g] is called: by its name; if it has none, by a backslash and its
    number. *)
Definition called (names : list (list Z)) (g : Z) (n : list Z) : Prop :=
  nth_error names (Z.to_nat g) = Some n \/
  ((length names <= Z.to_nat g)%nat /\ exists ds, n = 92 :: ds /\ in_decimal ds g).

Definition increasing (l : list (list Z)) : Prop := StronglySorted (fun a b => lex_ltb a b = true) l.
(** [o] is the table [l] of glyphs and values with the glyphs called by name: a
    name stands for the last of the glyphs called so.  [shows] relates a value
    and how it is printed. *)
Definition tabulates {A} (names : list (list Z)) (shows : A -> json -> Prop) (l : list (Z * A)) (o : list (list Z * json)) : Prop :=
  increasing (map fst o) /\
  (forall n j, In (n, j) o -> exists g a, In (g, a) l /\ called names g n /\ shows a j /\
     forall g' a', In (g', a') l -> called names g' n -> g' <= g) /\
  (forall g a n, In (g, a) l -> called names g n -> In n (map fst o)).
(** The same for a set of glyphs. *)
Definition enumerates (names : list (list Z)) (l : list Z) (o : list (list Z)) : Prop :=
  increasing o /\ forall n, In n o <-> exists g, In g l /\ called names g n.

(** How values are printed: without their device tables. *)
Definition shows_value (v : mvalue) (j : json) : Prop := j = JNum (mv_value v).
(** Kerns at corners: the fields that there are, in any order, each once. *)
Definition shows_kern (k : mkern) (j : json) : Prop :=
  exists fs, j = JObj fs /\ NoDup (map fst fs) /\ forall name x, In (name, x) fs <->
    exists l, x = JArr (map (fun v => JNum (mv_value v)) l) /\ l <> [] /\
      ((name = ascii_bytes "correction_height" /\ l = mk_heights k) \/ (name = ascii_bytes "kern_values" /\ l = mk_kerns k)).
Definition corner_of (c : mcorners) (name : list Z) (k : mkern) : Prop :=
  (name = ascii_bytes "top_right" /\ mk_tr c = Some k) \/ (name = ascii_bytes "top_left" /\ mk_tl c = Some k) \/
  (name = ascii_bytes "bottom_right" /\ mk_br c = Some k) \/ (name = ascii_bytes "bottom_left" /\ mk_bl c = Some k).
Definition shows_corners (c : mcorners) (j : json) : Prop :=
  exists fs, j = JObj fs /\ NoDup (map fst fs) /\
    (forall name x, In (name, x) fs -> exists k, corner_of c name k /\ shows_kern k x) /\
    (forall name k, corner_of c name k -> In name (map fst fs)).
(** The constants: all of them, in the order of the table. *)
Definition shows_constants (c : mconstants) (j : json) : Prop :=
  j = JObj (map (fun nv => (ascii_bytes (fst nv), JNum (snd nv)))
    ([("scriptPercentScaleDown"%string, mc_script_percent c); ("scriptScriptPercentScaleDown"%string, mc_script_script_percent c);
      ("delimitedSubFormulaMinHeight"%string, mc_formula_height c); ("displayOperatorMinHeight"%string, mc_operator_height c)] ++
     map (fun nv => (fst nv, mv_value (snd nv))) (mc_values c) ++
     [("radicalDegreeBottomRaisePercent"%string, mc_raise_percent c)])).

(** The whole. *)
Definition dumps (names : list (list Z)) (t : math) (j : json) : Prop :=
  exists c i a e k, j = JObj
    [(ascii_bytes "constants", c); (ascii_bytes "italic_correction", JObj i); (ascii_bytes "top_accent_attachment", JObj a);
     (ascii_bytes "extended_shapes", JArr (map JStr e)); (ascii_bytes "kerning", JObj k);
     (ascii_bytes "min_overlap", match mt_overlap t with Some n => JNum n | None => JNull end);
     (ascii_bytes "vertical_extensions", JNum 1); (ascii_bytes "horizontal_extensions", JNum 1)] /\
    shows_constants (mt_constants t) c /\ tabulates names shows_value (mt_italics t) i /\ tabulates names shows_value (mt_accents t) a /\
    enumerates names (mt_extended t) e /\ tabulates names shows_corners (mt_kerning t) k.

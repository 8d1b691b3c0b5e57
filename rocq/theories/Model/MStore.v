(** The lazily loaded set of tables and saving: src/table_store.rs, src/font.rs *)
From Verif.Model Require Import MBase MTag MMap MFont MTables MMetrics MGlyph MGlyf.

Definition TAG_glyf : list Z := [103; 108; 121; 102].
Definition TAG_loca : list Z := [108; 111; 99; 97].
Definition TAG_maxp : list Z := [109; 97; 120; 112].
Definition TAG_hhea : list Z := [104; 104; 101; 97].
Definition TAG_hmtx : list Z := [104; 109; 116; 120].
Definition TAG_gvar : list Z := [103; 118; 97; 114].
Definition TAG_GPOS : list Z := [71; 80; 79; 83].
Definition TAG_GSUB : list Z := [71; 83; 85; 66].
Definition TAG_MATH : list Z := [77; 65; 84; 72].
(** table_store.rs:328-357: the tags parsed on their own, other than head,
    hhea and maxp: avar cmap cvt fpgm fvar gasp GDEF MATH name OS/2 post prep STAT *)
Definition plain_tags : list (list Z) :=
  [[97; 118; 97; 114]; [99; 109; 97; 112]; [99; 118; 116; 32]; [102; 112; 103; 109]; [102; 118; 97; 114];
   [103; 97; 115; 112]; [71; 68; 69; 70]; TAG_MATH; [110; 97; 109; 101]; [79; 83; 47; 50];
   [112; 111; 115; 116]; [112; 114; 101; 112]; [83; 84; 65; 84]].

(** The codecs of the tables that this file does not look into.  [T] is the
    type of their parsed forms.  Any functions are allowed here. *)
Record codecs (T : Type) := mk_codecs {
  parse_plain : list Z -> list Z -> res T;          (* tag, bytes *)
  parse_layout : list Z -> Z -> list Z -> res T;    (* GPOS / GSUB: tag, number of glyphs, bytes *)
  parse_gvar : list (list (Z * Z) * list Z) -> list Z -> res T;
  ser_plain : list Z -> T -> res (list Z);          (* tag, table *)
  ser_layout : list Z -> T -> Z -> res (list Z)     (* the bytes written, also when the writer failed half way; or a panic *)
}.
Arguments parse_plain {T}. Arguments parse_layout {T}. Arguments parse_gvar {T}.
Arguments ser_plain {T}. Arguments ser_layout {T}.

(** table_store.rs:71-121 *)
Inductive loaded (T : Type) :=
| LHead (x : head_tbl) | LHhea (x : hhea) | LMaxp (x : maxp)
| LHmtx (x : list metric) | LLoca (x : list (option Z)) | LGlyf (x : list glyph)
| LOther (tag : list Z) (x : T)
| LUnknown (raw : list Z).
Arguments LHead {T}. Arguments LHhea {T}. Arguments LMaxp {T}. Arguments LHmtx {T}.
Arguments LLoca {T}. Arguments LGlyf {T}. Arguments LOther {T}. Arguments LUnknown {T}.

(** table_store.rs:54-64.  The [tag] field is always the key under which the
    table is stored, and is left out. *)
Record table (T : Type) := mk_table { tb_raw : option (list Z); tb_loaded : loaded T }.
Arguments mk_table {T}. Arguments tb_raw {T}. Arguments tb_loaded {T}.
(** table_store.rs:48-52 *)
Inductive item (T : Type) := Unloaded (raw : list Z) | Loaded (t : table T).
Arguments Unloaded {T}. Arguments Loaded {T}.
(** table_store.rs:43-46 *)
Definition store (T : Type) := list (list Z * item T).

Section Store.
Context {T : Type} (K : codecs T).

(** Interior mutability: an operation returns the new store as well, also on failure. *)
Definition sop (A : Type) := store T -> res A * store T.
Definition sbind {A B} (x : sop A) (f : A -> sop B) : sop B := fun s =>
  match x s with (Ok a, s') => f a s' | (Err, s') => (Err, s') | (Panic, s') => (Panic, s') end.
Definition slift {A} (x : res A) : sop A := fun s => (x, s).

Definition st_get (tag : list Z) (s : store T) : option (item T) := bm_get lex_ltb tag s.
Definition st_set (tag : list Z) (i : item T) (s : store T) : store T := bm_insert lex_ltb tag i s.

(** table_store.rs:304-318, given the parser for the tag *)
Definition load_by (des : list Z -> list Z -> sop (loaded T)) (tag : list Z) : sop unit := fun s =>
  match st_get tag s with
  | None => (Ok tt, s)
  | Some (Loaded _) => (Ok tt, s)
  | Some (Unloaded data) =>
      match des tag data s with
      | (Ok t, s') => (Ok tt, st_set tag (Loaded (mk_table (Some data) t)) s')
      | (Err, s') => (Err, s')
      | (Panic, s') => (Panic, s')
      end
  end.
(** table_store.rs:244-250 *)
Definition get_by (des : list Z -> list Z -> sop (loaded T)) (tag : list Z) : sop (option (table T)) := fun s =>
  match load_by des tag s with
  | (Ok _, s') =>
      (match st_get tag s' with
       | None => Ok None
       | Some (Loaded t) => Ok (Some t)
       | Some (Unloaded _) => Panic
       end, s')
  | (Err, s') => (Err, s')
  | (Panic, s') => (Panic, s')
  end.
(** table_store.rs:574-583, 592-594: a typed accessor; a table of another kind panics *)
Definition typed_by {A} (des : list Z -> list Z -> sop (loaded T)) (tag : list Z) (sel : loaded T -> option A)
    : sop (option A) :=
  sbind (get_by des tag) (fun o =>
    match o with
    | None => slift (Ok None)
    | Some t => match sel (tb_loaded t) with Some a => slift (Ok (Some a)) | None => slift Panic end
    end).
Definition sel_head (l : loaded T) := match l with LHead x => Some x | _ => None end.
Definition sel_hhea (l : loaded T) := match l with LHhea x => Some x | _ => None end.
Definition sel_maxp (l : loaded T) := match l with LMaxp x => Some x | _ => None end.
Definition sel_hmtx (l : loaded T) := match l with LHmtx x => Some x | _ => None end.
Definition sel_loca (l : loaded T) := match l with LLoca x => Some x | _ => None end.
Definition sel_glyf (l : loaded T) := match l with LGlyf x => Some x | _ => None end.
Definition sel_other (l : loaded T) := match l with LOther _ x => Some x | _ => None end.

Definition tag_in (tag : list Z) (l : list (list Z)) : bool := existsb (bytes_eqb tag) l.
(** [ok_or_else] on a missing table *)
Definition need {A} (o : option A) : sop A := match o with Some a => slift (Ok a) | None => slift Err end.

(** table_store.rs:320-401, first the tables parsed on their own ... *)
Definition des0 (tag data : list Z) : res (loaded T) :=
  if bytes_eqb tag TAG_head then rmap LHead (from_bytes de_head_tbl data)
  else if bytes_eqb tag TAG_hhea then rmap LHhea (from_bytes de_hhea data)
  else if bytes_eqb tag TAG_maxp then rmap LMaxp (from_bytes de_maxp data)
  else if tag_in tag plain_tags then rmap (LOther tag) (parse_plain K tag data)
  else Ok (LUnknown data).
Definition des0s (tag data : list Z) : sop (loaded T) := slift (des0 tag data).
(** ... then those that need one of these: GPOS, GSUB (338-351), hmtx (361-374), loca (375-381) ... *)
Definition des1 (tag data : list Z) : sop (loaded T) :=
  if tag_in tag [TAG_GPOS; TAG_GSUB] then
    sbind (typed_by des0s TAG_maxp sel_maxp) (fun o => sbind (need o) (fun m =>
      slift (rmap (LOther tag) (parse_layout K tag (num_glyphs m) data))))
  else if bytes_eqb tag TAG_hmtx then
    sbind (typed_by des0s TAG_hhea sel_hhea) (fun o => sbind (need o) (fun h =>
      slift (rmap LHmtx (from_bytes (de_hmtx (hh_numberOfHMetrics h)) data))))
  else if bytes_eqb tag TAG_loca then
    sbind (typed_by des0s TAG_head sel_head) (fun o => sbind (need o) (fun h =>
      slift (rmap LLoca (from_bytes (de_loca (hd_indexToLocFormat h =? 1)) data))))
  else des0s tag data.
(** ... glyf, which needs loca (382-387) ... *)
Definition des2 (tag data : list Z) : sop (loaded T) :=
  if bytes_eqb tag TAG_glyf then
    sbind (typed_by des1 TAG_loca sel_loca) (fun o => sbind (need o) (fun l =>
      slift (rmap LGlyf (de_glyf data l))))
  else des1 tag data.
(** ... and gvar, which needs glyf (388-399) *)
Definition des3 (tag data : list Z) : sop (loaded T) :=
  if bytes_eqb tag TAG_gvar then
    sbind (typed_by des2 TAG_glyf sel_glyf) (fun o => sbind (need o) (fun g =>
      slift (ce <- rmapM gvar_coords_and_ends g ;; rmap (LOther tag) (parse_gvar K ce data))))
  else des2 tag data.

(** ** The public operations *)
(** table_store.rs:304-318 *)
Definition load_if_needed (tag : list Z) : sop unit := load_by des3 tag.
(** table_store.rs:244-250 *)
Definition ts_get (tag : list Z) : sop (option (table T)) := get_by des3 tag.
Definition typed {A} (tag : list Z) (sel : loaded T -> option A) : sop (option A) := typed_by des3 tag sel.
(** table_store.rs:258-264, 253-255 *)
Definition ts_contains (tag : list Z) (s : store T) : bool :=
  match st_get tag s with Some _ => true | None => false end.
Definition ts_keys (s : store T) : list (list Z) := map fst s.
(** table_store.rs:274-278: the map part, and the value returned *)
Definition ts_remove (tag : list Z) (s : store T) : option (table T) * store T :=
  (match st_get tag s with Some (Loaded t) => Some t | _ => None end, bm_remove lex_ltb tag s).
(** table_store.rs:296-301 *)
Definition ts_insert (tag : list Z) (t : table T) (s : store T) : store T := st_set tag (Loaded t) s.
(** table_store.rs:307-310 *)
Definition ts_insert_raw (tag data : list Z) (s : store T) : store T := st_set tag (Unloaded data) s.
(** [insert] of a value or handle: table_store.rs:549-565, no raw bytes *)
Definition ts_insert_typed (tag : list Z) (l : loaded T) (s : store T) : store T :=
  ts_insert tag (mk_table None l) s.

(** table_store.rs:188-192 *)
Definition loader_add (m : list (list Z * list Z)) : store T := map (fun td => (fst td, Unloaded (snd td))) m.
(** table_store.rs:195-200 *)
Definition loader_finish : sop unit :=
  sbind (load_if_needed TAG_head) (fun _ => load_if_needed TAG_loca).
(** table_store.rs:216-233; errors in the loop are only logged *)
Fixpoint load_each (tags : list (list Z)) : sop unit :=
  match tags with
  | [] => slift (Ok tt)
  | t :: tags' => fun s =>
      match load_if_needed t s with
      | (Panic, s') => (Panic, s')
      | (_, s') => load_each tags' s'
      end
  end.
Definition fully_deserialize : sop unit :=
  sbind (load_if_needed TAG_head) (fun _ =>
  sbind (load_if_needed TAG_maxp) (fun _ =>
  sbind (fun s => if ts_contains TAG_glyf s
                  then sbind (load_if_needed TAG_loca) (fun _ => load_if_needed TAG_glyf) s
                  else (Ok tt, s)) (fun _ =>
  fun s => load_each (ts_keys s) s))).

(** font.rs:233-257, the whole of [Font::from_bytes] *)
Definition font_load (file : list Z) : res (Z * store T) :=
  ' (v, m) <- from_bytes font_read_raw file ;;
  match loader_finish (loader_add m) with
  | (Ok _, s) => Ok (v, s)
  | (Err, _) => Err
  | (Panic, _) => Panic
  end.

(** ** Saving *)
(** table_store.rs:408-415, with [unwrap_or(true)] *)
Definition serialized (tag : list Z) (s : store T) : bool :=
  match st_get tag s with
  | None => true
  | Some (Unloaded _) => true
  | Some (Loaded t) => match tb_raw t with Some _ => true | None => false end
  end.

Definition set_loc_format (h : head_tbl) (f : Z) : head_tbl :=
  mk_head_tbl (hd_majorVersion h) (hd_minorVersion h) (hd_fontRevision h) (hd_checksumAdjustment h)
    (hd_magicNumber h) (hd_flags h) (hd_unitsPerEm h) (hd_created h) (hd_modified h)
    (hd_xMin h) (hd_yMin h) (hd_xMax h) (hd_yMax h) (hd_macStyle h) (hd_lowestRecPPEM h)
    (hd_fontDirectionHint h) f (hd_glyphDataFormat h).
Definition set_hmetrics (h : hhea) (n : Z) : hhea :=
  mk_hhea (hh_majorVersion h) (hh_minorVersion h) (hh_ascender h) (hh_descender h) (hh_lineGap h)
    (hh_advanceWidthMax h) (hh_minLeftSideBearing h) (hh_minRightSideBearing h) (hh_xMaxExtent h)
    (hh_caretSlopeRise h) (hh_caretSlopeRun h) (hh_caretOffset h) (hh_reserved0 h) (hh_reserved1 h)
    (hh_reserved2 h) (hh_reserved3 h) (hh_metricDataFormat h) n.

(** [x().unwrap()]: every failure is a panic *)
Definition unwrap_s {A} (x : sop A) : sop A := fun s =>
  match x s with (Ok a, s') => (Ok a, s') | (_, s') => (Panic, s') end.
Definition smodify (f : store T -> store T) : sop unit := fun s => (Ok tt, f s).

(** table_store.rs:417-482 *)
Definition compile_glyf_loca_maxp : sop unit := fun s =>
  if serialized TAG_glyf s && serialized TAG_loca s && serialized TAG_maxp s then (Ok tt, s)
  else
    sbind (unwrap_s (typed TAG_glyf sel_glyf)) (fun o =>
    match o with
    | None => slift (Ok tt)
    | Some gs =>
        sbind (slift (compile_glyf gs)) (fun '(glyf_output, loca_data, is32) =>
        sbind (smodify (ts_insert_raw TAG_glyf glyf_output)) (fun _ =>
        sbind (smodify (ts_insert_raw TAG_loca loca_data)) (fun _ =>
        (* the copy of maxp is changed but never inserted *)
        sbind (unwrap_s (typed TAG_maxp sel_maxp)) (fun om =>
        sbind (slift (unwrap om)) (fun _ =>
        sbind (slift (unwrap (try_u 16 (Z.of_nat (length gs))))) (fun _ =>
        sbind (unwrap_s (typed TAG_head sel_head)) (fun oh =>
        sbind (slift (unwrap oh)) (fun h =>
        sbind (smodify (ts_insert_typed TAG_head (LHead (set_loc_format h (if is32 : bool then 1 else 0))))) (fun _ =>
        sbind (unwrap_s (typed TAG_hmtx sel_hmtx)) (fun ohm =>
        match ohm with
        | None => slift (Ok tt)
        | Some ms =>
            sbind (slift (number_of_hmetrics ms)) (fun n =>
            sbind (unwrap_s (typed TAG_hhea sel_hhea)) (fun ohh =>
            match ohh with
            | None => slift (Ok tt)
            | Some hh => smodify (ts_insert_typed TAG_hhea (LHhea (set_hmetrics hh n)))
            end))
        end))))))))))
    end) s.

(** table_store.rs:486-493, one of the two tables *)
Definition compile_layout (tag : list Z) (n : Z) : sop unit := fun s =>
  if serialized tag s then (Ok tt, s)
  else sbind (unwrap_s (typed tag sel_other)) (fun o =>
       match o with
       | None => slift (Ok tt)
       | Some t => sbind (slift (ser_layout K tag t n)) (fun d => smodify (ts_insert_raw tag d))
       end) s.
(** table_store.rs:484-503 *)
Definition compile_gsub_gpos : sop unit :=
  sbind (unwrap_s (typed TAG_maxp sel_maxp)) (fun om =>
  sbind (slift (unwrap om)) (fun m =>
  sbind (compile_layout TAG_GPOS (num_glyphs m)) (fun _ =>
  compile_layout TAG_GSUB (num_glyphs m)))).

(** table_store.rs:639-668 *)
Definition ser_loaded (l : loaded T) : res (list Z) :=
  match l with
  | LUnknown raw => Ok raw
  | LHead x => Ok (ser_head_tbl x)
  | LHhea x => Ok (ser_hhea x)
  | LMaxp x => ser_maxp x
  | LHmtx _ | LLoca _ | LGlyf _ => Panic
  | LOther tag x => if tag_in tag [TAG_GPOS; TAG_GSUB; TAG_gvar; TAG_MATH] then Panic else ser_plain K tag x
  end.
(** table_store.rs:505-522 *)
Definition write_item (i : item T) : res (list Z) :=
  match i with
  | Unloaded raw => Ok raw
  | Loaded t => match tb_raw t with Some d => Ok d | None => ser_loaded (tb_loaded t) end
  end.
Definition write_table (tag : list Z) (s : store T) : res (list Z) :=
  match st_get tag s with None => Ok [] | Some i => write_item i end.

(** font.rs:113-119 with 187-231: the file written and the store afterwards *)
Definition font_write (v : Z) : sop (list Z) :=
  sbind compile_glyf_loca_maxp (fun _ =>
  sbind compile_gsub_gpos (fun _ =>
  fun s => (font_to_bytes v (map (fun ti => (fst ti, write_item (snd ti))) s), s))).
End Store.

(** The command line tools: crates/fonttools-cli/src.

    A tool reads a file, edits the set of tables and writes a file.  [Ok] holds
    the bytes written; every failure ([expect], [unwrap], a failing read or
    write) ends the program and is [Panic].  Left out: the argument parser
    (clap), standard input and output, logging. *)
From Verif.Model Require Import MBase MTag MMap MFont MFixed MTables MMetrics MGlyph MGlyf MStore MPost MCmap.
From Verif.Model Require MGvar.
Open Scope Z_scope.

Definition TAG_cmap : list Z := [99; 109; 97; 112].
Definition TAG_post : list Z := [112; 111; 115; 116].
Definition TAG_gasp : list Z := [103; 97; 115; 112].
Definition TAG_prep : list Z := [112; 114; 101; 112].
Definition TAG_DSIG : list Z := [68; 83; 73; 71].

(** The tables that the tools look into, besides those of MStore. *)
Inductive known (T : Type) :=
| KCmap (x : list subtable) | KPost (x : post) | KGasp (x : gasp) | KGvar (x : MGvar.gvar) | KRest (x : T).
Arguments KCmap {T}. Arguments KPost {T}. Arguments KGasp {T}. Arguments KGvar {T}. Arguments KRest {T}.

Section Cli.
Context {T : Type} (K0 : codecs T).
(** The hash of cmap.rs:582 and the choice of shared tuples of gvar.rs:107-118
    (the order of a hash map): see MCmap and MGvar. *)
Variable hash : cmapping -> Z.
Variable most_common : list (list Z) -> list (list Z).

(** table_store.rs:320-401, 639-668 for these tables; the rest is left to [K0].
    The last case of [ser_layout] does not occur: GSUB and GPOS hold no table
    of another kind. *)
Definition K : codecs (known T) :=
  mk_codecs _
    (fun tag d => if bytes_eqb tag TAG_cmap then rmap KCmap (from_bytes cmap_de d)
                  else if bytes_eqb tag TAG_post then rmap KPost (from_bytes post_de d)
                  else if bytes_eqb tag TAG_gasp then rmap KGasp (from_bytes de_gasp d)
                  else rmap KRest (parse_plain K0 tag d))
    (fun tag n d => rmap KRest (parse_layout K0 tag n d))
    (fun ces d => rmap KGvar (from_bytes (MGvar.gvar_de ces) d))
    (fun tag x => match x with
                  | KCmap c => cmap_write hash c
                  | KPost p => post_ser p
                  | KGasp g => ser_gasp g
                  | KGvar _ => Panic
                  | KRest y => ser_plain K0 tag y
                  end)
    (fun tag x n => match x with KRest y => ser_layout K0 tag y n | _ => Ok [] end).

Definition sel_cmap (l : loaded (known T)) := match l with LOther _ (KCmap x) => Some x | _ => None end.
Definition sel_post (l : loaded (known T)) := match l with LOther _ (KPost x) => Some x | _ => None end.
Definition sel_gvar (l : loaded (known T)) := match l with LOther _ (KGvar x) => Some x | _ => None end.

(** lib.rs:24-50 (open_font, save_font) around an edit of the tables *)
Definition cli (edit : sop (T:=known T) unit) (file : list Z) : res (list Z) :=
  match font_load K file with
  | Ok (v, s) =>
      match edit s with
      | (Ok _, s') => match font_write K v s' with (Ok out, _) => Ok out | _ => Panic end
      | _ => Panic
      end
  | _ => Panic
  end.
(** The same with the output path equal to the input path: the bytes found there
    when the program has ended, in whichever way.  [Font::save] (font.rs:108-111)
    creates the file, which empties it, before it compiles the tables. *)
Definition cli_in_place (edit : sop (T:=known T) unit) (file : list Z) : list Z :=
  match font_load K file with
  | Ok (v, s) =>
      match edit s with
      | (Ok _, s') => match font_write K v s' with (Ok out, _) => out | _ => [] end
      | _ => file
      end
  | _ => file
  end.
(** [x().unwrap().unwrap()] *)
Definition get_table {A} (tag : list Z) (sel : loaded (known T) -> option A) : sop A :=
  sbind (unwrap_s (typed K tag sel)) (fun o => slift (unwrap o)).

(** bin/ttf-fix-checksum.rs *)
Definition fix_checksum : list Z -> res (list Z) := cli (slift (Ok tt)).

(** bin/ttf-add-minimal-dsig.rs:11-16 *)
Definition add_dsig : list Z -> res (list Z) := cli (fun s =>
  if ts_contains TAG_DSIG s then (Ok tt, s)
  else (Ok tt, ts_insert_raw TAG_DSIG [0; 0; 0; 1; 0; 0; 0; 0] s)).

(** bin/ttf-fix-non-hinted.rs:18-36 *)
Definition smooth_gasp : gasp :=
  mk_gasp 1 [mk_gasp_record 65535 (Z.lor 8 (Z.lor 2 (Z.lor 1 4)))].
Definition fix_non_hinted : list Z -> res (list Z) := cli (fun s =>
  let s1 := if ts_contains TAG_gasp s then s
            else ts_insert_typed TAG_gasp (LOther TAG_gasp (KGasp smooth_gasp)) s in
  (Ok tt, ts_insert_raw TAG_prep [0xb8; 0x01; 0xff; 0x85; 0xb0; 0x04; 0x8d] s1)).

(** bin/ttf-flatten-components.rs:11-18 *)
Definition flatten : list Z -> res (list Z) := cli
  (sbind (get_table TAG_glyf sel_glyf) (fun gs =>
   sbind (slift (flatten_components gs)) (fun gs' =>
   smodify (ts_insert_typed TAG_glyf (LGlyf gs'))))).

(** bin/ttf-optimize-gvar.rs:13-27; gvar.to_bytes unwraps *)
Definition optimize_gvar : list Z -> res (list Z) := cli (fun s =>
  if ts_contains TAG_gvar s then
    sbind (get_table TAG_head sel_head) (fun _ =>
    sbind (get_table TAG_maxp sel_maxp) (fun _ =>
    sbind (get_table TAG_loca sel_loca) (fun _ =>
    sbind (get_table TAG_glyf sel_glyf) (fun gs =>
    sbind (get_table TAG_gvar sel_gvar) (fun gv =>
    sbind (slift (MGvar.gvar_ser most_common gv (Some gs))) (fun d =>
    smodify (ts_insert_raw TAG_gvar d))))))) s
  else (Ok tt, s)).

(** [format!("{:04X}", n)] (Rust's standard library): upper-case hexadecimal,
    zero-padded to four digits.  [u32] has at most eight digits. *)
Definition hex_digit (v : Z) : Z := if v <? 10 then 48 + v else 55 + v.
Fixpoint hex_digits (fuel : nat) (n : Z) : list Z :=
  match fuel with
  | O => []
  | S k => (if n <? 16 then [] else hex_digits k (n / 16)) ++ [hex_digit (n mod 16)]
  end.
Definition format_04X (n : Z) : list Z :=
  let ds := hex_digits 8 n in repeat 48 (4 - length ds) ++ ds.
(** bin/ttf-rename-glyphs.rs:7-19; [unicodes] is the sorted list of the set's
    members, and not empty (else the [unwrap] panics) *)
Definition build_production_name (name : list Z) (unicodes : option (list Z)) : res (list Z) :=
  match unicodes with
  | None => Ok name
  | Some us =>
      first <- unwrap (hd_error us) ;;
      Ok (if first =? 0x20 then [115; 112; 97; 99; 101]
          else if 0xFFFF <? first then 117 :: format_04X first
          else [117; 110; 105] ++ format_04X first)
  end.
(** The loop, bin/ttf-rename-glyphs.rs:54-58: glyph [i] and the following
    [n] - 1; indexing past the end panics *)
Fixpoint rename_loop (n : nat) (i : Z) (rev : list (Z * list Z)) (names : list (list Z)) : res (list (list Z)) :=
  match n, names with
  | O, _ => Ok names
  | S _, [] => Panic
  | S n', name :: names' =>
      x <- build_production_name name (bm_get Z.ltb i rev) ;;
      xs <- rename_loop n' (i + 1) rev names' ;;
      Ok (x :: xs)
  end.
Definition set_names (p : post) (names : list (list Z)) : post :=
  mk_post (po_version p) (po_italicAngle p) (po_underlinePosition p) (po_underlineThickness p)
    (po_isFixedPitch p) (po_minMemType42 p) (po_maxMemType42 p) (po_minMemType1 p) (po_maxMemType1 p) (Some names).
(** bin/ttf-rename-glyphs.rs:36-63.  With [drop] the version of the handle
    [post] is set, which is a copy (C15) and is not inserted.  [num_glyphs]:
    font.rs:128-138. *)
Definition rename_glyphs (drop : bool) : list Z -> res (list Z) := cli
  (sbind (get_table TAG_maxp sel_maxp) (fun mx =>
   sbind (unwrap_s (typed K TAG_cmap sel_cmap)) (fun oc =>
   let rev := match oc with Some sts => reversed sts | None => [] end in
   sbind (unwrap_s (typed K TAG_post sel_post)) (fun op =>
   match op with
   | None => slift (Ok tt)
   | Some p =>
       if drop then slift (Ok tt)
       else
         sbind (slift (unwrap (po_glyphnames p))) (fun names =>
         sbind (slift (rename_loop (Z.to_nat (num_glyphs mx)) 0 rev names)) (fun names' =>
         smodify (ts_insert_typed TAG_post (LOther TAG_post (KPost (set_names p names'))))))
   end)))).
End Cli.

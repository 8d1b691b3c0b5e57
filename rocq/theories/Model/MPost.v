(** The PostScript table: src/tables/post.rs.

    A glyph name is the list of the bytes of a Rust [String] (its UTF-8 form). *)
From Coq Require Import String Ascii.
From Verif.Model Require Import MBase MFixed MTables.
Open Scope Z_scope.

Definition ascii_bytes (s : string) : list Z :=
  map (fun a => Z.of_N (N_of_ascii a)) (list_ascii_of_string s).
(** APPLE_NAMES, post.rs:13-272 *)
Definition apple_names : list (list Z) := map ascii_bytes ([
  ".notdef"; ".null"; "nonmarkingreturn"; "space"; "exclam"; "quotedbl"; "numbersign"; "dollar";
  "percent"; "ampersand"; "quotesingle"; "parenleft"; "parenright"; "asterisk"; "plus"; "comma";
  "hyphen"; "period"; "slash"; "zero"; "one"; "two"; "three"; "four"; "five"; "six"; "seven";
  "eight"; "nine"; "colon"; "semicolon"; "less"; "equal"; "greater"; "question"; "at"; "A"; "B";
  "C"; "D"; "E"; "F"; "G"; "H"; "I"; "J"; "K"; "L"; "M"; "N"; "O"; "P"; "Q"; "R"; "S"; "T"; "U";
  "V"; "W"; "X"; "Y"; "Z"; "bracketleft"; "backslash"; "bracketright"; "asciicircum";
  "underscore"; "grave"; "a"; "b"; "c"; "d"; "e"; "f"; "g"; "h"; "i"; "j"; "k"; "l"; "m"; "n";
  "o"; "p"; "q"; "r"; "s"; "t"; "u"; "v"; "w"; "x"; "y"; "z"; "braceleft"; "bar"; "braceright";
  "asciitilde"; "Adieresis"; "Aring"; "Ccedilla"; "Eacute"; "Ntilde"; "Odieresis"; "Udieresis";
  "aacute"; "agrave"; "acircumflex"; "adieresis"; "atilde"; "aring"; "ccedilla"; "eacute";
  "egrave"; "ecircumflex"; "edieresis"; "iacute"; "igrave"; "icircumflex"; "idieresis"; "ntilde";
  "oacute"; "ograve"; "ocircumflex"; "odieresis"; "otilde"; "uacute"; "ugrave"; "ucircumflex";
  "udieresis"; "dagger"; "degree"; "cent"; "sterling"; "section"; "bullet"; "paragraph";
  "germandbls"; "registered"; "copyright"; "trademark"; "acute"; "dieresis"; "notequal"; "AE";
  "Oslash"; "infinity"; "plusminus"; "lessequal"; "greaterequal"; "yen"; "mu"; "partialdiff";
  "summation"; "product"; "pi"; "integral"; "ordfeminine"; "ordmasculine"; "Omega"; "ae";
  "oslash"; "questiondown"; "exclamdown"; "logicalnot"; "radical"; "florin"; "approxequal";
  "Delta"; "guillemotleft"; "guillemotright"; "ellipsis"; "nonbreakingspace"; "Agrave"; "Atilde";
  "Otilde"; "OE"; "oe"; "endash"; "emdash"; "quotedblleft"; "quotedblright"; "quoteleft";
  "quoteright"; "divide"; "lozenge"; "ydieresis"; "Ydieresis"; "fraction"; "currency";
  "guilsinglleft"; "guilsinglright"; "fi"; "fl"; "daggerdbl"; "periodcentered"; "quotesinglbase";
  "quotedblbase"; "perthousand"; "Acircumflex"; "Ecircumflex"; "Aacute"; "Edieresis"; "Egrave";
  "Iacute"; "Icircumflex"; "Idieresis"; "Igrave"; "Oacute"; "Ocircumflex"; "apple"; "Ograve";
  "Uacute"; "Ucircumflex"; "Ugrave"; "dotlessi"; "circumflex"; "tilde"; "macron"; "breve";
  "dotaccent"; "ring"; "cedilla"; "hungarumlaut"; "ogonek"; "caron"; "Lslash"; "lslash";
  "Scaron"; "scaron"; "Zcaron"; "zcaron"; "brokenbar"; "Eth"; "eth"; "Yacute"; "yacute"; "Thorn";
  "thorn"; "minus"; "multiply"; "onesuperior"; "twosuperior"; "threesuperior"; "onehalf";
  "onequarter"; "threequarters"; "franc"; "Gbreve"; "gbreve"; "Idotaccent"; "Scedilla";
  "scedilla"; "Cacute"; "cacute"; "Ccaron"; "ccaron"; "dcroat"
])%string.

(** Equality of byte strings ([r == name]) *)
Fixpoint bytes_eqb (a b : list Z) : bool :=
  match a, b with
  | [], [] => true
  | x :: a', y :: b' => (x =? y) && bytes_eqb a' b'
  | _, _ => false
  end.
(** [iter().position(|&r| r == name)] *)
Fixpoint find_name (n : list Z) (l : list (list Z)) : option nat :=
  match l with
  | [] => None
  | a :: l' => if bytes_eqb a n then Some 0%nat
               else match find_name n l' with Some i => Some (S i) | None => None end
  end.

(** post, post.rs:286-310; [version] is the raw bits of a U16F16 *)
Record post := mk_post {
  po_version : Z;
  po_italicAngle : dyadic;
  po_underlinePosition : Z;
  po_underlineThickness : Z;
  po_isFixedPitch : Z;
  po_minMemType42 : Z;
  po_maxMemType42 : Z;
  po_minMemType1 : Z;
  po_maxMemType1 : Z;
  po_glyphnames : option (list (list Z)) }.

(** Version16Dot16::from_bytes, crates/otspec/src/types.rs:204-212.  The float
    [major + minor / 160.0] is converted to 16 fractional bits rounding to
    nearest; [minor * 65536 / 160] is never close to a tie, so that the
    roundings to binary32 in between do not matter. *)
Definition version_of (packed : Z) : Z :=
  let major := (packed / 65536) mod 256 in
  let minor := (packed / 256) mod 256 in
  65536 * major + (2 * 65536 * minor + 160) / 320.
Definition de_version16dot16 : parser Z := p <-- de_i32 ;; pret (version_of p).

(** postcore, post.rs:274-284 (tables! macro: the fields in order) *)
Definition postcore_ser (p : post) : res (list Z) :=
  v <- ser_version16dot16 (po_version p) ;;
  Ok (v ++ ser_fixed (po_italicAngle p) ++ ser_i16 (po_underlinePosition p) ++
      ser_i16 (po_underlineThickness p) ++ ser_u32 (po_isFixedPitch p) ++
      ser_u32 (po_minMemType42 p) ++ ser_u32 (po_maxMemType42 p) ++
      ser_u32 (po_minMemType1 p) ++ ser_u32 (po_maxMemType1 p)).
Definition postcore_de : parser (option (list (list Z)) -> post) :=
  v <-- de_version16dot16 ;;
  a <-- de_fixed ;; u <-- de_i16 ;; t <-- de_i16 ;; f <-- de_u32 ;;
  m1 <-- de_u32 ;; m2 <-- de_u32 ;; m3 <-- de_u32 ;; m4 <-- de_u32 ;;
  pret (mk_post v a u t f m1 m2 m3 m4).

(** [U16F16::from_num(2.0)] *)
Definition version2 : Z := 131072.

(** The loop of [to_bytes], post.rs:366-378: the indices and the name pool.
    [as u16] and [as u8] truncate. *)
Fixpoint names_ser (items : Z) (names : list (list Z)) : list Z * list Z :=
  match names with
  | [] => ([], [])
  | n :: names' =>
      match find_name n apple_names with
      | Some i =>
          let '(ix, pool) := names_ser items names' in
          (ser_u16 (u16 (Z.of_nat i)) ++ ix, pool)
      | None =>
          let '(ix, pool) := names_ser (items + 1) names' in
          (ser_u16 (u16 (258 + items)) ++ ix,
           ser_u8 (u8 (Z.of_nat (length n))) ++ n ++ pool)
      end
  end.
(** Serialize for post, post.rs:346-383 *)
Definition post_ser (p : post) : res (list Z) :=
  core <- postcore_ser p ;;
  if po_version p =? version2 then
    match po_glyphnames p with
    | Some v =>
        let '(ix, pool) := names_ser 0 v in
        Ok (core ++ ser_u16 (u16 (Z.of_nat (length v))) ++ ix ++ pool)
    | None => Ok core
    end
  else Ok core.

(** [String::from_utf8] (Rust's standard library): well-formed UTF-8 as in
    Unicode's table 3-7. *)
Definition cont (b : Z) : bool := (128 <=? b) && (b <=? 191).
Fixpoint utf8_valid (bs : list Z) : bool :=
  match bs with
  | [] => true
  | a :: r1 =>
      if a <=? 127 then utf8_valid r1
      else match r1 with
      | [] => false
      | b :: r2 =>
          if (194 <=? a) && (a <=? 223) then cont b && utf8_valid r2
          else match r2 with
          | [] => false
          | c :: r3 =>
              if (224 <=? a) && (a <=? 239) then
                cont b && cont c && ((224 <? a) || (160 <=? b)) &&
                (negb (a =? 237) || (b <=? 159)) && utf8_valid r3
              else match r3 with
              | [] => false
              | d :: r4 =>
                  (240 <=? a) && (a <=? 244) && cont b && cont c && cont d &&
                  ((240 <? a) || (144 <=? b)) && ((a <? 244) || (b <=? 143)) && utf8_valid r4
              end
          end
      end
  end.

(** The loop of [from_bytes], post.rs:394-402.  The fuel is the number of
    remaining bytes plus one; every round reads at least one byte, so it is
    not exhausted ([Panic] here would be that case). *)
Fixpoint pool_loop (fuel : nat) : parser (list (list Z)) := fun r =>
  match fuel with
  | O => Panic
  | S k =>
      match de_u8 r with
      | Ok (count, r') =>
          (name <-- de_counted de_u8 (Z.to_nat count) ;;
           if utf8_valid name then names <-- pool_loop k ;; pret (name :: names)
           else ppanic) r'
      | Err => Ok ([], r)
      | Panic => Panic
      end
  end.
Definition pool_de : parser (list (list Z)) := fun r =>
  pool_loop (S (length (rd_input r) - rd_ptr r)) r.
(** post.rs:403-410; an index out of range panics *)
Definition name_at (table : list (list Z)) (offset : Z) : res (list Z) :=
  match (if offset <? 258 then nth_error apple_names (Z.to_nat offset)
         else nth_error table (Z.to_nat (offset - 258))) with
  | Some n => Ok n
  | None => Panic
  end.
(** Deserialize for post, post.rs:385-427 *)
Definition post_de : parser post :=
  core <-- postcore_de ;;
  if po_version (core None) =? version2 then
    num_glyphs <-- de_u16 ;;
    offsets <-- de_counted de_u16 (Z.to_nat num_glyphs) ;;
    table <-- pool_de ;;
    names <-- plift (rmapM (name_at table) offsets) ;;
    pret (core (Some names))
  else pret (core None).

(** post::new, post.rs:316-336; the version is given in raw bits *)
Definition post_new (version : Z) (angle : dyadic) (pos thick : Z) (fixed : bool)
    (names : option (list (list Z))) : post :=
  mk_post version angle pos thick (if fixed then 1 else 0) 0 0 0 0 names.

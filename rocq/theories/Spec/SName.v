(** Specification vocabulary for the naming table. *)
From Verif.Model Require Import MBase MName.
From Verif.Spec Require Import SBase SGlyph SLayout.
Open Scope Z_scope.

(** Unicode scalar values: every code point but the surrogates. *)
Definition scalar (c : Z) : Prop := 0 <= c < 55296 \/ 57344 <= c <= 1114111.

(** UTF-16: one unit per character of the Basic Multilingual Plane, a
    surrogate pair for the others; most significant byte first. *)
Definition units (c : Z) : list Z :=
  if c <=? 65535 then [c] else [55296 + (c - 65536) / 1024; 56320 + (c - 65536) mod 1024].
Definition utf16 (s : list Z) : list Z := words (concat (map units s)).

(** The (platform, encoding) pairs the library can handle: Unicode, Macintosh,
    ISO 0 to 2, Windows except 6. *)
Definition handled (p e : Z) : Prop :=
  p = 0 \/ p = 1 \/ p = 2 /\ 0 <= e <= 2 \/ p = 3 /\ e <> 6.
(** ... and those whose strings are UTF-16. *)
Definition unicode_record (p e : Z) : Prop :=
  p = 0 \/ p = 2 /\ e = 1 \/ p = 3 /\ (0 <= e <= 1 \/ 7 <= e).
(** The character set the OpenType specification (as the library reads it)
    gives to a pair. *)
Definition charset_for (p e : Z) (cs : charset) : Prop :=
  match cs with
  | Utf16be => unicode_record p e
  | MacCyrillic => p = 1 /\ e = 7
  | MacRoman => p = 1 /\ e <> 7
  | Windows1252 => p = 2 /\ (e = 0 \/ e = 2)
  | Windows31J => p = 3 /\ e = 2
  | Gbk => p = 3 /\ e = 3
  | Big5 => p = 3 /\ e = 4
  | Windows949 => p = 3 /\ e = 5
  end.

Definition fields_ok (r : name_record) : Prop :=
  is_u16 (nr_platform r) /\ is_u16 (nr_encoding r) /\ is_u16 (nr_language r) /\ is_u16 (nr_name r).

Section Coders.
Variable other : charset -> coder.

(** [stored_as r bs]: the bytes [bs] stand for the string of [r] in its
    character set. *)
Definition stored_as (r : name_record) (bs : list Z) : Prop :=
  exists cs, charset_for (nr_platform r) (nr_encoding r) cs /\
             decode (coder_of other cs) bs = nr_string r.
(** The bytes the encoder makes of the string of [r]. *)
Definition encoded_as (r : name_record) (bs : list Z) : Prop :=
  exists cs, charset_for (nr_platform r) (nr_encoding r) cs /\
             bs = encode (coder_of other cs) (nr_string r).
(** The string of [r] can be written in its character set without loss. *)
Definition expressible (r : name_record) : Prop :=
  exists bs, encoded_as r bs /\ stored_as r bs.

(** One record of the table: four fields, then the length and the position in
    the storage area of bytes that stand for the string. *)
Definition record_at (storage : list Z) (r : name_record) (w : list Z) : Prop :=
  exists pre bs post, storage = pre ++ bs ++ post /\
    is_u16 (Z.of_nat (length pre)) /\ is_u16 (Z.of_nat (length bs)) /\ stored_as r bs /\
    w = [nr_platform r; nr_encoding r; nr_language r; nr_name r;
         Z.of_nat (length bs); Z.of_nat (length pre)].
(** A format 0 naming table for the records [rs] whose storage area follows
    the records. *)
Definition name_table (rs : list name_record) (b : list Z) : Prop :=
  exists ws storage,
    b = word 0 ++ word (Z.of_nat (length rs)) ++ word (6 + 12 * Z.of_nat (length rs)) ++
        words (concat ws) ++ storage /\
    Forall2 (record_at storage) rs ws.

(** A format 0 naming table as OpenType allows it: the header gives the place
    of the storage area, which need not follow the records. *)
Definition name_table_gap (rs : list name_record) (gap b : list Z) : Prop :=
  exists ws storage,
    b = word 0 ++ word (Z.of_nat (length rs)) ++
        word (6 + 12 * Z.of_nat (length rs) + Z.of_nat (length gap)) ++
        words (concat ws) ++ gap ++ storage /\
    Forall2 (record_at storage) rs ws.

(** The strings, one after the other from position [pos], all have 16-bit
    lengths and starting positions. *)
Fixpoint placed (pos : Z) (bss : list (list Z)) : Prop :=
  match bss with
  | [] => True
  | bs :: bss' =>
      pos <= 65535 /\ Z.of_nat (length bs) <= 65535 /\ placed (pos + Z.of_nat (length bs)) bss'
  end.
Definition fits (rs : list name_record) : Prop :=
  Z.of_nat (length rs) <= 5460 /\
  exists bss, Forall2 encoded_as rs bss /\ placed 0 bss.
End Coders.

(** The naming table: src/tables/name.rs.

    Strings are lists of Unicode code points.  UTF-16BE is modelled; the seven
    other character sets come from the [encoding] crate, which is not part of
    the repository, so they are a parameter [other] of every definition. *)
From Verif.Model Require Import MBase MCmap.
Open Scope Z_scope.

(** The character sets imported at name.rs:1-3. *)
Inductive charset :=
  Utf16be | MacRoman | MacCyrillic | Windows1252 | Windows31J | Gbk | Big5 | Windows949.

(** get_encoding, name.rs:14-46; [unimplemented!] panics *)
Definition get_encoding (p e : Z) : res charset :=
  if p =? 0 then Ok Utf16be
  else if p =? 1 then Ok (if e =? 7 then MacCyrillic else MacRoman)
  else if p =? 2 then
    (if e =? 0 then Ok Windows1252 else if e =? 1 then Ok Utf16be
     else if e =? 2 then Ok Windows1252 else Panic)
  else if p =? 3 then
    (if e =? 0 then Ok Utf16be else if e =? 1 then Ok Utf16be
     else if e =? 2 then Ok Windows31J else if e =? 3 then Ok Gbk
     else if e =? 4 then Ok Big5 else if e =? 5 then Ok Windows949
     else if e =? 6 then Panic else Ok Utf16be)
  else Panic.

(** [Encoding::encode] with [EncoderTrap::Replace] and [Encoding::decode] with
    [DecoderTrap::Replace] (name.rs:176-178, 200-202); neither fails. *)
Record coder := mkCoder { encode : list Z -> list Z; decode : list Z -> list Z }.

(** UTF_16BE of the [encoding] crate *)
Definition unit_bytes (u : Z) : list Z := [(u / 256) mod 256; u mod 256].
Definition utf16_char (c : Z) : list Z :=
  if c <? 65536 then unit_bytes c
  else unit_bytes (55296 + (c - 65536) / 1024) ++ unit_bytes (56320 + (c - 65536) mod 1024).
Definition utf16_encode (s : list Z) : list Z := concat (map utf16_char s).
(** An unpaired surrogate, or a last odd byte, becomes U+FFFD.  (How many
    replacement characters an ill-formed sequence gives is not checked
    against the crate; no theorem depends on it.) *)
Fixpoint utf16_decode (bs : list Z) : list Z :=
  match bs with
  | a :: b :: bs' =>
      let u := a * 256 + b in
      if (u <? 55296) || (57344 <=? u) then u :: utf16_decode bs'
      else if 56320 <=? u then 65533 :: utf16_decode bs'
      else match bs' with
           | c :: d :: bs'' =>
               let v := c * 256 + d in
               if (56320 <=? v) && (v <? 57344)
               then 65536 + (u - 55296) * 1024 + (v - 56320) :: utf16_decode bs''
               else 65533 :: utf16_decode bs'
           | _ => 65533 :: utf16_decode bs'
           end
  | [_] => [65533]
  | [] => []
  end.
Definition coder_of (other : charset -> coder) (cs : charset) : coder :=
  match cs with Utf16be => mkCoder utf16_encode utf16_decode | _ => other cs end.

(** NameRecord, name.rs:121-134 *)
Record name_record := mkNR {
  nr_platform : Z; nr_encoding : Z; nr_language : Z; nr_name : Z; nr_string : list Z }.
(** NameRecord::windows_unicode, name.rs:140-158 *)
Definition windows_unicode (n : Z) (s : list Z) : name_record :=
  mkNR 3 (if existsb (fun c => 65535 <? c) s then 10 else 1) 1033 n s.

(** NameRecordInternal, name.rs:108-117: platform, encoding, language, name,
    length, string offset *)
Definition internal : Type := Z * Z * Z * Z * Z * Z.
Definition internal_ser (i : internal) : list Z :=
  let '(p, e, l, n, len, off) := i in
  ser_u16 p ++ ser_u16 e ++ ser_u16 l ++ ser_u16 n ++ ser_u16 len ++ ser_u16 off.
Definition internal_de : parser internal :=
  p <-- de_u16 ;; e <-- de_u16 ;; l <-- de_u16 ;; n <-- de_u16 ;; len <-- de_u16 ;;
  off <-- de_u16 ;; pret (p, e, l, n, len, off).

(** The loop of [to_bytes], name.rs:198-215: record bytes and string pool *)
Fixpoint names_loop (other : charset -> coder) (rs : list name_record) (recs pool : list Z)
  : res (list Z * list Z) :=
  match rs with
  | [] => Ok (recs, pool)
  | r :: rs' =>
      cs <- get_encoding (nr_platform r) (nr_encoding r) ;;
      let encoded := encode (coder_of other cs) (nr_string r) in
      names_loop other rs'
        (recs ++ internal_ser (nr_platform r, nr_encoding r, nr_language r, nr_name r,
                               u16 (Z.of_nat (length encoded)), u16 (Z.of_nat (length pool))))
        (pool ++ encoded)
  end.
(** Serialize for name, name.rs:191-218 *)
Definition name_ser (other : charset -> coder) (rs : list name_record) : res (list Z) :=
  t <- chk_u 16 (12 * u16 (Z.of_nat (length rs))) ;;
  offset <- chk_u 16 (6 + t) ;;
  ' (recs, pool) <- names_loop other rs [] [] ;;
  Ok (ser_u16 0 ++ ser_u16 (u16 (Z.of_nat (length rs))) ++ ser_u16 offset ++ recs ++ pool).

(** The loop of [from_bytes], name.rs:172-187 *)
Fixpoint names_de (other : charset -> coder) (irs : list internal) : parser (list name_record) :=
  match irs with
  | [] => pret []
  | (p, e, l, n, len, off) :: irs' =>
      _ <-- seek off ;;
      bytes <-- de_counted de_u8 (Z.to_nat len) ;;
      cs <-- plift (get_encoding p e) ;;
      rs <-- names_de other irs' ;;
      pret (mkNR p e l n (decode (coder_of other cs) bytes) :: rs)
  end.
Definition ppush : parser unit := fun r => Ok (tt, rd_push r).
Definition ppop : parser unit := fun r =>
  match rd_pop r with Ok r' => Ok (tt, r') | Err => Err | Panic => Panic end.
(** Deserialize for name, name.rs:163-189 *)
Definition name_de (other : charset -> coder) : parser (list name_record) :=
  _ <-- pskip 2 ;;
  count <-- de_u16 ;;
  _ <-- pskip 2 ;;
  irs <-- de_counted internal_de (Z.to_nat count) ;;
  _ <-- ppush ;;
  rs <-- names_de other irs ;;
  _ <-- ppop ;;
  pret rs.

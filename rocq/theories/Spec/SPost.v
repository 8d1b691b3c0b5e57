(** Specification vocabulary for the PostScript table. *)
From Verif.Model Require Import MBase MFixed MTables MPost.
From Verif.Spec Require Import SBase SGlyph SLayout SCmap STables SName.
Open Scope Z_scope.

(** UTF-8 *)
Definition utf8_char (c : Z) : list Z :=
  if c <=? 127 then [c]
  else if c <=? 2047 then [192 + c / 64; 128 + c mod 64]
  else if c <=? 65535 then [224 + c / 4096; 128 + (c / 64) mod 64; 128 + c mod 64]
  else [240 + c / 262144; 128 + (c / 4096) mod 64; 128 + (c / 64) mod 64; 128 + c mod 64].
(** The bytes of a Rust string. *)
Definition text (bs : list Z) : Prop :=
  exists s, Forall scalar s /\ bs = concat (map utf8_char s).

(** Names that are not among the 258 standard ones, in order. *)
Definition own_names (names : list (list Z)) : list (list Z) :=
  filter (fun n => if in_dec (list_eq_dec Z.eq_dec) n apple_names then false else true) names.
(** At most 65535 names, at most 65278 of them not standard, these of at most
    255 bytes. *)
Definition names_fit (names : list (list Z)) : Prop :=
  Z.of_nat (length names) <= 65535 /\
  Z.of_nat (length (own_names names)) <= 65278 /\
  Forall (fun n => Z.of_nat (length n) <= 255) (own_names names).

(** All fields but the names are within the range of their type; the version
    is below 256 and a multiple of 1/32, such as 1.0, 2.0, 2.5 and 3.0. *)
Definition post_fields_ok (p : post) : Prop :=
  0 <= po_version p < 256 * 65536 /\ po_version p mod 2048 = 0 /\
  fixed_value (po_italicAngle p) /\
  in_range I16 (po_underlinePosition p) /\ in_range I16 (po_underlineThickness p) /\
  in_range U32 (po_isFixedPitch p) /\
  in_range U32 (po_minMemType42 p) /\ in_range U32 (po_maxMemType42 p) /\
  in_range U32 (po_minMemType1 p) /\ in_range U32 (po_maxMemType1 p).

(** The 32 bytes before the names: a version [major].[minor/160], then the
    fields. *)
Definition post_header (p : post) : list Z :=
  [0; po_version p / 65536; po_version p mod 65536 * 160 / 65536; 0] ++
  ser_i32 (fixed_as_packed (po_italicAngle p)) ++
  ser_i16 (po_underlinePosition p) ++ ser_i16 (po_underlineThickness p) ++
  ser_u32 (po_isFixedPitch p) ++ ser_u32 (po_minMemType42 p) ++ ser_u32 (po_maxMemType42 p) ++
  ser_u32 (po_minMemType1 p) ++ ser_u32 (po_maxMemType1 p).

(** Index [i] stands for name [n]: a standard name below 258, an entry of the
    pool from there on. *)
Definition stands_for (pool : list (list Z)) (i : Z) (n : list Z) : Prop :=
  if i <? 258 then nth_error apple_names (Z.to_nat i) = Some n
  else nth_error pool (Z.to_nat (i - 258)) = Some n.
(** A name of the pool: its length in one byte, then its bytes. *)
Definition pascal (n : list Z) : list Z := Z.of_nat (length n) :: n.
Definition pool_ok (pool : list (list Z)) : Prop :=
  Forall (fun n => Z.of_nat (length n) <= 255) pool.
(** What follows the header in version 2. *)
Definition names_bytes (ix : list Z) (pool : list (list Z)) : list Z :=
  word (Z.of_nat (length ix)) ++ words ix ++ concat (map pascal pool).

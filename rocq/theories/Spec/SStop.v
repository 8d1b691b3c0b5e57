(** Which bytes make reading a part of a table abort the program. *)
From Verif.Model Require Import MBase.
From Verif.Spec Require Import SBase SReader SCalm.
Open Scope Z_scope.

(** Reading with [p] at position [k] of the bytes [d], whatever the starts of
    the tables around it are, aborts exactly if [bad] says so. *)
Definition stops {A} (p : parser A) (bad : list Z -> nat -> Prop) : Prop :=
  forall d k st, Forall is_byte d -> (p (mkrd d k st) = Panic <-> bad d k).
Definition u16_at := number_at U16.
Definition u32_at := number_at U32.

(** A counted list of ranges (three 16-bit numbers each), all of them there,
    one of which ends at 65535. *)
Definition range_to_the_end (d : list Z) (k : nat) : Prop :=
  exists n i, u16_at d k n /\ (k + 2 + 6 * Z.to_nat n <= length d)%nat /\
    (i < Z.to_nat n)%nat /\ u16_at d (k + 2 + 6 * i + 2) 65535.
Definition coverage_bad (d : list Z) (k : nat) : Prop :=
  exists format, u16_at d k format /\ format <> 1 /\ range_to_the_end d (k + 2).
(** An array that goes beyond glyph 65535, or a range to 65535. *)
Definition class_bad (d : list Z) (k : nat) : Prop :=
  exists format, u16_at d k format /\
    ((format = 1 /\ exists start n, u16_at d (k + 2) start /\ u16_at d (k + 4) n /\
        (k + 6 + 2 * Z.to_nat n <= length d)%nat /\ 65536 < start + n) \/
     (format <> 1 /\ range_to_the_end d (k + 2))).
(** Sizes out of order, all sizes, or an unknown format. *)
Definition device_bad (d : list Z) (k : nat) : Prop :=
  exists first last format, u16_at d k first /\ u16_at d (k + 2) last /\ u16_at d (k + 4) format /\
    format <> 32768 /\ (last < first \/ (first = 0 /\ last = 65535) \/ 3 < format).

(** Ligatures and rules of no glyph at all. *)
Definition ligature_bad (d : list Z) (k : nat) : Prop := u16_at d (k + 2) 0.
Definition rule_bad (d : list Z) (k : nat) : Prop := u16_at d k 0 /\ (k + 4 <= length d)%nat.
(** The input follows the backtrack sequence. *)
Definition chained_rule_bad (d : list Z) (k : nat) : Prop :=
  exists n, u16_at d k n /\ u16_at d (k + 2 + 2 * Z.to_nat n) 0.

(** ** Character maps *)
Definition cmap0_bad (d : list Z) (k : nat) : Prop :=
  exists len, u16_at d (k + 2) len /\ (k + 6 <= length d)%nat /\ len < 6.
(** A group that ends before it starts, holds all codes, or runs beyond
    glyph 65535. *)
Definition cmap12_bad (d : list Z) (k : nat) : Prop :=
  exists n i s e g, u32_at d (k + 12) n /\ (i < Z.to_nat n)%nat /\ (k + 16 + 12 * Z.to_nat n <= length d)%nat /\
    u32_at d (k + 16 + 12 * i) s /\ u32_at d (k + 20 + 12 * i) e /\ u32_at d (k + 24 + 12 * i) g /\
    (e < s \/ (s = 0 /\ e = 4294967295) \/ 65535 < g mod 65536 + Z.min (e - s) 65535).
(** Format 4, with [n] segments: the entry of code [c] in segment [i] is looked
    up in the array of glyphs; its sum with the segment's delta is no 16-bit
    number. *)
Definition cmap4_overflow (d : list Z) (k n : nat) (len : Z) : Prop :=
  exists i c s e delta o w, (i + 1 < n)%nat /\ (forall j, (j <= i)%nat -> ~ u16_at d (k + 14 + 2 * j) 65535) /\
    u16_at d (k + 14 + 2 * i) e /\ u16_at d (k + 16 + 2 * n + 2 * i) s /\
    number_at I16 d (k + 16 + 4 * n + 2 * i) delta /\ u16_at d (k + 16 + 6 * n + 2 * i) o /\
    o <> 0 /\ s <= c <= e /\
    let entry x := x + o / 2 - s + Z.of_nat i - Z.of_nat n in
    let entries := (len - (16 + 8 * Z.of_nat n)) / 2 in
    0 <= entry s /\ entry c < entries /\ (k + 16 + 8 * n + 2 * Z.to_nat entries <= length d)%nat /\
    number_at I16 d (k + 16 + 8 * n + 2 * Z.to_nat (entry c)) w /\ w <> 0 /\ ~ -32768 <= w + delta <= 32767.
(** No segment; a length too small for the segments; or a sum that is too large. *)
Definition cmap4_bad (d : list Z) (k : nat) : Prop :=
  exists len x2, u16_at d (k + 2) len /\ u16_at d (k + 6) x2 /\
    let n := Z.to_nat (x2 / 2) in
    n = 0%nat \/
    ((k + 16 + 8 * n <= length d)%nat /\ (len < 16 + 8 * Z.of_nat n \/ cmap4_overflow d k n len)).

(** Format 14.  At [q] is an offset from [k] to a counted list of entries of [w]
    bytes each; or zero. *)
Definition list_there (d : list Z) (w k : nat) : Prop :=
  exists count, u32_at d k count /\ (k + 4 + w * Z.to_nat count <= length d)%nat.
Definition ref_ok (d : list Z) (k q w : nat) : Prop :=
  exists o, u32_at d q o /\ (o = 0 \/ (o <= 65535 /\ list_there d w (k + Z.to_nat o))).
Definition too_far (d : list Z) (q : nat) : Prop := exists o, u32_at d q o /\ 65535 < o.
(** Selector [i]: three bytes, then the offsets of its two lists. *)
Definition selector_ok (d : list Z) (k i : nat) : Prop :=
  ref_ok d k (k + 13 + 11 * i) 4 /\ ref_ok d k (k + 17 + 11 * i) 5.
Definition selector_bad (d : list Z) (k i : nat) : Prop :=
  too_far d (k + 13 + 11 * i) \/ (ref_ok d k (k + 13 + 11 * i) 4 /\ too_far d (k + 17 + 11 * i)).
Definition cmap14_bad (d : list Z) (k : nat) : Prop :=
  exists n i, u32_at d (k + 6) n /\ (i < Z.to_nat n)%nat /\
    (forall j, (j < i)%nat -> selector_ok d k j) /\ selector_bad d k i.

(** A subtable is at [k] with all its bytes. *)
Definition subtable_there (d : list Z) (k : nat) : Prop :=
  (u16_at d k 0 /\ exists len, u16_at d (k + 2) len /\ (k + 6 + Z.to_nat (Z.max 256 (len - 6)) <= length d)%nat) \/
  (u16_at d k 4 /\ exists x2, u16_at d (k + 6) x2 /\ (k + 16 + 8 * Z.to_nat (x2 / 2) <= length d)%nat) \/
  (u16_at d k 12 /\ exists n, u32_at d (k + 12) n /\ (k + 16 + 12 * Z.to_nat n <= length d)%nat) \/
  (u16_at d k 14 /\ exists n, u32_at d (k + 6) n /\ forall j, (j < Z.to_nat n)%nat -> selector_ok d k j).
Definition subtable_bad (d : list Z) (k : nat) : Prop :=
  (u16_at d k 0 /\ cmap0_bad d k) \/ (u16_at d k 4 /\ cmap4_bad d k) \/
  (u16_at d k 12 /\ cmap12_bad d k) \/ (u16_at d k 14 /\ cmap14_bad d k).
(** The whole table: all records are there, and the first subtable that cannot
    be read is one of those above. *)
Definition cmap_bad (d : list Z) : Prop :=
  exists n i off, u16_at d 2 n /\ (4 + 8 * Z.to_nat n <= length d)%nat /\ (i < Z.to_nat n)%nat /\
    u32_at d (8 + 8 * i) off /\ subtable_bad d (Z.to_nat off) /\
    forall j o, (j < i)%nat -> u32_at d (8 + 8 * j) o -> subtable_there d (Z.to_nat o) /\ ~ subtable_bad d (Z.to_nat o).

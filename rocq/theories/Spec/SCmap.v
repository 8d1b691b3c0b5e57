(** Vocabulary for character maps and the cmap formats of the OpenType
    specification. *)
From Coq Require Import List ZArith.
Import ListNotations.
From Verif.Spec Require Import SBase SGlyph SLayout.
Open Scope Z_scope.

(** A character map: glyph numbers by character code, in increasing order. *)
Definition char_map (m : list (Z * Z)) : Prop :=
  increasing (map fst m)
  /\ Forall (fun cg => 0 <= fst cg <= 4294967295 /\ is_u16 (snd cg)) m.
(** The glyph of a character, glyph 0 when it is not mapped. *)
Definition glyph_for (m : list (Z * Z)) (c : Z) : Z :=
  match find (fun cg => fst cg =? c) m with Some cg => snd cg | None => 0 end.

(** ** Format 4: segments (start, end, delta, range offset) and a glyph array *)

Definition seg4 := (Z * Z * Z * Z)%type.
Definition sg_start (g : seg4) := fst (fst (fst g)).
Definition sg_end (g : seg4) := snd (fst (fst g)).
Definition sg_delta (g : seg4) := snd (fst g).
Definition sg_offset (g : seg4) := snd g.

(** The subtable as a sequence of 16-bit words; the second is the number of
    bytes of the whole. *)
Definition cmap4_bytes (lang : Z) (search : Z * Z * Z) (segs : list seg4) (arr bs : list Z) : Prop :=
  let '(sr, es, rs) := search in
  bs = words ([4; Z.of_nat (length bs); lang; 2 * Z.of_nat (length segs); sr; es; rs]
              ++ map sg_end segs ++ [0] ++ map sg_start segs ++ map sg_delta segs
              ++ map sg_offset segs ++ arr).

(** The first segment, with its number, whose end is not below the code. *)
Fixpoint seg_for (i : Z) (segs : list seg4) (c : Z) : option (Z * seg4) :=
  match segs with
  | [] => None
  | g :: segs' => if c <=? sg_end g then Some (i, g) else seg_for (i + 1) segs' c
  end.
(** The word addressed by a non-zero range offset: the offset counts bytes from
    its own place in the array of range offsets, which the glyph array follows. *)
Definition addressed (segs : list seg4) (arr : list Z) (i : Z) (g : seg4) (c : Z) : option Z :=
  let w := i + sg_offset g / 2 + (c - sg_start g) in
  nth_error (map sg_offset segs ++ arr) (Z.to_nat w).
(** The lookup of the specification. *)
Definition lookup4 (segs : list seg4) (arr : list Z) (c : Z) : Z :=
  match seg_for 0 segs c with
  | None => 0
  | Some (i, g) =>
      if c <? sg_start g then 0
      else if sg_offset g =? 0 then (c + sg_delta g) mod 65536
      else match addressed segs arr i g c with
           | None | Some 0 => 0
           | Some w => (w + sg_delta g) mod 65536
           end
  end.

(** Segments in order, the last of them ending at 0xFFFF. *)
Fixpoint seg_order (low : Z) (segs : list seg4) : Prop :=
  match segs with
  | [] => False
  | [g] => low <= sg_start g <= sg_end g /\ sg_end g = 65535
  | g :: segs' => low <= sg_start g <= sg_end g /\ seg_order (sg_end g + 1) segs'
  end.
Definition signed16 (w : Z) : Z := if w <? 32768 then w else w - 65536.
(** The [i]-th segment, not the last one. *)
Definition inner_seg (segs : list seg4) (i : nat) (g : seg4) : Prop :=
  nth_error segs i = Some g /\ (S i < length segs)%nat.
(** Range offsets address words of the glyph array. *)
Definition in_array (segs : list seg4) (arr : list Z) : Prop :=
  forall i g c, inner_seg segs i g -> sg_offset g <> 0 -> sg_start g <= c <= sg_end g ->
    sg_offset g mod 2 = 0
    /\ Z.of_nat (length segs) <= Z.of_nat i + sg_offset g / 2 + (c - sg_start g)
       < Z.of_nat (length segs) + Z.of_nat (length arr).
(** The signed sum of an array word and the delta of its segment fits 16 bits. *)
Definition short_sums (segs : list seg4) (arr : list Z) : Prop :=
  forall i g c w, inner_seg segs i g -> sg_offset g <> 0 -> sg_start g <= c <= sg_end g ->
    addressed segs arr (Z.of_nat i) g c = Some w -> w <> 0 ->
    -32768 <= signed16 w + sg_delta g <= 32767.
Definition seg_fields (g : seg4) : Prop :=
  is_u16 (sg_start g) /\ is_u16 (sg_end g) /\ -32768 <= sg_delta g <= 32767 /\ is_u16 (sg_offset g).
Definition well_formed4 (segs : list seg4) (arr : list Z) : Prop :=
  Forall seg_fields segs /\ Forall is_u16 arr /\ seg_order 0 segs
  /\ in_array segs arr.

(** A code lies in one of the segments. *)
Definition in_segments (segs : list seg4) (c : Z) : Prop :=
  Exists (fun g => sg_start g <= c <= sg_end g) segs.

(** The number of maximal runs of consecutive codes. *)
Fixpoint runs_after (last : Z) (codes : list Z) : nat :=
  match codes with
  | [] => 0
  | c :: codes' => (if c =? last + 1 then 0 else 1) + runs_after c codes'
  end.
Definition runs (codes : list Z) : nat :=
  match codes with [] => 0 | c :: codes' => 1 + runs_after c codes' end.

(** ** Format 12: groups (start, end, first glyph) *)
Definition dword (z : Z) : list Z := word (z / 65536) ++ word (z mod 65536).
Definition group_bytes (g : Z * Z * Z) : list Z := dword (fst (fst g)) ++ dword (snd (fst g)) ++ dword (snd g).
Definition cmap12_bytes (lang : Z) (gs : list (Z * Z * Z)) (bs : list Z) : Prop :=
  bs = word 12 ++ word 0 ++ dword (Z.of_nat (length bs)) ++ dword lang
       ++ dword (Z.of_nat (length gs)) ++ concat (map group_bytes gs).
Definition group_has (c gl : Z) (g : Z * Z * Z) : Prop :=
  fst (fst g) <= c <= snd (fst g) /\ gl = snd g + (c - fst (fst g)).
Fixpoint group_order (low : Z) (gs : list (Z * Z * Z)) : Prop :=
  match gs with
  | [] => True
  | g :: gs' => low <= fst (fst g) <= snd (fst g) /\ group_order (snd (fst g) + 1) gs'
  end.
(** Codes are 32-bit numbers and all glyphs of the group are 16-bit numbers. *)
Definition group_fields (g : Z * Z * Z) : Prop :=
  snd (fst g) <= 4294967295 /\ 0 <= snd g /\ snd g + (snd (fst g) - fst (fst g)) <= 65535.
(** All character codes are Unicode code points. *)
Definition unicode_codes (m : list (Z * Z)) : Prop := Forall (fun cg => fst cg <= 1114111) m.
(** Neither the first nor the last entry of a list. *)
Definition middle {A} (l : list A) : list A := removelast (tl l).
(** The first two entries, if there are two, do not have the same glyph. *)
Definition second_glyph_differs (m : list (Z * Z)) : Prop :=
  match m with (_, g) :: (_, g1) :: _ => g1 <> g | _ => True end.

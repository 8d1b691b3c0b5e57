(** Specification vocabulary for glyph outlines. *)
From Coq Require Import QArith.
From Verif.Model Require Import MBase MFixed MFloat MGlyph.
From Verif.Spec Require Import SBase SFloat.
Open Scope Z_scope.

Definition point_ok (p : point) : Prop := in_range I16 (pt_x p) /\ in_range I16 (pt_y p).

Definition box_ok (g : glyph) : Prop :=
  in_range I16 (g_xMin g) /\ in_range I16 (g_xMax g) /\ in_range I16 (g_yMin g) /\ in_range I16 (g_yMax g).

(** Successive points (starting from the origin) differ by 16-bit amounts. *)
Fixpoint steps_fit (lx ly : Z) (pts : list point) : Prop :=
  match pts with
  | [] => True
  | p :: pts' =>
      in_range I16 (pt_x p - lx) /\ in_range I16 (pt_y p - ly) /\ steps_fit (pt_x p) (pt_y p) pts'
  end.

(** A simple glyph: contours, no components, all values of the right type. *)
Definition simple_glyph (g : glyph) : Prop :=
  g_comps g = [] /\ g_contours g <> [] /\ box_ok g /\
  Forall (Forall point_ok) (g_contours g) /\ Forall is_byte (g_instr g).
(** Sizes the format can count. *)
Definition simple_sizes (g : glyph) : Prop :=
  Z.of_nat (length (g_contours g)) <= 32767 /\ Z.of_nat (length (concat (g_contours g))) <= 32767.

(** ** Components *)

(** A number with 14 fractional bits that fits 16 bits. *)
Definition f2dot14_number (x : dyadic) : Prop :=
  exists k, in_range I16 k /\ (val x == inject_Z k / 16384)%Q.
Definition int16_number (x : dyadic) : Prop :=
  exists n, in_range I16 n /\ (val x == inject_Z n)%Q.

(** The flags a user may set: round to grid, use my metrics, overlap, (un)scaled offset. *)
Definition user_flags : Z := 4 + 512 + 1024 + 2048 + 4096.

Definition component_ok (c : component) : Prop :=
  in_range U16 (cp_glyph c) /\ in_range U16 (cp_flags c) /\
  f2dot14_number (af_a (cp_trans c)) /\ f2dot14_number (af_b (cp_trans c)) /\
  f2dot14_number (af_c (cp_trans c)) /\ f2dot14_number (af_d (cp_trans c)) /\
  match cp_match c with
  | None => int16_number (af_e (cp_trans c)) /\ int16_number (af_f (cp_trans c))
  | Some (p, q) => in_range U16 p /\ in_range U16 q /\
      (val (af_e (cp_trans c)) == 0)%Q /\ (val (af_f (cp_trans c)) == 0)%Q
  end.

Definition affine_same (s t : affine) : Prop :=
  (val (af_a s) == val (af_a t) /\ val (af_b s) == val (af_b t) /\ val (af_c s) == val (af_c t) /\
   val (af_d s) == val (af_d t) /\ val (af_e s) == val (af_e t) /\ val (af_f s) == val (af_f t))%Q.

(** Same component as far as the format records it. *)
Definition component_same (c c' : component) : Prop :=
  cp_glyph c' = cp_glyph c /\ cp_match c' = cp_match c /\
  affine_same (cp_trans c') (cp_trans c) /\
  Z.land (cp_flags c') user_flags = Z.land (cp_flags c) user_flags.

(** Bytes of scale data announced by the flag word: one, two or four
    two-byte numbers. *)
Definition scale_bytes (flags : Z) : Z :=
  if Z.testbit flags 3 then 2 else if Z.testbit flags 6 then 4 else if Z.testbit flags 7 then 8 else 0.
Definition arg_bytes (flags : Z) : Z := if Z.testbit flags 0 then 4 else 2.

(** A composite glyph the format can hold. *)
Definition composite_glyph (g : glyph) : Prop :=
  g_comps g <> [] /\ g_contours g = [] /\ box_ok g /\ Forall component_ok (g_comps g) /\
  Forall is_byte (g_instr g) /\ Z.of_nat (length (g_instr g)) <= 32767 /\
  g_overlap g = existsb (fun c => Z.testbit (cp_flags c) 10) (g_comps g).
Definition composite_same (g g' : glyph) : Prop :=
  g_xMin g' = g_xMin g /\ g_xMax g' = g_xMax g /\ g_yMin g' = g_yMin g /\ g_yMax g' = g_yMax g /\
  g_contours g' = [] /\ g_instr g' = g_instr g /\ g_overlap g' = g_overlap g /\
  Forall2 component_same (g_comps g) (g_comps g').

(** ** The glyph format itself, independently of writer and reader *)

(** A big-endian 16-bit word. *)
Definition word (z : Z) : list Z := [(z / 256) mod 256; z mod 256].

(** Flags, with bit 3 announcing a repeat count. *)
Inductive flag_bytes : list Z -> list Z -> Prop :=
| fb_nil : flag_bytes [] []
| fb_one f fl bs : is_byte f -> Z.testbit f 3 = false -> flag_bytes fl bs -> flag_bytes (f :: fl) (f :: bs)
| fb_repeat f n fl bs : is_byte f -> Z.testbit f 3 = true -> is_byte n -> flag_bytes fl bs ->
    flag_bytes (repeat f (S (Z.to_nat n)) ++ fl) (f :: n :: bs).

(** Coordinates as differences; bit [short] of the flag: one unsigned byte,
    with bit [same] for its sign; otherwise bit [same]: no byte at all;
    otherwise a signed word. *)
Inductive coord_bytes (short same : Z) : Z -> list Z -> list Z -> list Z -> Prop :=
| cb_nil last : coord_bytes short same last [] [] []
| cb_plus last f fl d vs bs : Z.testbit f short = true -> Z.testbit f same = true -> is_byte d ->
    coord_bytes short same (last + d) fl vs bs -> coord_bytes short same last (f :: fl) (last + d :: vs) (d :: bs)
| cb_minus last f fl d vs bs : Z.testbit f short = true -> Z.testbit f same = false -> is_byte d ->
    coord_bytes short same (last - d) fl vs bs -> coord_bytes short same last (f :: fl) (last - d :: vs) (d :: bs)
| cb_same last f fl vs bs : Z.testbit f short = false -> Z.testbit f same = true ->
    coord_bytes short same last fl vs bs -> coord_bytes short same last (f :: fl) (last :: vs) bs
| cb_word last f fl d vs bs : Z.testbit f short = false -> Z.testbit f same = false -> in_range I16 d ->
    coord_bytes short same (last + d) fl vs bs -> coord_bytes short same last (f :: fl) (last + d :: vs) (word d ++ bs).

(** The index of the last point of each contour, [n] points before. *)
Fixpoint end_indices (n : Z) (cs : list (list point)) : list Z :=
  match cs with [] => [] | c :: cs' => let n' := n + Z.of_nat (length c) in n' - 1 :: end_indices n' cs' end.

Definition glyph_encoding (g : glyph) (bs : list Z) : Prop :=
  exists flags fb xb yb, let pts := concat (g_contours g) in
    flag_bytes flags fb /\
    coord_bytes 1 4 0 flags (map pt_x pts) xb /\ coord_bytes 2 5 0 flags (map pt_y pts) yb /\
    map pt_on pts = map (fun f => Z.testbit f 0) flags /\
    g_overlap g = existsb (fun f => Z.testbit f 6) flags /\
    bs = word (Z.of_nat (length (g_contours g))) ++
         word (g_xMin g) ++ word (g_yMin g) ++ word (g_xMax g) ++ word (g_yMax g) ++
         concat (map word (end_indices 0 (g_contours g))) ++
         word (Z.of_nat (length (g_instr g))) ++ g_instr g ++ fb ++ xb ++ yb.

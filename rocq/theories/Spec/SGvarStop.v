(** Which bytes make reading a gvar table abort the program. *)
From Verif.Model Require Import MBase MFixed MGlyph MGlyf MPacked MIup.
From Verif.Spec Require Import SBase SReader SCalm SStop SVarStop.
Open Scope Z_scope.

Definition gvar_header (d : list Z) (axes tuples shared glyphs flags data : Z) : Prop :=
  u16_at d 4 axes /\ u16_at d 6 tuples /\ u32_at d 8 shared /\ u16_at d 12 glyphs /\ u16_at d 14 flags /\ u32_at d 16 data.
(** One offset more than there are glyphs; bit 0 of the flags: 32-bit offsets,
    otherwise 16-bit halves of offsets. *)
Definition offsets_there (d : list Z) (glyphs flags : Z) (raw : list Z) : Prop :=
  length raw = S (Z.to_nat glyphs) /\ values_at (if Z.testbit flags 0 then U32 else U16) d 20 raw.
(** The numbers of glyphs and of shared tuples are increased by one on 16 bits,
    and 16-bit offsets are doubled on 16 bits. *)
Definition gvar_header_bad (d : list Z) : Prop :=
  exists axes tuples shared glyphs flags data, gvar_header d axes tuples shared glyphs flags data /\
    (glyphs = 65535 \/ exists raw, offsets_there d glyphs flags raw /\
      (tuples = 65535 \/ Z.testbit flags 0 = false /\ Exists (fun o => 32768 <= o) raw)).
(** Everything before the variations of the glyphs can be read; [os] are the offsets. *)
Definition gvar_ready (d : list Z) (axes tuples glyphs data : Z) (os : list Z) : Prop :=
  exists shared flags raw, gvar_header d axes tuples shared glyphs flags data /\ glyphs < 65535 /\ tuples < 65535 /\
    offsets_there d glyphs flags raw /\
    (if Z.testbit flags 0 then os = raw else Forall (fun o => o < 32768) raw /\ os = map (Z.mul 2) raw) /\
    (axes = 0 \/ shared + 2 * axes * (tuples + 1) <= Z.of_nat (length d)).

(** One variation, with the coordinates and contour ends of the glyph: its
    deltas can be inferred, and its index is that of a shared tuple (the code
    reads one more than there are), or it has its own peak. *)
Definition set_fine (tuples : Z) (coords : list (Z * Z)) (ends : list Z) (v : tuple_variation) : Prop :=
  (exists ds, iup_delta (tv_deltas v) coords ends = Ok ds) /\
  (tv_index (tv_header v) <= tuples \/ tv_index (tv_header v) = tuples + 1 /\ tv_peak (tv_header v) <> None).
Definition set_bad (tuples : Z) (coords : list (Z * Z)) (ends : list Z) (v : tuple_variation) : Prop :=
  iup_delta (tv_deltas v) coords ends = Panic \/
  (exists ds, iup_delta (tv_deltas v) coords ends = Ok ds) /\ tv_index (tv_header v) = tuples + 1 /\ tv_peak (tv_header v) = None.
(** From where to where the variations of a glyph are. *)
Definition glyph_spot (os : list Z) (data : Z) (i : nat) (o o' : Z) : Prop :=
  exists a b, nth_error os i = Some a /\ nth_error os (S i) = Some b /\ o = a + data /\ o' = b + data.
Definition points_of (coords : list (Z * Z)) : nat := Z.to_nat (Z.of_nat (length coords) mod 65536).
Definition variations_read (d : list Z) (axes : Z) (coords : list (Z * Z)) (o : Z) (vs : list tuple_variation) : Prop :=
  exists r, de_tvs (Z.to_nat axes) true (points_of coords) (mkrd d (Z.to_nat o) [0%nat; 0%nat]) = Ok (vs, r).
Definition glyph_fine (d : list Z) (outlines : list (list (Z * Z) * list Z)) (axes tuples data : Z) (os : list Z) (i : nat) : Prop :=
  exists o o', glyph_spot os data i o o' /\ o <= o' /\ o' < 2 ^ 32 /\
    (o = o' \/ exists coords ends vs, nth_error outlines i = Some (coords, ends) /\
       variations_read d axes coords o vs /\ Forall (set_fine tuples coords ends) vs).
(** Offsets beyond 32 bits or that decrease, variations for a glyph that does
    not exist, variations that abort (C87), or one that cannot be used. *)
Definition gvar_glyph_bad (d : list Z) (outlines : list (list (Z * Z) * list Z)) (axes tuples data : Z) (os : list Z) (i : nat) : Prop :=
  exists o o', glyph_spot os data i o o' /\
    (2 ^ 32 <= o \/ 2 ^ 32 <= o' \/ o' < o \/
     o < o' /\ (nth_error outlines i = None \/
       exists coords ends, nth_error outlines i = Some (coords, ends) /\
         (variation_data_bad (Z.to_nat axes) true (points_of coords) d (Z.to_nat o) \/
          exists before v after, variations_read d axes coords o (before ++ v :: after) /\
            Forall (set_fine tuples coords ends) before /\ set_bad tuples coords ends v))).
Definition gvar_bad (outlines : list (list (Z * Z) * list Z)) (d : list Z) : Prop :=
  gvar_header_bad d \/
  exists axes tuples glyphs data os i, gvar_ready d axes tuples glyphs data os /\ (i < Z.to_nat glyphs)%nat /\
    (forall j, (j < i)%nat -> glyph_fine d outlines axes tuples data os j) /\
    gvar_glyph_bad d outlines axes tuples data os i.

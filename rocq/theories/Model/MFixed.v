(** Fixed-point values held as binary32 floats: crates/otspec/src/types.rs:65-186 *)
From Verif.Model Require Import MBase.

(** A finite binary32 value is a dyadic rational [m * 2^e].  Only precision is
    modelled (24-bit significands, round to nearest, ties to even); exponent
    overflow and subnormals, infinities and NaN are not: the values handled
    here are 16/32-bit fixed-point numbers and their sums with 0.5. *)
Record dyadic := Dy { mant : Z; expo : Z }.

(** [m / 2^k] rounded to nearest, ties to even (k > 0). *)
Definition rne_shift (m k : Z) : Z :=
  let q := m / 2 ^ k in
  let r := m mod 2 ^ k in
  if 2 * r <? 2 ^ k then q
  else if 2 ^ k <? 2 * r then q + 1
  else if Z.even q then q else q + 1.

(** Rounding of an exact dyadic to a 24-bit significand (IEEE-754 binary32). *)
Definition rnd24 (x : dyadic) : dyadic :=
  let k := Z.log2 (Z.abs (mant x)) - 23 in
  if k <=? 0 then x else Dy (rne_shift (mant x) k) (expo x + k).

(** [n as f32] *)
Definition f32_of_int (n : Z) : dyadic := rnd24 (Dy n 0).
(** Exact scaling by a power of two: the [/ 65536.0], [* 16384.0] ... in the code. *)
Definition f32_scale (x : dyadic) (k : Z) : dyadic := Dy (mant x) (expo x + k).
(** [x + y] in binary32 *)
Definition f32_add (x y : dyadic) : dyadic :=
  let e := Z.min (expo x) (expo y) in
  rnd24 (Dy (mant x * 2 ^ (expo x - e) + mant y * 2 ^ (expo y - e)) e).
(** [x.floor()] as an integer *)
Definition f32_floor (x : dyadic) : Z :=
  if 0 <=? expo x then mant x * 2 ^ expo x else mant x / 2 ^ (- expo x).
(** [as i32] on a float saturates. *)
Definition sat_i32 (z : Z) : Z := Z.max (- 2 ^ 31) (Z.min (2 ^ 31 - 1) z).

(** types.rs:70-75.  [value.into() as f32] widens to f64 and narrows back. *)
Definition ot_round (x : dyadic) : Z := sat_i32 (f32_floor (f32_add x (Dy 1 (-1)))).

(** types.rs:81-83 *)
Definition fixed_from_packed (p : Z) : dyadic := f32_scale (f32_of_int p) (-16).
(** types.rs:78-80 *)
Definition fixed_as_packed (x : dyadic) : Z := ot_round (f32_scale x 16).
(** types.rs:89-97 *)
Definition ser_fixed (x : dyadic) : list Z := ser_i32 (fixed_as_packed x).
(** types.rs:98-103 *)
Definition de_fixed : parser dyadic := p <-- de_i32 ;; pret (fixed_from_packed p).

(** types.rs:123-125 *)
Definition f2dot14_from_packed (p : Z) : dyadic := f32_scale (f32_of_int p) (-14).
(** types.rs:120-122 *)
Definition f2dot14_as_packed (x : dyadic) : option Z := try_i 16 (ot_round (f32_scale x 14)).
(** types.rs:159-169 *)
Definition ser_f2dot14 (x : dyadic) : res (list Z) :=
  match f2dot14_as_packed x with Some p => Ok (ser_i16 p) | None => Err end.
(** types.rs:170-175 *)
Definition de_f2dot14 : parser dyadic := p <-- de_i16 ;; pret (f2dot14_from_packed p).

(** Further binary32 operations, see MFixed.v and MFloat.v. *)
From Verif.Model Require Import MBase MFixed MFloat.

(** [a * b], [a - b] in binary32 *)
Definition f32_mul (x y : dyadic) : dyadic := rnd24 (dy_mul x y).
Definition f32_sub (x y : dyadic) : dyadic := rnd24 (dy_sub x y).
(** The quotient with at least [p + 2] bits and a last bit that tells whether
    something was cut off: rounding it to [p] bits rounds the exact quotient.
    The divisor is not 0. *)
Definition dy_quot (p : Z) (x y : dyadic) : dyadic :=
  let k := Z.max 0 (p + 2 + Z.log2 (Z.abs (mant y)) - Z.log2 (Z.abs (mant x))) in
  let n := Z.abs (mant x) * 2 ^ k in
  let d := Z.abs (mant y) in
  let sticky := if n mod d =? 0 then 0 else 1 in
  Dy (Z.sgn (mant x) * Z.sgn (mant y) * (2 * (n / d) + sticky)) (expo x - expo y - k - 1).
(** [a / b] in binary32 and binary64, for [b <> 0] *)
Definition f32_div (x y : dyadic) : dyadic := rnd24 (dy_quot 24 x y).
Definition f64_div (x y : dyadic) : dyadic := rnd53 (dy_quot 53 x y).

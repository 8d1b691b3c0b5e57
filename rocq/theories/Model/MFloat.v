(** Floating point arithmetic (f32 / f64) as used by the code base.

    A finite float is a dyadic rational; every operation is computed exactly
    and rounded to the significand width of the type (round to nearest, ties
    to even).  Not modelled: exponent overflow (infinities), subnormal
    rounding, NaN, and the sign of zero. *)
From Verif.Model Require Import MBase MFixed.

Definition rndp (p : Z) (x : dyadic) : dyadic :=
  let k := Z.log2 (Z.abs (mant x)) - (p - 1) in
  if k <=? 0 then x else Dy (rne_shift (mant x) k) (expo x + k).
Definition rnd53 := rndp 53.

(** Exact operations. *)
Definition dy_at (e : Z) (x : dyadic) : Z := mant x * 2 ^ (expo x - e).
Definition dy_add (x y : dyadic) : dyadic :=
  let e := Z.min (expo x) (expo y) in Dy (dy_at e x + dy_at e y) e.
Definition dy_neg (x : dyadic) : dyadic := Dy (- mant x) (expo x).
Definition dy_sub (x y : dyadic) : dyadic := dy_add x (dy_neg y).
Definition dy_mul (x y : dyadic) : dyadic := Dy (mant x * mant y) (expo x + expo y).
Definition dy_abs (x : dyadic) : dyadic := Dy (Z.abs (mant x)) (expo x).
Definition dy_compare (x y : dyadic) : comparison :=
  let e := Z.min (expo x) (expo y) in (dy_at e x ?= dy_at e y).
Definition dy_ltb (x y : dyadic) : bool := match dy_compare x y with Lt => true | _ => false end.
Definition dy_leb (x y : dyadic) : bool := match dy_compare x y with Gt => false | _ => true end.
Definition dy_eqb (x y : dyadic) : bool := match dy_compare x y with Eq => true | _ => false end.
Definition dy_of_Z (n : Z) : dyadic := Dy n 0.

(** Rounded binary64 operations. *)
Definition f64_add (x y : dyadic) : dyadic := rnd53 (dy_add x y).
Definition f64_sub (x y : dyadic) : dyadic := rnd53 (dy_sub x y).
Definition f64_mul (x y : dyadic) : dyadic := rnd53 (dy_mul x y).
(** [f64::min] / [f64::max] (no NaN) *)
Definition dy_min (x y : dyadic) : dyadic := if dy_leb x y then x else y.
Definition dy_max (x y : dyadic) : dyadic := if dy_leb x y then y else x.

(** [x.trunc()] as an integer *)
Definition dy_trunc (x : dyadic) : Z :=
  if 0 <=? expo x then mant x * 2 ^ expo x else Z.quot (mant x) (2 ^ (- expo x)).
(** [x.floor()] as an integer *)
Definition dy_floor (x : dyadic) : Z :=
  if 0 <=? expo x then mant x * 2 ^ expo x else mant x / 2 ^ (- expo x).
(** [x.round()]: half away from zero *)
Definition dy_round (x : dyadic) : Z :=
  if 0 <=? expo x then mant x * 2 ^ expo x
  else Z.sgn (mant x) * ((2 * Z.abs (mant x) + 2 ^ (- expo x)) / (2 * 2 ^ (- expo x))).
(** saturating float-to-integer casts *)
Definition sat (bits z : Z) : Z := Z.max (- 2 ^ (bits - 1)) (Z.min (2 ^ (bits - 1) - 1) z).
(** [x as i16], [x as i8] *)
Definition f_as_i16 (x : dyadic) : Z := sat 16 (dy_trunc x).
Definition f_as_i8 (x : dyadic) : Z := sat 8 (dy_trunc x).

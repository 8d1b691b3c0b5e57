(** The number a finite float denotes. *)
From Coq Require Import QArith.
From Verif.Model Require Import MBase MFixed MFloat.

Definition val (x : dyadic) : Q := (inject_Z (mant x) * Qpower 2 (expo x))%Q.

(** [q] is a multiple of a power of two by an integer of at most [p] bits:
    the numbers a float with a [p]-bit significand can hold (exponent range
    not considered). *)
Definition representable (p : Z) (q : Q) : Prop :=
  exists m e, (Z.abs m < 2 ^ p)%Z /\ (q == val (Dy m e))%Q.

(** Independent vocabulary for statements about codecs. *)
From Coq Require Import List ZArith.
Import ListNotations.
From Verif.Model Require Import MBase.
Open Scope Z_scope.

(** Value ranges of the primitive field types. *)
Definition in_range (t : prim) (v : Z) : Prop :=
  match t with
  | U8 => 0 <= v <= 255
  | I8 => -128 <= v <= 127
  | U16 => 0 <= v <= 65535
  | I16 => -32768 <= v <= 32767
  | U32 => 0 <= v <= 4294967295
  | I32 => -2147483648 <= v <= 2147483647
  | I64 => -9223372036854775808 <= v <= 9223372036854775807
  end.

Definition width (t : prim) : nat :=
  match t with U8 | I8 => 1 | U16 | I16 => 2 | U32 | I32 => 4 | I64 => 8 end.

Definition is_byte (b : Z) : Prop := 0 <= b <= 255.

(** [big_endian bs v]: the bytes [bs] are the big-endian digits of [v]
    modulo 256^(number of bytes). *)
Fixpoint digits_value (bs : list Z) : Z :=
  match bs with
  | [] => 0
  | b :: bs' => b * 256 ^ Z.of_nat (length bs') + digits_value bs'
  end.
Definition big_endian (bs : list Z) (v : Z) : Prop :=
  Forall is_byte bs /\ exists k, v = digits_value bs + k * 256 ^ Z.of_nat (length bs).

(** [reads_back p bs a]: wherever the bytes [bs] occur in a buffer, parsing at
    their start gives [a] and stops right after them. *)
Definition reads_back {A} (p : parser A) (bs : list Z) (a : A) : Prop :=
  forall pre post stk,
    p (mkrd (pre ++ bs ++ post) (length pre) stk)
    = Ok (a, mkrd (pre ++ bs ++ post) (length pre + length bs) stk).

(** Strictly increasing lists of integers (keys of an ordered map or set). *)
Fixpoint increasing (l : list Z) : Prop :=
  match l with
  | a :: ((b :: _) as l') => a < b /\ increasing l'
  | _ => True
  end.

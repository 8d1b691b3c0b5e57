(** Bit-set helpers: crates/otspec/src/utils.rs *)
From Verif.Model Require Import MBase.

(** utils.rs:2-8.  [1 << flag] on u32: shifting by 32 or more overflows. *)
Fixpoint int_list_to_num_loop (l : list Z) (flags : Z) : res Z :=
  match l with
  | [] => Ok flags
  | f :: l' =>
      if f <? 32 then int_list_to_num_loop l' (Z.lor flags (Z.shiftl 1 f)) else Panic
  end.
Definition int_list_to_num (l : list Z) : res Z := int_list_to_num_loop l 0.

(** utils.rs:11-15.  [2_u32.pow(x - low)] overflows for exponents of 32 or more,
    and the [sum] is overflow-checked. *)
Fixpoint filtered_sum (l : list Z) (low high acc : Z) : res Z :=
  match l with
  | [] => Ok acc
  | x :: l' =>
      if (low <=? x) && (x <=? high) then
        p <- chk_u 32 (2 ^ (x - low)) ;;
        a <- chk_u 32 (acc + p) ;;
        filtered_sum l' low high a
      else filtered_sum l' low high acc
  end.
Definition filtered_bitset_to_num (l : list Z) (low high : Z) : res Z := filtered_sum l low high 0.

(** utils.rs:18-31 *)
Definition is_all_the_same {A} (eqb : A -> A -> bool) (l : list A) : bool :=
  match l with
  | [] => true
  | x :: l' => forallb (fun y => eqb x y) l'
  end.

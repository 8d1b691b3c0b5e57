(** Tags: crates/otspec/src/tag.rs *)
From Verif.Model Require Import MBase.

(** tag.rs:75-79 *)
Inductive invalid_tag := InvalidLength (n : nat) | InvalidByte (pos : nat) (byte : Z).

Inductive tag_result := TagOk (t : list Z) | TagErr (e : invalid_tag).

(** tag.rs:35: the test in the closure of [position] *)
Definition printable (b : Z) : bool := (0x20 <=? b) && (b <=? 0x7E).

(** [iter().position(...)] *)
Fixpoint position_not (f : Z -> bool) (l : list Z) (i : nat) : option (nat * Z) :=
  match l with
  | [] => None
  | b :: l' => if f b then position_not f l' (S i) else Some (i, b)
  end.

(** tag.rs:30-46.  A tag is its four bytes. *)
Definition tag_from_raw (src : list Z) : tag_result :=
  if (length src =? 0)%nat || (4 <? length src)%nat then TagErr (InvalidLength (length src))
  else match position_not printable src 0 with
       | Some (pos, byte) => TagErr (InvalidByte pos byte)
       | None => TagOk (src ++ repeat 0x20 (4 - length src))
       end.

(** tag.rs:133-144 *)
Definition ser_tag (t : list Z) : list Z := concat (map ser_u8 t).

(** tag.rs:146-151 *)
Definition de_tag : parser (list Z) := fun r =>
  match consume r 4 with
  | Ok (bs, r') => match tag_from_raw bs with TagOk t => Ok (t, r') | TagErr _ => Err end
  | Err => Err
  | Panic => Panic
  end.

(** derived [Ord] on [[u8;4]]: lexicographic *)
Fixpoint lex_ltb (a b : list Z) : bool :=
  match a, b with
  | [], _ :: _ => true
  | x :: a', y :: b' => (x <? y) || ((x =? y) && lex_ltb a' b')
  | _, _ => false
  end.
Fixpoint bytes_eqb (a b : list Z) : bool :=
  match a, b with
  | [], [] => true
  | x :: a', y :: b' => (x =? y) && bytes_eqb a' b'
  | _, _ => false
  end.

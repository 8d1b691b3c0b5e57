(** Basic vocabulary of the model: results, integer casts, the reader context
    and the primitive big-endian codecs of the [otspec] crate. *)
From Coq Require Export List ZArith Bool Arith.
Export ListNotations.
Open Scope Z_scope.

(** Outcome of a Rust computation.
    [Err]   : Err(SerializationError / DeserializationError), message dropped;
    [Panic] : any abort (unwrap, index out of range, assert, overflow in the
              debug profile, unimplemented!). *)
Inductive res (A : Type) : Type :=
| Ok (a : A)
| Err
| Panic.
Arguments Ok {A} a.
Arguments Err {A}.
Arguments Panic {A}.

Definition rbind {A B} (x : res A) (f : A -> res B) : res B :=
  match x with Ok a => f a | Err => Err | Panic => Panic end.
Notation "x <- e ;; f" := (rbind e (fun x => f))
  (at level 61, e at next level, right associativity).
Notation "' p <- e ;; f" := (rbind e (fun p => f))
  (at level 61, p pattern, e at next level, right associativity).

Definition rmap {A B} (f : A -> B) (x : res A) : res B :=
  match x with Ok a => Ok (f a) | Err => Err | Panic => Panic end.

(** [Option::unwrap] / [expect]. *)
Definition unwrap {A} (o : option A) : res A :=
  match o with Some a => Ok a | None => Panic end.

(** A Rust collect() of fallible items: stops at the first failure. *)
Fixpoint rmapM {A B} (f : A -> res B) (l : list A) : res (list B) :=
  match l with
  | [] => Ok []
  | x :: xs => y <- f x ;; ys <- rmapM f xs ;; Ok (y :: ys)
  end.

(** ** Integer types and casts *)

(** [z as uN] *)
Definition wrap_u (bits : Z) (z : Z) : Z := z mod 2 ^ bits.
(** [z as iN] (two's complement) *)
Definition wrap_i (bits : Z) (z : Z) : Z :=
  let u := z mod 2 ^ bits in
  if u <? 2 ^ (bits - 1) then u else u - 2 ^ bits.

Definition u8 := wrap_u 8.
Definition u16 := wrap_u 16.
Definition u32 := wrap_u 32.
Definition i8 := wrap_i 8.
Definition i16 := wrap_i 16.
Definition i32 := wrap_i 32.

(** Checked results: overflow of [+], [-], [*] at a given type (debug profile). *)
Definition chk_u (bits : Z) (z : Z) : res Z :=
  if (0 <=? z) && (z <? 2 ^ bits) then Ok z else Panic.
Definition chk_i (bits : Z) (z : Z) : res Z :=
  if (- 2 ^ (bits - 1) <=? z) && (z <? 2 ^ (bits - 1)) then Ok z else Panic.

(** [try_into] to a narrower unsigned type. *)
Definition try_u (bits : Z) (z : Z) : option Z :=
  if (0 <=? z) && (z <? 2 ^ bits) then Some z else None.
Definition try_i (bits : Z) (z : Z) : option Z :=
  if (- 2 ^ (bits - 1) <=? z) && (z <? 2 ^ (bits - 1)) then Some z else None.

(** ** The reader context: crates/otspec/src/lib.rs:26-92 *)

Record rd : Type := mkrd { rd_input : list Z; rd_ptr : nat; rd_stack : list nat }.

(** lib.rs:33-39 *)
Definition rd_new (input : list Z) : rd := mkrd input 0 [0%nat].

(** lib.rs:41-55.  [usize] overflow of ptr + bytes is not modelled. *)
Definition consume_or_peek (r : rd) (n : nat) (consume : bool) : res (list Z * rd) :=
  if (length (rd_input r) <? rd_ptr r + n)%nat then Err
  else
    let s := firstn n (skipn (rd_ptr r) (rd_input r)) in
    if consume then Ok (s, mkrd (rd_input r) (rd_ptr r + n) (rd_stack r))
    else Ok (s, r).

(** lib.rs:57-59 *)
Definition consume (r : rd) (n : nat) : res (list Z * rd) := consume_or_peek r n true.
(** lib.rs:61-63 *)
Definition peek (r : rd) (n : nat) : res (list Z * rd) := consume_or_peek r n false.
(** lib.rs:65-67; the Vec stack is a list with its top first *)
Definition rd_push (r : rd) : rd := mkrd (rd_input r) (rd_ptr r) (rd_ptr r :: rd_stack r).
(** lib.rs:68-72 *)
Definition rd_pop (r : rd) : res rd :=
  match rd_stack r with
  | [] => Panic
  | _ :: s => Ok (mkrd (rd_input r) (rd_ptr r) s)
  end.
(** lib.rs:73-75 *)
Definition top_of_table (r : rd) : res nat :=
  match rd_stack r with [] => Panic | t :: _ => Ok t end.
(** lib.rs:76-78 *)
Definition rd_skip (r : rd) (n : nat) : rd := mkrd (rd_input r) (rd_ptr r + n) (rd_stack r).
(** lib.rs:80-91 *)
Definition follow_offset (r : rd) (offset : Z) : res rd :=
  top <- top_of_table r ;;
  let dest := (top + Z.to_nat offset)%nat in
  if (length (rd_input r) <? dest)%nat then Err
  else Ok (mkrd (rd_input r) dest (rd_stack r)).

(** A deserializer: [Deserialize::from_bytes] (lib.rs:168-172).  On [Err] the
    reader position is not returned; callers in the code base that continue
    after an error are modelled explicitly. *)
Definition parser (A : Type) : Type := rd -> res (A * rd).
Definition pret {A} (a : A) : parser A := fun r => Ok (a, r).
Definition pbind {A B} (p : parser A) (f : A -> parser B) : parser B :=
  fun r => match p r with Ok (a, r') => f a r' | Err => Err | Panic => Panic end.
Definition perr {A} : parser A := fun _ => Err.
Definition ppanic {A} : parser A := fun _ => Panic.
Definition plift {A} (x : res A) : parser A :=
  fun r => match x with Ok a => Ok (a, r) | Err => Err | Panic => Panic end.
Notation "x <-- p ;; f" := (pbind p (fun x => f))
  (at level 61, p at next level, right associativity).

Definition pskip (n : nat) : parser unit := fun r => Ok (tt, rd_skip r n).

(** ** Primitive codecs: lib.rs:174-206 (macro otspec_primitive!) *)

Inductive prim := I8 | U8 | U16 | U32 | I16 | I32 | I64.

(** mem::size_of::<$t>() *)
Definition prim_width (t : prim) : nat :=
  match t with I8 | U8 => 1 | U16 | I16 => 2 | U32 | I32 => 4 | I64 => 8 end%nat.
Definition prim_signed (t : prim) : bool :=
  match t with I8 | I16 | I32 | I64 => true | U8 | U16 | U32 => false end.

(** [to_be_bytes]: the [n] low base-256 digits of [v], most significant first. *)
Fixpoint be_bytes (n : nat) (v : Z) : list Z :=
  match n with
  | O => []
  | S k => (v / 256 ^ Z.of_nat k) mod 256 :: be_bytes k v
  end.
(** [from_be_bytes] on unsigned integers. *)
Definition be_value (l : list Z) : Z := fold_left (fun a b => a * 256 + b) l 0.

(** lib.rs:176-185 *)
Definition ser_prim (t : prim) (v : Z) : list Z := be_bytes (prim_width t) v.
(** lib.rs:187-196 *)
Definition de_prim (t : prim) : parser Z := fun r =>
  match consume r (prim_width t) with
  | Ok (bs, r') =>
      let v := be_value bs in
      Ok ((if prim_signed t then wrap_i (8 * Z.of_nat (prim_width t)) v else v), r')
  | Err => Err
  | Panic => Panic
  end.

Definition ser_u8 := ser_prim U8.
Definition ser_i8 := ser_prim I8.
Definition ser_u16 := ser_prim U16.
Definition ser_i16 := ser_prim I16.
Definition ser_u32 := ser_prim U32.
Definition ser_i32 := ser_prim I32.
Definition ser_i64 := ser_prim I64.
Definition de_u8 := de_prim U8.
Definition de_i8 := de_prim I8.
Definition de_u16 := de_prim U16.
Definition de_i16 := de_prim I16.
Definition de_u32 := de_prim U32.
Definition de_i32 := de_prim I32.
Definition de_i64 := de_prim I64.

(** lib.rs:125-132: [de_counted] reads [n] items, stopping at the first error. *)
Fixpoint de_counted {A} (p : parser A) (n : nat) : parser (list A) :=
  match n with
  | O => pret []
  | S k => x <-- p ;; xs <-- de_counted p k ;; pret (x :: xs)
  end.

(** lib.rs:267-283: [Vec<T>::from_bytes] reads items until one fails; it never
    fails itself.  The loop is bounded by the remaining input: the fuel is the
    number of remaining bytes plus one, enough because every item type used
    with it consumes at least one byte (see [de_vec_fuel] in the proofs).
    Simplification: the position after the loop is that of the last
    successful item (the code may leave it inside the failed one; nothing is
    read after such a Vec). *)
Fixpoint de_vec_fuel {A} (p : parser A) (fuel : nat) : parser (list A) := fun r =>
  match fuel with
  | O => Ok ([], r)
  | S k =>
      match p r with
      | Ok (x, r') =>
          match de_vec_fuel p k r' with
          | Ok (xs, r'') => Ok (x :: xs, r'')
          | Err => Err
          | Panic => Panic
          end
      | Err => Ok ([], r)
      | Panic => Panic
      end
  end.
Definition de_vec {A} (p : parser A) : parser (list A) := fun r =>
  de_vec_fuel p (S (length (rd_input r) - rd_ptr r)) r.

(** types.rs:29-40: uint24 *)
Definition ser_u24 (v : Z) : res (list Z) :=
  if v >? 2 ^ 24 - 1 then Err else Ok (be_bytes 3 v).
(** types.rs:54-61.  Three u8 values are read with [de_counted]. *)
Definition de_u24 : parser Z :=
  bs <-- de_counted de_u8 3 ;;
  match bs with
  | [a; b; c] => pret (a * 2 ^ 16 + b * 2 ^ 8 + c)
  | _ => ppanic
  end.

(** counted.rs: a 16-bit element count ([as uint16], so truncated) and the items. *)
Definition ser_counted {A} (ser : A -> res (list Z)) (l : list A) : res (list Z) :=
  bs <- rmapM ser l ;;
  Ok (ser_u16 (u16 (Z.of_nat (length l))) ++ concat bs).
Definition de_counted16 {A} (p : parser A) : parser (list A) :=
  n <-- de_u16 ;; de_counted p (Z.to_nat n).
Definition ser_counted32 {A} (ser : A -> res (list Z)) (l : list A) : res (list Z) :=
  bs <- rmapM ser l ;;
  Ok (ser_u32 (u32 (Z.of_nat (length l))) ++ concat bs).
Definition de_counted32 {A} (p : parser A) : parser (list A) :=
  n <-- de_u32 ;; de_counted p (Z.to_nat n).

(** otspec::de::from_bytes (lib.rs:315-318): parse from the start of a buffer. *)
Definition from_bytes {A} (p : parser A) (data : list Z) : res A :=
  match p (rd_new data) with Ok (a, _) => Ok a | Err => Err | Panic => Panic end.

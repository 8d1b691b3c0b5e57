(** When reading the bytes of a table aborts the program. *)
From Coq Require Import String.
From Verif.Model Require Import MBase MTag MMap MTables MStore MName MPost.
From Verif.Model Require MDerive.
From Verif.Spec Require Import SBase SReader SStore SWhole SName SPost.
Open Scope Z_scope.

(** The number of type [t] at position [k] of the bytes [d]. *)
Definition number_at (t : prim) (d : list Z) (k : nat) (v : Z) : Prop :=
  exists bs, slice d k (width t) bs /\ big_endian bs v /\ in_range t v.

(** Asking a table set for the table [tag] just after its bytes were put there:
    whatever else the set holds, the program aborts exactly if [bad] holds. *)
Definition aborts_iff {T} (K : codecs T) (tag : list Z) (d : list Z) (bad : Prop) : Prop :=
  forall s, fst (ts_get K tag (ts_insert_raw tag d s)) = Panic <-> bad.

(** Tables that are read or refused, whatever their bytes. *)
Definition calm_names : list string := ["avar"; "cvt "; "fpgm"; "gasp"; "hhea"; "maxp"; "OS/2"; "prep"; "STAT"]%string.

(** Seconds since 1904 for which there is no date: the years are -262144 to 262143. *)
Definition no_date (secs : Z) : Prop := secs < -8332550092800 \/ 8212381257599 < secs.
(** The two dates of head are at bytes 20 and 28. *)
Definition head_bad (d : list Z) : Prop :=
  exists k secs, (k = 20%nat \/ k = 28%nat) /\ number_at I64 d k secs /\ no_date secs.

Definition printable_at (d : list Z) (k : nat) : Prop := exists b, nth_error d k = Some b /\ 32 <= b <= 126.
(** fvar: 16383 axes or more, all of them readable, and at least one instance. *)
Definition fvar_bad (d : list Z) : Prop :=
  exists start axes instances, (16 <= length d)%nat /\
    number_at U16 d 4 start /\ number_at U16 d 8 axes /\ number_at U16 d 12 instances /\
    16383 <= axes /\ 1 <= instances /\
    (Z.to_nat start + 20 * Z.to_nat axes <= length d)%nat /\
    forall i j, (i < Z.to_nat axes)%nat -> (j < 4)%nat -> printable_at d (Z.to_nat start + 20 * i + j).

(** name: record [i] of [count] records; its string is inside the table or empty. *)
Definition name_entry (d : list Z) (count : Z) (i : nat) (p e : Z) : Prop :=
  number_at U16 d (6 + 12 * i) p /\ number_at U16 d (8 + 12 * i) e /\
  exists len off, number_at U16 d (14 + 12 * i) len /\ number_at U16 d (16 + 12 * i) off /\
    (len = 0 \/ (6 + 12 * Z.to_nat count + Z.to_nat off + Z.to_nat len <= length d)%nat).
(** All records are there, and the first one that cannot be read is of a kind
    the library does not handle. *)
Definition name_bad (d : list Z) : Prop :=
  exists count i, number_at U16 d 2 count /\ (i < Z.to_nat count)%nat /\ (6 + 12 * Z.to_nat count <= length d)%nat /\
    (exists p e, name_entry d count i p e /\ ~ handled p e) /\
    forall j, (j < i)%nat -> exists p e, name_entry d count j p e /\ handled p e.

(** post: version 2 (also spelled 1 and 160/160), and after the [n] indices a
    number of good names, then either an ill-formed name, or the end and an index
    beyond the names. *)
Definition post_bad (d : list Z) : Prop :=
  exists n ix names rest, (nth_error d 1 = Some 2 /\ nth_error d 2 = Some 0 \/ nth_error d 1 = Some 1 /\ nth_error d 2 = Some 160) /\
    number_at U16 d 32 n /\ length ix = Z.to_nat n /\ (forall i v, nth_error ix i = Some v -> number_at U16 d (34 + 2 * i) v) /\
    (34 + 2 * length ix <= length d)%nat /\
    skipn (34 + 2 * length ix) d = (concat (map pascal names) ++ rest)%list /\ pool_ok names /\ Forall text names /\
    (rest = [] /\ Exists (fun i => 258 + Z.of_nat (length names) <= i) ix \/
     exists name more, rest = (pascal name ++ more)%list /\ Z.of_nat (length name) <= 255 /\ ~ text name).

(** ** Readers made from declarations

    [steady p]: wherever it starts in whatever bytes, [p] reads or refuses; what
    it pushes on the stack of table starts it may leave there, but no more. *)
Definition steady {A} (p : parser A) : Prop := forall r,
  Forall is_byte (rd_input r) -> rd_stack r <> [] ->
  match p r with
  | Ok (_, r') => rd_input r' = rd_input r /\ (List.length (rd_stack r) <= List.length (rd_stack r'))%nat
  | Err => True
  | Panic => False
  end.
(** No dates, 32-bit offsets or optional fields (these cannot be read at all). *)
Fixpoint plain_shape (t : MDerive.shape) : bool :=
  match t with
  | MDerive.Plain MDerive.SDate => false
  | MDerive.Plain _ | MDerive.Foreign _ => true
  | MDerive.Ref w t' => negb w && plain_shape t'
  | MDerive.Many _ t' => plain_shape t'
  | MDerive.Maybe _ => false
  | MDerive.Rec _ fs => forallb (fun f => plain_shape (snd f)) fs
  end.

(** Independent vocabulary for the sfnt container. *)
From Coq Require Import List ZArith.
Import ListNotations.
From Verif.Model Require Import MTag MFont.
From Verif.Spec Require Import SBase SReader.
Open Scope Z_scope.

(** Sum of the big-endian 32-bit words of a zero-padded byte string: byte
    number [i] has weight 256^(3 - i mod 4). *)
Fixpoint word_sum_from (i : nat) (l : list Z) : Z :=
  match l with
  | [] => 0
  | b :: l' => b * 256 ^ (3 - Z.of_nat (i mod 4)) + word_sum_from (S i) l'
  end.
Definition word_sum (l : list Z) : Z := word_sum_from 0 l.

Definition HEAD : list Z := [104; 101; 97; 100].

(** Contents of a table with its four checksum-adjustment bytes replaced. *)
Definition with_adjustment (w : list Z) (d : list Z) : list Z :=
  firstn 8 d ++ w ++ skipn 12 d.
(** ... only for the head table. *)
Definition adjusted (w : list Z) (td : list Z * list Z) : list Z * list Z :=
  (fst td, if list_eq_dec Z.eq_dec (fst td) HEAD then with_adjustment w (snd td) else snd td).

(** A directory entry at byte position [12 + 16 i]. *)
Definition entry_at (file : list Z) (i : nat) (tag : list Z) (cs off len : Z) : Prop :=
  exists c o l, slice file (12 + 16 * i) 16 (tag ++ c ++ o ++ l) /\
    length c = 4%nat /\ length o = 4%nat /\ length l = 4%nat /\
    digits_value c = cs /\ digits_value o = off /\ digits_value l = len.

Definition tags_increasing (tags : list (list Z)) : Prop :=
  forall i j a b, (i < j)%nat -> nth_error tags i = Some a -> nth_error tags j = Some b ->
    lex_ltb a b = true.

(** A tag: four printable ASCII bytes. *)
Definition printable_tag (t : list Z) : Prop :=
  length t = 4%nat /\ Forall (fun b => 32 <= b <= 126) t.

(** Tables as (tag, bytes) pairs that a font can hold. *)
Definition good_tabs (tabs : list (list Z * list Z)) : Prop :=
  Forall (fun td => printable_tag (fst td) /\ Forall is_byte (snd td)) tabs.

(** The 16 bytes at [pos] are the directory entry [r]. *)
Definition rec_at (file : list Z) (pos : nat) (r : table_record) : Prop :=
  printable_tag (tr_tag r) /\
  exists c o l, slice file pos 16 (tr_tag r ++ c ++ o ++ l) /\
    length c = 4%nat /\ length o = 4%nat /\ length l = 4%nat /\
    digits_value c = tr_checksum r /\ digits_value o = tr_offset r /\ digits_value l = tr_length r.

(** [file] starts with a complete, well-formed table directory of flavour [v]
    with the entries [trs]. *)
Definition directory (file : list Z) (v : Z) (trs : list table_record) : Prop :=
  (v = 0x00010000 \/ v = 0x4F54544F) /\
  (exists b, slice file 0 4 b /\ digits_value b = v) /\
  (exists b, slice file 4 2 b /\ digits_value b = Z.of_nat (length trs)) /\
  (12 <= length file)%nat /\
  forall i tr, nth_error trs i = Some tr -> rec_at file (12 + 16 * i) tr.

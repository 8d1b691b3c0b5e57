(** What opening a font file finds in it. *)
From Coq Require Import List ZArith.
Import ListNotations.
From Verif.Model Require Import MFont.
From Verif.Spec Require Import SReader.
Open Scope Z_scope.

(** The directory entry number [i] stands for the table [t]: of the entries with
    that tag it has the highest offset, and is the last of those. *)
Definition stands_for (trs : list table_record) (t : list Z) (i : nat) (tr : table_record) : Prop :=
  nth_error trs i = Some tr /\ tr_tag tr = t /\
  forall j tr', nth_error trs j = Some tr' -> tr_tag tr' = t ->
    tr_offset tr' < tr_offset tr \/ (tr_offset tr' = tr_offset tr /\ (j <= i)%nat).
(** The bytes of table [t] are [d]. *)
Definition table_bytes (file : list Z) (trs : list table_record) (t d : list Z) : Prop :=
  exists i tr, stands_for trs t i tr /\ slice file (Z.to_nat (tr_offset tr)) (Z.to_nat (tr_length tr)) d.
Definition no_entry (trs : list table_record) (t : list Z) : Prop := forall tr, In tr trs -> tr_tag tr <> t.
Definition inside (file : list Z) (tr : table_record) : Prop := tr_offset tr + tr_length tr <= Z.of_nat (length file).

(** C44: the offset manager. *)
From Coq Require Import List ZArith Lia.
Import ListNotations.
From Verif.Model Require Import MBase MOffset.
From Verif.Spec Require Import SOffset.
From Verif.Proofs Require Import PBase POffset PPart.
Open Scope Z_scope.

(** Whatever is written holds the object at its start, and every offset leads
    to a place where its target is stored; nothing else is written. *)
Theorem C44_every_object_where_its_offset_says : forall o out,
  Z.of_nat (total o) < 2 ^ 32 -> to_bytes o = Ok out ->
  stored (2 ^ 32) out 0 0 o /\ length out = total o.
Proof. intros o out Ht H. split; [now apply to_bytes_stored|now apply to_bytes_length]. Qed.

(** An object of at most 65535 bytes in all can be written. *)
Theorem C44_small_objects_written : forall o,
  Z.of_nat (total o) < 65536 -> exists out, to_bytes o = Ok out.
Proof. exact to_bytes_ok. Qed.

(** Exactly the objects whose offsets can hold the distances they have to hold
    can be written. *)
Theorem C44_written_iff : forall o, Z.of_nat (total o) < 2 ^ 32 ->
  ((exists out, to_bytes o = Ok out) <-> reachable o).
Proof. exact to_bytes_iff. Qed.

(** What is written is read back by following the offsets. *)
Theorem C44_read_back : forall o out,
  bytes_ok o = true -> Z.of_nat (total o) < 2 ^ 32 ->
  short_offsets o = true \/ Z.of_nat (total o) < 65536 ->
  to_bytes o = Ok out -> from_bytes (read_like o) out = Ok o.
Proof. intros o out Hb Ht Hn H. eapply to_bytes_read; eauto. now apply read_like_decodes. Qed.

(** Reading does not depend on how the objects are arranged in the file. *)
Theorem C44_every_arrangement_read : forall o buf,
  bytes_ok o = true -> stored 65536 buf 0 0 o -> from_bytes (read_like o) buf = Ok o.
Proof. intros o buf Hb S. eapply stored_read; [exact S|now apply read_like_decodes]. Qed.

(** The example of the offset manager's documentation, and an embedded array. *)
Definition three (v : Z) : obj := raw (ser_u16 v).
Definition two (k : Z) : obj := raw (ser_u16 10) ++ [IRef Off16 (Some (three k))] ++ raw (ser_u16 11).
Definition one : obj :=
  raw (ser_u16 1) ++ [IRef Off16 (Some (two 4112))] ++ raw (ser_u16 43707) ++ [IRef Off16 (Some (three 8224))].
Example C44_example : to_bytes one =
  Ok [0;1; 0;8; 170;187; 0;16; 0;10; 0;6; 0;11; 16;16; 32;32].
Proof. vm_compute. reflexivity. Qed.
Example C44_example_array :
  to_bytes (raw (ser_u16 1) ++ [IGroup (raw (ser_u16 2) ++ [IGroup (two 4112); IGroup (two 8224)])]) =
  Ok [0;1; 0;2; 0;10; 0;16; 0;11; 0;10; 0;18; 0;11; 16;16; 32;32].
Proof. vm_compute. reflexivity. Qed.
(** A shared target, in an arrangement the writer never produces, is readable. *)
Example C44_example_shared :
  let o := [IRef Off16 (Some (three 5)); IRef Off16 (Some (three 5))] in
  stored 65536 [0;5; 0;5; 99; 0;5] 0 0 o /\ bytes_ok o = true /\ from_bytes (read_like o) [0;5; 0;5; 99; 0;5] = Ok o.
Proof.
  split; [|vm_compute; split; reflexivity].
  assert (T: stored 65536 [0;5; 0;5; 99; 0;5] 5 5 (three 5)).
  { change (three 5) with [IB 0; IB 5].
    apply st_byte; [exists [0;5;0;5;99], [5]; split; reflexivity|].
    apply st_byte; [exists [0;5;0;5;99;0], []; split; reflexivity|]. apply st_nil. cbn. lia. }
  apply st_link with 5; [cbn; lia|cbn; lia|exists [], [0;5;99;0;5]; split; reflexivity|exact T|].
  apply st_link with 5; [cbn; lia|cbn; lia|exists [0;5], [99;0;5]; split; reflexivity|exact T|].
  apply st_nil. cbn. lia.
Qed.
(** A 16-bit offset that cannot reach its target is an error, not a wrapped
    number. *)
Example C44_example_too_far :
  let big := repeat (IB 0) (Z.to_nat 65534) in
  to_bytes [IRef Off16 (Some big); IRef Off16 (Some (three 5))] = Err.
Proof. vm_compute. reflexivity. Qed.

Print Assumptions C44_every_object_where_its_offset_says.
Print Assumptions C44_small_objects_written.
Print Assumptions C44_read_back.
Print Assumptions C44_every_arrangement_read.
Print Assumptions C44_written_iff.

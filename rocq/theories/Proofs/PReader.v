From Verif.Proofs Require Import PBase.
From Verif.Model Require Import MReader.
From Verif.Spec Require Import SReader.

Lemma nth_error_firstn_lt {A} (l : list A) n i : (i < n)%nat -> nth_error (firstn n l) i = nth_error l i.
Proof.
  revert l i; induction n as [|n IH]; intros l i Hi; [lia|].
  destruct l; [reflexivity|]. destruct i; cbn; [reflexivity|]. apply IH; lia.
Qed.
Lemma nth_error_skipn {A} (l : list A) n i : nth_error (skipn n l) i = nth_error l (n + i).
Proof.
  revert l; induction n as [|n IH]; intros l; [reflexivity|].
  destruct l; cbn [skipn plus nth_error]; [destruct i; reflexivity|]. apply IH.
Qed.

Lemma slice_firstn buf pos n : (pos + n <= length buf)%nat ->
  slice buf pos n (firstn n (skipn pos buf)).
Proof.
  intros H. repeat split; [|exact H|].
  - rewrite firstn_length, skipn_length. lia.
  - intros i Hi. rewrite nth_error_firstn_lt by lia. apply nth_error_skipn.
Qed.

Lemma rrun_trace buf ops : forall pos bases,
  cursor_trace buf pos bases ops (rrun (mkrd buf pos bases) ops).
Proof.
  induction ops as [|o ops IH]; intros pos bases; cbn [rrun]; [constructor|].
  destruct o as [n|n|n| | |off]; cbn [rstep].
  - unfold consume, consume_or_peek; cbn [rd_input rd_ptr rd_stack].
    destruct (Nat.ltb_spec (length buf) (pos + n)).
    + now apply ct_read_eof.
    + apply ct_read; [now apply slice_firstn|apply IH].
  - unfold peek, consume_or_peek; cbn [rd_input rd_ptr rd_stack].
    destruct (Nat.ltb_spec (length buf) (pos + n)).
    + now apply ct_peek_eof.
    + apply ct_peek; [now apply slice_firstn|apply IH].
  - apply ct_skip, IH.
  - apply ct_push, IH.
  - unfold rd_pop; cbn [rd_stack]. destruct bases; [constructor|]. apply ct_pop, IH.
  - unfold follow_offset, top_of_table; cbn [rd_stack rd_input].
    destruct bases as [|b bases]; cbn [rbind]; [constructor|].
    destruct (Nat.ltb_spec (length buf) (b + Z.to_nat off)).
    + apply ct_follow_off_end; [lia|apply IH].
    + apply ct_follow; [lia|apply IH].
Qed.

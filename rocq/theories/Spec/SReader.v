(** Independent specification of a bounds-checked cursor over a fixed buffer. *)
From Coq Require Import List ZArith.
Import ListNotations.
From Verif.Model Require Import MReader.

(** [slice buf pos n bs]: [bs] is exactly the [n] bytes of [buf] at [pos]. *)
Definition slice (buf : list Z) (pos n : nat) (bs : list Z) : Prop :=
  length bs = n /\ (pos + n <= length buf)%nat /\
  forall i, (i < n)%nat -> nth_error bs i = nth_error buf (pos + i).

(** [cursor_trace buf pos bases ops outs]: starting at [pos], with the stack
    [bases] of table starts (innermost first), the operations [ops] give the
    outcomes [outs]. *)
Inductive cursor_trace (buf : list Z) : nat -> list nat -> list rop -> list rout -> Prop :=
| ct_nil pos bases : cursor_trace buf pos bases [] []
| ct_read pos bases n bs ops outs :
    slice buf pos n bs ->
    cursor_trace buf (pos + n) bases ops outs ->
    cursor_trace buf pos bases (OpRead n :: ops) (OutBytes bs :: outs)
| ct_read_eof pos bases n ops outs :
    (length buf < pos + n)%nat ->
    cursor_trace buf pos bases ops outs ->
    cursor_trace buf pos bases (OpRead n :: ops) (OutErr :: outs)
| ct_peek pos bases n bs ops outs :
    slice buf pos n bs ->
    cursor_trace buf pos bases ops outs ->
    cursor_trace buf pos bases (OpPeek n :: ops) (OutBytes bs :: outs)
| ct_peek_eof pos bases n ops outs :
    (length buf < pos + n)%nat ->
    cursor_trace buf pos bases ops outs ->
    cursor_trace buf pos bases (OpPeek n :: ops) (OutErr :: outs)
| ct_skip pos bases n ops outs :
    cursor_trace buf (pos + n) bases ops outs ->
    cursor_trace buf pos bases (OpSkip n :: ops) (OutUnit :: outs)
| ct_push pos bases ops outs :
    cursor_trace buf pos (pos :: bases) ops outs ->
    cursor_trace buf pos bases (OpPush :: ops) (OutUnit :: outs)
| ct_pop pos b bases ops outs :
    cursor_trace buf pos bases ops outs ->
    cursor_trace buf pos (b :: bases) (OpPop :: ops) (OutUnit :: outs)
| ct_pop_unbalanced pos ops :
    cursor_trace buf pos [] (OpPop :: ops) [OutPanic]
| ct_follow pos b bases off ops outs :
    (b + Z.to_nat off <= length buf)%nat ->
    cursor_trace buf (b + Z.to_nat off) (b :: bases) ops outs ->
    cursor_trace buf pos (b :: bases) (OpFollow off :: ops) (OutUnit :: outs)
| ct_follow_off_end pos b bases off ops outs :
    (length buf < b + Z.to_nat off)%nat ->
    cursor_trace buf pos (b :: bases) ops outs ->
    cursor_trace buf pos (b :: bases) (OpFollow off :: ops) (OutErr :: outs)
| ct_follow_unbalanced pos off ops :
    cursor_trace buf pos [] (OpFollow off :: ops) [OutPanic].

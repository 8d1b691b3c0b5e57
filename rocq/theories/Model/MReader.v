(** Histories of operations on a [ReaderContext] (crates/otspec/src/lib.rs:26-92). *)
From Verif.Model Require Import MBase.

Inductive rop := OpRead (n : nat) | OpPeek (n : nat) | OpSkip (n : nat)
               | OpPush | OpPop | OpFollow (offset : Z).
Inductive rout := OutBytes (bs : list Z) | OutUnit | OutErr | OutPanic.

(** One call on the context (lib.rs:57-91).  The reader after a failed call is
    the reader before it: [consume_or_peek] and [follow_offset] only assign
    [ptr] on their success paths. *)
Definition rstep (r : rd) (o : rop) : rout * rd :=
  match o with
  | OpRead n => match consume r n with Ok (bs, r') => (OutBytes bs, r') | Err => (OutErr, r) | Panic => (OutPanic, r) end
  | OpPeek n => match peek r n with Ok (bs, r') => (OutBytes bs, r') | Err => (OutErr, r) | Panic => (OutPanic, r) end
  | OpSkip n => (OutUnit, rd_skip r n)
  | OpPush => (OutUnit, rd_push r)
  | OpPop => match rd_pop r with Ok r' => (OutUnit, r') | Err => (OutErr, r) | Panic => (OutPanic, r) end
  | OpFollow off => match follow_offset r off with Ok r' => (OutUnit, r') | Err => (OutErr, r) | Panic => (OutPanic, r) end
  end.

(** A history: stops at a panic. *)
Fixpoint rrun (r : rd) (ops : list rop) : list rout :=
  match ops with
  | [] => []
  | o :: ops' =>
      match rstep r o with
      | (OutPanic, _) => [OutPanic]
      | (out, r') => out :: rrun r' ops'
      end
  end.

(** Which bytes make reading the outline of a glyph abort the program. *)
From Verif.Model Require Import MBase.
From Verif.Spec Require Import SBase SReader SCalm SStop.
Open Scope Z_scope.

Definition is_short (v : Z) : Prop := -32768 <= v <= 32767.

(** [flagged d q n fl q']: from [q] on there are flags for at least [n] points,
    each either alone or, if its bit 3 is set, followed by the number of its
    repetitions; spelled out they are [fl], and [q'] is behind them. *)
Inductive flagged (d : list Z) : nat -> nat -> list Z -> nat -> Prop :=
| flagged_none q : flagged d q 0 [] q
| flagged_once q n f fl q' : number_at U8 d q f -> Z.testbit f 3 = false ->
    flagged d (q + 1) n fl q' -> flagged d q (S n) (f :: fl) q'
| flagged_often q n f times fl q' : number_at U8 d q f -> Z.testbit f 3 = true -> number_at U8 d (q + 1) times ->
    flagged d (q + 2) (n - Z.to_nat times) fl q' -> flagged d q (S n) (repeat f (S (Z.to_nat times)) ++ fl) q'.

(** The step in one direction that belongs to a flag, at [q]: a byte if the bit
    [short] is set, with the sign that bit [same] says; else nothing if that
    bit is set; else a 16-bit number. *)
Definition step_at (d : list Z) (short same : Z) (q : nat) (f v : Z) : Prop :=
  if Z.testbit f short then exists b, number_at U8 d q b /\ v = (if Z.testbit f same then b else - b)
  else if Z.testbit f same then v = 0 else number_at I16 d q v.
Definition step_size (short same f : Z) : nat :=
  if Z.testbit f short then 1 else if Z.testbit f same then 0 else 2.
(** [walk d short same q s fl s' q']: the steps of the flags [fl] lead from
    coordinate [s] to [s'], never leaving the 16-bit numbers. *)
Inductive walk (d : list Z) (short same : Z) : nat -> Z -> list Z -> Z -> nat -> Prop :=
| walk_end q s : walk d short same q s [] s q
| walk_step q s f fl v s' q' : step_at d short same q f v -> is_short (s + v) ->
    walk d short same (q + step_size short same f) (s + v) fl s' q' -> walk d short same q s (f :: fl) s' q'.
(** ... and the first step that does. *)
Definition leaves (d : list Z) (short same : Z) (q : nat) (s : Z) (fl : list Z) : Prop :=
  exists before f after s' q' v, fl = before ++ f :: after /\ walk d short same q s before s' q' /\
    step_at d short same q' f v /\ ~ is_short (s' + v).

(** An outline: [n] contours, of which the last points are [ends]; then
    instructions, flags, x steps and y steps. *)
Definition outline_bad (d : list Z) (k n : nat) : Prop :=
  exists ends m fl q, length ends = n /\ (forall i e, nth_error ends i = Some e -> u16_at d (k + 10 + 2 * i) e) /\
    number_at I16 d (k + 10 + 2 * n) m /\ (k + 12 + 2 * n + Z.to_nat m <= length d)%nat /\
    flagged d (k + 12 + 2 * n + Z.to_nat m) (S (Z.to_nat (last ends 0))) fl q /\
    (leaves d 1 4 q 0 fl \/
     exists x q', walk d 1 4 q 0 fl x q' /\
       (leaves d 2 5 q' 0 fl \/
        ((exists y q'', walk d 2 5 q' 0 fl y q'') /\
         exists i e, nth_error ends i = Some e /\
           (Z.of_nat (length fl) <= e \/ exists e', nth_error ends (S i) = Some e' /\ e' < e)))).
(** A glyph with contours aborts if the last points of the contours are not all
    there, a coordinate is no 16-bit number, or the last points are not in order
    or beyond the points. *)
Definition glyph_bad (d : list Z) (k : nat) : Prop :=
  exists n, number_at I16 d k n /\ 1 <= n /\ (k + 10 <= length d)%nat /\
    ((length d < k + 10 + 2 * Z.to_nat n)%nat \/ outline_bad d k (Z.to_nat n)).

(** Which bytes make reading variation data abort the program. *)
From Verif.Model Require Import MBase.
From Verif.Spec Require Import SBase SReader SCalm SStop.
Open Scope Z_scope.

Definition total (l : list Z) : Z := fold_right Z.add 0 l.
(** The values [vs] of type [t], one after the other from [q] on. *)
Definition values_at (t : prim) (d : list Z) (q : nat) (vs : list Z) : Prop :=
  forall i v, nth_error vs i = Some v -> number_at t d (q + width t * i) v.
(** Runs for at least [n] values: each starts with a byte [c] that says how many
    values follow and of which type, or that they are zeros which are not there. *)
Inductive runs (d : list Z) (size : Z -> nat) (kind : Z -> option prim) : nat -> nat -> list Z -> nat -> Prop :=
| runs_done q : runs d size kind q 0 [] q
| runs_more q n c vs more q' : number_at U8 d q c -> length vs = size c ->
    match kind c with Some t => values_at t d (q + 1) vs | None => vs = repeat 0 (size c) end ->
    runs d size kind (q + 1 + match kind c with Some t => width t * size c | None => 0 end) (S n - size c) more q' ->
    runs d size kind q (S n) (vs ++ more) q'.
Definition point_runs (d : list Z) := runs d (fun c => S (Z.to_nat (c mod 128))) (fun c => Some (if Z.testbit c 7 then U16 else U8)).
Definition delta_runs (d : list Z) := runs d (fun c => S (Z.to_nat (c mod 64)))
  (fun c => if Z.testbit c 7 then None else Some (if Z.testbit c 6 then I16 else I8)).

(** ** Packed point numbers *)
(** The number of points, as the code understands it: it keeps the high bit of
    a number of two bytes. *)
Definition point_count (d : list Z) (q : nat) (n : Z) (q' : nat) : Prop :=
  (number_at U8 d q n /\ n <= 127 /\ q' = (q + 1)%nat) \/
  (exists a b, number_at U8 d q a /\ 127 < a /\ number_at U8 d (q + 1) b /\ n = a * 256 + b /\ q' = (q + 2)%nat).
(** [n] points of [all]: no list stands for all of them. *)
Definition points_at (d : list Z) (all q n q' : nat) : Prop :=
  (point_count d q 0 q' /\ n = all) \/
  (exists c q1 vs, point_count d q c q1 /\ c <> 0 /\ point_runs d q1 (Z.to_nat c) vs q' /\ total vs <= 65535 /\ n = length vs).
(** The differences add up to more than a point number can be. *)
Definition points_bad (d : list Z) (q : nat) : Prop :=
  exists c q1 vs q', point_count d q c q1 /\ c <> 0 /\ point_runs d q1 (Z.to_nat c) vs q' /\ 65535 < total vs.

(** ** Variations of the points of a glyph (x and y) or of control values (one number) *)
Definition deltas_at (d : list Z) (two : bool) (n q q' : nat) : Prop :=
  exists l q1, delta_runs d q n l q1 /\ if two then exists l', delta_runs d q1 n l' q' else q' = q1.
(** Bit 13 of the flags: the variation has its own point numbers. *)
Definition variation_at (d : list Z) (two : bool) (all shared : nat) (f : Z) (q q' : nat) : Prop :=
  exists n q1, (if Z.testbit f 13 then points_at d all q n q1 else n = shared /\ q1 = q) /\ deltas_at d two n q1 q'.
Inductive variations (d : list Z) (two : bool) (all shared : nat) : nat -> list Z -> nat -> Prop :=
| variations_none q : variations d two all shared q [] q
| variations_more q f fs q1 q' : variation_at d two all shared f q q1 -> variations d two all shared q1 fs q' ->
    variations d two all shared q (f :: fs) q'.
Definition variations_bad (d : list Z) (two : bool) (all shared q : nat) (fs : list Z) : Prop :=
  exists before f after q', fs = before ++ f :: after /\ variations d two all shared q before q' /\
    Z.testbit f 13 = true /\ points_bad d q'.
(** Headers, with flags [fs]: bit 15 for a peak, bit 14 for both ends of its region. *)
Definition header_size (axes : nat) (f : Z) : nat :=
  4 + (if Z.testbit f 15 then 2 * axes else 0) + (if Z.testbit f 14 then 4 * axes else 0).
Inductive headers (d : list Z) (axes : nat) : nat -> nat -> list Z -> nat -> Prop :=
| headers_none q : headers d axes q 0 [] q
| headers_more q n f fs q' : u16_at d (q + 2) f -> (q + header_size axes f <= length d)%nat ->
    headers d axes (q + header_size axes f) n fs q' -> headers d axes q (S n) (f :: fs) q'.
(** The whole: a number of variations whose bit 15 says that there are shared
    point numbers, a field that is not used, headers, shared points, variations. *)
Definition variation_data_bad (axes : nat) (two : bool) (all : nat) (d : list Z) (k : nat) : Prop :=
  exists c fs q, u16_at d k c /\ (k + 4 <= length d)%nat /\ headers d axes (k + 4) (Z.to_nat (c mod 4096)) fs q /\
    if Z.testbit c 15 then points_bad d q \/ exists n q', points_at d all q n q' /\ variations_bad d two all n q' fs
    else variations_bad d two all 0 q fs.

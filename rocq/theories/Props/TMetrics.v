(** Property theorems: hmtx (C18) and loca (C19). *)
From Verif.Model Require Import MBase MMetrics.
From Verif.Spec Require Import SBase SReader SMetrics.
From Verif.Proofs Require PMetrics.

(** Write, read back with the reported count, and no table content whatsoever
    with fewer long metrics reads back as the same list. *)
Theorem C18_hmtx : forall ms, ms <> [] -> Forall metric_ok ms -> Z.of_nat (length ms) <= 65535 ->
  exists bs n, hmtx_to_bytes ms = (bs, n) /\ number_of_hmetrics ms = Ok n /\
    1 <= n <= Z.of_nat (length ms) /\ from_bytes (de_hmtx n) bs = Ok ms /\
    forall k data, 0 <= k -> from_bytes (de_hmtx k) data = Ok ms -> n <= k.
Proof. exact PMetrics.hmtx_full. Qed.
Print Assumptions C18_hmtx.

(** The empty list is written as nothing with count 0, and reading any bytes with count 0 aborts. *)
Theorem C18_empty_refuted : hmtx_to_bytes [] = ([], 0) /\ number_of_hmetrics [] = Ok 0 /\
  forall data, from_bytes (de_hmtx 0) data = Panic.
Proof. exact PMetrics.hmtx_empty_refuted. Qed.
Print Assumptions C18_empty_refuted.

Example C18_ex : let ms := [mk_metric 600 10; mk_metric 500 (-3); mk_metric 500 7; mk_metric 500 0] in
  Forall metric_ok ms /\ snd (hmtx_to_bytes ms) = 2 /\ length (fst (hmtx_to_bytes ms)) = 12%nat.
Proof. cbv zeta. split; [|split; reflexivity]. repeat constructor; cbn; intros; discriminate. Qed.

Theorem C19_loca : forall is32 data,
  exists idx, from_bytes (de_loca is32) data = Ok idx /\
    length idx = (length data / (if is32 then 4 else 2) - 1)%nat /\
    forall i, (i < length idx)%nat -> exists a b,
      loca_entry is32 data i a /\ loca_entry is32 data (S i) b /\
      nth_error idx i = Some (if a =? b then None else Some a).
Proof. exact PMetrics.loca_spec. Qed.
Print Assumptions C19_loca.

Example C19_ex : from_bytes (de_loca false) [0;0; 0;0; 1;2; 1;2; 1;4] = Ok [None; Some 0; None; Some 516].
Proof. reflexivity. Qed.

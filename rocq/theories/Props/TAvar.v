(** C39: the axis variations table and its segment maps. *)
From Coq Require Import List ZArith QArith Qabs Sorted Lqa Lia.
Import ListNotations.
From Verif.Model Require Import MBase MFixed MFloat MFloat32 MVarModel MAvar.
From Verif.Spec Require Import SBase SFloat SGlyph SAvar.
From Verif.Proofs Require Import PBase PFloat PCodec PAvar.
Open Scope Q_scope.

(** Which maps are accepted. *)
Theorem C39_valid_iff m : from_font m ->
  (seg_valid m = true <-> to_nondecreasing m /\ fixed_once m (-(1)) /\ fixed_once m 0 /\ fixed_once m 1).
Proof. exact (seg_valid_iff m). Qed.
Print Assumptions C39_valid_iff.

Theorem C39_new m : (seg_new m = Ok m /\ seg_valid m = true) \/ (seg_new m = Panic /\ seg_valid m = false).
Proof. unfold seg_new. destruct (seg_valid m); auto. Qed.
Print Assumptions C39_new.

(** An accepted map with increasing coordinates maps every value, into [-1,1]. *)
Theorem C39_total m v : from_font m -> seg_valid m = true -> from_increasing m ->
  exists w, seg_value m v = Ok w /\ -(1) <= val w <= 1.
Proof. intros F V I. apply seg_total. now apply valid_good. Qed.
Print Assumptions C39_total.

(** It maps its nodes to their targets, in particular -1, 0 and 1 to themselves. *)
Theorem C39_nodes m n v : from_font m -> seg_valid m = true -> from_increasing m ->
  In n m -> -(1) <= val (fst n) <= 1 -> val v == val (fst n) ->
  exists w, seg_value m v = Ok w /\ val w == val (snd n).
Proof. intros F V I. apply seg_hits. now apply valid_good. Qed.
Print Assumptions C39_nodes.

Theorem C39_fixpoints m v : from_font m -> seg_valid m = true -> from_increasing m ->
  (val v == -(1) \/ val v == 0 \/ val v == 1) -> exists w, seg_value m v = Ok w /\ val w == val v.
Proof.
  intros F V I C. pose proof (valid_good m F V I) as G.
  assert (H: exists n, In n m /\ fixes (val v) n).
  { destruct (g_m1 _ G) as (a & A1 & A2 & A3), (g_0 _ G) as (b & B1 & B2 & B3), (g_1 _ G) as (c & C1 & C2 & C3).
    unfold fixes. destruct C as [C|[C|C]]; [exists a|exists b|exists c]; split; auto; split; lra. }
  destruct H as (n & In1 & E1 & E2).
  destruct (seg_hits m n v G In1) as (w & W1 & W2); [lra|lra|]. exists w. split; [exact W1|lra].
Qed.
Print Assumptions C39_fixpoints.

(** It is monotone, for all pairs of values. *)
Theorem C39_monotone m v v' w w' : from_font m -> seg_valid m = true -> from_increasing m ->
  val v <= val v' -> seg_value m v = Ok w -> seg_value m v' = Ok w' -> val w <= val w'.
Proof. intros F V I. apply seg_mono. now apply valid_good. Qed.
Print Assumptions C39_monotone.

(** It is the piecewise linear map through its nodes, up to rounding; values
    within 2^-23 of a node may be mapped like the node. *)
Theorem C39_linear m v w : from_font m -> seg_valid m = true -> from_increasing m ->
  seg_value m v = Ok w ->
  (exists n, In n m /\ Qabs (val (fst n) - val v) < Qpower 2 (-23) /\ val w == val (snd n)) \/
  (exists q, mapped m (val v) q /\ Qabs (val w - q) <= Qpower 2 (-20)).
Proof. intros F V I. apply seg_accuracy. now apply valid_good. Qed.
Print Assumptions C39_linear.

(** The table is written in its format and read back with the same numbers. *)
Theorem C39_layout maps axes : Forall2 multiples maps axes -> counts_fit axes ->
  avar_ser maps = Ok (avar_bytes 1 0 0 axes).
Proof. exact (avar_layout maps axes). Qed.
Print Assumptions C39_layout.
Theorem C39_read a b c axes : (0 <= a < 65536)%Z -> (0 <= b < 65536)%Z -> (0 <= c < 65536)%Z ->
  counts_fit axes -> Forall (Forall (fun p => -32768 <= fst p <= 32767 /\ -32768 <= snd p <= 32767)%Z) axes ->
  exists maps, reads_back avar_de (avar_bytes a b c axes) maps /\ Forall2 multiples maps axes.
Proof.
  intros A B C L R. exists (map (map unpack) axes). split; [apply reads_reads_back; now apply avar_reads|].
  clear L. induction R as [|m axes H R IH]; cbn [map]; constructor; [|exact IH].
  clear IH R. induction H as [|p m [H1 H2] H IH]; cbn [map]; constructor; [|exact IH].
  split; now apply from_packed_multiple.
Qed.
Print Assumptions C39_read.
Theorem C39_roundtrip maps : Forall from_font maps -> counts_fit maps ->
  exists bs maps', avar_ser maps = Ok bs /\ reads_back avar_de bs maps' /\
    Forall2 (Forall2 (fun x y => val (fst x) == val (fst y) /\ val (snd x) == val (snd y))) maps maps'.
Proof.
  intros F [L1 L2].
  assert (H: exists axes, Forall2 multiples maps axes).
  { clear L1 L2. induction F as [|m maps H F (axes & IH)]; [exists []; constructor|].
    assert (K: exists ps, multiples m ps).
    { clear - H. induction H as [|n m [(p & P1 & P2) (q & Q1 & Q2)] H (ps & IH)]; [exists []; constructor|].
      exists ((p, q) :: ps). constructor; [|exact IH]. split; split; auto. }
    destruct K as (ps & K). exists (ps :: axes). now constructor. }
  destruct H as (axes & H).
  assert (L: counts_fit axes).
  { split; [rewrite <- (Forall2_length _ _ _ H); exact L1|]. clear - H L2.
    induction H as [|m ps maps axes A H IH]; inversion L2; subst; constructor; [|auto]. now rewrite <- (Forall2_length _ _ _ A). }
  exists (avar_bytes 1 0 0 axes), (map (map unpack) axes). split; [now apply avar_layout|].
  assert (R: Forall (Forall in_i16) axes).
  { clear - H. induction H as [|m ps maps axes A H IH]; constructor; [|exact IH]. clear - A.
    induction A as [|n p m ps [[B1 _] [B2 _]] A IH]; constructor; [|exact IH]. split; assumption. }
  split; [apply reads_reads_back; apply avar_reads; auto; lia|].
  clear - H R. induction H as [|m ps maps axes A H IH]; cbn [map]; [constructor|]. inversion R as [|? ? R1 R2]; subst. constructor; [|auto].
  clear - A R1. induction A as [|n p m ps [[_ B1] [_ B2]] A IH]; cbn [map]; [constructor|]. inversion R1 as [|? ? [R2 R3] R4]; subst.
  constructor; [|auto]. cbn [unpack fst snd].
  destruct (from_packed_multiple _ R2) as [_ E2]. destruct (from_packed_multiple _ R3) as [_ E3]. rewrite E2, E3. auto.
Qed.
Print Assumptions C39_roundtrip.

(** The order of the coordinates is not part of the check: an accepted map need
    not be monotone, and need not map every value. *)
Definition unsorted : segment_map := [(Dy (-1) 0, Dy (-1) 0); (Dy 1 (-1), Dy (-1) (-1)); (Dy (-1) (-1), Dy (-1) (-2)); (dy0, dy0); (dy1, dy1)].
Definition headless : segment_map := [(Dy 1 (-1), Dy (-1) 0); (Dy (-1) 0, Dy (-1) 0); (dy0, dy0); (dy1, dy1)].
Theorem C39_unsorted_refuted : exists m v v' w w', from_font m /\ seg_valid m = true /\
  val v <= val v' /\ seg_value m v = Ok w /\ seg_value m v' = Ok w' /\ val w' < val w.
Proof.
  exists unsorted, dy0, (Dy 1 (-1)), dy0, (Dy (-1) (-1)). split.
  { repeat (apply Forall_cons || apply Forall_nil); split.
    all: match goal with |- f2dot14 (fst (?x, ?y)) => change (f2dot14 x) | |- f2dot14 (snd (?x, ?y)) => change (f2dot14 y)  end.
    all: match goal with
      | |- f2dot14 (Dy (-1) 0) => exists (-16384)%Z | |- f2dot14 dy1 => exists 16384%Z | |- f2dot14 dy0 => exists 0%Z
      | |- f2dot14 (Dy 1 (-1)) => exists 8192%Z | |- f2dot14 (Dy (-1) (-1)) => exists (-8192)%Z | |- f2dot14 (Dy (-1) (-2)) => exists (-4096)%Z end.
    all: split; [lia|reflexivity]. }
  repeat split; try reflexivity; discriminate.
Qed.
Print Assumptions C39_unsorted_refuted.
Theorem C39_abort_refuted : exists m v, seg_valid m = true /\ -(1) < val v < 1 /\ seg_value m v = Panic.
Proof. exists headless, (Dy 1 (-2)). repeat split; reflexivity. Qed.
Print Assumptions C39_abort_refuted.

(** A map with a bend; a value in the middle of a segment, and one close to a node. *)
Definition bent : segment_map := [(Dy (-1) 0, Dy (-1) 0); (dy0, dy0); (Dy 1 (-1), Dy 3 (-2)); (dy1, dy1)].
Lemma bent_font : from_font bent.
Proof.
  repeat (apply Forall_cons || apply Forall_nil); split.
  all: match goal with |- f2dot14 (fst (?x, ?y)) => change (f2dot14 x) | |- f2dot14 (snd (?x, ?y)) => change (f2dot14 y) end.
  all: match goal with
      | |- f2dot14 (Dy (-1) 0) => exists (-16384)%Z | |- f2dot14 dy1 => exists 16384%Z | |- f2dot14 dy0 => exists 0%Z
      | |- f2dot14 (Dy 1 (-1)) => exists 8192%Z | |- f2dot14 (Dy 3 (-2)) => exists 12288%Z end.
  all: split; [lia|reflexivity].
Qed.
Example C39_case : from_font bent /\ seg_valid bent = true /\ from_increasing bent /\
  (exists w, seg_value bent (Dy 1 (-2)) = Ok w /\ val w == 3 # 8) /\
  (exists w, seg_value bent (Dy 3 (-2)) = Ok w /\ val w == 7 # 8).
Proof.
  split; [exact bent_font|]. split; [reflexivity|]. split.
  { repeat constructor. }
  split; eexists; split; reflexivity.
Qed.
Example C39_table_case : Forall from_font [bent; bent] /\ counts_fit [bent; bent].
Proof. split; [exact (Forall_cons _ bent_font (Forall_cons _ bent_font (Forall_nil _)))|]. split; [cbn; lia|]. repeat (apply Forall_cons || apply Forall_nil); cbn; lia. Qed.

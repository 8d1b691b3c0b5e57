(** C76: the arguments of ttf-instantiate. *)
From Coq Require Import List ZArith Lia QArith Qabs Qpower Sorting.Permutation.
Import ListNotations.
From Verif.Model Require Import MBase MFixed MFloat MTag MMap MVarModel MInst MLocArg.
From Verif.Spec Require Import SFloat SLocArg SInst.
From Verif.Proofs Require Import PLocArg PLocFix PLocTool.
From Verif.Props Require TInst.
Open Scope Z_scope.

(** ** Numbers *)

(** A text stands for a value if it is a decimal number, an infinity or "nan";
    at any other text the tool aborts. *)
Theorem C76_number s : (exists v, amount s v) <->
  (exists q, decimal s q) \/ (exists k, infinity_text s k) \/ nan_text s.
Proof.
  unfold amount, str_to_fixed. split.
  - intros [v H]. destruct (parse_f32 s) as [t|] eqn:E; [|discriminate]. apply parse_sound in E.
    destruct t as [x|neg|]; [destruct E as (q & D & _); eauto|eauto|eauto].
  - intros [[q D]|[[k D]|D]].
    + destruct (parse_finite s q D) as (x & -> & _). eauto.
    + destruct (parse_infinite s k D) as ([] & -> & _); eauto.
    + rewrite (parse_nan s D). eauto.
Qed.

(** It is read as a nearest single-precision float first. *)
Theorem C76_float s q : decimal s q -> exists x, parse_f32 s = Some (Finite x) /\ nearest24 q (val x).
Proof. apply parse_finite. Qed.

(** The value is that of the number, to the nearest 65536th and about 21 bits. *)
Theorem C76_close s q v : decimal s q -> amount s v -> (Qabs q <= 32767)%Q ->
  (Qabs (val v - q) <= (1 # 131072) + (Qabs q + 1) * (1 # 2097152))%Q.
Proof.
  unfold amount, str_to_fixed. intros D H B. destruct (parse_finite s q D) as (x & E & N). rewrite E in H.
  injection H as <-. now apply fixed_round_near.
Qed.
(** Whole numbers are exact, and so are multiples of 65536ths up to 128. *)
Theorem C76_whole s q v k : decimal s q -> amount s v -> (q == inject_Z k)%Q -> -32768 <= k <= 32767 -> (val v == q)%Q.
Proof.
  unfold amount, str_to_fixed. intros D H Q0 B. destruct (parse_finite s q D) as (x & E & N). rewrite E in H. injection H as <-.
  assert (V: (q == inject_Z (k * 65536) / 65536)%Q). { rewrite Q0, inject_Z_mult. change (inject_Z 65536) with 65536%Q. field. }
  rewrite V. pose proof (rep_whole k B) as R. apply fixed_round_exact; [exact R|apply PFixed.fixed_integral; lia|].
  rewrite <- V. apply nearest_self; [|exact N]. apply (PFloat32.rep_ext 24 _ _ (Qeq_sym _ _ V)). now apply rep_of_scaled.
Qed.
Theorem C76_exact s q v p : decimal s q -> amount s v -> (q == inject_Z p / 65536)%Q -> Z.abs p <= 2 ^ 23 -> (val v == q)%Q.
Proof.
  unfold amount, str_to_fixed. intros D H Q0 B. destruct (parse_finite s q D) as (x & E & N). rewrite E in H. injection H as <-.
  rewrite Q0. pose proof (rep_small p B) as R. apply fixed_round_exact; [exact R|apply PFixed.fixed_packed_id; lia|].
  rewrite <- Q0. apply nearest_self; [|exact N]. apply (PFloat32.rep_ext 24 _ _ (Qeq_sym _ _ Q0)). now apply rep_of_scaled.
Qed.
(** What is too large becomes the largest value, also the infinities. *)
Theorem C76_large s q v : decimal s q -> amount s v ->
  ((32768 <= q)%Q -> (val v == 32768)%Q) /\ ((q <= -32768)%Q -> (val v == -32768)%Q).
Proof.
  unfold amount, str_to_fixed. intros D H. destruct (parse_finite s q D) as (x & E & N). rewrite E in H. injection H as <-.
  unfold fixed_round. split; intros L.
  - rewrite packed_high; [apply greatest_val|]. apply (nearest_above q); [|exact N|exact L]. exists 1, 15. split; reflexivity.
  - rewrite packed_low; [apply least_val|]. apply (nearest_below q); [|exact N|exact L]. exists (-1), 15. split; reflexivity.
Qed.
Theorem C76_infinity s k v : infinity_text s k -> amount s v -> (val v == inject_Z k * 32768)%Q.
Proof.
  unfold amount, str_to_fixed. intros D H. destruct (parse_infinite s k D) as (neg & E & ->). rewrite E in H.
  destruct neg; injection H as <-; [rewrite least_val|rewrite greatest_val]; reflexivity.
Qed.
Theorem C76_nan s v : nan_text s -> amount s v -> (val v == 0)%Q.
Proof. unfold amount, str_to_fixed. intros D H. rewrite (parse_nan s D) in H. injection H as <-. apply zero_val. Qed.

(** -12.5e1 *)
Definition ex_number : list Z := [45; 49; 50; 46; 53; 101; 49].
Example C76_number_ex : decimal ex_number (-125) /\ amount ex_number (Dy (-8192000) (-16)).
Proof.
  split; [|vm_compute; reflexivity].
  exists [45], (-1), [49; 50], 12, [53], 5, [101; 49], 1. split; [constructor|].
  assert (D1: digits [49] 1) by exact (more_digits [] 0 1 no_digits ltac:(lia)).
  split; [exact (more_digits [49] 1 2 D1 ltac:(lia))|]. split; [exact (more_digits [] 0 5 no_digits ltac:(lia))|].
  split; [discriminate|]. split; [apply (exponent_some 101 [] 1 [49] 1); [now left|constructor|discriminate|exact D1]|].
  split; [now left|]. vm_compute. reflexivity.
Qed.

(** ** Limits *)

(** Each argument is understood as it is written; one that writes no limit, or
    an empty range, aborts. *)
Theorem C76_limit s t l : parse_locarg s = Ok (t, l) <-> limit_text amount s t l.
Proof. apply locarg_iff. Qed.

(** A font is written if it is variable, every argument writes a limit, no axis
    has two of them, and there is an instance for these limits: it is that
    instance. *)
Theorem C76_written args ft ft' : ttf_instantiate args ft = Ok (Some ft') <->
  vf_fvar ft <> None /\ exists m ls, as_map m /\ texts args ls /\ Permutation m ls /\ instantiate ft m = Ok ft'.
Proof. apply tool_writes. Qed.
(** The tool stops with a message if every argument writes a limit, but an axis
    has two of them or the font is not variable. *)
Theorem C76_message args ft : ttf_instantiate args ft = Ok None <->
  exists ls, texts args ls /\ (~ NoDup (map fst ls) \/ vf_fvar ft = None).
Proof. apply tool_refuses. Qed.
(** The order of the arguments makes no difference. *)
Theorem C76_order args args' ft : Permutation args args' -> ttf_instantiate args ft = ttf_instantiate args' ft.
Proof. apply tool_order. Qed.

(** wght=5e2, for the font of C67 *)
Definition ex_arg : list Z := [119; 103; 104; 116; 61; 53; 101; 50].
Lemma ex_key : tag_text [119; 103; 104; 116] TInst.wght.
Proof. split; [cbn; lia|]. split; [|reflexivity]. repeat constructor; unfold word_byte; lia. Qed.
Example C76_written_ex : exists v ft', (val v == 500)%Q /\ texts [ex_arg] [(TInst.wght, Pin v)] /\
  ttf_instantiate [ex_arg] (TInst.ex_font 100) = Ok (Some ft').
Proof.
  eexists (fixed_from_packed (500 * 65536)), _. split; [vm_compute; reflexivity|]. split; [|vm_compute; reflexivity].
  constructor; [|constructor]. apply (text_pin amount [119; 103; 104; 116] TInst.wght [53; 101; 50]); [apply ex_key|cbn; lia|vm_compute; reflexivity].
Qed.
(** wdth=75:1.25e2 *)
Example C76_range_ex : exists v w, (val v == 75)%Q /\ (val w == 125)%Q /\
  parse_locarg [119; 100; 116; 104; 61; 55; 53; 58; 49; 46; 50; 53; 101; 50] = Ok (TInst.wdth, Range v w).
Proof. eexists _, _. split; [|split; [|vm_compute; reflexivity]]; vm_compute; reflexivity. Qed.
Example C76_twice_ex : ttf_instantiate [ex_arg; ex_arg] (TInst.ex_font 100) = Ok None.
Proof. vm_compute. reflexivity. Qed.
(** wght=900:100 *)
Example C76_empty_ex : parse_locarg [119; 103; 104; 116; 61; 57; 48; 48; 58; 49; 48; 48] = Panic.
Proof. vm_compute. reflexivity. Qed.

Print Assumptions C76_number.
Print Assumptions C76_float.
Print Assumptions C76_close.
Print Assumptions C76_whole.
Print Assumptions C76_exact.
Print Assumptions C76_large.
Print Assumptions C76_infinity.
Print Assumptions C76_nan.
Print Assumptions C76_limit.
Print Assumptions C76_written.
Print Assumptions C76_message.
Print Assumptions C76_order.

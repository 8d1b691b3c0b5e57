(** C86: opening a file has a definite outcome, whatever its bytes. *)
From Coq Require Import String List ZArith Bool Lia.
Import ListNotations.
From Verif.Model Require Import MBase MMap MTag MFont MTables MStore.
From Verif.Spec Require Import SBase SReader SFont SStore SWhole SCalm SOpen.
From Verif.Proofs Require Import PBase PCalm PFont PLoad POpen.
From Verif.Model Require MPost.
Open Scope Z_scope.

Section Open.
Context {T : Type} (K : codecs T) (head loca : list Z) (Hh : named head "head") (Hl : named loca "loca").

Ltac decide_open B file :=
  destruct (open_cases K file B) as [(ND & E)|(v & trs & D & [(X & E)|(F & [(d & Td & [(HB & E)|[(HB & L & E)|(HB & L & s & E)]])|(Nh & [(Nl & s & E)|(Nl & E)])])])].
Lemma one_head file trs d d' : table_bytes file trs TAG_head d -> table_bytes file trs TAG_head d' -> d = d'.
Proof.
  intros (i & tr & S & Sl) (i' & tr' & S' & Sl'). rewrite (stands_unique _ _ _ _ _ _ S' S) in Sl'.
  apply slice_eq in Sl as [_ Sl]. apply slice_eq in Sl' as [_ Sl']. congruence.
Qed.
Lemma head_there file trs d : table_bytes file trs TAG_head d -> ~ no_entry trs TAG_head.
Proof. intros (i & tr & S & _). exact (stands_entry _ _ _ _ S). Qed.
Lemma outside file trs : Exists (fun tr => ~ inside file tr) trs -> ~ Forall (inside file) trs.
Proof. intros X F. apply Exists_exists in X as (tr & H & N). rewrite Forall_forall in F. exact (N (F _ H)). Qed.

(** The program aborts exactly if a table leaves the file or head has an
    impossible date. *)
Theorem C86_aborts file : Forall is_byte file -> (font_load K file = Panic <->
  exists v trs, directory file v trs /\
    (Exists (fun tr => ~ inside file tr) trs \/ exists d, table_bytes file trs head d /\ head_bad d)).
Proof using Hh.
  intros B. rewrite Hh. change (MPost.ascii_bytes "head"%string) with TAG_head. split.
  - intros H. decide_open B file; rewrite E in H; try discriminate H; exists v, trs; (split; [exact D|]); [left; exact X|right; eauto].
  - intros (v0 & trs0 & D0 & H). decide_open B file; try exact E; [destruct (ND _ _ D0)| | | |];
      destruct (directory_unique _ _ _ _ _ B D0 D) as [-> ->]; (destruct H as [H|(d0 & H & H')]; [now apply outside in H|]).
    + rewrite (one_head _ _ _ _ H Td) in H'. contradiction.
    + rewrite (one_head _ _ _ _ H Td) in H'. contradiction.
    + destruct (head_there _ _ _ H Nh).
    + destruct (head_there _ _ _ H Nh).
Qed.

(** It is opened exactly if there is a directory whose tables are inside the
    file and head has all its 54 bytes, or there is neither head nor loca. *)
Theorem C86_opens file version : Forall is_byte file -> ((exists s, font_load K file = Ok (version, s)) <->
  exists trs, directory file version trs /\ Forall (inside file) trs /\
    ((exists d, table_bytes file trs head d /\ (54 <= length d)%nat /\ ~ head_bad d) \/ (no_entry trs head /\ no_entry trs loca))).
Proof using Hh Hl.
  intros B. rewrite Hh, Hl. change (MPost.ascii_bytes "head"%string) with TAG_head. change (MPost.ascii_bytes "loca"%string) with TAG_loca. split.
  - intros [s0 H]. decide_open B file; rewrite E in H; try discriminate H; apply Ok_inj in H; injection H as -> _;
      exists trs; (split; [exact D|]; split; [exact F|]); [left; eauto|right; auto].
  - intros (trs0 & D0 & F0 & H). decide_open B file; [destruct (ND _ _ D0)| | | | | |];
      destruct (directory_unique _ _ _ _ _ B D0 D) as [-> ->].
    + now apply outside in X.
    + exfalso. destruct H as [(d0 & H & _ & H')|[H _]]; [|destruct (head_there _ _ _ Td H)]. rewrite (one_head _ _ _ _ H Td) in H'. contradiction.
    + exfalso. destruct H as [(d0 & H & L' & H')|[H _]]; [|destruct (head_there _ _ _ Td H)]. rewrite (one_head _ _ _ _ H Td) in L'. lia.
    + eauto.
    + eauto.
    + exfalso. destruct H as [(d0 & H & _)|[_ H]]; [destruct (head_there _ _ _ H Nh)|contradiction].
Qed.

(** The tables that are then found are those of the directory; of several
    entries with one tag the one that is furthest back counts. *)
Theorem C86_finds file v s : Forall is_byte file -> font_load K file = Ok (v, s) ->
  exists trs, directory file v trs /\ Forall (inside file) trs /\
    forall t, (forall d, contents s t = Some (Raw d) <-> table_bytes file trs t d) /\ (contents s t = None <-> no_entry trs t).
Proof using.
  intros B H. destruct (from_bytes font_read_raw file) as [[v' m]| |] eqn:E; [|unfold font_load in H; rewrite E in H; discriminate H|unfold font_load in H; rewrite E in H; discriminate H].
  destruct (load_outcome K _ _ _ B E) as (_ & _ & LO). destruct (LO _ _ H) as (-> & _ & C).
  destruct (read_contents file v' m B E) as (trs & D & F & Ct). exists trs. split; [exact D|]. split; [exact F|]. intros t. destruct (Ct t) as [C1 C2].
  rewrite C. split.
  - intros d. rewrite <- C1. destruct (bm_get lex_ltb t m); cbn [option_map]; split; congruence.
  - rewrite <- C2. destruct (bm_get lex_ltb t m); cbn [option_map]; split; congruence.
Qed.
End Open.
Print Assumptions C86_aborts.
Print Assumptions C86_opens.
Print Assumptions C86_finds.

(** ** Cases *)
(** Two entries tagged "ABCD", the first of which is behind the second in the
    file: it counts.  Neither head nor loca. *)
Definition twice : list Z :=
  [0;1;0;0; 0;2; 0;0; 0;0; 0;0;  65;66;67;68; 0;0;0;0; 0;0;0;46; 0;0;0;2;  65;66;67;68; 0;0;0;0; 0;0;0;44; 0;0;0;2;  1;2;3;4].
(** The same with a length that leaves the file, and with loca instead. *)
Definition beyond : list Z := firstn 27 twice ++ [3] ++ skipn 28 twice.
Definition only_loca : list Z := firstn 12 twice ++ [108;111;99;97] ++ skipn 16 twice.
Example C86_case : forall T (K : codecs T),
  (exists s, font_load K twice = Ok (65536, s) /\ contents s [65;66;67;68] = Some (Raw [3; 4])) /\
  font_load K beyond = Panic /\ font_load K only_loca = Err.
Proof. intros T K. split; [eexists; split; vm_compute; reflexivity|]. split; vm_compute; reflexivity. Qed.
Example C86_case_entries : exists trs, directory twice 65536 trs /\ Forall (inside twice) trs /\ table_bytes twice trs [65;66;67;68] [3; 4] /\
  no_entry trs TAG_head /\ no_entry trs TAG_loca.
Proof.
  assert (B: Forall is_byte twice) by (repeat (apply Forall_cons; [unfold is_byte; lia|]); apply Forall_nil).
  destruct (read_contents twice 65536 [([65;66;67;68], [3;4])] B ltac:(vm_compute; reflexivity)) as (trs & D & F & H).
  exists trs. split; [exact D|]. split; [exact F|]. split; [now apply H|]. split; apply H; reflexivity.
Qed.

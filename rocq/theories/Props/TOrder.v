(** C88: what a lookup gives does not depend on what was looked up before, nor
    on edits of unrelated tables; what loading everything does. *)
From Coq Require Import List ZArith Lia.
Import ListNotations.
From Verif.Model Require Import MBase MTag MMap MFont MTables MMetrics MGlyph MGlyf MStore.
From Verif.Spec Require Import SBase SFont SStore SOrder.
From Verif.Proofs Require Import PBase PStore POrder PStoreEx.
Open Scope Z_scope.

(** Looking things up, in any order and however often, changes no later lookup. *)
Theorem C88_lookups : forall T (K : codecs T) ops s tag, Forall lookup_only ops ->
  lookup K (snd (run K ops s)) tag = lookup K s tag.
Proof. intros T K ops s tag H. apply ext_lookup, run_ext, H. Qed.
Print Assumptions C88_lookups.

(** Nor does inserting or removing tables that the table does not need. *)
Theorem C88_edits_elsewhere : forall T (K : codecs T) ops s tag, Forall (leaves_alone (tag :: needs tag)) ops ->
  lookup K (snd (run K ops s)) tag = lookup K s tag.
Proof. intros T K ops s tag. apply run_local. Qed.
Print Assumptions C88_edits_elsewhere.

(** Loading everything succeeds exactly if the tables it insists on can be
    read (or are missing) and no table aborts ... *)
Theorem C88_all_ok : forall T (K : codecs T) s, fst (fully_deserialize K s) = Ok tt <->
  Forall (readable K s) (insisted s) /\ forall tag, lookup K s tag <> Panic.
Proof. intros T K s. apply fully_cases. Qed.
Print Assumptions C88_all_ok.
(** ... reports the failure of the first of these tables, but of no other ... *)
Theorem C88_all_err : forall T (K : codecs T) s, fst (fully_deserialize K s) = Err <->
  first_failure K s (insisted s) Err.
Proof. intros T K s. apply fully_cases. Qed.
Print Assumptions C88_all_err.
(** ... and aborts exactly if one of these tables aborts before any is refused,
    or all of them can be read and any table aborts. *)
Theorem C88_all_panic : forall T (K : codecs T) s, fst (fully_deserialize K s) = Panic <->
  first_failure K s (insisted s) Panic \/
  Forall (readable K s) (insisted s) /\ exists tag, lookup K s tag = Panic.
Proof. intros T K s. apply fully_cases. Qed.
Print Assumptions C88_all_panic.
(** After success every table that can be read is held parsed, with the value
    that looking it up gave before, and what is left as bytes is refused. *)
Theorem C88_all_loaded : forall T (K : codecs T) s s', fully_deserialize K s = (Ok tt, s') ->
  (forall tag t, bm_get lex_ltb tag s' = Some (Loaded t) <-> lookup K s tag = Ok (Some t)) /\
  (forall tag d, bm_get lex_ltb tag s' = Some (Unloaded d) -> lookup K s tag = Err).
Proof.
  intros T K s s' E. destruct (fully_cases K s) as (A & B & _ & _ & F). rewrite E in *. cbn [fst snd] in *.
  specialize (F eq_refl). split.
  - intros tag t. split; [|apply F]. intros H. rewrite <- (ext_lookup K s s' tag A). rewrite lookup_cases.
    change (bm_get lex_ltb tag s') with (st_get tag s') in H. now rewrite H.
  - intros tag d H. destruct (proj1 B eq_refl) as [_ N]. change (bm_get lex_ltb tag s') with (st_get tag s') in H.
    destruct (lookup K s tag) as [[t|]| |] eqn:El; [|exfalso|reflexivity|now destruct (N tag)].
    + rewrite (F _ _ El) in H. discriminate.
    + rewrite <- (ext_lookup K s s' tag A), lookup_cases, H in El. destruct (fst (des3 K tag d s')); discriminate.
Qed.
Print Assumptions C88_all_loaded.

(** A font with head, loca and glyf: everything loads, also after lookups; with
    a head that is cut short it does not; with a bad hmtx alone it does. *)
Example C88_case : forall T (K : codecs T),
  fst (fully_deserialize K PStoreEx.s0) = Ok tt /\
  lookup K (snd (run K [OLookup TAG_glyf; OLoadAll; OLookup TAG_head] PStoreEx.s0)) TAG_loca = lookup K PStoreEx.s0 TAG_loca /\
  fst (fully_deserialize K (ts_insert_raw TAG_head [0; 1] PStoreEx.s0)) = Err /\
  lookup K (ts_insert_raw TAG_hmtx [0; 1] PStoreEx.s0) TAG_hmtx = Err /\
  fst (fully_deserialize K (ts_insert_raw TAG_hmtx [0; 1] PStoreEx.s0)) = Ok tt.
Proof.
  intros T K. split; [vm_compute; reflexivity|]. split; [apply C88_lookups; repeat constructor|].
  repeat split; vm_compute; reflexivity.
Qed.
(** Changing head can change what glyf gives: the edited tables matter. *)
Example C88_case_needs : forall T (K : codecs T), exists o, op_ok K o /\ ~ leaves_alone (TAG_glyf :: needs TAG_glyf) o /\
  lookup K (snd (run K [o] PStoreEx.s0)) TAG_glyf <> lookup K PStoreEx.s0 TAG_glyf /\
  leaves_alone (TAG_maxp :: needs TAG_maxp) o.
Proof.
  intros T K. exists (OInsertRaw TAG_head [0; 1]). split; [|split; [|split]].
  - cbn. split; [reflexivity|repeat constructor; lia].
  - cbn. tauto.
  - vm_compute. discriminate.
  - cbn. intuition discriminate.
Qed.

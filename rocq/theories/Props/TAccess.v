(** C90: the accessors of a table set give the table of their type, and abort
    only if reading it does. *)
From Coq Require Import String List ZArith Lia.
Import ListNotations.
From Verif.Model Require Import MBase MTag MMap MFont MTables MMetrics MGlyph MGlyf MStore.
From Verif.Spec Require Import SBase SFont SStore SOrder SAccess.
From Verif.Proofs Require Import PBase PStore PSave POrder PStoreEx.
From Verif.Model Require Import MCli MWhole.
Open Scope Z_scope.

Lemma looked_up {T} (K : codecs T) s tag t : inv K s -> lookup K s tag = Ok (Some t) -> right_kind tag (tb_loaded t).
Proof.
  intros I H. destruct (load_eq K s s tag (ext_refl K s)) as (s' & _ & E & V). specialize (V _ H). cbn beta iota in V.
  pose proof (quiet_load K (des3 K) tag (des3_ok K) s I) as [I' _]. unfold load_if_needed in E. rewrite E in I'. cbn [snd] in I'.
  destruct I' as [_ G]. exact (proj1 (G tag t V)).
Qed.
Lemma accessor_by {T A} (K : codecs T) s tag (sel : loaded T -> option A) (kind : A -> loaded T) : inv K s ->
  (forall x, sel (kind x) = Some x) -> (forall l, right_kind tag l -> exists x, l = kind x) ->
  accessor_of K s tag kind (fst (typed K tag sel s)).
Proof.
  intros I Hs Hk. pose proof (looked_up K s tag) as L. unfold accessor_of, typed, typed_by, sbind, lookup, ts_get in *.
  destruct (get_by (des3 K) tag s) as [[[t|]| |] s']; cbn [fst] in *.
  - destruct (Hk _ (L t I eq_refl)) as [x Ex]. rewrite Ex, Hs. cbn [slift fst].
    repeat split; try discriminate.
    + intros H. injection H as <-. eauto.
    + intros (t' & H & E). injection H as <-. rewrite Ex in E. apply (f_equal sel) in E. rewrite !Hs in E. congruence.
  - cbn [slift fst]. repeat split; try discriminate. intros (t' & H & _). discriminate.
  - repeat split; try discriminate. intros (t' & H & _). discriminate.
  - repeat split; try discriminate. intros (t' & H & _). discriminate.
Qed.

(** The names used for tags in all theorems mean these tags. *)
Theorem C90_tags :
  TAG_head = spelled "head" /\ TAG_hhea = spelled "hhea" /\ TAG_maxp = spelled "maxp" /\ TAG_hmtx = spelled "hmtx" /\
  TAG_loca = spelled "loca" /\ TAG_glyf = spelled "glyf" /\ TAG_gvar = spelled "gvar" /\ TAG_GPOS = spelled "GPOS" /\
  TAG_GSUB = spelled "GSUB" /\ TAG_MATH = spelled "MATH" /\ TAG_cmap = spelled "cmap" /\ TAG_post = spelled "post" /\
  TAG_gasp = spelled "gasp" /\ TAG_prep = spelled "prep" /\ TAG_DSIG = spelled "DSIG" /\ TAG_avar = spelled "avar" /\
  TAG_cvt = spelled "cvt " /\ TAG_fpgm = spelled "fpgm" /\ TAG_fvar = spelled "fvar" /\ TAG_GDEF = spelled "GDEF" /\
  TAG_name = spelled "name" /\ TAG_OS2 = spelled "OS/2" /\ TAG_STAT = spelled "STAT".
Proof. repeat split. Qed.
Print Assumptions C90_tags.

(** After any history of insertions, removals and lookups. *)
Theorem C90_accessors : forall T (K : codecs T) ops s, good_store K s -> Forall (op_ok K) ops ->
  let s' := snd (run K ops s) in
  accessor_of K s' (spelled "head") LHead (fst (typed K (spelled "head") sel_head s')) /\
  accessor_of K s' (spelled "hhea") LHhea (fst (typed K (spelled "hhea") sel_hhea s')) /\
  accessor_of K s' (spelled "maxp") LMaxp (fst (typed K (spelled "maxp") sel_maxp s')) /\
  accessor_of K s' (spelled "hmtx") LHmtx (fst (typed K (spelled "hmtx") sel_hmtx s')) /\
  accessor_of K s' (spelled "loca") LLoca (fst (typed K (spelled "loca") sel_loca s')) /\
  accessor_of K s' (spelled "glyf") LGlyf (fst (typed K (spelled "glyf") sel_glyf s')) /\
  forall tag, In tag other_accessors ->
    accessor_of K s' tag (LOther tag) (fst (typed K tag sel_other s')).
Proof.
  intros T K ops s G O s'. assert (I: inv K s') by (apply good_inv, run_good; assumption). clearbody s'.
  repeat match goal with |- _ /\ _ => split end.
  1-6: apply accessor_by; [exact I|reflexivity|]; intros l H; destruct l; cbn [right_kind] in H;
    first [eexists; reflexivity | exfalso; first [discriminate H | destruct H as [_ H]; vm_compute in H; intuition discriminate | apply H; vm_compute; tauto]].
  intros tag Ht. apply accessor_by; [exact I|reflexivity|]. intros l H. destruct l; cbn [right_kind] in H.
  1-6: exfalso; rewrite H in Ht; vm_compute in Ht; intuition discriminate.
  - destruct H as [-> _]. eexists. reflexivity.
  - exfalso. apply H. revert Ht. clear. vm_compute. tauto.
Qed.
Print Assumptions C90_accessors.

(** An accessor leaves the table set as the lookup of its table leaves it. *)
Theorem C90_same_effect : forall T A (K : codecs T) tag (sel : loaded T -> option A) s,
  snd (typed K tag sel s) = snd (ts_get K tag s).
Proof.
  intros T A K tag sel s. unfold typed, typed_by, sbind, ts_get. destruct (get_by (des3 K) tag s) as [[[t|]| |] s']; [|reflexivity..].
  destruct (sel (tb_loaded t)); reflexivity.
Qed.
Print Assumptions C90_same_effect.

(** A font with head, loca and glyf: the accessors give values, nothing, and
    an error for a head that is cut short. *)
Example C90_case : forall T (K : codecs T),
  good_store K PStoreEx.s0 /\
  (exists h, fst (typed K TAG_head sel_head PStoreEx.s0) = Ok (Some h)) /\
  (exists g, fst (typed K TAG_glyf sel_glyf PStoreEx.s0) = Ok (Some g)) /\
  fst (typed K TAG_hhea sel_hhea PStoreEx.s0) = Ok None /\
  fst (typed K TAG_head sel_head (ts_insert_raw TAG_head [0; 1] PStoreEx.s0)) = Err.
Proof.
  intros T K. split; [|split; [|split; [|split]]].
  - apply PStoreEx.s0_good.
  - eexists. vm_compute. reflexivity.
  - eexists. vm_compute. reflexivity.
  - vm_compute. reflexivity.
  - vm_compute. reflexivity.
Qed.

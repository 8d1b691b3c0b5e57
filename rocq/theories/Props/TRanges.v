(** C43: Unicode ranges and code pages. *)
From Coq Require Import List ZArith Bool Lia.
Import ListNotations.
From Verif.Model Require Import MBase MUtils MRanges.
From Verif.Spec Require Import SRanges.
From Verif.Proofs Require Import PBase PUtils PRanges.
Open Scope Z_scope.

(** Whatever the search does with an unsorted table, as long as it only claims
    matches, every bit but bit 0 stands for a character of the mapping in one of
    its blocks. *)
Theorem C43_sound bs keys w1 w2 w3 w4 n : (forall cmp len i, bs cmp len = Ok (Some i) -> cmp i = Eq) ->
  calc_unicode_ranges bs keys = Ok (w1, w2, w3, w4) -> bit_set [w1; w2; w3; w4] n -> n <> 0 ->
  exists c, In c keys /\ in_block unicode_blocks n c.
Proof. intros H E B N. destruct (calc_sound bs keys w1 w2 w3 w4 n H E B) as [A|A]; [contradiction|exact A]. Qed.
Print Assumptions C43_sound.
Theorem C43_searches_claim : (forall cmp len i, search_halving cmp len = Ok (Some i) -> cmp i = Eq) /\
  (forall cmp len i, search_branchless cmp len = Ok (Some i) -> cmp i = Eq).
Proof. split; [exact halving_claims|exact branchless_claims]. Qed.
Print Assumptions C43_searches_claim.

(** Exactly the characters of the recognized blocks count; all others set bit 0. *)
Theorem C43_exact_halving keys : Forall (fun c => 0 <= c) keys ->
  exists w1 w2 w3 w4, calc_unicode_ranges search_halving keys = Ok (w1, w2, w3, w4) /\
  forall n, bit_set [w1; w2; w3; w4] n <->
    exists c, In c keys /\ (in_block recognized_halving n c \/ (n = 0 /\ forall m, ~ in_block recognized_halving m c)).
Proof.
  intros P. destruct (calc_spec _ _ keys range_halving eq_refl P) as (w1 & w2 & w3 & w4 & E & B). exists w1, w2, w3, w4. split; [exact E|].
  intros n. rewrite B. split; intros (c & I & H); exists c; (split; [exact I|]); now apply bit_of_iff.
Qed.
Print Assumptions C43_exact_halving.
Theorem C43_exact_branchless keys : Forall (fun c => 0 <= c) keys ->
  exists w1 w2 w3 w4, calc_unicode_ranges search_branchless keys = Ok (w1, w2, w3, w4) /\
  forall n, bit_set [w1; w2; w3; w4] n <->
    exists c, In c keys /\ (in_block recognized_branchless n c \/ (n = 0 /\ forall m, ~ in_block recognized_branchless m c)).
Proof.
  intros P. destruct (calc_spec _ _ keys range_branchless eq_refl P) as (w1 & w2 & w3 & w4 & E & B). exists w1, w2, w3, w4. split; [exact E|].
  intros n. rewrite B. split; intros (c & I & H); exists c; (split; [exact I|]); now apply bit_of_iff.
Qed.
Print Assumptions C43_exact_branchless.

Definition block_eqb (x y : Z * Z * Z) : bool :=
  (fst (fst x) =? fst (fst y)) && (snd (fst x) =? snd (fst y)) && (snd x =? snd y).
Lemma block_eqb_eq x y : block_eqb x y = true -> x = y.
Proof. destruct x as [[a b] c], y as [[a' b'] c']. unfold block_eqb. cbn. intros H. repeat f_equal; lia. Qed.
(** These are some of OpenType's blocks: 45 and 43 of 169. *)
Theorem C43_recognized : incl recognized_halving unicode_blocks /\ incl recognized_branchless unicode_blocks /\
  length recognized_halving = 45%nat /\ length recognized_branchless = 43%nat /\ length unicode_blocks = 169%nat.
Proof.
  assert (H: forall l, forallb (fun x => existsb (block_eqb x) unicode_blocks) l = true -> incl l unicode_blocks).
  { intros l H x I. rewrite forallb_forall in H. specialize (H x I). apply existsb_exists in H as (y & Iy & E). apply block_eqb_eq in E. now subst. }
  split; [apply H; vm_compute; reflexivity|]. split; [apply H; vm_compute; reflexivity|]. repeat split; reflexivity.
Qed.
Print Assumptions C43_recognized.

(** A font with a Cyrillic letter is marked as Basic Latin and not as Cyrillic,
    with either search. *)
Theorem C43_refuted : exists c, in_block unicode_blocks 9 c /\ ~ in_block unicode_blocks 0 c /\
  forall bs, bs = search_halving \/ bs = search_branchless ->
  exists w1 w2 w3 w4, calc_unicode_ranges bs [c] = Ok (w1, w2, w3, w4) /\ ~ bit_set [w1; w2; w3; w4] 9 /\ bit_set [w1; w2; w3; w4] 0.
Proof.
  exists 0x411. split; [exists 0x400, 0x4FF; split; [repeat (first [left; reflexivity|right])|lia]|]. split.
  { intros (lo & hi & I & H). assert (F: forallb (fun e => let '(n, lo, hi) := e in negb ((n =? 0) && (lo <=? 0x411) && (0x411 <=? hi))) unicode_blocks = true) by reflexivity.
    rewrite forallb_forall in F. apply F in I. lia. }
  intros bs B. exists 1, 0, 0, 0. split; [destruct B as [->| ->]; vm_compute; reflexivity|]. split.
  - intros (k & w & K & H & T). assert (k = 0%nat) by lia. subst k. injection K as <-. vm_compute in T. discriminate.
  - exists 0%nat, 1. split; [reflexivity|]. split; [lia|reflexivity].
Qed.
Print Assumptions C43_refuted.

(** The code pages are those recognized by their characters, or Latin 1 if none is. *)
Theorem C43_code_pages keys : exists w1 w2, calc_code_page_ranges keys = Ok (w1, w2) /\
  forall n, bit_set [w1; w2] n <-> supports keys n \/ (n = 0 /\ forall m, ~ supports keys m).
Proof.
  destruct (code_page_words keys) as (w1 & w2 & E & B). exists w1, w2. split; [exact E|]. intros n. rewrite B. apply pages_spec.
Qed.
Print Assumptions C43_code_pages.

Example C43_example : calc_unicode_ranges search_halving [0x41; 0x915; 0x2190] = Ok (2 ^ 0 + 2 ^ 15, 2 ^ 5, 0, 0) /\
  calc_code_page_ranges [0x411; 0x405; 0x2524] = Ok (2 ^ 2, 2 ^ 25) /\ calc_code_page_ranges [] = Ok (1, 0).
Proof. vm_compute. auto. Qed.

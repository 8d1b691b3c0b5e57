From Verif.Proofs Require Import PBase.
From Verif.Model Require Import MTag.

Lemma position_not_none f l i : position_not f l i = None <-> forallb f l = true.
Proof.
  revert i; induction l as [|b l IH]; intros i; cbn [position_not forallb]; [tauto|].
  destruct (f b); cbn [andb]; [apply IH|]. split; discriminate.
Qed.

Lemma position_not_some f l i p b : position_not f l i = Some (p, b) ->
  (i <= p)%nat /\ nth_error l (p - i) = Some b /\ f b = false /\
  forall k c, (k < p - i)%nat -> nth_error l k = Some c -> f c = true.
Proof.
  revert i; induction l as [|a l IH]; intros i; cbn [position_not]; [discriminate|].
  destruct (f a) eqn:E.
  - intros H. destruct (IH _ H) as (Hle & Hn & Hf & Hk).
    split; [lia|]. replace (p - i)%nat with (S (p - S i)) by lia. split; [exact Hn|].
    split; [exact Hf|]. intros [|k] c Hlt; cbn [nth_error]; [congruence|]. intros. apply (Hk k); [lia|assumption].
  - intros [= <- <-]. rewrite Nat.sub_diag. cbn. split; [lia|]. split; [reflexivity|]. split; [assumption|].
    intros; lia.
Qed.

Lemma tag_from_raw_ok src t :
  tag_from_raw src = TagOk t <->
  (1 <= length src <= 4)%nat /\ Forall (fun b => 0x20 <= b <= 0x7E) src /\
  t = src ++ repeat 0x20 (4 - length src).
Proof.
  unfold tag_from_raw.
  destruct (Nat.eqb_spec (length src) 0), (Nat.ltb_spec 4 (length src)); cbn [orb];
    try (split; [discriminate|intros (?&?&?); lia]).
  assert (HP: forallb printable src = true <-> Forall (fun b => 0x20 <= b <= 0x7E) src).
  { rewrite forallb_forall, Forall_forall. unfold printable. split; intros H' x Hx; specialize (H' x Hx); lia. }
  destruct (position_not printable src 0) as [[p b]|] eqn:E.
  - split; [discriminate|]. intros (_ & Hf & _). apply HP in Hf.
    apply (position_not_none printable src 0) in Hf. congruence.
  - apply position_not_none in E. split.
    + intros [= <-]. split; [lia|]. split; [now apply HP|reflexivity].
    + intros (_ & _ & ->). reflexivity.
Qed.

Lemma tag_from_raw_len src n : tag_from_raw src = TagErr (InvalidLength n) <->
  n = length src /\ (length src = 0 \/ 4 < length src)%nat.
Proof.
  unfold tag_from_raw.
  destruct (Nat.eqb_spec (length src) 0), (Nat.ltb_spec 4 (length src)); cbn [orb];
    try (split; [intros [= <-]; split; lia| intros [-> _]; reflexivity]).
  destruct (position_not printable src 0) as [[p b]|].
  - split; [discriminate|]. intros [_ [?|?]]; lia.
  - split; [discriminate|]. intros [_ [?|?]]; lia.
Qed.

Lemma tag_from_raw_byte src p b : tag_from_raw src = TagErr (InvalidByte p b) ->
  nth_error src p = Some b /\ ~ (0x20 <= b <= 0x7E) /\
  forall k c, (k < p)%nat -> nth_error src k = Some c -> 0x20 <= c <= 0x7E.
Proof.
  unfold tag_from_raw.
  destruct ((length src =? 0)%nat || (4 <? length src)%nat); [discriminate|].
  destruct (position_not printable src 0) as [[p' b']|] eqn:E; [|discriminate].
  intros [= <- <-]. apply position_not_some in E as (Hle & Hn & Hf & Hk).
  rewrite Nat.sub_0_r in *. split; [exact Hn|]. split.
  - unfold printable in Hf. lia.
  - intros k c Hk1 Hk2. specialize (Hk k c Hk1 Hk2). unfold printable in Hk. lia.
Qed.

Lemma ser_tag_id t : Forall byte t -> ser_tag t = t.
Proof.
  induction 1 as [|b t Hb Ht IH]; [reflexivity|].
  unfold ser_tag. cbn [map concat]. rewrite ser_u8_byte by exact Hb. cbn [app]. f_equal. exact IH.
Qed.

Definition valid_tag (t : list Z) : Prop := length t = 4%nat /\ Forall (fun b => 0x20 <= b <= 0x7E) t.

Lemma valid_tag_from_raw src t : tag_from_raw src = TagOk t -> valid_tag t.
Proof.
  intros H. apply tag_from_raw_ok in H as (Hl & Hf & ->). split.
  - rewrite app_length, repeat_length. lia.
  - apply Forall_app. split; [exact Hf|]. apply Forall_forall. intros x Hx.
    apply repeat_spec in Hx. lia.
Qed.

Lemma tag_from_raw_valid t : valid_tag t -> tag_from_raw t = TagOk t.
Proof.
  intros [Hl Hf]. apply tag_from_raw_ok. split; [lia|]. split; [exact Hf|].
  rewrite Hl. cbn. now rewrite app_nil_r.
Qed.

Lemma valid_tag_bytes t : valid_tag t -> Forall byte t.
Proof. intros [_ H]. eapply Forall_impl; [|exact H]. unfold byte; cbn; lia. Qed.

Lemma reads_tag t : valid_tag t -> reads de_tag (ser_tag t) t.
Proof.
  intros Hv r post Hr. unfold de_tag. rewrite ser_tag_id in * by now apply valid_tag_bytes.
  pose proof Hv as [Hl _].
  assert (Hne: t <> []) by (destruct t; [discriminate|congruence]).
  pose proof (reads_consume r t post Hne Hr) as Hc. rewrite Hl in Hc. rewrite Hc.
  rewrite tag_from_raw_valid by exact Hv. now rewrite Hl.
Qed.

(** lexicographic order *)
Lemma bytes_eqb_eq a b : bytes_eqb a b = true <-> a = b.
Proof.
  revert b; induction a as [|x a IH]; intros [|y b]; cbn [bytes_eqb]; try (split; [discriminate|congruence]); [tauto|].
  rewrite andb_true_iff, IH. split; [intros [? ->]; f_equal; lia|intros [= -> ->]; split; [lia|reflexivity]].
Qed.

Lemma lex_ltb_be a b : length a = length b -> Forall byte a -> Forall byte b ->
  lex_ltb a b = true <-> be_value a < be_value b.
Proof.
  intros Hl Ha; revert b Hl; induction Ha as [|x a Hx Ha IH]; intros [|y b] Hl Hb; try discriminate.
  - cbn. unfold be_value; cbn. split; [discriminate|lia].
  - inversion_clear Hb. cbn [lex_ltb]. rewrite !be_value_cons.
    assert (Hl': length a = length b) by (cbn in Hl; congruence).
    pose proof (be_value_range a Ha). pose proof (be_value_range b H0).
    rewrite Hl' in *. specialize (IH b eq_refl H0).
    pose proof (pow256_pos (length b)). unfold byte in *.
    destruct (Z.ltb_spec x y); cbn [orb]; [split; [intros _; nia|reflexivity]|].
    destruct (Z.eqb_spec x y); cbn [andb]; [rewrite IH; subst; lia|].
    split; [discriminate|nia].
Qed.

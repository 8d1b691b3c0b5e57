(** Reading and writing the parts of layout subtables. *)
From Coq Require Import List ZArith Lia Bool.
Import ListNotations.
From Verif.Model Require Import MBase MMap MTag MGlyph MOffset MLayout MLow MLookup.
From Verif.Spec Require Import SBase SGlyph SOffset SLayout SContext.
From Verif.Proofs Require Import PBase PCodec PMap PTag PGlyphFmt PPoints POffset PPart PCover PClassdef.
Open Scope Z_scope.

Lemma len_word {A} (l : list A) : countable l -> ser_u16 (u16 (Z.of_nat (length l))) = word (Z.of_nat (length l)).
Proof. intros H. unfold countable in H. rewrite u16_id by lia. symmetry. apply word_u16. Qed.
Lemma words_ser l : concat (map ser_u16 l) = words l.
Proof. unfold words. now rewrite map_words_u. Qed.
Lemma words_enc_spec l : countable l -> words_enc l = counted_words l.
Proof. intros H. unfold words_enc, counted_words. now rewrite len_word, words_ser. Qed.

Lemma F2_len {A B} (P : A -> B -> Prop) l1 l2 : Forall2 P l1 l2 -> length l1 = length l2.
Proof. induction 1; cbn; auto. Qed.
Lemma decodes_lift {A B} (p : parser A) (f : A -> res B) o l v : decodes p o l -> f l = Ok v ->
  decodes (pbind p (fun x => plift (f x))) o v.
Proof. intros H E buf pos stk S. unfold pbind, plift. now rewrite (H _ _ _ S), E. Qed.
Lemma part_word z : is_u16 z -> part de_u16 (raw (word z)) z.
Proof. intros H. apply part_reads. rewrite word_u16. apply reads_u16. unfold is_u16 in H. lia. Qed.
Lemma part_words l : countable l -> Forall is_u16 l -> part de_words (counted_words l) l.
Proof. intros H1 H2. apply part_reads. now apply reads_words. Qed.
Lemma part_decodes {A} (p : parser A) bs v : reads p bs v -> decodes p (raw bs) v.
Proof. apply decodes_reads. Qed.

Lemma part_vec {A} (p : parser A) os vs : Forall2 (fun o v => decodes p o v) os vs -> countable os ->
  part (de_vec16 p) (links os) (map Some vs).
Proof.
  intros H Hc. unfold de_vec16, de_counted16, links. eapply part_bind.
  - apply part_word. unfold countable, is_u16 in *. lia.
  - apply part_group. rewrite Nat2Z.id. replace (length os) with (length (map (@Some A) vs)) by (rewrite map_length; symmetry; eapply F2_len; eassumption).
    replace (map link os) with (concat (map (fun o => [link o]) os)) by (clear; induction os; cbn; [reflexivity|now rewrite IHos]).
    apply part_counted2. clear Hc. induction H as [|o v os vs H1 H2 IH]; cbn [map]; constructor; [|exact IH]. now apply part_off16.
Qed.
Lemma part_ovec {A} (p : parser A) os vs : Forall2 (fun o v => match o, v with Some o, Some v => decodes p o v | None, None => True | _, _ => False end) os vs -> countable os ->
  part (de_vec16 p) (olinks os) vs.
Proof.
  intros H Hc. unfold de_vec16, de_counted16, olinks. eapply part_bind.
  - apply part_word. unfold countable, is_u16 in *. lia.
  - apply part_group. rewrite Nat2Z.id. replace (length os) with (length vs) by (symmetry; eapply F2_len; eassumption).
    replace (map olink os) with (concat (map (fun o => [olink o]) os)) by (clear; induction os; cbn; [reflexivity|now rewrite IHos]).
    apply part_counted2. clear Hc. induction H as [|o v os vs H1 H2 IH]; cbn [map]; constructor; [|exact IH].
    destruct o as [o|], v as [v|]; try contradiction; [now apply part_off16|apply part_off16_null].
Qed.
Lemma cov_decodes g o : cov_obj g o -> decodes cov_de o g.
Proof. intros (bs & -> & H1 & H2). apply decodes_reads. now apply cov_every_read. Qed.
Lemma part_cov g o : cov_obj g o -> part de_cov [link o] (Some g).
Proof. intros H. apply part_off16. now apply cov_decodes. Qed.

Lemma peek_at buf pos stk bs : at_pos buf pos bs -> peek (mkrd buf pos stk) (length bs) = Ok (bs, mkrd buf pos stk).
Proof.
  intros (pre & post & -> & <-). unfold peek, consume_or_peek. cbn [rd_input rd_ptr rd_stack]. rewrite !app_length.
  replace (length pre + (length bs + length post) <? length pre + length bs)%nat with false by (symmetry; apply Nat.ltb_ge; lia).
  rewrite skipn_app_exact, firstn_app_exact. reflexivity.
Qed.
Lemma decodes_format {A} (f : list Z -> parser A) bs o v : length bs = 2%nat -> decodes (f bs) (raw bs ++ o) v ->
  decodes (by_format f) (raw bs ++ o) v.
Proof.
  intros Hl H buf pos stk S. unfold by_format. pose proof S as S2. apply stored_app in S2 as [S2 _]. apply stored_raw in S2.
  pose proof (peek_at buf pos stk bs S2) as P. rewrite Hl in P. rewrite P. exact (H buf pos stk S).
Qed.

(** ** Writing *)
Lemma increasing_tail a l : increasing (a :: l) -> increasing l.
Proof. destruct l; cbn; [auto|tauto]. Qed.
Lemma increasing_lt a l : increasing (a :: l) -> Forall (fun b => a < b) l.
Proof.
  revert a. induction l as [|b l IH]; intros a H; [constructor|]. cbn in H. destruct H as [H1 H2]. constructor; [exact H1|].
  eapply Forall_impl; [|exact (IH b H2)]. cbn; intros; lia.
Qed.
Lemma increasing_length l lo hi : increasing l -> Forall (fun x => lo <= x <= hi) l -> lo <= hi + 1 -> Z.of_nat (length l) <= hi - lo + 1.
Proof.
  revert lo. induction l as [|a l IH]; intros lo Hi Hf Hb; [cbn; lia|]. inversion Hf; subst. cbn [length].
  pose proof (increasing_lt _ _ Hi) as Hlt.
  assert (X: Forall (fun x => a + 1 <= x <= hi) l). { rewrite Forall_forall in *. intros x Hx. specialize (Hlt x Hx). specialize (H2 x Hx). lia. }
  specialize (IH (a + 1) (increasing_tail _ _ Hi) X). lia.
Qed.
Lemma glyphs_count l : increasing l -> Forall is_glyph l -> countable l.
Proof. intros H1 H2. unfold countable. pose proof (increasing_length l 0 65534 H1 H2). lia. Qed.
Lemma glyph_u16 l : Forall is_glyph l -> Forall is_u16 l.
Proof. apply Forall_impl. unfold is_glyph, is_u16. intros; lia. Qed.
Lemma In_removelast {A} (x : A) l : In x (removelast l) -> In x l.
Proof. induction l as [|a l IH]; [easy|]. cbn [removelast]. destruct l; [easy|]. intros [->|H]; [now left|right; auto]. Qed.
Lemma cov_enc_obj g : increasing g -> Forall is_glyph g -> exists o, cov_enc g = Ok o /\ cov_obj g o.
Proof.
  intros H1 H2. pose proof (glyphs_count g H1 H2) as Hc. pose proof (glyph_u16 g H2) as Hu.
  assert (N: ~ In 65535 g). { intros Hi. rewrite Forall_forall in H2. specialize (H2 _ Hi). unfold is_glyph in H2. lia. }
  destruct (proj2 (cov_written_iff g Hu Hc)) as [bs Hb]. { intros Hi. apply N. now apply In_removelast. }
  exists (raw bs). unfold cov_enc. rewrite Hb. split; [reflexivity|]. exists bs. split; [reflexivity|]. split; [now apply cov_written_format|now right].
Qed.
Lemma cov_link g : increasing g -> Forall is_glyph g -> exists o, link_enc cov_enc (Some g) = Ok (link o) /\ cov_obj g o.
Proof. intros H1 H2. destruct (cov_enc_obj g H1 H2) as (o & E & C). exists o. split; [|exact C]. cbn [link_enc]. now rewrite E. Qed.
Lemma vec_enc_ok {A} (enc : A -> res obj) (Q : A -> obj -> Prop) vs : countable vs ->
  Forall (fun v => exists o, enc v = Ok o /\ Q v o) vs ->
  exists os, vec_enc enc (map Some vs) = Ok (links os) /\ Forall2 Q vs os.
Proof.
  intros Hc H. assert (X: exists os, rmapM (link_enc enc) (map Some vs) = Ok (map link os) /\ Forall2 Q vs os).
  { clear Hc. induction H as [|v vs (o & E & q) H IH]; [exists []; split; [reflexivity|constructor]|].
    destruct IH as (os & E2 & F). exists (o :: os). split; [|now constructor]. cbn [map rmapM link_enc]. rewrite E. cbn [rbind]. rewrite E2. reflexivity. }
  destruct X as (os & E & F). exists os. split; [|exact F]. unfold vec_enc. rewrite E. cbn [rbind].
  rewrite (len_word (map Some vs)) by (unfold countable in *; now rewrite map_length). unfold links.
  now rewrite map_length, (F2_len _ _ _ F).
Qed.
Lemma covs_enc ss : glyph_sets ss -> exists os, vec_enc cov_enc (map Some ss) = Ok (links os) /\ Forall2 cov_obj ss os.
Proof.
  intros [Hc H]. apply vec_enc_ok; [exact Hc|]. eapply Forall_impl; [|exact H]. intros s [H1 H2]. now apply cov_enc_obj.
Qed.
Lemma Forall2_flip {A B} (P : A -> B -> Prop) l1 l2 : Forall2 P l1 l2 -> Forall2 (fun b a => P a b) l2 l1.
Proof. induction 1; constructor; auto. Qed.
Lemma Forall2_impl' {A B} (P Q : A -> B -> Prop) l1 l2 : (forall a b, P a b -> Q a b) -> Forall2 P l1 l2 -> Forall2 Q l1 l2.
Proof. intros H. induction 1; constructor; auto. Qed.
Lemma part_covs gs os : Forall2 cov_obj gs os -> countable os -> part (de_vec16 cov_de) (links os) (map Some gs).
Proof.
  intros H Hc. apply part_vec; [|exact Hc]. apply Forall2_flip. eapply Forall2_impl'; [|exact H]. intros. now apply cov_decodes.
Qed.
Lemma Forall2_countable {A B} (P : A -> B -> Prop) l1 l2 : Forall2 P l1 l2 -> countable l1 -> countable l2.
Proof. intros H. unfold countable. now rewrite (F2_len _ _ _ H). Qed.

(** sets *)
Lemma set_of_list g s : glyph_set g s -> bs_of_list g = s.
Proof.
  intros [H1 H2]. apply sorted_set_ext; [apply bs_of_list_sorted| |].
  - clear H2. induction s as [|a s IH]; constructor; [apply IH; now apply increasing_tail in H1|now apply increasing_lt].
  - intros x. rewrite bs_of_list_In. symmetry. apply H2.
Qed.
Lemma set_self s : increasing s -> glyph_set s s.
Proof. intros H. split; [exact H|]. tauto. Qed.
Lemma increasing_SS s : increasing s -> Sorted.StronglySorted Z.lt s.
Proof. induction s as [|a s IH]; constructor; [apply IH; now apply increasing_tail in H|now apply increasing_lt]. Qed.
Lemma SS_increasing s : Sorted.StronglySorted Z.lt s -> increasing s.
Proof. induction 1 as [|a s H IH F]; [exact I|]. cbn. destruct s; [exact I|]. inversion F; subst. auto. Qed.
Lemma bs_glyph_set g : glyph_set g (bs_of_list g).
Proof. split; [apply SS_increasing, bs_of_list_sorted|]. intros x. apply bs_of_list_In. Qed.
Lemma increasing_sorted_map {V} (m : list (Z * V)) : increasing (map fst m) -> sorted_map Z.ltb m.
Proof.
  intros H. unfold sorted_map, sorted_keys. apply increasing_SS in H. induction H as [|a s H IH F]; constructor; [exact IH|].
  eapply Forall_impl; [|exact F]. intros b Hb. cbn beta in *. lia.
Qed.
Lemma combine_fst_snd {A B} (m : list (A * B)) : combine (map fst m) (map snd m) = m.
Proof. induction m as [|[a b] m IH]; cbn; [reflexivity|now rewrite IH]. Qed.

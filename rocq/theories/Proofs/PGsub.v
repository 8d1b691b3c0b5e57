(** Substitution subtables. *)
From Coq Require Import List ZArith Lia Bool Permutation Sorted.
Import ListNotations.
From Verif.Model Require Import MBase MMap MTag MGlyph MOffset MLayout MLow MContext MLookup MGsub.
From Verif.Spec Require Import SBase SGlyph SOffset SLayout SContext SGsub.
From Verif.Proofs Require Import PBase PCodec PMap PTag PGlyph PGlyphFmt PPoints POffset PPart PCover PClassdef PLow.
Open Scope Z_scope.

(** ** 16-bit arithmetic *)
Lemma i16_range a : -32768 <= i16 a <= 32767.
Proof. unfold i16, wrap_i. change (2 ^ 16) with 65536. change (2 ^ (16 - 1)) with 32768. destruct (_ <? _) eqn:E; lia. Qed.
Lemma i16_mod a : i16 a mod 65536 = a mod 65536.
Proof. unfold i16, wrap_i. change (2 ^ 16) with 65536. change (2 ^ (16 - 1)) with 32768. destruct (_ <? _) eqn:E; lia. Qed.
Lemma i16_eq a b : i16 a = i16 b <-> a mod 65536 = b mod 65536.
Proof.
  split; intros H; [rewrite <- (i16_mod a), <- (i16_mod b); now rewrite H|].
  pose proof (i16_range a). pose proof (i16_range b). pose proof (i16_mod a). pose proof (i16_mod b). lia.
Qed.
Lemma i16_signed g : is_u16 g -> i16 g = signed g.
Proof.
  intros H. unfold is_u16 in H. pose proof (i16_range g). pose proof (i16_mod g). unfold signed. destruct (g <? 32768) eqn:E; lia.
Qed.

(** ** Single substitution *)
Lemma single_step l r d : is_u16 r -> (i16 (i16 l + d) = i16 r <-> r = (l + d) mod 65536).
Proof.
  intros H. unfold is_u16 in H. rewrite i16_eq. pose proof (i16_mod l). rewrite Z.add_mod by lia. rewrite H0, <- Z.add_mod by lia.
  rewrite (Z.mod_small r) by lia. split; auto.
Qed.
Lemma one_delta_spec d m : Forall is_u16 (map snd m) -> (one_delta d m = true <-> single_by d m).
Proof.
  unfold single_by. induction m as [|[l r] m IH]; intros H; cbn [one_delta]; [split; auto|]. cbn [map snd] in H. inversion H; subst.
  destruct (i16 (i16 l + d) =? i16 r) eqn:E.
  - rewrite IH by assumption. split; [|now inversion 1]. intros F. constructor; [|exact F]. cbn [fst snd]. apply single_step; [assumption|lia].
  - split; [discriminate|]. intros F. inversion F as [|? ? F1 F2]; subst. cbn [fst snd] in F1. apply single_step in F1; [lia|assumption].
Qed.
Lemma single_by_mod a b m : a mod 65536 = b mod 65536 -> single_by a m -> single_by b m.
Proof.
  intros H. apply Forall_impl. intros kv ->. rewrite (Z.add_mod _ a), (Z.add_mod _ b) by lia. now rewrite H.
Qed.
Definition by_one (m : list (Z * Z)) : Prop := m <> [] /\ exists d, single_by d m.
Lemma single_format_spec m : Forall is_u16 (map snd m) ->
  (by_one m -> exists d, single_format m = (1, d) /\ -32768 <= d <= 32767 /\ single_by d m) /\
  (~ by_one m -> fst (single_format m) = 2).
Proof.
  intros H. destruct m as [|[l r] m]; cbn [single_format]; [split; [intros [X _]; congruence|reflexivity]|].
  cbn [map snd] in H. inversion H; subst. set (d := i16 (i16 r - i16 l)).
  assert (Hd: d mod 65536 = (r - l) mod 65536).
  { unfold d. rewrite i16_mod. pose proof (i16_mod r). pose proof (i16_mod l). lia. }
  assert (H0: r = (l + d) mod 65536) by (unfold is_u16 in *; lia).
  split.
  - intros [_ [e He]]. exists d. assert (B: single_by d ((l, r) :: m)).
    { eapply single_by_mod; [|exact He]. inversion He as [|? ? X1 X2]. cbn [fst snd] in X1. lia. }
    split; [|split; [apply i16_range|exact B]]. inversion B as [|? ? X1 X2]. rewrite (proj2 (one_delta_spec d m ltac:(assumption))) by assumption. reflexivity.
  - intros N. cbn [fst]. destruct (one_delta d m) eqn:E; [|reflexivity]. exfalso. apply N. split; [discriminate|]. exists d.
    apply one_delta_spec in E; [|assumption]. constructor; assumption.
Qed.
Lemma by_one_dec m : Forall is_u16 (map snd m) -> by_one m \/ ~ by_one m.
Proof.
  intros H. destruct m as [|[l r] m]; [right; intros [X _]; congruence|].
  destruct (single_format ((l, r) :: m)) as [f d] eqn:E. destruct (Z.eq_dec f 1) as [->|Hf].
  - left. cbn [single_format] in E. set (d0 := i16 (i16 r - i16 l)) in *. destruct (one_delta d0 m) eqn:Eo; [|discriminate].
    cbn [map snd] in H. inversion H; subst. apply one_delta_spec in Eo; [|assumption]. split; [discriminate|]. exists d0. constructor; [|exact Eo].
    cbn [fst snd]. unfold d0. pose proof (i16_mod (i16 r - i16 l)). pose proof (i16_mod r). pose proof (i16_mod l). unfold is_u16 in *. lia.
  - right. intros B. destruct (proj1 (single_format_spec _ H) B) as (d' & E' & _). congruence.
Qed.

Lemma glyph_map_keys {V} (ok : V -> Prop) m : glyph_map ok m -> Forall is_glyph (map fst m).
Proof. intros [_ H]. apply Forall_map. eapply Forall_impl; [|exact H]. now intros [] []. Qed.
Lemma glyph_map_vals {V} (ok : V -> Prop) m : glyph_map ok m -> Forall ok (map snd m).
Proof. intros [_ H]. apply Forall_map. eapply Forall_impl; [|exact H]. now intros [] []. Qed.
Lemma glyph_map_count {V} (ok : V -> Prop) m : glyph_map ok m -> countable m.
Proof.
  intros H. pose proof (glyphs_count _ (proj1 H) (glyph_map_keys ok m H)) as C. unfold countable in *. now rewrite map_length in C.
Qed.
Lemma glyph_map_sorted {V} (ok : V -> Prop) m : glyph_map ok m -> sorted_map Z.ltb m.
Proof. intros [H _]. now apply increasing_sorted_map. Qed.

Lemma single_written m : glyph_map is_u16 m -> exists o, gsub_enc (single_to_low m) = Ok o /\ single_obj m o /\
  (is_format 1 o <-> by_one m).
Proof.
  intros Hm. pose proof (glyph_map_vals _ _ Hm) as Hv. destruct (cov_link (map fst m) (proj1 Hm) (glyph_map_keys _ _ Hm)) as (c & E & C).
  destruct (single_format_spec m Hv) as [F1 F2]. unfold single_to_low.
  destruct (by_one_dec m Hv) as [B|B].
  - destruct (F1 B) as (d & Ef & Hd & Hb). rewrite Ef. change (1 =? 1) with true. cbn iota. cbn [gsub_enc]. rewrite E. cbn [rbind].
    eexists. split; [reflexivity|]. rewrite <- (word_u16 1), <- word_i16. split; [now constructor|]. split; [auto|reflexivity].
  - specialize (F2 B). destruct (single_format m) as [f d]. cbn [fst] in F2. subst f. change (2 =? 1) with false. cbn iota. cbn [gsub_enc].
    rewrite E. cbn [rbind]. eexists. split; [reflexivity|].
    assert (Cm: countable (map snd m)) by (pose proof (glyph_map_count _ _ Hm); unfold countable in *; now rewrite map_length).
    rewrite words_enc_spec by exact Cm. rewrite <- (word_u16 2). split; [constructor; auto; now apply glyph_map_count in Hm|].
    split; [|intros X; now elim B]. unfold is_format. cbn [word raw map app firstn]. discriminate.
Qed.

Lemma apply_delta_ok d gs m : Forall (fun g => -32768 <= i16 g + d <= 32767) gs ->
  single_apply_delta d gs m = Ok (fold_left (fun m (kv : Z * Z) => bm_insert Z.ltb (fst kv) (snd kv) m) (map (fun g => (g, u16 (i16 g + d))) gs) m).
Proof.
  intros H. revert m. induction H as [|g gs Hg H IH]; intros m; [reflexivity|]. cbn [single_apply_delta map fold_left fst snd].
  unfold chk_i. change (2 ^ (16 - 1)) with 32768. replace ((- (32768) <=? i16 g + d) && (i16 g + d <? 32768)) with true by lia. cbn [rbind]. apply IH.
Qed.
Lemma apply_delta_panic d gs m : ~ Forall (fun g => -32768 <= i16 g + d <= 32767) gs -> single_apply_delta d gs m = Panic.
Proof.
  revert m. induction gs as [|g gs IH]; intros m H; [elim H; constructor|]. cbn [single_apply_delta]. unfold chk_i.
  destruct ((- 2 ^ (16 - 1) <=? i16 g + d) && (i16 g + d <? 2 ^ (16 - 1))) eqn:E; [|reflexivity]. cbn [rbind]. apply IH. intros F. apply H.
  constructor; [|exact F]. change (2 ^ (16 - 1)) with 32768 in E. lia.
Qed.
Lemma single_low1 (m : list (Z * Z)) c d : cov_obj (map fst m) c -> -32768 <= d <= 32767 ->
  decodes g1_de (raw (word 1) ++ [link c] ++ raw (word d)) (G11 1 (Some (map fst m)) d).
Proof.
  intros Hc Hd. unfold g1_de. apply decodes_format; [reflexivity|]. change (word 1) with [0; 1]. cbn iota. apply decodes_part.
  change [0; 1] with (word 1). eapply part_bind; [apply part_word; unfold is_u16; lia|]. eapply part_bind; [eapply part_cov; eassumption|].
  apply (part_map _ (fun d => G11 1 (Some (map fst m)) d)). apply part_reads. rewrite word_i16. apply reads_i16. lia.
Qed.
Lemma single_low2 (m : list (Z * Z)) c : cov_obj (map fst m) c -> countable m -> Forall is_u16 (map snd m) ->
  decodes g1_de (raw (word 2) ++ [link c] ++ counted_words (map snd m)) (G12 2 (Some (map fst m)) (map snd m)).
Proof.
  intros Hc Hd Hv. unfold g1_de. apply decodes_format; [reflexivity|]. change (word 2) with [0; 2]. cbn iota. apply decodes_part.
  change [0; 2] with (word 2). eapply part_bind; [apply part_word; unfold is_u16; lia|]. eapply part_bind; [eapply part_cov; eassumption|].
  apply (part_map _ (fun d => G12 2 (Some (map fst m)) d)). apply part_words; [|exact Hv]. unfold countable in *. now rewrite map_length.
Qed.
Lemma short_iff m d : Forall is_u16 (map fst m) -> Forall is_u16 (map snd m) -> -32768 <= d <= 32767 -> single_by d m ->
  (Forall (fun g => -32768 <= i16 g + d <= 32767) (map fst m) <-> Forall short_move m).
Proof.
  intros Hf Hs Hd Hb. induction m as [|[l r] m IH]; [split; constructor|]. cbn [map fst snd] in *. inversion Hf; inversion Hs; inversion Hb as [|? ? X1 X2]; subst. cbn [fst snd] in X1.
  rewrite !Forall_cons_iff, IH by assumption. apply and_iff_compat_r. unfold short_move. cbn [fst snd].
  rewrite i16_signed by assumption. unfold is_u16, signed in *.
  destruct (l <? 32768) eqn:E1; destruct (r <? 32768) eqn:E2; lia.
Qed.
Lemma single_by_values m d : Forall is_u16 (map fst m) -> single_by d m -> Forall is_u16 (map snd m).
Proof.
  intros Hf Hb. unfold single_by in Hb. induction Hb as [|[l r] m H Hb IH]; [constructor|]. cbn [map fst snd] in *. inversion Hf; subst.
  constructor; [unfold is_u16; lia|auto].
Qed.
Lemma single_pairs m d : Forall is_u16 (map fst m) -> single_by d m -> map (fun g => (g, u16 (i16 g + d))) (map fst m) = m.
Proof.
  intros Hf Hb. unfold single_by in Hb. induction Hb as [|[l r] m H Hb IH]; [reflexivity|]. cbn [map fst snd] in *. inversion Hf; subst.
  f_equal; [|auto]. f_equal. unfold u16, wrap_u. change (2 ^ 16) with 65536. pose proof (i16_mod l). lia.
Qed.
Lemma single_every m o : increasing (map fst m) -> Forall is_u16 (map fst m) -> single_obj m o ->
  exists s, decodes g1_de o s /\
    (is_format 2 o \/ Forall short_move m -> single_from_low s = Ok m) /\
    (is_format 1 o -> ~ Forall short_move m -> single_from_low s = Panic).
Proof.
  intros Hi Hu H. pose proof (increasing_sorted_map m Hi) as Hs. destruct H as [c d Hc Hd Hb|c Hc Hn Hv].
  - eexists. split; [eapply single_low1; eassumption|]. cbn [single_from_low cov_or_nah].
    pose proof (single_by_values m d Hu Hb) as Hv. pose proof (short_iff m d Hu Hv Hd Hb) as Hiff. split.
    + intros [X|X]; [discriminate X|]. apply Hiff in X. rewrite (apply_delta_ok d _ _ X). rewrite single_pairs by assumption.
      f_equal. exact (of_list_id _ Z_strict m Hs).
    + intros _ X. apply apply_delta_panic. now rewrite Hiff.
  - eexists. split; [eapply single_low2; eassumption|]. cbn [single_from_low cov_or_nah]. rewrite combine_fst_snd. split.
    + intros _. f_equal. exact (of_list_id _ Z_strict m Hs).
    + intros X. discriminate X.
Qed.

(** ** Multiple and alternate substitution *)
Lemma words_objs l : Forall glyph_list l -> Forall2 (fun o v => decodes de_words o v) (map counted_words l) l.
Proof. induction 1 as [|x l [H1 H2] H IH]; constructor; [|exact IH]. apply decodes_reads. now apply reads_words. Qed.
Lemma multiple_low {m : list (Z * list Z)} (G : Z -> option (list Z) -> list (option (list Z)) -> gsub_sub) o :
  countable m -> Forall glyph_list (map snd m) -> multiple_obj m o ->
  decodes (with_base (f <-- de_u16 ;; c <-- de_cov ;; s <-- de_vec16 de_words ;; pret (G f c s))) o
    (G 1 (Some (map fst m)) (map Some (map snd m))).
Proof.
  intros Hn Hv [c Hc]. apply decodes_part. eapply part_bind; [apply part_word; unfold is_u16; lia|]. eapply part_bind; [eapply part_cov; eassumption|].
  apply (part_map _ (fun s => G 1 (Some (map fst m)) s)). apply part_vec; [now apply words_objs|]. unfold countable in *. now rewrite !map_length.
Qed.
Lemma or_default_some l : map or_default (map Some l) = l.
Proof. induction l as [|x l IH]; cbn; [reflexivity|now rewrite IH]. Qed.
Lemma F2_map {A B} (f : A -> B) l1 l2 : Forall2 (fun a b => b = f a) l1 l2 -> l2 = map f l1.
Proof. induction 1; cbn; congruence. Qed.
Lemma multiple_written {m : list (Z * list Z)} : glyph_map glyph_list m -> exists o, multiple_obj m o /\
  gsub_enc (multiple_to_low m) = Ok o /\ gsub_enc (alternate_to_low m) = Ok o.
Proof.
  intros Hm. destruct (cov_link (map fst m) (proj1 Hm) (glyph_map_keys _ _ Hm)) as (c & E & C).
  assert (Cm: countable (map snd m)) by (pose proof (glyph_map_count _ _ Hm); unfold countable in *; now rewrite map_length).
  destruct (vec_enc_ok (fun s => Ok (words_enc s)) (fun s o => o = counted_words s) (map snd m) Cm) as (os & E2 & F).
  { eapply Forall_impl; [|exact (glyph_map_vals _ _ Hm)]. intros l [H1 H2]. exists (words_enc l). split; [reflexivity|]. now apply words_enc_spec. }
  assert (os = map counted_words (map snd m)) as ->. { now apply F2_map. }
  exists (raw (word 1) ++ [link c] ++ links (map counted_words (map snd m))). split; [now constructor|].
  unfold multiple_to_low, alternate_to_low. cbn [gsub_enc]. rewrite E. cbn [rbind]. rewrite map_map in E2. rewrite E2. cbn [rbind]. rewrite <- word_u16. auto.
Qed.
Lemma multiple_every {m : list (Z * list Z)} o : increasing (map fst m) -> countable m -> Forall glyph_list (map snd m) -> multiple_obj m o ->
  (exists s, decodes g21_de o s /\ multiple_from_low s = Ok m) /\ (exists s, decodes g31_de o s /\ alternate_from_low s = Ok m).
Proof.
  intros Hi Hn Hv H. pose proof (increasing_sorted_map m Hi) as Hs. split.
  - eexists. split; [apply (multiple_low G21 o Hn Hv H)|]. cbn [multiple_from_low cov_or_nah]. rewrite or_default_some, combine_fst_snd.
    f_equal. exact (of_list_id _ Z_strict m Hs).
  - eexists. split; [apply (multiple_low G31 o Hn Hv H)|]. cbn [alternate_from_low cov_or_nah]. rewrite or_default_some, combine_fst_snd.
    f_equal. exact (of_list_id _ Z_strict m Hs).
Qed.

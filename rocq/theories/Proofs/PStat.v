(** Proofs about the style attributes table. *)
From Coq Require Import List ZArith Lia Sorted.
Import ListNotations.
From Verif.Model Require Import MBase MTag MFixed MMap MLow MStat.
From Verif.Spec Require Import SBase SGlyph SLayout SContext SGsub SScript SCmap STables SStat.
From Verif.Proofs Require Import PBase POffset PPart PCodec PTag PMap PAttach PGlyphFmt PCmap12 PFixed PLow PTables.
Open Scope Z_scope.

(** ** Parsers as exact descriptions of bytes *)
Definition fnd (buf : list Z) (pos : nat) (bs : list Z) : Prop := firstn (length bs) (skipn pos buf) = bs.
Definition exact {A} (p : parser A) (R : list Z -> A -> Prop) : Prop :=
  forall buf pos stk v r', Forall is_byte buf ->
    (p (mkrd buf pos stk) = Ok (v, r') <-> exists bs, fnd buf pos bs /\ R bs v /\ r' = mkrd buf (pos + length bs) stk).
Lemma fnd_app buf pos a b : fnd buf pos (a ++ b) <-> fnd buf pos a /\ fnd buf (pos + length a) b.
Proof.
  unfold fnd. rewrite app_length, <- skipn_skipn. set (l := skipn pos buf). split.
  - intros H. assert (Ha: firstn (length a) l = a).
    { apply (f_equal (firstn (length a))) in H. rewrite firstn_firstn in H. replace (Nat.min (length a) (length a + length b)) with (length a) in H by lia.
      rewrite firstn_app, firstn_all, Nat.sub_diag, firstn_O, app_nil_r in H. exact H. }
    split; [exact Ha|]. rewrite <- Ha in H at 2. rewrite <- (firstn_skipn (length a) l) in H at 1. rewrite firstn_app in H.
    assert (La: length (firstn (length a) l) = length a) by now rewrite Ha. rewrite La in H.
    rewrite firstn_all2 in H by lia. replace (length a + length b - length a)%nat with (length b) in H by lia. now apply app_inv_head in H.
  - intros [Ha Hb]. rewrite <- (firstn_skipn (length a) l) at 1. rewrite firstn_app, Ha. rewrite firstn_all2 by lia.
    replace (length a + length b - length a)%nat with (length b) by lia. now rewrite Hb.
Qed.
Lemma fnd_len buf pos bs : fnd buf pos bs -> bs = [] \/ (pos + length bs <= length buf)%nat.
Proof.
  intros H. destruct bs as [|b bs]; [now left|]. right. apply (f_equal (@length Z)) in H. rewrite firstn_length, skipn_length in H. cbn [length] in *. lia.
Qed.
Lemma fnd_bytes buf pos bs : Forall is_byte buf -> fnd buf pos bs -> Forall is_byte bs.
Proof.
  intros Hb H. rewrite <- H. apply Forall_forall. intros x Hx. rewrite Forall_forall in Hb. apply Hb. rewrite <- (firstn_skipn pos buf). apply in_or_app. right.
  rewrite <- (firstn_skipn (length bs) (skipn pos buf)). apply in_or_app. now left.
Qed.
Lemma exact_pret {A} (a : A) : exact (pret a) (fun bs v => bs = [] /\ v = a).
Proof.
  intros buf pos stk v r' _. unfold pret. split.
  - intros H. injection H as <- <-. exists []. split; [reflexivity|]. split; [auto|]. cbn. now rewrite Nat.add_0_r.
  - intros (bs & _ & [-> ->] & ->). cbn. now rewrite Nat.add_0_r.
Qed.
Lemma exact_bind {A B} (p : parser A) (f : A -> parser B) R R' : exact p R -> (forall a, exact (f a) (R' a)) ->
  exact (pbind p f) (fun bs v => exists a b1 b2, bs = b1 ++ b2 /\ R b1 a /\ R' a b2 v).
Proof.
  intros Hp Hf buf pos stk v r' Hb. unfold pbind. split.
  - destruct (p (mkrd buf pos stk)) as [[a r1]| |] eqn:E; try discriminate. intros H. apply Hp in E as (b1 & F1 & R1 & ->); [|exact Hb].
    apply Hf in H as (b2 & F2 & R2 & ->); [|exact Hb]. exists (b1 ++ b2). split; [now apply fnd_app|]. split; [now exists a, b1, b2|]. rewrite app_length, Nat.add_assoc. reflexivity.
  - intros (bs & F & (a & b1 & b2 & -> & R1 & R2) & ->). apply fnd_app in F as [F1 F2].
    rewrite (proj2 (Hp buf pos stk a _ Hb)) by (exists b1; auto). apply Hf; [exact Hb|]. exists b2. rewrite app_length, Nat.add_assoc. auto.
Qed.
Lemma exact_iff {A} (p : parser A) R R' : (forall bs v, Forall is_byte bs -> R bs v <-> R' bs v) -> exact p R -> exact p R'.
Proof.
  intros H Hp buf pos stk v r' Hb. rewrite (Hp buf pos stk v r' Hb). split; intros (bs & F & Hr & E); exists bs; (split; [exact F|]; split; [|exact E]); apply H; auto; eapply fnd_bytes; eauto.
Qed.
Lemma fnd_split buf pos bs : fnd buf pos bs -> bs <> [] -> exists pre post, buf = pre ++ bs ++ post /\ length pre = pos.
Proof.
  intros H Hne. destruct (fnd_len _ _ _ H) as [->|L]; [now elim Hne|]. exists (firstn pos buf), (skipn (length bs) (skipn pos buf)). split.
  - rewrite <- H at 1. rewrite firstn_skipn. symmetry. apply firstn_skipn.
  - rewrite firstn_length. lia.
Qed.
Lemma fnd_here pre bs post : fnd (pre ++ bs ++ post) (length pre) bs.
Proof. unfold fnd. rewrite skipn_app_exact. now rewrite firstn_app, firstn_all, Nat.sub_diag, firstn_O, app_nil_r. Qed.
Lemma exact_prim t : exact (de_prim t) (fun bs v => in_range t v /\ bs = ser_prim t v).
Proof.
  intros buf pos stk v r' Hb. split.
  - intros H. assert (L: (pos + prim_width t <= length buf)%nat).
    { unfold de_prim, consume, consume_or_peek in H. cbn [rd_input rd_ptr] in H. destruct (Nat.ltb_spec (length buf) (pos + prim_width t)); [discriminate|assumption]. }
    set (bs := firstn (prim_width t) (skipn pos buf)).
    assert (Lb: length bs = prim_width t) by (unfold bs; rewrite firstn_length, skipn_length; lia).
    assert (F: fnd buf pos bs) by (unfold fnd; rewrite Lb; reflexivity).
    destruct (fnd_split _ _ _ F) as (pre & post & E & Lp); [destruct bs; [destruct t; discriminate Lb|discriminate]|].
    destruct (prim_bytes_roundtrip t pre bs post stk) as (w & Hw & Hs & Hd); [now destruct t|now apply (fnd_bytes _ _ _ Hb F)|].
    rewrite <- E, Lp, H in Hd. injection Hd as -> ->. exists bs. split; [exact F|]. split; [split; [exact Hw|now symmetry]|]. f_equal. rewrite Lb. now destruct t.
  - intros (bs & F & [Hr ->] & ->). destruct (fnd_split _ _ _ F) as (pre & post & -> & <-); [destruct t; discriminate|].
    pose proof (reads_prim t v (proj1 (in_range_prim_ok t v) Hr)) as R. apply (at_pos_reads _ _ _ _ _ _ R). now exists pre, post.
Qed.
Lemma exact_u16 : exact de_u16 (fun bs v => is_u16 v /\ bs = word v).
Proof. eapply exact_iff; [|apply (exact_prim U16)]. intros bs v _. cbn beta. rewrite word_u16. reflexivity. Qed.
Lemma exact_u32 : exact de_u32 (fun bs v => in_range U32 v /\ bs = dword v).
Proof. eapply exact_iff; [|apply (exact_prim U32)]. intros bs v _. cbn beta. rewrite dword_u32. reflexivity. Qed.
Lemma exact_fixed : exact de_fixed (fun bs x => fixed32 x bs).
Proof.
  eapply exact_iff; [|eapply exact_bind; [apply (exact_prim I32)|intros a; apply exact_pret]]. intros bs x _. cbn beta. unfold fixed32. split.
  - intros (p & b1 & b2 & -> & [H1 ->] & [-> ->]). exists p. rewrite app_nil_r, dword_u32. auto.
  - intros (p & H & -> & ->). exists p, (dword p), []. rewrite app_nil_r. split; [reflexivity|]. split; [split; [exact H|exact (dword_u32 p)]|auto].
Qed.
Lemma exact_tag : exact de_tag (fun bs t => is_tag t /\ bs = t).
Proof.
  intros buf pos stk v r' Hb. unfold de_tag. split.
  - unfold consume, consume_or_peek. cbn [rd_input rd_ptr rd_stack]. destruct (Nat.ltb_spec (length buf) (pos + 4)) as [L|L]; [discriminate|].
    set (bs := firstn 4 (skipn pos buf)). destruct (tag_from_raw bs) as [t|e] eqn:E; [|discriminate]. intros H. injection H as <- <-.
    assert (Lb: length bs = 4%nat) by (unfold bs; rewrite firstn_length, skipn_length; lia).
    pose proof (valid_tag_from_raw _ _ E) as V. exists bs. split; [unfold fnd; now rewrite Lb|]. rewrite Lb. split; [|reflexivity].
    split; [exact V|]. apply tag_from_raw_ok in E as (_ & _ & ->). rewrite Lb. cbn. now rewrite app_nil_r.
  - intros (bs & F & [T ->] & ->). destruct (fnd_split _ _ _ F) as (pre & post & E & Lp); [intros ->; destruct T; discriminate|].
    pose proof (reads_tag v T) as R. rewrite ser_tag_id in R by now apply valid_tag_bytes. subst. apply (at_pos_reads _ _ _ _ _ _ R). now exists pre, post.
Qed.
Lemma exact_counted {A} (p : parser A) R n : exact p R ->
  exact (de_counted p n) (fun bs l => length l = n /\ exists bss, Forall2 (fun v b => R b v) l bss /\ bs = concat bss).
Proof.
  intros Hp. induction n as [|n IH]; cbn [de_counted].
  - eapply exact_iff; [|apply exact_pret]. intros bs l _. cbn beta. split.
    + intros [-> ->]. split; [reflexivity|]. exists []. split; [constructor|reflexivity].
    + intros [L (bss & F & ->)]. destruct l; [|discriminate]. inversion F. auto.
  - eapply exact_iff; [|eapply exact_bind; [exact Hp|intros a; eapply exact_bind; [exact IH|intros l; apply exact_pret]]]. intros bs l _. cbn beta. split.
    + intros (a & b1 & b2 & -> & H1 & l' & b3 & b4 & -> & [L (bss & F & ->)] & -> & ->). split; [cbn; congruence|]. exists (b1 :: bss). split; [now constructor|]. cbn. now rewrite app_nil_r.
    + intros [L (bss & F & ->)]. destruct l as [|a l]; [discriminate|]. inversion F as [|a0 b1 l0 bss' H1 F']; subst. exists a, b1, (concat bss'). split; [reflexivity|]. split; [exact H1|].
      exists l, (concat bss'), []. rewrite app_nil_r. split; [reflexivity|]. split; [|auto]. split; [cbn in L; congruence|]. now exists bss'.
Qed.
Ltac unpack := repeat match goal with
  | H : exists _, _ |- _ => destruct H
  | H : _ /\ _ |- _ => destruct H
  end; subst.
Ltac pack := repeat match goal with |- exists _, _ => eexists end; repeat split; cbn [app]; rewrite ?app_nil_r, <- ?app_assoc; eauto.
Ltac chain := eapply exact_iff; [|repeat (eapply exact_bind; [first [apply exact_u16 | apply exact_u32 | apply exact_fixed | apply exact_tag]|intros ?]); apply exact_pret]; intros bs v _; cbn beta.
Ltac ex3 := eexists; eexists; eexists; split; [reflexivity|split; [split; [|reflexivity]; eassumption|]].
Ltac exlast x b := exists x, b, []; split; [symmetry; apply app_nil_r|]; split; [auto|auto].
Lemma exact_axis : exact design_axis_de (fun bs a => axis_ok a /\ bs = axis_bytes a).
Proof.
  unfold design_axis_de. chain. split.
  - intros H. unpack. unfold axis_ok, axis_bytes. cbn [da_tag da_name da_ordering]. rewrite app_nil_r. auto.
  - intros [(H1 & H2 & H3) ->]. destruct v as [t n o]. cbn [da_tag da_name da_ordering axis_bytes] in *. unfold axis_bytes. cbn [da_tag da_name da_ordering].
    ex3. ex3. exlast o (word o).
Qed.
Lemma exact_value1 : exact value1_de (fun bs v => exists f ax fl nm x b, (is_u16 f /\ is_u16 ax /\ is_u16 fl /\ is_u16 nm /\ fixed32 x b) /\
  bs = word f ++ word ax ++ word fl ++ word nm ++ b /\ v = mk_av (Some ax) (truncate_flags fl) nm (Some x) None None None).
Proof.
  unfold value1_de. chain. split.
  - intros H. unpack. rewrite app_nil_r. do 6 eexists. split; [|split; reflexivity]. auto.
  - intros (f & ax & fl & nm & x & b & (H1 & H2 & H3 & H4 & H5) & -> & ->). do 4 ex3. exlast x b.
Qed.
Lemma exact_value2 : exact value2_de (fun bs v => exists f ax fl nm x b lo blo hi bhi, (is_u16 f /\ is_u16 ax /\ is_u16 fl /\ is_u16 nm /\ fixed32 x b /\ fixed32 lo blo /\ fixed32 hi bhi) /\
  bs = word f ++ word ax ++ word fl ++ word nm ++ b ++ blo ++ bhi /\ v = mk_av (Some ax) (truncate_flags fl) nm (Some x) (Some (lo, hi)) None None).
Proof.
  unfold value2_de. chain. split.
  - intros H. unpack. rewrite app_nil_r. do 10 eexists. split; [|split; reflexivity]. auto 10.
  - intros (f & ax & fl & nm & x & b & lo & blo & hi & bhi & (H1 & H2 & H3 & H4 & H5 & H6 & H7) & -> & ->). do 4 ex3.
    exists x, b, (blo ++ bhi). split; [reflexivity|]. split; [exact H5|]. exists lo, blo, bhi. split; [reflexivity|]. split; [exact H6|]. exists hi, bhi, []. rewrite app_nil_r. auto.
Qed.
Lemma exact_value3 : exact value3_de (fun bs v => exists f ax fl nm x b l bl, (is_u16 f /\ is_u16 ax /\ is_u16 fl /\ is_u16 nm /\ fixed32 x b /\ fixed32 l bl) /\
  bs = word f ++ word ax ++ word fl ++ word nm ++ b ++ bl /\ v = mk_av (Some ax) (truncate_flags fl) nm (Some x) None (Some l) None).
Proof.
  unfold value3_de. chain. split.
  - intros H. unpack. rewrite app_nil_r. do 8 eexists. split; [|split; reflexivity]. auto 10.
  - intros (f & ax & fl & nm & x & b & l & bl & (H1 & H2 & H3 & H4 & H5 & H6) & -> & ->). do 4 ex3.
    exists x, b, bl. split; [reflexivity|]. split; [exact H5|]. exists l, bl, []. rewrite app_nil_r. auto.
Qed.
Lemma exact_location : exact location_de (fun bs kv => location_bytes kv bs).
Proof.
  unfold location_de. chain. split.
  - intros H. unpack. unfold location_bytes. cbn [fst snd]. split; [assumption|]. eexists. split; [eassumption|]. now rewrite app_nil_r.
  - destruct v as [k x]. intros (H1 & b & H2 & ->). cbn [fst snd] in *. exists k, (word k), b. split; [reflexivity|]. split; [auto|]. exists x, b, []. rewrite app_nil_r. auto.
Qed.
Lemma exact_value4 : exact value4_de (fun bs v => exists f fl nm l bss, (is_u16 f /\ countable l /\ is_u16 fl /\ is_u16 nm /\ Forall2 location_bytes l bss) /\
  bs = word f ++ word (Z.of_nat (length l)) ++ word fl ++ word nm ++ concat bss /\ v = mk_av None (truncate_flags fl) nm None None None (Some (bm_of_list Z.ltb l))).
Proof.
  unfold value4_de. eapply exact_iff; [|repeat (eapply exact_bind; [apply exact_u16|intros ?]); eapply exact_bind; [apply exact_counted; apply exact_location|intros ?; apply exact_pret]].
  intros bs v _. cbn beta. split.
  - intros (f & b1 & b2 & -> & [H1 ->] & n & b3 & b4 & -> & [H2 ->] & fl & b5 & b6 & -> & [H3 ->] & nm & b7 & b8 & -> & [H4 ->] & l & b9 & b10 & -> & [L (bss & F & ->)] & -> & ->).
    exists f, fl, nm, l, bss. rewrite app_nil_r. unfold is_u16, countable in *. rewrite L, Z2Nat.id by lia. split; [|auto]. repeat split; auto; lia.
  - intros (f & fl & nm & l & bss & (H1 & H2 & H3 & H4 & F) & -> & ->). ex3. exists (Z.of_nat (length l)), (word (Z.of_nat (length l))), (word fl ++ word nm ++ concat bss).
    split; [reflexivity|]. split; [split; [unfold countable, is_u16 in *; lia|reflexivity]|]. do 2 ex3. exists l, (concat bss), []. split; [now rewrite app_nil_r|].
    split; [split; [now rewrite Nat2Z.id|now exists bss]|auto].
Qed.
Lemma in_of_list_Z {V} es k (g : V) : In (k, g) (bm_of_list Z.ltb es) <-> last_entry es k g.
Proof.
  assert (G: bm_get Z.ltb k (bm_of_list Z.ltb es) = Some g <-> last_entry es k g).
  { unfold bm_of_list. rewrite (get_fold_insert _ Z_strict). cbn [bm_get]. unfold last_entry. induction es as [|[k1 g1] es IH] using rev_ind.
    - cbn. split; [discriminate|]. intros (a & b & E & _). destruct a; discriminate.
    - rewrite rev_app_distr. cbn [rev app find fst snd]. destruct (Z.ltb k k1 || Z.ltb k1 k)%bool eqn:E; cbn [negb].
      + assert (N: k <> k1) by (intros ->; rewrite (st_irrefl _ Z_strict) in E; discriminate). rewrite IH. split.
        * intros (a & b & -> & Hb). exists a, (b ++ [(k1, g1)]). split; [now rewrite <- app_assoc|]. rewrite map_app, in_app_iff. cbn. intuition congruence.
        * intros (a & b & Eq & Hb). destruct b as [|[k2 g2] b _] using rev_ind; [apply app_inj_tail in Eq as [_ Eq]; injection Eq as -> ->; congruence|].
          rewrite app_comm_cons, app_assoc in Eq. apply app_inj_tail in Eq as [-> _]. exists a, b. split; [reflexivity|]. intros X. apply Hb. rewrite map_app, in_app_iff. now left.
      + apply (eq_case _ Z_strict) in E. subst k1. split.
        * intros [= ->]. exists es, []. split; [reflexivity|easy].
        * intros (a & b & Eq & Hb). destruct b as [|[k2 g2] b _] using rev_ind; [now apply app_inj_tail in Eq as [_ [= ->]]|].
          rewrite app_comm_cons, app_assoc in Eq. apply app_inj_tail in Eq as [_ [= -> ->]]. elim Hb. rewrite map_app, in_app_iff. right. now left. }
  rewrite <- G. split; [apply (In_get _ Z_strict), (of_list_sorted _ Z_strict)|apply (get_In _ Z_strict)].
Qed.
Lemma of_list_keys {V} (l : list (Z * V)) : increasing (map fst (bm_of_list Z.ltb l)).
Proof. pose proof (of_list_sorted Z.ltb Z_strict l) as H. apply SS_increasing. unfold sorted_map, sorted_keys in H. induction H as [|a s H IH F]; constructor; [exact IH|]. eapply Forall_impl; [|exact F]. cbn beta. intros; lia. Qed.
Lemma of_list_unique {V} (l m : list (Z * V)) : increasing (map fst m) -> (forall k v, In (k, v) m <-> last_entry l k v) -> bm_of_list Z.ltb l = m.
Proof.
  intros Hm H. apply (map_In_ext Z.ltb); [exact Z_strict|apply of_list_sorted; exact Z_strict|now apply increasing_sorted_map|]. intros k a. now rewrite in_of_list_Z, H.
Qed.
Lemma flags_seen f : truncate_flags f = seen f.
Proof. unfold truncate_flags, seen. change 3 with (Z.ones 2). now rewrite Z.land_ones by lia. Qed.
Lemma peek2 buf pos stk s r : peek (mkrd buf pos stk) 2 = Ok (s, r) <-> fnd buf pos s /\ length s = 2%nat /\ r = mkrd buf pos stk.
Proof.
  unfold peek, consume_or_peek. cbn [rd_input rd_ptr rd_stack]. destruct (Nat.ltb_spec (length buf) (pos + 2)) as [L|L].
  - split; [discriminate|]. intros (F & Ls & _). destruct (fnd_len _ _ _ F) as [->|]; [discriminate|lia].
  - assert (Lb: length (firstn 2 (skipn pos buf)) = 2%nat) by (rewrite firstn_length, skipn_length; lia). split.
    + remember (firstn 2 (skipn pos buf)) as w eqn:Ew. intros H. injection H as <- <-. unfold fnd. rewrite Lb. auto.
    + intros (F & Ls & ->). unfold fnd in F. rewrite Ls in F. now rewrite F.
Qed.
Lemma word_inj a b : is_u16 a -> is_u16 b -> word a = word b -> a = b.
Proof. unfold word, is_u16. intros Ha Hb H. injection H as H1 H2. rewrite !Z.mod_small in H1 by lia. lia. Qed.
Lemma fnd_det buf pos a b : fnd buf pos a -> fnd buf pos b -> length a = length b -> a = b.
Proof. unfold fnd. intros Ha Hb L. rewrite <- Ha, <- Hb. now rewrite L. Qed.
Lemma exact_value : exact value_de (fun bs v => value_bytes v bs).
Proof.
  intros buf pos stk v r' Hb. unfold value_de, by_format. split.
  - destruct (peek (mkrd buf pos stk) 2) as [[s r]| |] eqn:E; try discriminate. apply peek2 in E as (Fs & Ls & _).
    destruct s as [|s0 [|s1 [|]]]; try discriminate. intros H.
    assert (W: forall f tl, is_u16 f -> fnd buf pos (word f ++ tl) -> s0 = 0 -> 0 <= s1 <= 255 -> f = s1).
    { intros f tl Hf F -> Hs. apply fnd_app in F as [F _]. assert (X: [0; s1] = word f) by (eapply fnd_det; eauto). apply word_inj; [exact Hf|unfold is_u16; lia|].
      rewrite <- X. unfold word. rewrite Z.div_small, !Z.mod_small by lia. reflexivity. }
    destruct s0 as [|s0|s0]; try discriminate. destruct s1 as [|s1|s1]; try discriminate.
    destruct s1 as [[|[]|]|[[]|[]|]|]; try discriminate.
    + apply exact_value3 in H as (bs & F & (f & ax & fl & nm & x & b & l & bl & (H1 & H2 & H3 & H4 & H5 & H6) & -> & ->) & ->); [|exact Hb].
      assert (f = 3) as -> by (eapply W; eauto; lia). eexists. split; [exact F|]. split; [|reflexivity]. rewrite flags_seen. now constructor.
    + apply exact_value4 in H as (bs & F & (f & fl & nm & l & bss & (H1 & H2 & H3 & H4 & H5) & -> & ->) & ->); [|exact Hb].
      assert (f = 4) as -> by (eapply W; eauto; lia). eexists. split; [exact F|]. split; [|reflexivity]. rewrite flags_seen. constructor; auto; [apply of_list_keys|]. intros; apply in_of_list_Z.
    + apply exact_value2 in H as (bs & F & (f & ax & fl & nm & x & b & lo & blo & hi & bhi & (H1 & H2 & H3 & H4 & H5 & H6 & H7) & -> & ->) & ->); [|exact Hb].
      assert (f = 2) as -> by (eapply W; eauto; lia). eexists. split; [exact F|]. split; [|reflexivity]. rewrite flags_seen. now constructor.
    + apply exact_value1 in H as (bs & F & (f & ax & fl & nm & x & b & (H1 & H2 & H3 & H4 & H5) & -> & ->) & ->); [|exact Hb].
      assert (f = 1) as -> by (eapply W; eauto; lia). eexists. split; [exact F|]. split; [|reflexivity]. rewrite flags_seen. now constructor.
  - intros (bs & F & V & ->).
    assert (P: forall f tl, bs = word f ++ tl -> peek (mkrd buf pos stk) 2 = Ok (word f, mkrd buf pos stk)).
    { intros f tl ->. apply peek2. apply fnd_app in F as [F _]. auto. }
    destruct V; rewrite (P _ _ eq_refl); rewrite <- flags_seen.
    + apply exact_value1; [exact Hb|]. eexists. split; [exact F|]. split; [|reflexivity]. exists 1, ax, fl, nm, v, b. split; [|auto]. unfold is_u16 in *. repeat split; auto; lia.
    + apply exact_value2; [exact Hb|]. eexists. split; [exact F|]. split; [|reflexivity]. exists 2, ax, fl, nm, v, b, lo, blo, hi, bhi. split; [|auto]. unfold is_u16 in *. repeat split; auto; lia.
    + apply exact_value3; [exact Hb|]. eexists. split; [exact F|]. split; [|reflexivity]. exists 3, ax, fl, nm, v, b, l, bl. split; [|auto]. unfold is_u16 in *. repeat split; auto; lia.
    + apply exact_value4; [exact Hb|]. eexists. split; [exact F|]. split; [|reflexivity]. exists 4, fl, nm, l, bs. rewrite (of_list_unique l m) by assumption. split; [|auto]. unfold is_u16 in *. repeat split; auto; lia.
Qed.

(** ** The whole table *)
Lemma step_iff {A B} (p : parser A) R (f : A -> parser B) buf pos stk x : exact p R -> Forall is_byte buf ->
  (pbind p f (mkrd buf pos stk) = Ok x <-> exists a bs, fnd buf pos bs /\ R bs a /\ f a (mkrd buf (pos + length bs) stk) = Ok x).
Proof.
  intros Hp Hb. unfold pbind. split.
  - destruct (p (mkrd buf pos stk)) as [[a r]| |] eqn:E; try discriminate. apply Hp in E as (bs & F & Hr & ->); [|exact Hb]. intros H. exists a, bs. auto.
  - intros (a & bs & F & Hr & H). rewrite (proj2 (Hp buf pos stk a (mkrd buf (pos + length bs) stk) Hb)); [exact H|]. now exists bs.
Qed.
Lemma jump_step {B} off (f : unit -> parser B) buf pos t stk : pbind (jump off) f (mkrd buf pos (t :: stk)) = f tt (mkrd buf (t + Z.to_nat off) (t :: stk)).
Proof. reflexivity. Qed.
Lemma values_iff start offs buf pos stk vs : Forall is_byte buf -> 0 <= start -> Forall is_u16 offs ->
  (exists q, values_de start offs (mkrd buf pos (0%nat :: stk)) = Ok (vs, mkrd buf q (0%nat :: stk))) <->
  Forall2 (fun v off => exists bs, value_bytes v bs /\ found buf (start + off) bs) vs offs.
Proof.
  intros Hb Hs Ho. revert pos vs. induction Ho as [|off offs H0 Ho IH]; intros pos vs; cbn [values_de].
  - split; [intros [q H]; injection H as <- _; constructor|]. intros H. inversion H. now exists pos.
  - rewrite jump_step. split.
    + intros [q H]. apply (step_iff _ _ _ _ _ _ _ exact_value Hb) in H as (v & bs & F & V & H). unfold pbind in H at 1. unfold pret in H.
      match type of H with match ?e with _ => _ end = _ => destruct e as [[vs' r]| |] eqn:E; try discriminate end.
      injection H as <- ->. constructor; [now exists bs|]. eapply IH. eexists. exact E.
    + intros H. inversion H as [|v o vs' os (bs & V & F) F2]; subst. apply (IH (0 + Z.to_nat (start + off) + length bs)%nat) in F2 as [q E]. exists q.
      apply (step_iff _ _ _ _ _ _ _ exact_value Hb). exists v, bs. split; [exact F|]. split; [exact V|]. unfold pbind. rewrite E. reflexivity.
Qed.
Ltac take lem H := apply (step_iff _ _ _ _ _ _ _ lem ltac:(eassumption)) in H.
Lemma words_bss l bss : Forall2 (fun v b => is_u16 v /\ b = word v) l bss <-> Forall is_u16 l /\ bss = map word l.
Proof.
  split.
  - induction 1 as [|v b l bss [H ->] F [IH1 IH2]]; [auto|]. split; [now constructor|]. cbn. now f_equal.
  - intros [H ->]. induction H; constructor; auto.
Qed.
Lemma axes_bss l bss : Forall2 (fun a b => axis_ok a /\ b = axis_bytes a) l bss <-> Forall axis_ok l /\ bss = map axis_bytes l.
Proof.
  split.
  - induction 1 as [|v b l bss [H ->] F [IH1 IH2]]; [auto|]. split; [now constructor|]. cbn. now f_equal.
  - intros [H ->]. induction H; constructor; auto.
Qed.
Lemma values_stack start offs buf pos stk vs r : values_de start offs (mkrd buf pos (0%nat :: stk)) = Ok (vs, r) -> Forall is_byte buf -> exists q, r = mkrd buf q (0%nat :: stk).
Proof.
  intros H Hb. revert pos vs r H. induction offs as [|off offs IH]; intros pos vs r H; cbn [values_de] in H; [injection H as _ <-; now exists pos|].
  rewrite jump_step in H. take exact_value H. destruct H as (v & bs & _ & _ & H). unfold pbind, pret in H.
  destruct (values_de start offs _) as [[vs' r1]| |] eqn:E; try discriminate. injection H as _ <-. eapply IH. exact E.
Qed.
Lemma stat_iff buf t : Forall is_byte buf -> (from_bytes stat_read buf = Ok t <-> stat_file buf t).
Proof.
  intros Hb. transitivity (exists q stk, stat_body (mkrd buf 0 [0%nat; 0%nat]) = Ok (t, mkrd buf q stk)).
  { unfold from_bytes, stat_read, rd_push, rd_new. cbn [rd_input rd_ptr rd_stack]. destruct (stat_body _) as [[t' [i q stk]]| |] eqn:E; try (split; [discriminate|intros (? & ? & ?); discriminate]).
    split; [|intros (q' & stk' & X); now injection X as -> _]. intros X. injection X as ->. exists q, stk.
    enough (i = buf) as -> by reflexivity. revert E. unfold stat_body. intros H.
    take exact_u16 H. destruct H as (major & b1 & F1 & [U1 ->] & H). take exact_u16 H. destruct H as (minor & b2 & F2 & [U2 ->] & H).
    take exact_u16 H. destruct H as (size & b3 & F3 & [U3 ->] & H). take exact_u16 H. destruct H as (na & b4 & F4 & [U4 ->] & H).
    take exact_u32 H. destruct H as (aa & b5 & F5 & [U5 ->] & H). take exact_u16 H. destruct H as (nv & b6 & F6 & [U6 ->] & H). take exact_u32 H. destruct H as (va & b7 & F7 & [U7 ->] & H).
    assert (X: exists e pos, (_ <-- jump aa ;; axes <-- de_counted design_axis_de (Z.to_nat na) ;; _ <-- jump va ;; offs <-- de_counted de_u16 (Z.to_nat nv) ;; values <-- values_de va offs ;; pret (mk_stat e axes values)) (mkrd buf pos [0%nat; 0%nat]) = Ok (t, mkrd i q stk)).
    { destruct (1 <=? minor); [|exists None; eexists; exact H]. unfold pbind at 1 in H. destruct (pbind de_u16 _ _) as [[e r]| |] eqn:Er; try discriminate. take exact_u16 Er. destruct Er as (e' & b & _ & _ & Er). injection Er as <- <-. eauto. }
    destruct X as (e & pos & X). rewrite jump_step in X. apply (step_iff _ _ _ _ _ _ _ (exact_counted _ _ _ exact_axis) Hb) in X as (axes & ba & _ & _ & X). rewrite jump_step in X.
    apply (step_iff _ _ _ _ _ _ _ (exact_counted _ _ _ exact_u16) Hb) in X as (offs & bo & _ & _ & X). unfold pbind, pret in X. destruct (values_de va offs _) as [[vs r]| |] eqn:Ev; try discriminate.
    apply values_stack in Ev as [q' ->]; [|exact Hb]. now injection X as _ -> _ _. }
  unfold stat_body. split.
  - intros (q & stk & H).
    take exact_u16 H. destruct H as (major & b1 & F1 & [U1 ->] & H). take exact_u16 H. destruct H as (minor & b2 & F2 & [U2 ->] & H).
    take exact_u16 H. destruct H as (size & b3 & F3 & [U3 ->] & H). take exact_u16 H. destruct H as (na & b4 & F4 & [U4 ->] & H).
    take exact_u32 H. destruct H as (aa & b5 & F5 & [U5 ->] & H). take exact_u16 H. destruct H as (nv & b6 & F6 & [U6 ->] & H). take exact_u32 H. destruct H as (va & b7 & F7 & [U7 ->] & H).
    assert (X: exists e pos, (_ <-- jump aa ;; axes <-- de_counted design_axis_de (Z.to_nat na) ;; _ <-- jump va ;; offs <-- de_counted de_u16 (Z.to_nat nv) ;; values <-- values_de va offs ;; pret (mk_stat e axes values)) (mkrd buf pos [0%nat; 0%nat]) = Ok (t, mkrd buf q stk) /\
      match e with Some e => 1 <= minor /\ is_u16 e /\ found buf 18 (word e) | None => minor = 0 end).
    { destruct (Z.leb_spec 1 minor) as [L|L].
      - unfold pbind at 1 in H. destruct (pbind de_u16 _ _) as [[e r]| |] eqn:Er; try discriminate. take exact_u16 Er. destruct Er as (e' & b & F & [Ue ->] & Er). injection Er as <- <-. exists (Some e'). eexists. split; [exact H|]. auto.
      - exists None. eexists. split; [exact H|]. unfold is_u16 in *. lia. }
    destruct X as (e & pos & X & He). rewrite jump_step in X. apply (step_iff _ _ _ _ _ _ _ (exact_counted _ _ _ exact_axis) Hb) in X as (axes & ba & Fa & (La & bss & Xa & ->) & X). rewrite jump_step in X.
    apply axes_bss in Xa as [Xa ->].
    apply (step_iff _ _ _ _ _ _ _ (exact_counted _ _ _ exact_u16) Hb) in X as (offs & bo & Fo & (Lo & bss & Xo & ->) & X). apply words_bss in Xo as [Xo ->].
    unfold pbind, pret in X. destruct (values_de va offs _) as [[vs r]| |] eqn:Ev; try discriminate. injection X as <- ->.
    assert (V: Forall2 (fun v off => exists bs, value_bytes v bs /\ found buf (va + off) bs) vs offs).
    { destruct (values_stack _ _ _ _ _ _ _ Ev Hb) as [q' E]. rewrite E in Ev. eapply values_iff; [exact Hb|cbn in U7; lia|exact Xo|]. exists q'. exact Ev. }
    assert (Lv: length vs = length offs) by now apply Forall2_length in V.
    eapply (stat_file1 buf major minor size axes aa vs offs va e); auto; try (unfold countable, is_u16 in *; lia).
    assert (Ea: Z.of_nat (length axes) = na) by (unfold is_u16 in U4; lia). assert (Ev': Z.of_nat (length vs) = nv) by (unfold is_u16 in U6; lia). rewrite Ea, Ev'.
    unfold found. change (Z.to_nat 0) with 0%nat. fold (fnd buf 0 (word major ++ word minor ++ word size ++ word na ++ dword aa ++ word nv ++ dword va)).
    rewrite !fnd_app. cbn [length app Nat.add word dword] in *. auto 10.
  - intros [major minor size axes aa vs offs va e U1 U2 U3 U5 U7 Ca Cv F He Xa Fa Xo Fo V].
    assert (Lv: length vs = length offs) by now apply Forall2_length in V.
    unfold found in F. change (Z.to_nat 0) with 0%nat in F. fold (fnd buf 0 (word major ++ word minor ++ word size ++ word (Z.of_nat (length axes)) ++ dword aa ++ word (Z.of_nat (length vs)) ++ dword va)) in F.
    rewrite !fnd_app in F. destruct F as (F1 & F2 & F3 & F4 & F5 & F6 & F7).
    assert (Hz: 0 <= va) by (cbn in U7; lia).
    destruct (proj2 (values_iff va offs buf (0 + Z.to_nat va + length (concat (map word offs))) [0%nat] vs Hb Hz Xo) V) as [q Ev]. exists q, [0%nat; 0%nat].
    apply (step_iff _ _ _ _ _ _ _ exact_u16 Hb). exists major, (word major). split; [exact F1|]. split; [auto|].
    apply (step_iff _ _ _ _ _ _ _ exact_u16 Hb). exists minor, (word minor). split; [exact F2|]. split; [auto|].
    apply (step_iff _ _ _ _ _ _ _ exact_u16 Hb). exists size, (word size). split; [exact F3|]. split; [auto|].
    apply (step_iff _ _ _ _ _ _ _ exact_u16 Hb). exists (Z.of_nat (length axes)), (word (Z.of_nat (length axes))). split; [exact F4|]. split; [split; [unfold countable, is_u16 in *; lia|reflexivity]|].
    apply (step_iff _ _ _ _ _ _ _ exact_u32 Hb). exists aa, (dword aa). split; [exact F5|]. split; [auto|].
    apply (step_iff _ _ _ _ _ _ _ exact_u16 Hb). exists (Z.of_nat (length vs)), (word (Z.of_nat (length vs))). split; [exact F6|]. split; [split; [unfold countable, is_u16 in *; lia|reflexivity]|].
    apply (step_iff _ _ _ _ _ _ _ exact_u32 Hb). exists va, (dword va). split; [exact F7|]. split; [auto|].
    assert (X: forall pos, (_ <-- jump aa ;; axes <-- de_counted design_axis_de (Z.to_nat (Z.of_nat (length axes))) ;; _ <-- jump va ;; offs <-- de_counted de_u16 (Z.to_nat (Z.of_nat (length vs))) ;; values <-- values_de va offs ;; pret (mk_stat e axes values)) (mkrd buf pos [0%nat; 0%nat]) = Ok (mk_stat e axes vs, mkrd buf q [0%nat; 0%nat])).
    { intros pos. rewrite jump_step. apply (step_iff _ _ _ _ _ _ _ (exact_counted _ _ _ exact_axis) Hb). exists axes, (concat (map axis_bytes axes)). split; [exact Fa|].
      split; [split; [now rewrite Nat2Z.id|]; exists (map axis_bytes axes); split; [now apply axes_bss|reflexivity]|]. rewrite jump_step.
      apply (step_iff _ _ _ _ _ _ _ (exact_counted _ _ _ exact_u16) Hb). exists offs, (concat (map word offs)). split; [exact Fo|].
      split; [split; [now rewrite Nat2Z.id|]; exists (map word offs); split; [now apply words_bss|reflexivity]|]. unfold pbind, pret. now rewrite Ev. }
    destruct e as [e|].
    + destruct He as (L & Ue & Fe). replace (1 <=? minor) with true by lia. unfold pbind at 1.
      assert (E: pbind de_u16 (fun e => pret (Some e)) (mkrd buf 18 [0%nat; 0%nat]) = Ok (Some e, mkrd buf 20 [0%nat; 0%nat])).
      { apply (step_iff _ _ _ _ _ _ _ exact_u16 Hb). exists e, (word e). split; [exact Fe|]. split; [auto|reflexivity]. }
      match goal with |- match ?x with _ => _ end = _ => replace x with (Ok (Some e, mkrd buf 20 [0%nat; 0%nat])) by (symmetry; exact E) end. apply X.
    + subst minor. cbn [Z.leb Z.compare]. unfold pbind at 1. unfold pret at 1. apply X.
Qed.

(** ** Writing *)
Lemma packed_range x : in_range I32 (fixed_as_packed x).
Proof. unfold fixed_as_packed, ot_round, sat_i32, in_range. lia. Qed.
Lemma fixed_written x : fixed32 (nearest x) (ser_fixed x).
Proof. exists (fixed_as_packed x). split; [apply packed_range|]. split; [reflexivity|]. symmetry. exact (dword_u32 (fixed_as_packed x)). Qed.
Lemma fixed_length x b : fixed32 x b -> length b = 4%nat.
Proof. intros (p & _ & _ & ->). reflexivity. Qed.
Lemma zero_written o : fixed32 (match o with Some x => nearest x | None => fixed_from_packed 0 end) (ser_fixed (or_zero o)).
Proof. destruct o as [x|]; [apply fixed_written|]. replace (fixed_from_packed 0) with (nearest (Dy 0 0)) by reflexivity. apply fixed_written. Qed.
Lemma last_entry_self {V} (m : list (Z * V)) k v : increasing (map fst m) -> (In (k, v) m <-> last_entry m k v).
Proof. intros H. rewrite <- in_of_list_Z. rewrite (of_list_id _ Z_strict); [reflexivity|now apply increasing_sorted_map]. Qed.
Lemma u16_countable {A} (l : list A) : countable l -> u16 (Z.of_nat (length l)) = Z.of_nat (length l).
Proof. unfold countable, u16, wrap_u. intros H. apply Z.mod_small. lia. Qed.
Lemma locations_length {A} (f : A -> list Z) (m : list A) : (forall a, length (f a) = 6%nat) -> length (concat (map f m)) = (6 * length m)%nat.
Proof. intros H. induction m as [|a m IH]; [reflexivity|]. cbn [map concat]. rewrite app_length, H, IH. cbn. lia. Qed.
Lemma ser_fixed_length x : length (ser_fixed x) = 4%nat.
Proof. apply be_bytes_length. Qed.
Lemma value_written v : value_ok v -> placed v -> exists bs, value_ser v = Ok bs /\ value_bytes (settled v) bs /\ Z.of_nat (length bs) = bytes_of v.
Proof.
  destruct v as [ax fl nm no rg li lo]. unfold value_ok, placed, value_ser, settled, bytes_of. cbn [av_axis av_flags av_name av_nominal av_range av_linked av_locations].
  intros (Ha & Hf & Hn & Hl & Hs) Hp. assert (Uf: is_u16 fl) by (unfold is_u16; lia). assert (Sf: fl = seen fl) by (unfold seen; rewrite Z.mod_small; lia).
  rewrite <- !word_u16. destruct lo as [m|].
  - destruct Hl as [Hi Hk]. assert (C: countable m) by (unfold countable; lia). rewrite u16_countable by exact C. rewrite <- word_u16. eexists. split; [reflexivity|]. split.
    + rewrite Sf at 1. set (m' := map (fun kv => (fst kv, nearest (snd kv))) m).
      assert (Hi': increasing (map fst m')) by (unfold m'; rewrite map_map; exact Hi).
      replace (length m) with (length m') by apply map_length. apply (value4 fl nm m' _ m'); auto.
      * unfold countable, m' in *. now rewrite map_length.
      * unfold m'. clear -Hk. induction Hk as [|[k x] m H Hk IH]; constructor; [|exact IH]. split; [exact H|]. exists (ser_fixed x). split; [apply fixed_written|]. cbn [fst snd]. now rewrite word_u16.
      * intros. now apply last_entry_self.
    + rewrite !app_length. rewrite locations_length by (intros; rewrite app_length, ser_fixed_length; reflexivity). cbn [length word]. lia.
  - assert (Hax: exists a, ax = Some a /\ is_u16 a) by (destruct ax as [a|]; [now exists a|destruct Hp; congruence]). destruct Hax as (a & -> & Ua). cbn [unwrap rbind].
    destruct li as [l|]; [|destruct rg as [[x y]|]]; (cbn [rbind]; rewrite <- ?word_u16; eexists; split; [reflexivity|]; split; [rewrite Sf at 1|rewrite !app_length, !ser_fixed_length; reflexivity]).
    + constructor; auto using zero_written, fixed_written.
    + constructor; auto using zero_written, fixed_written.
    + constructor; auto using zero_written, fixed_written.
Qed.
Lemma value_unplaced v : ~ placed v -> value_ser v = Panic.
Proof.
  destruct v as [ax fl nm no rg li lo]. unfold placed, value_ser. cbn [av_axis av_flags av_name av_nominal av_range av_linked av_locations]. intros H.
  destruct lo; [elim H; right; discriminate|]. destruct ax; [elim H; left; discriminate|]. destruct li; [reflexivity|]. now destruct rg as [[]|].
Qed.
Lemma placed_dec v : placed v \/ ~ placed v.
Proof. unfold placed. destruct (av_axis v), (av_locations v); (left; (left; discriminate) || (right; discriminate)) || (right; intros [H|H]; now apply H). Qed.
Lemma bytes_pos v : 8 <= bytes_of v.
Proof. unfold bytes_of. destruct (av_locations v), (av_linked v), (av_range v); lia. Qed.
Lemma sum_nonneg vs : 0 <= sum_of (map bytes_of vs).
Proof. induction vs as [|v vs IH]; cbn [map sum_of fold_right]; [lia|]. pose proof (bytes_pos v). unfold sum_of in IH. lia. Qed.
Lemma values_saved_iff vs off : Forall value_ok vs -> 0 <= off <= 65535 ->
  ((exists r, values_ser off vs = Ok r) <-> Forall placed vs /\ off + sum_of (map bytes_of vs) <= 65535).
Proof.
  intros H. revert off. induction H as [|v vs Hv H IH]; intros off Ho; cbn [values_ser map sum_of fold_right].
  - split; [intros _; split; [constructor|lia]|]. intros _. eauto.
  - fold (sum_of (map bytes_of vs)). pose proof (sum_nonneg vs) as Sn. pose proof (bytes_pos v) as Bp. destruct (placed_dec v) as [P|P].
    + destruct (value_written v Hv P) as (bs & -> & _ & L). cbn [rbind]. assert (Lb: u16 (Z.of_nat (length bs)) = bytes_of v) by (rewrite L; unfold u16, wrap_u; apply Z.mod_small; destruct Hv as (_ & _ & _ & _ & ?); lia).
      rewrite Lb. unfold chk_u. destruct ((0 <=? off + bytes_of v) && (off + bytes_of v <? 2 ^ 16))%bool eqn:E; cbn [rbind].
      * specialize (IH (off + bytes_of v) ltac:(lia)). split.
        -- intros [r Hr]. destruct (values_ser (off + bytes_of v) vs) as [x| |] eqn:Ex; try discriminate. destruct (proj1 IH) as [A B]; [eauto|]. split; [now constructor|lia].
        -- intros [F S]. inversion F; subst. destruct (proj2 IH) as [r ->]; [split; [assumption|lia]|]. cbn [rbind]. eauto.
      * split; [intros [r X]; discriminate|]. intros [_ S]. lia.
    + rewrite (value_unplaced v P). cbn [rbind]. split; [intros [r X]; discriminate|]. intros [F _]. inversion F; contradiction.
Qed.
Lemma values_shape vs off ow bs : Forall value_ok vs -> 0 <= off <= 65535 -> values_ser off vs = Ok (ow, bs) ->
  exists offs, ow = words offs /\ Forall is_u16 offs /\ Forall is_byte bs /\
    Forall2 (fun v o => off <= o /\ exists b pre post, value_bytes (settled v) b /\ bs = pre ++ b ++ post /\ Z.of_nat (length pre) = o - off) vs offs.
Proof.
  intros H. revert off ow bs. induction H as [|v vs Hv H IH]; intros off ow bs Ho E; cbn [values_ser] in E.
  - injection E as <- <-. exists []. repeat split; constructor.
  - destruct (placed_dec v) as [P|P]; [|rewrite (value_unplaced v P) in E; discriminate]. destruct (value_written v Hv P) as (b & Eb & Vb & L). rewrite Eb in E. cbn [rbind] in E.
    pose proof (bytes_pos v) as Bp.
    assert (Lb: u16 (Z.of_nat (length b)) = bytes_of v) by (rewrite L; unfold u16, wrap_u; apply Z.mod_small; destruct Hv as (_ & _ & _ & _ & ?); lia).
    rewrite Lb in E. unfold chk_u in E. destruct ((0 <=? off + bytes_of v) && (off + bytes_of v <? 2 ^ 16))%bool eqn:Er; [|discriminate]. cbn [rbind] in E.
    destruct (values_ser (off + bytes_of v) vs) as [[ow' bs']| |] eqn:Ev; try discriminate. cbn [rbind] in E.
    apply Ok_inj in E. pose proof (f_equal fst E) as E1. pose proof (f_equal snd E) as E2. cbn [fst snd] in E1, E2. subst ow bs. clear E.
    apply IH in Ev as (offs & -> & Uo & Bb & F); [|lia]. exists (off :: offs). split; [unfold words; cbn [map concat]; now rewrite word_u16|]. split; [constructor; [unfold is_u16; lia|exact Uo]|].
    split.
    + apply Forall_app. split; [|exact Bb]. clear -Eb. unfold value_ser in Eb.
      assert (S16: forall z, Forall is_byte (ser_u16 z)) by (intros z; eapply Forall_impl; [|apply (be_bytes_byte 2 z)]; unfold byte, is_byte; lia).
      assert (S32: forall z, Forall is_byte (ser_fixed z)) by (intros z; eapply Forall_impl; [|apply (be_bytes_byte 4 (fixed_as_packed z))]; unfold byte, is_byte; lia).
      destruct (av_locations v) as [m|].
      * apply Ok_inj in Eb. subst b. repeat (apply Forall_app; split; auto). apply Forall_concat. apply Forall_map. apply Forall_forall. intros kv _. apply Forall_app. auto.
      * destruct (av_axis v) as [a|]; cbn [unwrap rbind] in Eb; [|destruct (av_linked v); [discriminate|]; destruct (av_range v) as [[]|]; discriminate].
        destruct (av_linked v); [|destruct (av_range v) as [[]|]]; apply Ok_inj in Eb; subst b; repeat (apply Forall_app; split; auto); auto.
    + constructor.
      * split; [lia|]. exists b, [], bs'. split; [exact Vb|]. split; [reflexivity|]. cbn. lia.
      * eapply Forall2_impl'; [|exact F]. cbn beta. intros w o (Hle & b2 & pre & post & V2 & -> & Lp). split; [lia|]. exists b2, (b ++ pre), post. split; [exact V2|]. split; [now rewrite app_assoc|].
        rewrite app_length. lia.
Qed.
Lemma saved_iff t : stat_ok t -> ((exists out, stat_ser t = Ok out) <-> Forall placed (st_values t) /\ 2 * Z.of_nat (length (st_values t)) + sum_of (map bytes_of (st_values t)) <= 65535).
Proof.
  intros (He & Ca & Ha & Cv & Hv). unfold stat_ser. rewrite (u16_countable _ Cv). pose proof (sum_nonneg (st_values t)) as Sn. unfold chk_u.
  destruct ((0 <=? 2 * Z.of_nat (length (st_values t))) && (2 * Z.of_nat (length (st_values t)) <? 2 ^ 16))%bool eqn:E; cbn [rbind].
  - rewrite <- (values_saved_iff (st_values t) (2 * Z.of_nat (length (st_values t))) Hv ltac:(lia)). destruct (values_ser _ _) as [r| |]; cbn [rbind]; split; intros [x X]; try discriminate; eauto.
  - split; [intros [x X]; discriminate|]. intros [_ L]. lia.
Qed.
Lemma word_bytes z : Forall is_byte (word z).
Proof. unfold word, is_byte. pose proof (Z.mod_pos_bound (z / 256) 256). pose proof (Z.mod_pos_bound z 256). constructor; [lia|]. constructor; [lia|]. constructor. Qed.
Lemma dword_bytes z : Forall is_byte (dword z).
Proof. unfold dword. apply Forall_app. split; apply word_bytes. Qed.
Lemma words_bytes l : Forall is_byte (words l).
Proof. unfold words. apply Forall_concat, Forall_map, Forall_forall. intros z _. apply word_bytes. Qed.
Lemma axes_written l : Forall axis_ok l -> concat (map design_axis_ser l) = concat (map axis_bytes l) /\ Forall is_byte (concat (map axis_bytes l)) /\ length (concat (map axis_bytes l)) = (8 * length l)%nat.
Proof.
  induction 1 as [|a l (Ht & Hn & Ho) H (IH1 & IH2 & IH3)]; [repeat split; constructor|]. cbn [map concat].
  assert (E: design_axis_ser a = axis_bytes a) by (unfold design_axis_ser, axis_bytes; rewrite (ser_tag_id _ (valid_tag_bytes _ Ht)), <- !word_u16; reflexivity).
  rewrite E, IH1. split; [reflexivity|]. split.
  - apply Forall_app. split; [|exact IH2]. unfold axis_bytes. apply Forall_app. split; [|apply Forall_app; split; apply word_bytes].
    eapply Forall_impl; [|exact (proj2 Ht)]. unfold is_byte. cbn beta. lia.
  - rewrite app_length, IH3. unfold axis_bytes. rewrite !app_length, (proj1 Ht). cbn. lia.
Qed.
Lemma fnd_at pre bs post : fnd (pre ++ bs ++ post) (length pre) bs.
Proof. apply fnd_here. Qed.
Lemma stat_written t out : stat_ok t -> stat_ser t = Ok out -> Forall is_byte out /\ stat_file out (reloaded t).
Proof.
  intros (He & Ca & Ha & Cv & Hv). unfold stat_ser. rewrite (u16_countable _ Cv), (u16_countable _ Ca). unfold chk_u.
  destruct ((0 <=? 2 * Z.of_nat (length (st_values t))) && (2 * Z.of_nat (length (st_values t)) <? 2 ^ 16))%bool eqn:E; [|discriminate]. cbn [rbind].
  destruct (values_ser _ _) as [[ow bs]| |] eqn:Ev; try discriminate. cbn [rbind fst snd].
  apply values_shape in Ev as (offs & -> & Uo & Bb & F); [|exact Hv|lia]. assert (Lo: length (st_values t) = length offs) by now apply Forall2_length in F.
  destruct (axes_written _ Ha) as (-> & Bx & Lx). set (ax := concat (map axis_bytes (st_axes t))) in *.
  set (minor := if existsb _ (st_values t) then 2 else 1). set (aa := match st_axes t with [] => 0 | _ => 20 end). set (va := match st_values t with [] => 0 | _ => _ end).
  set (e := match st_elided t with Some e => e | None => 17 end). rewrite <- !word_u16, <- !dword_u32.
  assert (Um: 1 <= minor <= 2) by (subst minor; destruct (existsb _ _); lia).
  assert (Ue: is_u16 e) by (subst e; unfold is_u16 in *; destruct (st_elided t); lia).
  intros H. apply Ok_inj in H. set (hd := word 1 ++ word minor ++ word 8 ++ word (Z.of_nat (length (st_axes t))) ++ dword aa ++ word (Z.of_nat (length (st_values t))) ++ dword va).
  assert (H': out = hd ++ word e ++ ax ++ words offs ++ bs) by (rewrite <- H; unfold hd; rewrite <- !app_assoc; reflexivity). clear H. subst out.
  assert (Lh: length hd = 18%nat) by reflexivity.
  assert (Lw: length (words offs) = (2 * length offs)%nat) by (clear; unfold words; induction offs as [|o l IH]; [reflexivity|]; cbn [map concat]; rewrite app_length, IH; cbn; lia).
  split.
  - apply Forall_app. split; [unfold hd, dword; repeat (apply Forall_app; split); apply word_bytes|].
    apply Forall_app. split; [apply word_bytes|]. apply Forall_app. split; [exact Bx|]. apply Forall_app. split; [apply words_bytes|exact Bb].
  - unfold countable in *. assert (Ea: st_axes t = [] \/ aa = 20) by (subst aa; destruct (st_axes t); auto).
    assert (Eva: st_values t = [] \/ va = 20 + 8 * Z.of_nat (length (st_axes t))) by (subst va; destruct (st_values t); [now left|right; unfold u32, wrap_u; apply Z.mod_small; lia]).
    assert (Ra: in_range U32 aa) by (subst aa; unfold in_range; destruct (st_axes t); lia).
    assert (Rv: in_range U32 va) by (destruct Eva as [Eva|Eva]; [subst va; rewrite Eva; cbn; lia|rewrite Eva; unfold in_range; lia]).
    apply (stat_file1 _ 1 minor 8 (st_axes t) aa (map settled (st_values t)) offs va (Some e)); unfold is_u16 in *; try lia; auto.
    + unfold countable. now rewrite map_length.
    + rewrite map_length. change (fnd (hd ++ word e ++ ax ++ words offs ++ bs) 0 hd). exact (fnd_here [] hd (word e ++ ax ++ words offs ++ bs)).
    + split; [lia|]. split; [exact Ue|]. exact (fnd_here hd (word e) (ax ++ words offs ++ bs)).
    + fold ax. destruct Ea as [Ea| ->]; [unfold ax; rewrite Ea; reflexivity|].
      change (fnd (hd ++ word e ++ ax ++ words offs ++ bs) 20 ax). rewrite (app_assoc hd). exact (fnd_here (hd ++ word e) ax (words offs ++ bs)).
    + destruct Eva as [Eva| ->]; [rewrite Eva in Lo; destruct offs; [reflexivity|discriminate]|].
      change (fnd (hd ++ word e ++ ax ++ words offs ++ bs) (Z.to_nat (20 + 8 * Z.of_nat (length (st_axes t)))) (words offs)). rewrite (app_assoc hd), (app_assoc (hd ++ word e)).
      replace (Z.to_nat (20 + 8 * Z.of_nat (length (st_axes t)))) with (length ((hd ++ word e) ++ ax)) by (rewrite !app_length, Lh, Lx; cbn [length word]; lia). apply fnd_here.
    + destruct Eva as [Eva| ->]; [rewrite Eva in *; inversion F; constructor|]. clear -F Lh Lx Lo Lw.
      assert (G: forall vs offs', Forall2 (fun v o => 2 * Z.of_nat (length (st_values t)) <= o /\ exists b pre post, value_bytes (settled v) b /\ bs = pre ++ b ++ post /\ Z.of_nat (length pre) = o - 2 * Z.of_nat (length (st_values t))) vs offs' ->
        Forall2 (fun v off => exists b, value_bytes v b /\ found (hd ++ word e ++ ax ++ words offs ++ bs) (20 + 8 * Z.of_nat (length (st_axes t)) + off) b) (map settled vs) offs').
      { intros vs offs'. induction 1 as [|v o vs os (Hle & b & pre & post & Vb & -> & Lp) F' IH]; [constructor|]. cbn [map]. constructor; [|exact IH]. exists b. split; [exact Vb|].
        change (fnd (hd ++ word e ++ ax ++ words offs ++ pre ++ b ++ post) (Z.to_nat (20 + 8 * Z.of_nat (length (st_axes t)) + o)) b).
        rewrite (app_assoc hd), (app_assoc (hd ++ word e)), (app_assoc ((hd ++ word e) ++ ax)), (app_assoc (((hd ++ word e) ++ ax) ++ words offs)).
        replace (Z.to_nat (20 + 8 * Z.of_nat (length (st_axes t)) + o)) with (length ((((hd ++ word e) ++ ax) ++ words offs) ++ pre)) by (rewrite !app_length, Lh, Lx, Lw; cbn [length word]; lia). apply fnd_here. }
      exact (G _ _ F).
Qed.
Lemma stat_roundtrip t out : stat_ok t -> stat_ser t = Ok out -> from_bytes stat_read out = Ok (reloaded t).
Proof. intros H W. destruct (stat_written t out H W) as [B F]. now apply stat_iff. Qed.
Lemma map_nearest_id m : map (fun kv : Z * dyadic => (fst kv, nearest (snd kv))) m = m <-> Forall (fun kv => storable (snd kv)) m.
Proof.
  split.
  - induction m as [|[k x] m IH]; [constructor|]. intros H. injection H as H1 H2. constructor; auto.
  - induction 1 as [|[k x] m H F IH]; [reflexivity|]. cbn [map fst snd] in *. unfold storable in H. now rewrite H, IH.
Qed.
Lemma settled_iff v : placed v -> (settled v = v <-> proper v).
Proof.
  intros P. split.
  - destruct v as [ax fl nm no rg li lo]. unfold settled, placed in *. cbn [av_axis av_flags av_name av_nominal av_range av_linked av_locations] in *. intros H.
    destruct lo as [m|].
    + injection H as <- <- <- <- H. constructor. now apply map_nearest_id.
    + destruct ax as [ax|]; [|destruct P; congruence]. destruct no as [x|]; [|exfalso; destruct li; [|destruct rg as [[]|]]; discriminate].
      destruct li as [l|]; [|destruct rg as [[lo hi]|]].
      * injection H as H1 <- H2. now constructor.
      * injection H as H1 H2 H3. now constructor.
      * injection H as H1. now constructor.
  - intros [ax fl nm x F1|ax fl nm x lo hi F1 F2 F3|ax fl nm x l F1 F2|fl nm m F]; unfold settled; cbn; unfold storable in *; repeat match goal with H : nearest _ = _ |- _ => rewrite H end; try reflexivity.
    f_equal. f_equal. now apply map_nearest_id.
Qed.
Lemma map_id_iff {A} (f : A -> A) l : map f l = l <-> Forall (fun x => f x = x) l.
Proof. split; [induction l; [constructor|]; intros H; injection H as H1 H2; constructor; auto|]. induction 1; [reflexivity|]. cbn. congruence. Qed.
Lemma stat_roundtrip_iff t out : stat_ok t -> stat_ser t = Ok out -> (from_bytes stat_read out = Ok t <-> st_elided t <> None /\ Forall proper (st_values t)).
Proof.
  intros H W. rewrite (stat_roundtrip t out H W). destruct (proj1 (saved_iff t H) (ex_intro _ out W)) as [P _].
  transitivity (st_elided t <> None /\ map settled (st_values t) = st_values t).
  - destruct t as [e ax vs]. unfold reloaded. cbn [st_elided st_axes st_values]. split.
    + intros X. injection X as X1 X2. split; [rewrite <- X1; discriminate|exact X2].
    + intros [X1 X2]. destruct e as [e|]; [|congruence]. now rewrite X2.
  - rewrite map_id_iff. split; intros [X1 X2]; split; auto; clear -P X2; induction P as [|v vs Pv P IH]; inversion X2; subst; constructor; auto; now apply settled_iff.
Qed.

(** Opening a font file. *)
From Coq Require Import Sorting.Sorted.
From Verif.Model Require Import MBase MMap MTag MFont MTables MStore.
From Verif.Spec Require Import SBase SReader SFont SStore SCalm SOpen.
From Verif.Proofs Require Import PBase PMap PTag PCalm PFont PStore PLoad.

(** ** Which entry wins *)
Notation low := (fun a b => tr_offset a <= tr_offset b).
Lemma insert_cut r : forall l, StronglySorted low l ->
  exists pre post, l = pre ++ post /\ insert_by_offset r l = pre ++ r :: post /\ Forall (fun x => tr_offset x <= tr_offset r) pre /\ Forall (fun x => tr_offset r < tr_offset x) post.
Proof.
  induction l as [|y l IH]; intros S; cbn [insert_by_offset].
  - exists [], []. auto.
  - apply StronglySorted_inv in S as [S Hy]. destruct (Z.ltb_spec (tr_offset r) (tr_offset y)).
    + exists [], (y :: l). split; [reflexivity|]. split; [reflexivity|]. split; [constructor|]. apply Forall_cons; [lia|].
      eapply Forall_impl; [|exact Hy]. cbn beta. intros; lia.
    + destruct (IH S) as (pre & post & -> & -> & H1 & H2). exists (y :: pre), post. repeat split; [|exact H2]. apply Forall_cons; [lia|exact H1].
Qed.
Lemma insert_sorted r l : StronglySorted low l -> StronglySorted low (insert_by_offset r l).
Proof.
  induction l as [|y l IH]; intros S; cbn [insert_by_offset]; [constructor; constructor|].
  pose proof S as S0. apply StronglySorted_inv in S as [S Hy]. destruct (Z.ltb_spec (tr_offset r) (tr_offset y)).
  - constructor; [exact S0|]. apply Forall_cons; [lia|]. eapply Forall_impl; [|exact Hy]. cbn beta. intros; lia.
  - constructor; [auto|]. apply Forall_forall. intros x Hx. apply insert_by_offset_In in Hx as [->|Hx]; [lia|]. rewrite Forall_forall in Hy. now apply Hy.
Qed.
Lemma sort_snoc l r : sort_by_offset (l ++ [r]) = insert_by_offset r (sort_by_offset l).
Proof. unfold sort_by_offset. now rewrite fold_left_app. Qed.
Lemma sorted_sort l : StronglySorted low (sort_by_offset l).
Proof. induction l as [|r l IH] using rev_ind; [constructor|]. rewrite sort_snoc. now apply insert_sorted. Qed.

Lemma find_app {A} (p : A -> bool) l l' : find p (l ++ l') = match find p l with Some x => Some x | None => find p l' end.
Proof. induction l as [|x l IH]; cbn [find app]; [reflexivity|]. now destruct (p x). Qed.
Lemma last_wins (p : table_record -> bool) t : (forall r, p r = true <-> tr_tag r = t) -> forall l,
  match find p (rev (sort_by_offset l)) with
  | Some b => exists i, stands_for l t i b
  | None => no_entry l t
  end.
Proof.
  intros Hp. induction l as [|r l IH] using rev_ind; [intros tr []|].
  rewrite sort_snoc. destruct (insert_cut r (sort_by_offset l) (sorted_sort l)) as (pre & post & E & E2 & H1 & H2).
  rewrite E2, rev_app_distr. rewrite E, rev_app_distr in IH. clear E E2. cbn [rev]. rewrite <- app_assoc. cbn [app].
  rewrite find_app in *. cbn [find].
  assert (Old: forall i tr, nth_error l i = Some tr -> nth_error (l ++ [r]) i = Some tr).
  { intros i tr Hi. rewrite nth_error_app1; [exact Hi|]. apply nth_error_Some. rewrite Hi. discriminate. }
  assert (New: forall i tr, nth_error (l ++ [r]) i = Some tr -> nth_error l i = Some tr \/ (i = length l /\ tr = r)).
  { intros i tr Hi. destruct (Nat.lt_ge_cases i (length l)) as [L|L]; [left; now rewrite nth_error_app1 in Hi|].
    right. rewrite nth_error_app2 in Hi by exact L. destruct (i - length l)%nat as [|[|k]] eqn:Ek; cbn in Hi; [|discriminate|discriminate].
    injection Hi as ->. split; [lia|reflexivity]. }
  destruct (find p (rev post)) as [b|] eqn:Eb.
  - destruct IH as (i & Hi & Ht & Hmax). exists i. split; [now apply Old|]. split; [exact Ht|].
    apply find_some in Eb as [Hb _]. rewrite <- in_rev in Hb. rewrite Forall_forall in H2. specialize (H2 _ Hb).
    intros j tr' Hj Ht'. apply New in Hj as [Hj|[-> ->]]; [now apply Hmax|left; exact H2].
  - destruct (p r) eqn:Er.
    + apply Hp in Er. exists (length l). split; [rewrite nth_error_app2, Nat.sub_diag by lia; reflexivity|]. split; [exact Er|].
      intros j tr' Hj Ht'. apply New in Hj as [Hj|[-> ->]]; [|right; split; [reflexivity|lia]].
      assert (Lj: (j < length l)%nat) by (apply nth_error_Some; rewrite Hj; discriminate).
      destruct (find p (rev pre)) as [b|] eqn:Eb2.
      * destruct IH as (i & Hi & Ht & Hmax). apply find_some in Eb2 as [Hb _]. rewrite <- in_rev in Hb. rewrite Forall_forall in H1. specialize (H1 _ Hb).
        destruct (Hmax _ _ Hj Ht') as [H|[H _]]; lia.
      * destruct (IH tr'); [now apply nth_error_In in Hj|exact Ht'].
    + destruct (find p (rev pre)) as [b|] eqn:Eb2.
      * destruct IH as (i & Hi & Ht & Hmax). exists i. split; [now apply Old|]. split; [exact Ht|].
        intros j tr' Hj Ht'. apply New in Hj as [Hj|[-> ->]]; [now apply Hmax|]. apply Hp in Ht'. congruence.
      * intros tr Hin. apply in_app_or in Hin as [Hin|[<-|[]]]; [now apply IH|]. intros X. apply Hp in X. congruence.
Qed.
Lemma stands_unique trs t i tr i' tr' : stands_for trs t i tr -> stands_for trs t i' tr' -> tr = tr'.
Proof.
  intros (H1 & T1 & M1) (H2 & T2 & M2). pose proof (M1 _ _ H2 T2). pose proof (M2 _ _ H1 T1).
  assert (i = i') by lia. subst i'. congruence.
Qed.
Lemma stands_entry trs t i tr : stands_for trs t i tr -> ~ no_entry trs t.
Proof. intros (H & T & _) N. apply (N tr); [now apply nth_error_In in H|exact T]. Qed.

(** ** The directory *)
Lemma directory_unique file v trs v' trs' : Forall is_byte file -> directory file v trs -> directory file v' trs' -> v = v' /\ trs = trs'.
Proof.
  intros B D D'. apply read_dir_spec in D as (r & E); [|exact B]. apply read_dir_spec in D' as (r' & E'); [|exact B].
  rewrite E in E'. apply Ok_inj in E'. injection E' as -> -> _. auto.
Qed.
Lemma entry_nonneg file v trs tr : Forall is_byte file -> directory file v trs -> In tr trs -> 0 <= tr_offset tr /\ 0 <= tr_length tr.
Proof.
  intros HB HD Htr. apply In_nth_error in Htr as [i Htr]. destruct HD as (_ & _ & _ & _ & HD). specialize (HD _ _ Htr).
  destruct HD as (_ & c & o & l & Hs & _ & _ & _ & _ & Eo & El).
  assert (H: Forall is_byte (tr_tag tr ++ c ++ o ++ l)) by (eapply slice_bytes; eauto).
  rewrite !Forall_app in H. destruct H as (_ & _ & Ho & Hl). rewrite <- Eo, <- El. split; now apply digits_nonneg.
Qed.
Lemma read_contents file v m : Forall is_byte file -> from_bytes font_read_raw file = Ok (v, m) ->
  exists trs, directory file v trs /\ Forall (inside file) trs /\
    forall t, (forall d, bm_get lex_ltb t m = Some d <-> table_bytes file trs t d) /\ (bm_get lex_ltb t m = None <-> no_entry trs t).
Proof.
  intros HB H. destruct (font_read_raw_cases file HB) as [(v0 & trs & HD & HF & E)|[(v0 & trs & _ & _ & E)|[_ E]]];
    rewrite E in H; try discriminate. apply Ok_inj in H. injection H as <- <-.
  exists trs. split; [exact HD|]. split; [exact HF|]. intros t.
  assert (Eg: bm_get lex_ltb t (bm_of_list lex_ltb (map (fun tr => (tr_tag tr, rec_bytes file tr)) (sort_by_offset trs))) =
    option_map (rec_bytes file) (find (fun tr => negb (lex_ltb t (tr_tag tr)) && negb (lex_ltb (tr_tag tr) t)) (rev (sort_by_offset trs)))).
  { unfold bm_of_list. rewrite (get_fold_insert lex_ltb lex_strict). rewrite <- map_rev. induction (rev (sort_by_offset trs)) as [|x l IH]; [reflexivity|].
    cbn [map find fst snd]. match goal with |- context [if ?b then Some (tr_tag x, _) else _] => set (b1 := b) end.
    match goal with |- context [if ?b then Some x else _] => set (b2 := b) end.
    assert (Eb: b1 = b2). { unfold b1, b2. destruct (lex_ltb t (tr_tag x)), (lex_ltb (tr_tag x) t); reflexivity. }
    rewrite Eb. destruct b2; [reflexivity|exact IH]. }
  rewrite Eg. set (p := fun tr => negb (lex_ltb t (tr_tag tr)) && negb (lex_ltb (tr_tag tr) t)).
  assert (Hp: forall r, p r = true <-> tr_tag r = t).
  { intros r. unfold p. split.
    - intros X. symmetry. apply (eq_case _ lex_strict). destruct (lex_ltb t (tr_tag r)), (lex_ltb (tr_tag r) t); cbn in *; congruence.
    - intros ->. now rewrite (st_irrefl _ lex_strict). }
  pose proof (last_wins p t Hp trs) as W. destruct (find p (rev (sort_by_offset trs))) as [b|].
  - destruct W as (i & W). split; [|cbn [option_map]; split; [discriminate|intros N; destruct (stands_entry _ _ _ _ W N)]].
    assert (Sl: slice file (Z.to_nat (tr_offset b)) (Z.to_nat (tr_length b)) (rec_bytes file b)).
    { assert (Hb: In b trs) by (destruct W as (W & _); now apply nth_error_In in W).
      pose proof (entry_nonneg _ _ _ _ HB HD Hb). rewrite Forall_forall in HF. specialize (HF _ Hb). unfold in_file in HF.
      apply slice_eq. split; [lia|reflexivity]. }
    intros d. cbn [option_map]. split.
    + intros [= <-]. exists i, b. auto.
    + intros (i' & b' & W' & Sl'). rewrite (stands_unique _ _ _ _ _ _ W' W) in Sl'. apply slice_eq in Sl as [_ Sl]. apply slice_eq in Sl' as [_ Sl']. congruence.
  - cbn [option_map]. split; [|tauto]. intros d. split; [discriminate|]. intros (i & tr & S & _). destruct (stands_entry _ _ _ _ S W).
Qed.

(** ** head *)
Lemma head_refused d : Forall is_byte d -> (from_bytes de_head_tbl d = Err <-> (length d < 54)%nat /\ ~ head_bad d).
Proof.
  intros B. pose proof (head_aborts d B) as A.
  assert (X: from_bytes de_head_tbl d <> Panic -> (from_bytes de_head_tbl d = Err <-> (length d < 54)%nat)).
  { clear A. intros NP. assert (F: from_bytes de_head_tbl d = Err <-> de_head_tbl (rd_new d) = Err).
    { unfold from_bytes in *. destruct (de_head_tbl (rd_new d)) as [[h r]| |]; split; congruence. }
    assert (NP': de_head_tbl (rd_new d) <> Panic). { intros X. apply NP. now apply from_panic. }
    rewrite F. clear F NP. revert NP'. unfold de_head_tbl, rd_new. prims.
    assert (G: (length d < 54)%nat -> (Err : res (head_tbl * rd)) = Err <-> (length d < 54)%nat) by tauto.
    sized_step (sized_prim U16) B L1; [|intros _; apply G; lia].
    sized_step (sized_prim U16) B L2; [|intros _; apply G; lia].
    sized_step sized_fixed B L3; [|intros _; apply G; lia].
    sized_step (sized_prim U32) B L4; [|intros _; apply G; lia].
    sized_step (sized_prim U32) B L5; [|intros _; apply G; lia].
    sized_step (sized_prim U16) B L6; [|intros _; apply G; lia].
    sized_step (sized_prim U16) B L7; [|intros _; apply G; lia].
    match goal with |- context [pbind de_date ?f (mkrd ?d ?k ?st)] => destruct (date_cases d k st B) as [(v & N & [[Hv [x E]]|[Hv E]])|[L E]] end.
    2: { intros NP. exfalso. apply NP. unfold pbind at 1. now rewrite E. }
    2: { intros _. rewrite (bind_err _ _ _ E). apply G. lia. }
    rewrite (bind_at _ _ _ _ _ E). clear E. cbn [Nat.add] in *.
    match goal with |- context [pbind de_date ?f (mkrd ?d ?k ?st)] => destruct (date_cases d k st B) as [(w & M & [[Hw [y E]]|[Hw E]])|[L E]] end.
    2: { intros NP. exfalso. apply NP. unfold pbind at 1. now rewrite E. }
    2: { intros _. rewrite (bind_err _ _ _ E). apply G. lia. }
    rewrite (bind_at _ _ _ _ _ E). clear E. cbn [Nat.add] in *. intros _.
    sized_step (sized_prim I16) B M1; [|apply G; lia].
    sized_step (sized_prim I16) B M2; [|apply G; lia].
    sized_step (sized_prim I16) B M3; [|apply G; lia].
    sized_step (sized_prim I16) B M4; [|apply G; lia].
    sized_step (sized_prim U16) B M5; [|apply G; lia].
    sized_step (sized_prim U16) B M6; [|apply G; lia].
    sized_step (sized_prim I16) B M7; [|apply G; lia].
    sized_step (sized_prim I16) B M8; [|apply G; lia].
    sized_step (sized_prim I16) B M9; [|apply G; lia].
    unfold pret. split; [discriminate|lia]. }
  destruct (from_bytes de_head_tbl d) eqn:E.
  - rewrite X by discriminate. split; [|tauto]. intros H. split; [exact H|]. intros Y. apply A in Y. discriminate Y.
  - rewrite X by discriminate. split; [|tauto]. intros H. split; [exact H|]. intros Y. apply A in Y. discriminate Y.
  - split; [discriminate|]. intros [_ Y]. destruct Y. now apply A.
Qed.

Section Open.
Context {T : Type} (K : codecs T).
Lemma bytes_of_table file trs t d : Forall is_byte file -> table_bytes file trs t d -> Forall is_byte d.
Proof. intros B (i & tr & _ & S). eapply slice_bytes; eauto. Qed.
(** The outcome, given the directory. *)
Lemma open_cases file : Forall is_byte file ->
  ((forall v trs, ~ directory file v trs) /\ font_load K file = Err) \/
  (exists v trs, directory file v trs /\
    ((Exists (fun tr => ~ inside file tr) trs /\ font_load K file = Panic) \/
     (Forall (inside file) trs /\
       ((exists d, table_bytes file trs TAG_head d /\
          ((head_bad d /\ font_load K file = Panic) \/
           (~ head_bad d /\ (length d < 54)%nat /\ font_load K file = Err) \/
           (~ head_bad d /\ (54 <= length d)%nat /\ exists s, font_load K file = Ok (v, s)))) \/
        (no_entry trs TAG_head /\
          ((no_entry trs TAG_loca /\ exists s, font_load K file = Ok (v, s)) \/
           (~ no_entry trs TAG_loca /\ font_load K file = Err))))))).
Proof.
  intros B. destruct (from_bytes font_read_raw file) as [[v m]| |] eqn:E.
  - right. destruct (read_contents file v m B E) as (trs & D & F & C). exists v, trs. split; [exact D|]. right. split; [exact F|].
    destruct (load_outcome K _ _ _ B E) as (LE & LP & LO).
    assert (Fine: font_load K file <> Err -> font_load K file <> Panic -> exists s, font_load K file = Ok (v, s)).
    { intros H1 H2. destruct (font_load K file) as [[v' s]| |] eqn:El; [|congruence|congruence]. exists s. now destruct (LO _ _ eq_refl) as (-> & _). }
    destruct (C TAG_head) as [Ch Cn]. destruct (bm_get lex_ltb TAG_head m) as [d|] eqn:Eh.
    + left. exists d. assert (Td: table_bytes file trs TAG_head d) by now apply Ch. split; [exact Td|].
      pose proof (bytes_of_table _ _ _ _ B Td) as Bd. pose proof (head_aborts d Bd) as Ha. pose proof (head_refused d Bd) as Hr.
      destruct (from_bytes de_head_tbl d) eqn:Ed.
      * right. right. assert (NB: ~ head_bad d) by (intros X; apply Ha in X; discriminate X). split; [exact NB|]. split.
        { destruct (Nat.lt_ge_cases (length d) 54) as [L|L]; [|exact L]. assert (X: (length d < 54)%nat /\ ~ head_bad d) by auto. apply Hr in X. discriminate X. }
        apply Fine.
        -- rewrite LE. intros [(d' & X & Y)|(X & _)]; [|discriminate X]. injection X as <-. congruence.
        -- rewrite LP. intros (d' & X & Y). injection X as <-. congruence.
      * right. left. destruct (proj1 Hr eq_refl) as [L NB]. split; [exact NB|]. split; [exact L|]. apply LE. left. exists d. auto.
      * left. split; [now apply Ha|]. apply LP. exists d. auto.
    + right. split; [now apply Cn|]. destruct (C TAG_loca) as [_ Cl]. destruct (bm_get lex_ltb TAG_loca m) as [x|] eqn:El.
      * right. split; [intros X; apply Cl in X; discriminate X|]. apply LE. right. split; [reflexivity|discriminate].
      * left. split; [now apply Cl|]. apply Fine.
        -- rewrite LE. intros [(d' & X & Y)|(_ & X)]; [discriminate X|congruence].
        -- rewrite LP. intros (d' & X & Y). discriminate X.
  - left. split; [now apply load_err_iff|]. unfold font_load. now rewrite E.
  - right. destruct (proj1 (load_panic_iff file B) E) as (v & trs & D & X). exists v, trs. split; [exact D|]. left.
    split; [|unfold font_load; now rewrite E]. eapply Exists_impl; [|exact X]. unfold inside. cbn beta. intros; lia.
Qed.
End Open.

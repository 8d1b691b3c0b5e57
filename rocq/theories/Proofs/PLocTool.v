(** What ttf-instantiate understands: limits, and the tool. *)
From Coq Require Import List ZArith Lia Bool QArith Sorted Sorting.Permutation.
Import ListNotations.
From Verif.Model Require Import MBase MFixed MFloat MFloat32 MTag MMap MVarModel MInst MLocArg.
From Verif.Spec Require Import SFloat SLocArg SInst.
From Verif.Proofs Require Import PBase PFloat PTag PMap PLocArg.
Open Scope Z_scope.
Ltac Zify.zify_post_hook ::= idtac.

Lemma is_word_iff b : is_word b = true <-> word_byte b.
Proof. unfold is_word, is_digit, word_byte. lia. Qed.
Lemma words_iff l : Forall (fun b => is_word b = true) l <-> Forall word_byte l.
Proof. split; intros H; (eapply Forall_impl; [|exact H]); intros b; apply is_word_iff. Qed.
Lemma tag_text_iff key t : Forall (fun b => is_word b = true) key -> tag_from_raw key = TagOk t <-> tag_text key t.
Proof.
  intros F. rewrite tag_from_raw_ok. unfold tag_text. apply words_iff in F. split.
  - intros (A & _ & ->). auto.
  - intros (A & _ & ->). split; [exact A|]. split; [|reflexivity]. eapply Forall_impl; [|exact F]. unfold word_byte. intros; lia.
Qed.
Lemma no_colon a : Forall (fun b => negb (b =? 58) = true) a <-> ~ In 58 a.
Proof.
  rewrite Forall_forall. split.
  - intros H I0. specialize (H _ I0). discriminate.
  - intros H b I0. destruct (Z.eqb_spec b 58) as [->|]; [contradiction|reflexivity].
Qed.
Lemma drop_no_amount v : ~ amount [100; 114; 111; 112] v.
Proof. unfold amount. vm_compute. discriminate. Qed.

Theorem locarg_iff s t l : parse_locarg s = Ok (t, l) <-> limit_text amount s t l.
Proof.
  split.
  - unfold parse_locarg. destruct (span is_word s) as [key r] eqn:P. destruct (span_ok _ _ _ _ P) as (-> & F & _).
    intros H.
    assert (C: exists body, r = 61 :: body).
    { destruct r as [|b r]; [discriminate|]. exists r. destruct b as [|b|b]; try discriminate.
      do 6 (destruct b as [b|b|]; try discriminate; try reflexivity). }
    destruct C as (body & ->).
    destruct (tag_from_raw key) as [t'|] eqn:T; [|discriminate]. apply tag_text_iff in T; [|exact F].
    destruct (bytes_eqb body [100; 114; 111; 112]) eqn:E.
    { apply bytes_eqb_eq in E. subst body. injection H as <- <-. now constructor. }
    destruct (span (fun b => negb (b =? 58)) body) as [a r2] eqn:P2. destruct (span_ok _ _ _ _ P2) as (-> & F2 & T2).
    apply no_colon in F2. destruct (str_to_fixed a) as [v| |] eqn:A; try discriminate. cbn [rbind] in H.
    destruct r2 as [|c b].
    + injection H as <- <-. rewrite app_nil_r. now constructor.
    + cbn in T2. assert (c = 58) as -> by lia. destruct (str_to_fixed b) as [w| |] eqn:B; try discriminate. cbn [rbind] in H.
      destruct (dy_eqb w v) eqn:D.
      * injection H as <- <-. apply (text_point amount key t' a v b w); auto. apply eqb_iff in D. now symmetry.
      * unfold axis_range in H. destruct (dy_ltb w v) eqn:L; [discriminate|]. cbn [rbind] in H. injection H as <- <-.
        apply (text_range amount key t' a v b w); auto. apply ltb_false in L. apply Qle_lteq in L. destruct L as [L|L]; [exact L|].
        symmetry in L. apply eqb_iff in L. congruence.
  - intros H.
    assert (K: forall key t' body, tag_text key t' -> span is_word (key ++ 61 :: body) = (key, 61 :: body) /\ tag_from_raw key = TagOk t').
    { intros key t' body T. assert (F: Forall (fun b => is_word b = true) key) by (apply words_iff, T).
      split; [apply span_app; [exact F|reflexivity]|now apply tag_text_iff]. }
    assert (S1: forall a, ~ In 58 a -> span (fun b => negb (b =? 58)) a = (a, [])).
    { intros a N. rewrite <- (app_nil_r a) at 1. apply span_app; [now apply no_colon|exact I]. }
    assert (S2: forall a b, ~ In 58 a -> span (fun b => negb (b =? 58)) (a ++ 58 :: b) = (a, 58 :: b)).
    { intros a b N. apply span_app; [now apply no_colon|reflexivity]. }
    assert (ND: forall a b, ~ In 58 a -> bytes_eqb (a ++ 58 :: b) [100; 114; 111; 112] = false).
    { intros a b N. apply eqb_no. intros E.
      assert (I0: In 58 [100; 114; 111; 112]) by (rewrite <- E; apply in_or_app; right; now left).
      repeat (destruct I0 as [I0|I0]; [discriminate|]). destruct I0. }
    destruct H as [key t T|key t a v T N A|key t a v b w T N A B E|key t a v b w T N A B L]; cbn [app]; unfold parse_locarg.
    + destruct (K key t [100; 114; 111; 112] T) as [-> ->]. reflexivity.
    + destruct (K key t a T) as [-> ->]. rewrite eqb_no; [|intros ->; now apply drop_no_amount in A].
      rewrite (S1 a N), A. reflexivity.
    + destruct (K key t (a ++ 58 :: b) T) as [-> ->]. rewrite (ND a b N), (S2 a b N), A. cbn [rbind]. rewrite B. cbn [rbind].
      symmetry in E. apply eqb_iff in E. now rewrite E.
    + destruct (K key t (a ++ 58 :: b) T) as [-> ->]. rewrite (ND a b N), (S2 a b N), A. cbn [rbind]. rewrite B. cbn [rbind].
      assert (E: dy_eqb w v = false). { destruct (dy_eqb w v) eqn:E; [|reflexivity]. apply eqb_iff in E. rewrite E in L. now apply Qlt_irrefl in L. }
      rewrite E. unfold axis_range. assert (G: dy_ltb w v = false) by (apply ltb_false; now apply Qlt_le_weak). now rewrite G.
Qed.

Lemma Forall2_perm {A B} (R : A -> B -> Prop) l1 l2 : Permutation l1 l2 -> forall m1, Forall2 R l1 m1 -> exists m2, Permutation m1 m2 /\ Forall2 R l2 m2.
Proof.
  induction 1 as [|x l1 l2 P IH|x y l|l1 l2 l3 P1 IH1 P2 IH2]; intros m1 H.
  - exists m1. auto.
  - inversion H as [|? b ? m A1 A2]; subst. destruct (IH m A2) as (m2 & P' & H'). exists (b :: m2). auto.
  - inversion H as [|? b ? m A1 A2]; subst. inversion A2 as [|? c ? m' B1 B2]; subst. exists (c :: b :: m'). split; [apply perm_swap|auto].
  - destruct (IH1 _ H) as (m2 & Q1 & H2). destruct (IH2 _ H2) as (m3 & Q2 & H3). exists m3. split; [now rewrite Q1|exact H3].
Qed.

Lemma locargs_ok args m m' : parse_locargs args m = Ok m' <->
  exists ls, texts args ls /\ m' = fold_left (fun m kv => bm_insert lex_ltb (fst kv) (snd kv) m) ls m.
Proof.
  revert m. induction args as [|s args IH]; intros m; cbn [parse_locargs].
  - split; [intros H; injection H as <-; exists []; split; [constructor|reflexivity]|]. intros (ls & T & ->). inversion T. reflexivity.
  - split.
    + destruct (parse_locarg s) as [[t l]| |] eqn:E; try discriminate. cbn [rbind]. intros H. apply IH in H. destruct H as (ls & T & ->).
      exists ((t, l) :: ls). split; [constructor; [now apply locarg_iff|exact T]|reflexivity].
    + intros (ls & T & ->). inversion T as [|? [t l] ? ls' A B]; subst. apply locarg_iff in A. cbn [fst snd] in A. rewrite A. cbn [rbind].
      apply IH. exists ls'. split; [exact B|reflexivity].
Qed.

Lemma insert_perm k (v : limit) m : ~ In k (map fst m) -> Permutation (bm_insert lex_ltb k v m) ((k, v) :: m).
Proof.
  induction m as [|[k' v'] m IH]; intros N; cbn [bm_insert]; [reflexivity|]. cbn [map fst] in N.
  destruct (lex_ltb k k') eqn:E; [reflexivity|]. destruct (lex_ltb k' k) eqn:E2.
  - rewrite IH by (intros I0; apply N; now right). apply perm_swap.
  - exfalso. apply N. left. symmetry. now apply (st_total _ lex_strict).
Qed.
Lemma insert_old k (v : limit) m : as_map m -> In k (map fst m) -> length (bm_insert lex_ltb k v m) = length m.
Proof.
  unfold as_map. induction m as [|[k' v'] m IH]; intros M I0; [destruct I0|]. cbn [map fst] in *. inversion_clear M as [|? ? M' F]. cbn [bm_insert].
  destruct I0 as [->|I0]; [rewrite (st_irrefl _ lex_strict); reflexivity|].
  assert (L: lex_ltb k' k = true) by (rewrite Forall_forall in F; now apply F).
  rewrite L, (st_asym _ lex_strict _ _ L). cbn [length]. now rewrite IH.
Qed.
Lemma insert_len k (v : limit) m : (length (bm_insert lex_ltb k v m) <= S (length m))%nat.
Proof.
  induction m as [|[k' v'] m IH]; cbn [bm_insert length]; [lia|]. destruct (lex_ltb k k'); [cbn [length]; lia|]. destruct (lex_ltb k' k); cbn [length]; lia.
Qed.
Lemma fold_len (ls m : limits) : (length (fold_left (fun m kv => bm_insert lex_ltb (fst kv) (snd kv) m) ls m) <= length ls + length m)%nat.
Proof.
  revert m. induction ls as [|[k v] ls IH]; intros m; cbn [fold_left length]; [apply Nat.le_refl|]. cbn [fst snd].
  eapply Nat.le_trans; [apply IH|]. pose proof (insert_len k v m) as L. unfold limits, tag in *. lia.
Qed.
Lemma insert_map k (v : limit) m : as_map m -> as_map (bm_insert lex_ltb k v m).
Proof. apply (insert_sorted lex_ltb lex_strict). Qed.
Lemma fold_map (ls m : limits) : as_map m -> as_map (fold_left (fun m kv => bm_insert lex_ltb (fst kv) (snd kv) m) ls m).
Proof. revert m. induction ls as [|[k v] ls IH]; intros m M; cbn [fold_left]; [exact M|]. apply IH. now apply insert_map. Qed.
Lemma fold_perm (ls m : limits) : NoDup (map fst (m ++ ls)) -> Permutation (fold_left (fun m kv => bm_insert lex_ltb (fst kv) (snd kv) m) ls m) (m ++ ls).
Proof.
  revert m. induction ls as [|[k v] ls IH]; intros m N; cbn [fold_left fst snd]; [rewrite app_nil_r; reflexivity|].
  assert (P: Permutation (map fst (m ++ (k, v) :: ls)) (k :: map fst (m ++ ls))).
  { rewrite !map_app. cbn [map fst]. symmetry. apply Permutation_middle. }
  rewrite P in N. inversion_clear N as [|? ? N1 N2].
  assert (I0: Permutation (bm_insert lex_ltb k v m) ((k, v) :: m)).
  { apply insert_perm. intros I0. apply N1. rewrite map_app. apply in_or_app. now left. }
  rewrite IH.
  - rewrite I0. cbn [app]. apply Permutation_middle.
  - assert (P2: Permutation (map fst (bm_insert lex_ltb k v m ++ ls)) (k :: map fst (m ++ ls))) by (rewrite (Permutation_app_tail ls I0); reflexivity).
    rewrite P2. now constructor.
Qed.
Lemma fold_count (ls m : limits) : as_map m ->
  length (fold_left (fun m kv => bm_insert lex_ltb (fst kv) (snd kv) m) ls m) = (length ls + length m)%nat -> NoDup (map fst m) -> NoDup (map fst (m ++ ls)).
Proof.
  revert m. induction ls as [|[k v] ls IH]; intros m M L N; cbn [fold_left fst snd length] in *; [now rewrite app_nil_r|].
  destruct (in_dec (list_eq_dec Z.eq_dec) k (map fst m)) as [I0|I0].
  - exfalso. pose proof (fold_len ls (bm_insert lex_ltb k v m)) as B. pose proof (insert_old k v m M I0) as O0. unfold limits, tag in *. lia.
  - pose proof (insert_perm k v m I0) as P.
    assert (K: NoDup (map fst (bm_insert lex_ltb k v m ++ ls))).
    { apply IH; [now apply insert_map| |].
      - eapply eq_trans; [exact L|]. pose proof (Permutation_length P) as PL. cbn [length] in PL. unfold limits, tag in *. lia.
      - rewrite P. cbn [map fst]. now constructor. }
    assert (P1: Permutation (map fst (m ++ (k, v) :: ls)) (k :: map fst (m ++ ls))).
    { rewrite !map_app. cbn [map fst]. symmetry. apply Permutation_middle. }
    rewrite P1.
    assert (P2: Permutation (map fst (bm_insert lex_ltb k v m ++ ls)) (k :: map fst (m ++ ls))) by (rewrite (Permutation_app_tail ls P); reflexivity).
    now rewrite <- P2.
Qed.

Lemma sorted_nodup (m : limits) : as_map m -> NoDup (map fst m).
Proof.
  unfold as_map. intros H. induction H as [|k l H IH F]; constructor; [|exact IH].
  intros I0. rewrite Forall_forall in F. specialize (F _ I0). rewrite (st_irrefl _ lex_strict) in F. discriminate.
Qed.

(** The limits, if no axis has two. *)
Lemma locargs_iff args m : (parse_locargs args [] = Ok m /\ length m = length args) <->
  (as_map m /\ exists ls, texts args ls /\ Permutation m ls).
Proof.
  split.
  - intros [H L]. apply locargs_ok in H. destruct H as (ls & T & ->).
    pose proof (Forall2_length _ _ _ T) as LT. split; [apply fold_map; constructor|]. exists ls. split; [exact T|].
    apply (fold_perm ls []). apply (fold_count ls []); [constructor| |constructor]. cbn [length]. rewrite Nat.add_0_r. eapply eq_trans; [exact L|exact LT].
  - intros (M & ls & T & P). assert (N: NoDup (map fst ls)) by (rewrite <- P; now apply sorted_nodup).
    set (m' := fold_left (fun m kv => bm_insert lex_ltb (fst kv) (snd kv) m) ls []).
    assert (P': Permutation m' ls) by (apply (fold_perm ls []); exact N).
    assert (E: m' = m).
    { apply (sorted_map_ext lex_ltb lex_strict); [apply fold_map; constructor|exact M|].
      assert (P2: Permutation m' m) by (rewrite P'; now symmetry). assert (M': as_map m') by (apply fold_map; constructor).
      intros k. destruct (bm_get lex_ltb k m') as [v|] eqn:G.
      - apply (get_In lex_ltb lex_strict) in G. symmetry. apply (In_get lex_ltb lex_strict); [exact M|]. exact (Permutation_in _ P2 G).
      - destruct (bm_get lex_ltb k m) as [v|] eqn:G2; [|reflexivity]. apply (get_In lex_ltb lex_strict) in G2.
        apply (Permutation_in _ (Permutation_sym P2)) in G2. apply (In_get lex_ltb lex_strict) in G2; [congruence|exact M']. }
    split; [apply locargs_ok; exists ls; split; [exact T|now rewrite <- E]|].
    rewrite (Permutation_length P). symmetry. exact (Forall2_length _ _ _ T).
Qed.

Theorem tool_writes args ft ft' : ttf_instantiate args ft = Ok (Some ft') <->
  vf_fvar ft <> None /\ exists m ls, as_map m /\ texts args ls /\ Permutation m ls /\ instantiate ft m = Ok ft'.
Proof.
  unfold ttf_instantiate. split.
  - destruct (parse_locargs args []) as [m| |] eqn:E; try discriminate. cbn [rbind].
    destruct (Nat.eqb_spec (length m) (length args)) as [L|]; [|discriminate].
    destruct (vf_fvar ft); [|discriminate]. destruct (instantiate ft m) as [x| |] eqn:I0; try discriminate. cbn [rbind].
    intros H. injection H as <-. split; [discriminate|]. destruct (proj1 (locargs_iff args m) (conj E L)) as (M & ls & T & P). eauto 8.
  - intros (V & m & ls & M & T & P & I0). destruct (proj2 (locargs_iff args m) (conj M (ex_intro _ ls (conj T P)))) as [E L].
    rewrite E. cbn [rbind]. rewrite L, Nat.eqb_refl. destruct (vf_fvar ft); [|congruence]. now rewrite I0.
Qed.
Theorem tool_refuses args ft : ttf_instantiate args ft = Ok None <->
  exists ls, texts args ls /\ (~ NoDup (map fst ls) \/ vf_fvar ft = None).
Proof.
  unfold ttf_instantiate. split.
  - destruct (parse_locargs args []) as [m| |] eqn:E; try discriminate. cbn [rbind].
    pose proof (proj1 (locargs_ok args [] m) E) as (ls & T & Em). intros H. exists ls. split; [exact T|].
    destruct (Nat.eqb_spec (length m) (length args)) as [L|L].
    + right. destruct (vf_fvar ft); [|reflexivity]. destruct (instantiate ft m) as [x| |]; discriminate.
    + left. intros N. apply L. rewrite Em. eapply eq_trans; [exact (Permutation_length (fold_perm ls [] N))|]. symmetry. exact (Forall2_length _ _ _ T).
  - intros (ls & T & C).
    assert (X: exists m : limits, parse_locargs args [] = Ok m /\ m = fold_left (fun m kv => bm_insert lex_ltb (fst kv) (snd kv) m) ls []).
    { eexists. split; [apply locargs_ok; exists ls; split; [exact T|reflexivity]|reflexivity]. }
    destruct X as (m & E & Em). rewrite E. cbn [rbind].
    destruct (Nat.eqb_spec (length m) (length args)) as [L|L]; [|reflexivity].
    destruct C as [C|C]; [|now rewrite C]. exfalso. apply C. apply (fold_count ls []); [constructor| |constructor].
    cbn [length]. rewrite Nat.add_0_r. rewrite Em in L. eapply eq_trans; [exact L|exact (Forall2_length _ _ _ T)].
Qed.

(** The order of the arguments makes no difference. *)
Theorem tool_order args args' ft : Permutation args args' -> ttf_instantiate args ft = ttf_instantiate args' ft.
Proof.
  assert (W: forall a b, Permutation a b -> forall m, parse_locargs a [] = Ok m /\ length m = length a -> parse_locargs b [] = Ok m /\ length m = length b).
  { intros a b P m H. apply locargs_iff in H. apply locargs_iff. destruct H as (M & ls & T & Q0). split; [exact M|].
    destruct (Forall2_perm _ _ _ P _ T) as (ls' & P' & T'). exists ls'. split; [exact T'|]. now rewrite Q0. }
  assert (D: forall a b, Permutation a b -> forall m, parse_locargs a [] = Ok m -> exists m', parse_locargs b [] = Ok m').
  { intros a b P m H. apply locargs_ok in H. destruct H as (ls & T & _).
    destruct (Forall2_perm _ _ _ P _ T) as (ls' & P' & T'). eexists. apply locargs_ok. exists ls'. split; [exact T'|reflexivity]. }
  assert (NE: forall a m, parse_locargs a m <> Err).
  { induction a as [|s a IH]; intros m; cbn [parse_locargs]; [discriminate|].
    assert (parse_locarg s <> Err).
    { unfold parse_locarg. destruct (span is_word s) as [key r]. destruct r as [|b r]; [discriminate|].
      assert (SF: forall x, str_to_fixed x <> Err). { intros x. unfold str_to_fixed. destruct (parse_f32 x) as [[|[]|]|]; discriminate. }
      assert (BD: forall (R : res (tag * limit)), R <> Err -> match b with 61 => R | _ => Panic end <> Err).
      { intros R HR. destruct b as [|b|b]; try discriminate. do 6 (destruct b as [b|b|]; try discriminate; try exact HR). }
      apply BD. destruct (tag_from_raw key); [|discriminate]. destruct (bytes_eqb r _); [discriminate|].
      destruct (span _ r) as [x y]. pose proof (SF x). destruct (str_to_fixed x); cbn [rbind]; try congruence.
      destruct y as [|c y]; [discriminate|]. pose proof (SF y). destruct (str_to_fixed y); cbn [rbind]; try congruence.
      destruct (dy_eqb _ _); [discriminate|]. unfold axis_range. destruct (dy_ltb _ _); discriminate. }
    destruct (parse_locarg s) as [[t l]| |]; cbn [rbind]; [apply IH|congruence|discriminate]. }
  intros P. unfold ttf_instantiate.
  destruct (parse_locargs args []) as [m| |] eqn:E; [|now apply NE in E|].
  - destruct (D _ _ P _ E) as (m' & E'). rewrite E'. cbn [rbind].
    destruct (Nat.eqb_spec (length m) (length args)) as [L|L].
    + destruct (W _ _ P m (conj E L)) as [E2 L2]. rewrite E' in E2. injection E2 as ->. now rewrite L2, Nat.eqb_refl.
    + destruct (Nat.eqb_spec (length m') (length args')) as [L'|L']; [|reflexivity].
      destruct (W _ _ (Permutation_sym P) m' (conj E' L')) as [E2 L2]. rewrite E in E2. injection E2 as ->. congruence.
  - destruct (parse_locargs args' []) as [m'| |] eqn:E'; [|now apply NE in E'|reflexivity].
    destruct (D _ _ (Permutation_sym P) _ E') as (m & E2). congruence.
Qed.

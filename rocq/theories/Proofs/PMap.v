(** Ordered association lists. *)
From Coq Require Import Sorted.
From Verif.Proofs Require Import PBase PTag.
From Verif.Model Require Import MMap MTag.

(** Strict total orders given by a boolean. *)
Record strict_total {K} (ltb : K -> K -> bool) : Prop := {
  st_irrefl : forall a, ltb a a = false;
  st_trans : forall a b c, ltb a b = true -> ltb b c = true -> ltb a c = true;
  st_total : forall a b, ltb a b = false -> ltb b a = false -> a = b }.

Lemma st_asym {K} (ltb : K -> K -> bool) : strict_total ltb ->
  forall a b, ltb a b = true -> ltb b a = false.
Proof.
  intros H a b Hab. destruct (ltb b a) eqn:E; [|reflexivity].
  pose proof (st_trans _ H _ _ _ Hab E). rewrite (st_irrefl _ H) in H0. discriminate.
Qed.

Lemma Z_strict : strict_total Z.ltb.
Proof. split; intros; lia. Qed.

Lemma lex_strict : strict_total lex_ltb.
Proof.
  split.
  - induction a as [|x a IH]; cbn [lex_ltb]; [reflexivity|]. rewrite IH. lia.
  - induction a as [|x a IH]; intros [|y b] [|z c]; cbn [lex_ltb]; try discriminate; auto.
    intros H1 H2. apply orb_true_iff in H1. apply orb_true_iff in H2.
    apply orb_true_iff.
    destruct H1 as [H1|H1], H2 as [H2|H2].
    + left; lia.
    + apply andb_true_iff in H2 as [H2 _]. left; lia.
    + apply andb_true_iff in H1 as [H1 _]. left; lia.
    + apply andb_true_iff in H1 as [H1 H1']. apply andb_true_iff in H2 as [H2 H2'].
      right. apply andb_true_iff. split; [lia|]. now apply IH with b.
  - induction a as [|x a IH]; intros [|y b]; cbn [lex_ltb]; try discriminate; auto.
    intros H1 H2. apply orb_false_iff in H1 as [H1 H1']. apply orb_false_iff in H2 as [H2 H2'].
    assert (x = y) by lia. subst y. rewrite Z.eqb_refl in *. cbn [andb] in *. f_equal. now apply IH.
Qed.

Lemma find_app {A} (f : A -> bool) l1 l2 :
  find f (l1 ++ l2) = match find f l1 with Some x => Some x | None => find f l2 end.
Proof. induction l1 as [|a l1 IH]; cbn [app find]; [reflexivity|]. now destruct (f a). Qed.

Section Map.
  Context {K V : Type} (ltb : K -> K -> bool) (ST : strict_total ltb).

  Implicit Types (k : K) (v : V) (m l : list (K * V)).

  Definition sorted_keys (l : list K) : Prop := StronglySorted (fun a b => ltb a b = true) l.
  Definition sorted_map (m : list (K * V)) : Prop := sorted_keys (map fst m).

  Lemma eq_case a b : ltb a b || ltb b a = false <-> a = b.
  Proof.
    rewrite orb_false_iff. split.
    - intros [? ?]. now apply (st_total _ ST).
    - intros ->. now rewrite (st_irrefl _ ST).
  Qed.

  Lemma get_insert_same k v m : bm_get ltb k (bm_insert ltb k v m) = Some v.
  Proof.
    induction m as [|[k' v'] m IH]; cbn [bm_insert bm_get].
    - now rewrite (st_irrefl _ ST).
    - destruct (ltb k k') eqn:E; cbn [bm_get].
      + now rewrite (st_irrefl _ ST).
      + destruct (ltb k' k) eqn:E2; cbn [bm_get].
        * now rewrite E, E2.
        * now rewrite (st_irrefl _ ST).
  Qed.

  Lemma get_insert_other k k2 v m : k <> k2 -> bm_get ltb k2 (bm_insert ltb k v m) = bm_get ltb k2 m.
  Proof.
    intros Hne. assert (Hc: ltb k2 k || ltb k k2 = true).
    { destruct (ltb k2 k || ltb k k2) eqn:E; [reflexivity|]. apply eq_case in E. congruence. }
    induction m as [|[k' v'] m IH]; cbn [bm_insert bm_get].
    - now rewrite Hc.
    - destruct (ltb k k') eqn:E; cbn [bm_get]; [now rewrite Hc|].
      destruct (ltb k' k) eqn:E2; cbn [bm_get].
      + destruct (ltb k2 k' || ltb k' k2); auto.
      + assert (k = k') by (now apply (st_total _ ST)). subst k'. now rewrite Hc.
  Qed.

  Lemma get_insert k k2 v m :
    bm_get ltb k2 (bm_insert ltb k v m) = if ltb k k2 || ltb k2 k then bm_get ltb k2 m else Some v.
  Proof.
    destruct (ltb k k2 || ltb k2 k) eqn:E.
    - apply get_insert_other. intros ->. rewrite (st_irrefl _ ST) in E. discriminate.
    - apply eq_case in E. subst. apply get_insert_same.
  Qed.

  Lemma get_not_in k m : (forall v, ~ @In (K * V) (k, v) m) -> bm_get ltb k m = None.
  Proof.
    induction m as [|[k' v'] m IH]; intros H; cbn [bm_get]; [reflexivity|].
    destruct (ltb k k' || ltb k' k) eqn:E.
    - apply IH. intros v Hv. apply (H v). now right.
    - apply eq_case in E. subst. exfalso. apply (H v'). now left.
  Qed.

  Lemma get_In k v m : bm_get ltb k m = Some v -> @In (K * V) (k, v) m.
  Proof.
    induction m as [|[k' v'] m IH]; cbn [bm_get]; [discriminate|].
    destruct (ltb k k' || ltb k' k) eqn:E.
    - intros H. right. now apply IH.
    - apply eq_case in E. subst. intros [= ->]. now left.
  Qed.

  Lemma get_lt k m : Forall (fun k' => ltb k k' = true) (map fst m) -> bm_get ltb k m = None.
  Proof.
    intros H. apply get_not_in. intros v Hv. rewrite Forall_forall in H.
    specialize (H k (in_map fst _ _ Hv)). now rewrite (st_irrefl _ ST) in H.
  Qed.

  Lemma In_get k v m : sorted_map m -> @In (K * V) (k, v) m -> bm_get ltb k m = Some v.
  Proof.
    unfold sorted_map, sorted_keys.
    induction m as [|[k' v'] m IH]; cbn [bm_get map fst]; intros HS Hin; [destruct Hin|].
    inversion_clear HS as [|? ? HS' HF]. destruct Hin as [E|Hin].
    - injection E as -> ->. now rewrite (st_irrefl _ ST).
    - assert (ltb k' k = true).
      { rewrite Forall_forall in HF. apply HF. now apply (in_map fst _ (k, v)). }
      rewrite H, orb_true_r. now apply IH.
  Qed.

  Lemma insert_keys_lt k v m a : ltb a k = true -> Forall (fun b => ltb a b = true) (map fst m) ->
    Forall (fun b => ltb a b = true) (map fst (bm_insert ltb k v m)).
  Proof.
    induction m as [|[k' v'] m IH]; intros Ha HF; cbn [bm_insert map fst] in *.
    - repeat constructor; auto.
    - inversion_clear HF. destruct (ltb k k'); [|destruct (ltb k' k)]; cbn [map fst]; repeat constructor; auto.
  Qed.

  Lemma insert_sorted k v m : sorted_map m -> sorted_map (bm_insert ltb k v m).
  Proof.
    unfold sorted_map, sorted_keys. induction m as [|[k' v'] m IH]; intros HS; cbn [bm_insert map fst].
    - repeat constructor.
    - cbn [map fst] in HS. inversion_clear HS as [|? ? HS' HF].
      destruct (ltb k k') eqn:E; cbn [map fst].
      + constructor; [constructor; assumption|]. constructor; [assumption|].
        eapply Forall_impl; [|exact HF]. intros a. cbn. intros. eapply (st_trans _ ST); eauto.
      + destruct (ltb k' k) eqn:E2; cbn [map fst].
        * constructor; [now apply IH|]. now apply insert_keys_lt.
        * assert (k = k') by (now apply (st_total _ ST)). subst k'. now constructor.
  Qed.

  Lemma get_remove_same k m : sorted_map m -> bm_get ltb k (bm_remove ltb k m) = None.
  Proof.
    unfold sorted_map, sorted_keys. induction m as [|[k' v'] m IH]; intros HS; cbn [bm_remove]; [reflexivity|].
    cbn [map fst] in HS. inversion_clear HS as [|? ? HS' HF].
    destruct (ltb k k' || ltb k' k) eqn:E; cbn [bm_get].
    - rewrite E. now apply IH.
    - apply eq_case in E. subst k'. now apply get_lt.
  Qed.

  Lemma get_remove_other k k2 m : k <> k2 -> bm_get ltb k2 (bm_remove ltb k m) = bm_get ltb k2 m.
  Proof.
    intros Hne. induction m as [|[k' v'] m IH]; cbn [bm_remove bm_get]; [reflexivity|].
    destruct (ltb k k' || ltb k' k) eqn:E; cbn [bm_get].
    - now rewrite IH.
    - apply eq_case in E. subst k'.
      destruct (ltb k2 k || ltb k k2) eqn:E2; [reflexivity|]. apply eq_case in E2. congruence.
  Qed.

  Lemma remove_keys_lt k m a : Forall (fun b => ltb a b = true) (map fst m) ->
    Forall (fun b => ltb a b = true) (map fst (bm_remove ltb k m)).
  Proof.
    induction m as [|[k' v'] m IH]; intros HF; cbn [bm_remove map fst] in *; [constructor|].
    inversion_clear HF. destruct (ltb k k' || ltb k' k); cbn [map fst]; auto.
  Qed.

  Lemma remove_sorted k m : sorted_map m -> sorted_map (bm_remove ltb k m).
  Proof.
    unfold sorted_map, sorted_keys. induction m as [|[k' v'] m IH]; intros HS; cbn [bm_remove map fst]; [constructor|].
    cbn [map fst] in HS. inversion_clear HS as [|? ? HS' HF].
    destruct (ltb k k' || ltb k' k); cbn [map fst]; [|assumption].
    constructor; [now apply IH|]. now apply remove_keys_lt.
  Qed.

  (** Extensionality *)
  Lemma sorted_map_ext m1 m2 : sorted_map m1 -> sorted_map m2 ->
    (forall k, bm_get ltb k m1 = bm_get ltb k m2) -> m1 = m2.
  Proof.
    unfold sorted_map, sorted_keys. revert m2.
    induction m1 as [|[k1 v1] m1 IH]; intros [|[k2 v2] m2] H1 H2 HE.
    - reflexivity.
    - specialize (HE k2). cbn [bm_get] in HE. rewrite (st_irrefl _ ST) in HE. discriminate.
    - specialize (HE k1). cbn [bm_get] in HE. rewrite (st_irrefl _ ST) in HE. discriminate.
    - cbn [map fst] in H1, H2. inversion_clear H1 as [|? ? S1 F1]. inversion_clear H2 as [|? ? S2 F2].
      assert (k1 = k2).
      { destruct (ltb k1 k2) eqn:E.
        - pose proof (HE k1) as Hx. cbn [bm_get] in Hx. rewrite (st_irrefl _ ST), E in Hx. cbn [orb] in Hx.
          rewrite get_lt in Hx; [discriminate|]. eapply Forall_impl; [|exact F2]. cbn. intros; eapply (st_trans _ ST); eauto.
        - destruct (ltb k2 k1) eqn:E2.
          + pose proof (HE k2) as Hx. cbn [bm_get] in Hx. rewrite (st_irrefl _ ST), E2 in Hx. cbn [orb] in Hx.
            rewrite get_lt in Hx; [discriminate|]. eapply Forall_impl; [|exact F1]. cbn. intros; eapply (st_trans _ ST); eauto.
          + now apply (st_total _ ST). }
      subst k2. f_equal.
      + specialize (HE k1). cbn [bm_get] in HE. rewrite (st_irrefl _ ST) in HE. cbn [orb] in HE. congruence.
      + apply IH; [assumption|assumption|]. intros k. specialize (HE k). cbn [bm_get] in HE.
        destruct (ltb k k1 || ltb k1 k) eqn:E; [exact HE|].
        apply eq_case in E. subst k. now rewrite !get_lt.
  Qed.

  Lemma insert_last k v m : Forall (fun a => ltb a k = true) (map fst m) ->
    bm_insert ltb k v m = m ++ [(k, v)].
  Proof.
    induction m as [|[k' v'] m IH]; intros HF; cbn [bm_insert app]; [reflexivity|].
    cbn [map fst] in HF. inversion_clear HF.
    rewrite (st_asym _ ST _ _ H), H. now rewrite IH.
  Qed.

  Lemma of_list_app l1 l2 :
    bm_of_list ltb (l1 ++ l2) = fold_left (fun m kv => bm_insert ltb (fst kv) (snd kv) m) l2 (bm_of_list ltb l1).
  Proof. unfold bm_of_list. apply fold_left_app. Qed.

  Lemma of_list_sorted l : sorted_map (bm_of_list ltb l).
  Proof.
    unfold bm_of_list. assert (H: sorted_map []) by constructor. revert H. generalize (@nil (K * V)).
    induction l as [|[k v] l IH]; intros m Hm; cbn [fold_left]; [exact Hm|].
    apply IH. now apply insert_sorted.
  Qed.

  Lemma fold_insert_sorted l m : sorted_map (m ++ l) ->
    fold_left (fun m kv => bm_insert ltb (fst kv) (snd kv) m) l m = m ++ l.
  Proof.
    revert m. induction l as [|[k v] l IH]; intros m HS; cbn [fold_left]; [now rewrite app_nil_r|].
    cbn [fst snd]. rewrite insert_last.
    - rewrite IH; rewrite <- app_assoc; [reflexivity|exact HS].
    - unfold sorted_map, sorted_keys in HS. rewrite map_app in HS. cbn [map fst] in HS.
      clear IH. induction m as [|[a b] m IH]; cbn [map fst app] in *; constructor.
      + inversion_clear HS as [|? ? _ HF]. rewrite Forall_forall in HF. apply HF, in_or_app. right. now left.
      + apply IH. now inversion_clear HS.
  Qed.

  Lemma of_list_id m : sorted_map m -> bm_of_list ltb m = m.
  Proof. intros H. apply (fold_insert_sorted m []). exact H. Qed.

  (** collect(): the last entry with the key wins *)
  Lemma get_fold_insert k l m :
    bm_get ltb k (fold_left (fun m kv => bm_insert ltb (fst kv) (snd kv) m) l m)
    = match find (fun kv => negb (ltb k (fst kv) || ltb (fst kv) k)) (rev l) with
      | Some kv => Some (snd kv)
      | None => bm_get ltb k m
      end.
  Proof.
    revert m. induction l as [|[a b] l IH]; intros m; cbn [fold_left rev find]; [reflexivity|].
    rewrite IH. cbn [fst snd].
    rewrite find_app. destruct (find _ (rev l)) as [kv|]; [reflexivity|].
    cbn [find fst snd]. destruct (ltb k a || ltb a k) eqn:E; cbn [negb].
    - apply get_insert_other. intros ->. rewrite (st_irrefl _ ST) in E. discriminate.
    - apply eq_case in E. subst. cbn [snd]. apply get_insert_same.
  Qed.
End Map.

(** Sets of integers *)
Lemma bs_insert_In k s x : In x (bs_insert k s) <-> x = k \/ In x s.
Proof.
  induction s as [|y s IH]; cbn [bs_insert In]; [intuition congruence|].
  destruct (Z.ltb_spec k y); cbn [In]; [intuition congruence|].
  destruct (Z.ltb_spec y k); cbn [In].
  - rewrite IH. tauto.
  - assert (k = y) by lia. subst. intuition congruence.
Qed.

Lemma bs_of_list_In l x : In x (bs_of_list l) <-> In x l.
Proof.
  unfold bs_of_list. enough (forall s, In x (fold_left (fun s k => bs_insert k s) l s) <-> In x l \/ In x s) as H.
  { rewrite H. cbn. tauto. }
  induction l as [|k l IH]; intros s; cbn [fold_left In]; [tauto|].
  rewrite IH, bs_insert_In. intuition congruence.
Qed.

Lemma bs_insert_sorted k s : StronglySorted Z.lt s -> StronglySorted Z.lt (bs_insert k s).
Proof.
  induction s as [|x s IH]; intros HS; cbn [bs_insert]; [repeat constructor|].
  inversion_clear HS as [|? ? HS' HF]. destruct (Z.ltb_spec k x).
  - constructor; [now constructor|]. constructor; [assumption|]. eapply Forall_impl; [|exact HF]. cbn; lia.
  - destruct (Z.ltb_spec x k).
    + constructor; [now apply IH|]. apply Forall_forall. intros y Hy. apply bs_insert_In in Hy.
      rewrite Forall_forall in HF. destruct Hy as [->|Hy]; [assumption|now apply HF].
    + now constructor.
Qed.

Lemma bs_of_list_sorted l : StronglySorted Z.lt (bs_of_list l).
Proof.
  unfold bs_of_list. assert (H: StronglySorted Z.lt []) by constructor. revert H. generalize (@nil Z).
  induction l as [|k l IH]; intros s Hs; cbn [fold_left]; [exact Hs|]. apply IH. now apply bs_insert_sorted.
Qed.

Lemma sorted_set_ext l1 l2 : StronglySorted Z.lt l1 -> StronglySorted Z.lt l2 ->
  (forall x, In x l1 <-> In x l2) -> l1 = l2.
Proof.
  intros H1. revert l2. induction H1 as [|a l1 H1 IH F1]; intros l2 H2 HE.
  - destruct l2 as [|b l2]; [reflexivity|]. exfalso. apply (HE b). now left.
  - destruct H2 as [|b l2 H2 F2]; [exfalso; apply (HE a); now left|].
    rewrite Forall_forall in F1, F2.
    assert (a = b).
    { destruct (proj1 (HE a) (or_introl eq_refl)) as [->|Ha]; [reflexivity|].
      destruct (proj2 (HE b) (or_introl eq_refl)) as [->|Hb]; [reflexivity|].
      specialize (F1 _ Hb). specialize (F2 _ Ha). lia. }
    subst b. f_equal. apply IH; [assumption|]. intros x. split; intros Hx.
    + destruct (proj1 (HE x) (or_intror Hx)) as [->|?]; [|assumption]. specialize (F1 _ Hx). lia.
    + destruct (proj2 (HE x) (or_intror Hx)) as [->|?]; [|assumption]. specialize (F2 _ Hx). lia.
Qed.

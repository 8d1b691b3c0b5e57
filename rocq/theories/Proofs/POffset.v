(** The offset manager stores every object where its offsets say. *)
From Verif.Model Require Import MBase MOffset.
From Verif.Spec Require Import SOffset.
From Verif.Proofs Require Import PBase.

Lemma item_ind2 (P : item -> Prop) :
  (forall b, P (IB b)) -> (forall k, P (IRef k None)) ->
  (forall k l, Forall P l -> P (IRef k (Some l))) ->
  (forall l, Forall P l -> P (IGroup l)) -> forall i, P i.
Proof.
  intros H1 H2 H3 H4. fix F 1. intros [b|k [l|]|l].
  - apply H1.
  - apply H3. induction l; constructor; [apply F|assumption].
  - apply H2.
  - apply H4. induction l; constructor; [apply F|assumption].
Qed.

(** ** Sizes and counts *)
Definition link_total (o : option obj) : nat := match o with Some l => total l | None => 0 end.
Definition ref_sum (f : option obj -> nat) (ks : list ref) : nat := list_sum (map (fun r => f (snd r)) ks).
Definition item_refs (i : item) : list ref := match i with IRef k o => [(k, o)] | _ => group_kids i end.

Lemma ref_sum_app f a b : ref_sum f (a ++ b) = (ref_sum f a + ref_sum f b)%nat.
Proof. unfold ref_sum. now rewrite map_app, list_sum_app. Qed.
Lemma kids_sum f l : ref_sum f (kids l) = list_sum (map (fun i => ref_sum f (item_refs i)) l).
Proof.
  unfold kids. rewrite ref_sum_app. induction l as [|i l IH]; [reflexivity|].
  unfold directs in *. cbn [map concat]. rewrite !ref_sum_app.
  match goal with |- _ = ?r => change r with (ref_sum f (item_refs i) + list_sum (map (fun i0 => ref_sum f (item_refs i0)) l))%nat end.
  rewrite <- IH. destruct i as [b|k o|g]; cbn [item_refs group_kids]; unfold ref_sum; cbn [map list_sum fold_right]; lia.
Qed.
Lemma list_sum_ext {A} (f g : A -> nat) l : Forall (fun x => f x = g x) l -> list_sum (map f l) = list_sum (map g l).
Proof. induction 1 as [|x l Hx Hl IH]; [reflexivity|]. cbn. unfold list_sum in IH. now rewrite Hx, IH. Qed.
Lemma list_sum_plus {A} (f g : A -> nat) l :
  list_sum (map (fun x => f x + g x)%nat l) = (list_sum (map f l) + list_sum (map g l))%nat.
Proof. induction l as [|x l IH]; [reflexivity|]. cbn. unfold list_sum in IH. rewrite IH. lia. Qed.

Lemma item_total_eq i : item_total i = (item_size i + ref_sum link_total (item_refs i))%nat.
Proof.
  induction i as [b|k|k l IH|l IH] using item_ind2; cbn [item_total item_size item_refs].
  - reflexivity.
  - unfold ref_sum. cbn. lia.
  - unfold ref_sum. cbn [map snd link_total list_sum fold_right]. unfold total. lia.
  - rewrite (list_sum_ext _ _ _ IH), list_sum_plus. f_equal.
    change (group_kids (IGroup l)) with (kids l). now rewrite kids_sum.
Qed.
Lemma total_eq l : total l = (size l + ref_sum link_total (kids l))%nat.
Proof.
  unfold total, size. rewrite kids_sum, <- list_sum_plus. apply list_sum_ext. apply Forall_forall. intros i _. apply item_total_eq.
Qed.
Lemma item_nodes_eq i : item_nodes i = ref_sum link_nodes (item_refs i).
Proof.
  induction i as [b|k|k l IH|l IH] using item_ind2; cbn [item_nodes item_refs].
  - reflexivity.
  - reflexivity.
  - unfold ref_sum. cbn [map snd list_sum fold_right]. unfold link_nodes. cbn [item_nodes]. lia.
  - rewrite (list_sum_ext _ _ _ IH). change (group_kids (IGroup l)) with (kids l). now rewrite kids_sum.
Qed.
Lemma link_nodes_eq o : link_nodes o = S (ref_sum link_nodes (link_kids o)).
Proof.
  destruct o as [l|]; [|reflexivity]. unfold link_nodes at 1. cbn [item_nodes link_kids]. f_equal. rewrite kids_sum.
  apply list_sum_ext. apply Forall_forall. intros i _. apply item_nodes_eq.
Qed.
Lemma link_total_eq o : link_total o = (link_size o + ref_sum link_total (link_kids o))%nat.
Proof. destruct o as [l|]; [|reflexivity]. apply total_eq. Qed.
Lemma refs_size i : item_refs i <> [] -> (2 <= item_size i)%nat.
Proof.
  induction i as [b|k|k l IH|l IH] using item_ind2; cbn [item_refs item_size]; intros H.
  - now elim H.
  - destruct k; cbn; lia.
  - destruct k; cbn; lia.
  - change (group_kids (IGroup l)) with (kids l) in H.
    assert (E: Exists (fun i => item_refs i <> []) l).
    { apply Exists_exists. unfold kids, directs in H. clear IH.
      induction l as [|i l IH2]; [now elim H|]. destruct (item_refs i) as [|r rs] eqn:Er.
      - destruct IH2 as (j & Hj & Hr).
        + intros E. apply H. apply app_eq_nil in E as [E1 E2]. cbn [map concat]. rewrite E1, E2.
          destruct i as [b|k o|g]; [reflexivity|discriminate|]. cbn [item_refs] in Er. rewrite Er. reflexivity.
        + exists j. split; [now right|exact Hr].
      - exists i. split; [now left|]. rewrite Er. discriminate. }
    apply Exists_exists in E as (i & Hi & Hr). rewrite Forall_forall in IH. specialize (IH i Hi Hr).
    clear -Hi IH. induction l as [|j l IHl]; [elim Hi|]. cbn [map list_sum fold_right].
    destruct Hi as [->|Hi]; [lia|]. specialize (IHl Hi). unfold list_sum in IHl. lia.
Qed.
Lemma kids_size l : kids l <> [] -> (2 <= size l)%nat.
Proof. exact (refs_size (IGroup l)). Qed.

(** ** The traversal and positions *)
Fixpoint ann (c : nat) (ns : list node) : list (node * nat) :=
  match ns with [] => [] | n :: ns' => (n, c) :: ann (c + link_size (nd_obj n)) ns' end.
Fixpoint spos (c : nat) (st : list node) : list (node * nat) :=
  match st with [] => [] | n :: st' => (n, c) :: spos (c + link_total (nd_obj n)) st' end.
Definition nsum (f : option obj -> nat) (st : list node) : nat := list_sum (map (fun n => f (nd_obj n)) st).
Lemma nsum_app f a b : nsum f (a ++ b) = (nsum f a + nsum f b)%nat.
Proof. unfold nsum. now rewrite map_app, list_sum_app. Qed.
Lemma nsum_kids f p ks : forall i, nsum f (number_kids p i ks) = ref_sum f ks.
Proof.
  induction ks as [|[k o] ks IH]; intros i; [reflexivity|]. cbn [number_kids]. unfold nsum, ref_sum in *.
  cbn [map list_sum fold_right nd_obj snd]. unfold list_sum in IH. now rewrite IH.
Qed.
Lemma spos_app a : forall c b, spos c (a ++ b) = spos c a ++ spos (c + nsum link_total a) b.
Proof.
  induction a as [|n a IH]; intros c b; cbn [app spos].
  - unfold nsum. cbn. now rewrite Nat.add_0_r.
  - rewrite IH. cbn [app]. unfold nsum. cbn [map list_sum fold_right]. f_equal. f_equal. f_equal. unfold list_sum. lia.
Qed.
Lemma node_nodes n : link_nodes (nd_obj n) = S (nsum link_nodes (node_kids n)).
Proof. unfold node_kids. now rewrite nsum_kids, <- link_nodes_eq. Qed.
Lemma node_total n : link_total (nd_obj n) = (link_size (nd_obj n) + nsum link_total (node_kids n))%nat.
Proof. unfold node_kids. now rewrite nsum_kids, <- link_total_eq. Qed.

Lemma visit_stack fuel : forall st c, (nsum link_nodes st <= fuel)%nat -> incl (spos c st) (ann c (visit fuel st)).
Proof.
  induction fuel as [|f IH]; intros [|n st] c H; try (intros x Hx; now elim Hx).
  - unfold nsum in H. cbn [map list_sum fold_right] in H. rewrite node_nodes in H. lia.
  - cbn [visit spos ann]. intros x [<-|Hx]; [now left|]. right.
    apply (IH (node_kids n ++ st) (c + link_size (nd_obj n))%nat).
    + rewrite nsum_app. unfold nsum in H. cbn [map list_sum fold_right] in H. rewrite node_nodes in H. unfold nsum in *. unfold list_sum in *. lia.
    + rewrite spos_app. apply in_or_app. right. now rewrite <- Nat.add_assoc, <- node_total.
Qed.
Lemma visit_kids fuel : forall st c, (nsum link_nodes st <= fuel)%nat ->
  forall n q, In (n, q) (ann c (visit fuel st)) ->
    incl (spos (q + link_size (nd_obj n)) (node_kids n)) (ann c (visit fuel st)).
Proof.
  induction fuel as [|f IH]; intros [|n st] c H m q Hm; try (now elim Hm).
  assert (Hf: (nsum link_nodes (node_kids n ++ st) <= f)%nat).
  { rewrite nsum_app. unfold nsum in H. cbn [map list_sum fold_right] in H. rewrite node_nodes in H. unfold nsum in *. unfold list_sum in *. lia. }
  cbn [visit ann] in *. destruct Hm as [[= <- <-]|Hm].
  - intros x Hx. right. apply (visit_stack f); [exact Hf|]. rewrite spos_app. apply in_or_app. now left.
  - intros x Hx. right. eapply IH; eassumption.
Qed.
Lemma visit_size fuel : forall st, (nsum link_nodes st <= fuel)%nat ->
  nsum link_size (visit fuel st) = nsum link_total st.
Proof.
  induction fuel as [|f IH]; intros [|n st] H; try reflexivity.
  - unfold nsum in H. cbn [map list_sum fold_right] in H. rewrite node_nodes in H. lia.
  - assert (Hf: (nsum link_nodes (node_kids n ++ st) <= f)%nat).
    { rewrite nsum_app. unfold nsum in H. cbn [map list_sum fold_right] in H. rewrite node_nodes in H. unfold nsum in *. unfold list_sum in *. lia. }
    cbn [visit]. specialize (IH _ Hf). rewrite nsum_app in IH.
    change (nsum link_size (n :: ?l)) with (link_size (nd_obj n) + nsum link_size l)%nat.
    change (nsum link_total (n :: st)) with (link_total (nd_obj n) + nsum link_total st)%nat.
    change (nsum link_size (n :: visit f (node_kids n ++ st))) with (link_size (nd_obj n) + nsum link_size (visit f (node_kids n ++ st)))%nat.
    rewrite node_total. lia.
Qed.
Lemma ann_bound ns : forall c n q, In (n, q) (ann c ns) ->
  (c <= q)%nat /\ (q + link_size (nd_obj n) <= c + nsum link_size ns)%nat.
Proof.
  induction ns as [|m ns IH]; intros c n q H; [elim H|].
  change (nsum link_size (m :: ns)) with (link_size (nd_obj m) + nsum link_size ns)%nat. cbn [ann] in H.
  destruct H as [[= <- <-]|H]; [lia|]. apply IH in H. lia.
Qed.
Lemma ann_in ns : forall c n q, In (n, q) (ann c ns) -> In n ns.
Proof. induction ns as [|m ns IH]; intros c n q H; [elim H|]. destruct H as [[= <- <-]|H]; [now left|right; eauto]. Qed.

(** ** Paths are unique *)
Definition prefix (p q : path) : Prop := exists s, q = p ++ s.
Definition apart (n m : node) : Prop := ~ prefix (nd_path n) (nd_path m) /\ ~ prefix (nd_path m) (nd_path n).
Lemma number_kids_in p ks : forall i n, In n (number_kids p i ks) -> exists j, (i <= j)%nat /\ nd_path n = p ++ [j].
Proof.
  induction ks as [|[k o] ks IH]; intros i n H; [elim H|]. destruct H as [<-|H]; [now exists i|].
  destruct (IH (S i) n H) as (j & Hj & E). exists j. split; [lia|exact E].
Qed.
Lemma prefix_snoc p i q : prefix q (p ++ [i]) -> prefix q p \/ q = p ++ [i].
Proof.
  intros [s E]. destruct s as [|x s _] using rev_ind.
  - right. now rewrite app_nil_r in E.
  - left. rewrite app_assoc in E. apply app_inj_tail in E as [E _]. now exists s.
Qed.
Lemma prefix_refl p : prefix p p.
Proof. exists []. now rewrite app_nil_r. Qed.
Lemma prefix_trans p q r : prefix p q -> prefix q r -> prefix p r.
Proof. intros [s ->] [t ->]. exists (s ++ t). now rewrite app_assoc. Qed.
Lemma kids_apart p ks : forall i, ForallOrdPairs apart (number_kids p i ks).
Proof.
  induction ks as [|[k o] ks IH]; intros i; cbn [number_kids]; constructor; [|apply IH].
  apply Forall_forall. intros m Hm. destruct (number_kids_in p ks (S i) m Hm) as (j & Hj & E). unfold apart. cbn [nd_path]. rewrite E.
  split; intros [s Es].
  - rewrite <- app_assoc in Es. apply app_inv_head in Es. injection Es as Es. lia.
  - rewrite <- app_assoc in Es. apply app_inv_head in Es. injection Es as Es. lia.
Qed.
Lemma FOP_app {A} (R : A -> A -> Prop) a b : ForallOrdPairs R a -> ForallOrdPairs R b ->
  (forall x y, In x a -> In y b -> R x y) -> ForallOrdPairs R (a ++ b).
Proof.
  induction 1 as [|x a Hx Ha IH]; intros Hb Hab; [exact Hb|]. cbn. constructor.
  - apply Forall_app. split; [exact Hx|]. apply Forall_forall. intros y Hy. apply Hab; [now left|exact Hy].
  - apply IH; [exact Hb|]. intros; apply Hab; [now right|assumption].
Qed.
Lemma stack_apart n st : ForallOrdPairs apart (n :: st) -> ForallOrdPairs apart (node_kids n ++ st).
Proof.
  intros H. inversion H as [|? ? Hn Hs]; subst. apply FOP_app; [apply kids_apart|exact Hs|].
  intros x y Hx Hy. rewrite Forall_forall in Hn. destruct (Hn y Hy) as [A B].
  destruct (number_kids_in _ _ _ _ Hx) as (j & _ & E). unfold apart. rewrite E. split; intros P.
  - apply A. eapply prefix_trans; [|exact P]. now exists [j].
  - apply prefix_snoc in P as [P|P]; [now apply B|]. apply A. rewrite P. now exists [j].
Qed.
Lemma visit_prefix fuel : forall st m, In m (visit fuel st) -> exists n, In n st /\ prefix (nd_path n) (nd_path m).
Proof.
  induction fuel as [|f IH]; intros [|n st] m H; try (now elim H). destruct H as [<-|H].
  - exists n. split; [now left|apply prefix_refl].
  - apply IH in H as (x & Hx & P). apply in_app_or in Hx as [Hx|Hx].
    + exists n. split; [now left|]. destruct (number_kids_in _ _ _ _ Hx) as (j & _ & E). eapply prefix_trans; [|exact P].
      rewrite E. now exists [j].
    + exists x. split; [now right|exact P].
Qed.
Lemma visit_nodup fuel : forall st, ForallOrdPairs apart st -> NoDup (map nd_path (visit fuel st)).
Proof.
  induction fuel as [|f IH]; intros [|n st] H; try constructor.
  - intros Hin. apply in_map_iff in Hin as (m & E & Hm). apply visit_prefix in Hm as (x & Hx & P). rewrite E in P.
    apply in_app_or in Hx as [Hx|Hx].
    + destruct (number_kids_in _ _ _ _ Hx) as (j & _ & Ex). rewrite Ex in P. destruct P as [s Es].
      apply (f_equal (@length nat)) in Es. rewrite !app_length in Es. cbn in Es. lia.
    + inversion H as [|? ? Hn _]; subst. rewrite Forall_forall in Hn. destruct (Hn x Hx) as [_ B]. now apply B.
  - apply IH. now apply stack_apart.
Qed.

Lemma path_eqb_spec p : forall q, path_eqb p q = true <-> p = q.
Proof.
  induction p as [|a p IH]; intros [|b q]; cbn [path_eqb]; try (split; congruence).
  rewrite andb_true_iff, Nat.eqb_eq, IH. split; [now intros [-> ->]|intros [= -> ->]; auto].
Qed.
Lemma assoc_fun {A} p (a : A) l : In (p, a) l -> (forall b, In (p, b) l -> b = a) -> assoc p l = Some a.
Proof.
  induction l as [|[q b] l IH]; intros H F; [elim H|]. cbn [assoc]. destruct (path_eqb p q) eqn:E.
  - apply path_eqb_spec in E. subst q. rewrite (F b); [reflexivity|now left].
  - destruct H as [[= -> ->]|H].
    + assert (X: path_eqb p p = true) by now apply path_eqb_spec. congruence.
    + apply IH; [exact H|]. intros c Hc. apply F. now right.
Qed.
Lemma ann_path_fun ns : NoDup (map nd_path ns) -> forall c n q m r,
  In (n, q) (ann c ns) -> In (m, r) (ann c ns) -> nd_path n = nd_path m -> n = m /\ q = r.
Proof.
  induction ns as [|x ns IH]; intros H c n q m r Hn Hm E; [elim Hn|]. inversion H as [|? ? Hx Hd]; subst.
  cbn [ann] in *. destruct Hn as [[= <- <-]|Hn], Hm as [[= <- <-]|Hm]; auto.
  - elim Hx. rewrite E. apply in_map. eapply ann_in; exact Hm.
  - elim Hx. rewrite <- E. apply in_map. eapply ann_in; exact Hn.
  - eapply IH; eassumption.
Qed.

(** ** The first pass *)
Lemma first_pass_ann ns : forall c, (0 < c)%nat -> first_pass c ns = map (fun x => (nd_path (fst x), snd x)) (ann c ns).
Proof.
  induction ns as [|n ns IH]; intros c H; [reflexivity|]. cbn [first_pass ann map fst snd].
  replace (0 <? c)%nat with true by (symmetry; apply Nat.ltb_lt; lia). cbn [app]. f_equal. apply IH. lia.
Qed.

Section Root.
Variable o : obj.
Let root := mk_node [] Off16 (Some o).
Let ns := traversal o.
Let below := visit (link_nodes (Some o) - 1) (node_kids root ++ []).
Let an := ann 0 ns.
Let edges := first_pass 0 ns.

Lemma ns_eq : ns = root :: below.
Proof. unfold ns, below, traversal. rewrite link_nodes_eq. cbn [visit]. fold root. now rewrite Nat.sub_succ, Nat.sub_0_r. Qed.
Lemma fuel_ok : (nsum link_nodes [root] <= link_nodes (Some o))%nat.
Proof. unfold nsum. cbn [map list_sum fold_right root nd_obj]. lia. Qed.
Lemma ns_nodup : NoDup (map nd_path ns).
Proof. apply visit_nodup. constructor; constructor. Qed.
Lemma an_total n q : In (n, q) an -> (q + link_size (nd_obj n) <= total o)%nat.
Proof.
  intros H. apply ann_bound in H as [_ H]. unfold ns, traversal in H. rewrite visit_size in H by exact fuel_ok.
  unfold nsum in H. cbn [map list_sum fold_right nd_obj link_total] in H. lia.
Qed.
Lemma an_kids n q : In (n, q) an -> incl (spos (q + link_size (nd_obj n)) (node_kids n)) an.
Proof. apply visit_kids. exact fuel_ok. Qed.
Lemma an_root : In (root, 0%nat) an.
Proof. unfold an. rewrite ns_eq. now left. Qed.
Lemma an_fun n q m r : In (n, q) an -> In (m, r) an -> nd_path n = nd_path m -> n = m /\ q = r.
Proof. apply ann_path_fun, ns_nodup. Qed.
Lemma below_path n : In n below -> nd_path n <> [].
Proof.
  intros H. pose proof ns_nodup as D. rewrite ns_eq in D. cbn [map] in D. inversion D as [|? ? D1 _]; subst.
  intros E. apply D1. cbn [root nd_path]. rewrite <- E. now apply in_map.
Qed.
Lemma edges_in p w : In (p, w) edges -> exists n, In (n, w) an /\ nd_path n = p.
Proof.
  unfold edges, an. rewrite ns_eq. cbn [first_pass ann]. change (0 <? 0)%nat with false. cbn [app nd_obj root link_size].
  rewrite Nat.add_0_l. destruct (Nat.eq_dec (size o) 0) as [E|E].
  - assert (K: kids o = []). { destruct (kids o) eqn:K; [reflexivity|]. exfalso. assert (kids o <> []) by (rewrite K; discriminate). apply kids_size in H. lia. }
    unfold below, node_kids, root. cbn [nd_obj nd_path link_kids]. rewrite K. cbn [number_kids app].
    intros H. destruct (link_nodes (Some o) - 1)%nat; cbn in H; now elim H.
  - rewrite first_pass_ann by lia. intros H. apply in_map_iff in H as ([n q] & [= <- <-] & H). exists n. split; [now right|reflexivity].
Qed.
Lemma edges_at n q : In (n, q) an -> nd_path n <> [] -> assoc (nd_path n) edges = Some q.
Proof.
  intros H Hp. apply assoc_fun.
  - unfold edges. rewrite ns_eq. cbn [first_pass]. change (0 <? 0)%nat with false. cbn [app nd_obj root link_size].
    rewrite Nat.add_0_l. unfold an in H. rewrite ns_eq in H. cbn [ann root nd_obj link_size] in H. rewrite Nat.add_0_l in H. destruct H as [[= <- <-]|H]; [now elim Hp|].
    rewrite first_pass_ann.
    + apply in_map_iff. now exists (n, q).
    + destruct (Nat.eq_dec (size o) 0) as [E|E]; [|lia].
      assert (K: kids o = []). { destruct (kids o) eqn:K; [reflexivity|]. exfalso. assert (X: kids o <> []) by (rewrite K; discriminate). apply kids_size in X. lia. }
      unfold below, node_kids, root in H. cbn [nd_obj nd_path link_kids] in H. rewrite K in H. cbn [number_kids app] in H.
      destruct (link_nodes (Some o) - 1)%nat; cbn in H; now elim H.
  - intros b Hb. apply edges_in in Hb as (m & Hm & E). destruct (an_fun m b n q Hm H E). congruence.
Qed.

(** *** The second pass *)
Definition kid_value (k : off_kind) (d : nat) : option Z :=
  match k with Off32 | Far32 => Some (u32 (Z.of_nat d)) | _ => try_u 16 (u32 (Z.of_nat d)) end.
Definition opt_misfit (k : off_kind) (d : nat) : Prop := k = OptOff16 /\ try_u 16 (u32 (Z.of_nat d)) = None.
Definition cell_of (q : nat) (x : node * nat) : list (path * option Z) :=
  match nd_obj (fst x) with None => [] | Some _ => [(nd_path (fst x), kid_value (nd_kind (fst x)) (snd x - q))] end.
Definition kid_pos (x : node * nat) : list (node * nat) :=
  spos (snd x + link_size (nd_obj (fst x))) (node_kids (fst x)).

Lemma set_kids_eq q ks : forall c, (q <= c)%nat -> incl (spos c ks) an -> Forall (fun n => nd_path n <> []) ks ->
  set_kids edges q ks = Ok (concat (map (cell_of q) (spos c ks))) \/
  (set_kids edges q ks = Panic /\ exists n w o', In (n, w) (spos c ks) /\ nd_obj n = Some o' /\ opt_misfit (nd_kind n) (w - q)).
Proof.
  induction ks as [|n ks IH]; intros c Hc Hi Hp; [now left|]. inversion Hp as [|? ? Hn Hk]; subst.
  cbn [set_kids spos]. rewrite (edges_at n c); [|apply Hi; now left|exact Hn]. cbn [unwrap rbind].
  replace (c <? q)%nat with false by (symmetry; apply Nat.ltb_ge; exact Hc).
  destruct (IH (c + link_total (nd_obj n))%nat) as [E|(E & m & w & o' & H1 & H2 & H3)]; [lia|intros x Hx; apply Hi; now right|exact Hk| |].
  - rewrite E. unfold cell_of at 2. cbn [map concat fst snd]. destruct (nd_obj n) as [o'|] eqn:En; cbn [rbind]; [|now left].
    unfold set_offset. destruct (nd_kind n) eqn:Ek; cbn [rbind kid_value app]; try (left; reflexivity).
    destruct (try_u 16 (u32 (Z.of_nat (c - q)))) as [v|] eqn:Ev; cbn [unwrap rbind app]; [now left|].
    right. split; [reflexivity|]. exists n, c, o'. split; [now left|]. split; [exact En|]. now split.
  - right. split.
    + destruct (nd_obj n) as [o''|]; cbn [rbind]; [|now rewrite E]. unfold set_offset.
      destruct (nd_kind n); cbn [rbind]; try (now rewrite E).
      destruct (try_u 16 _); cbn [unwrap rbind]; [now rewrite E|reflexivity].
    + exists m, w, o'. split; [now right|now split].
Qed.
Lemma node_kids_path n : Forall (fun m => nd_path m <> []) (node_kids n).
Proof.
  apply Forall_forall. intros m Hm. destruct (number_kids_in _ _ _ _ Hm) as (j & _ & ->). intros E.
  apply app_eq_nil in E as [_ E]. discriminate.
Qed.
Definition cells_of (l : list (node * nat)) : list (path * option Z) :=
  concat (map (fun x => concat (map (cell_of (snd x)) (kid_pos x))) l).

Lemma second_pass_eq l : forall c base, incl (ann c l) an -> Forall (fun n => nd_path n <> []) l ->
  second_pass edges base l = Ok (cells_of (ann c l)) \/
  (second_pass edges base l = Panic /\ exists n q m w o', In (n, q) (ann c l) /\ In (m, w) (kid_pos (n, q)) /\ nd_obj m = Some o' /\ opt_misfit (nd_kind m) (w - q)).
Proof.
  induction l as [|n l IH]; intros c base Hi Hp; [now left|]. inversion Hp as [|? ? Hn Hl]; subst.
  cbn [second_pass ann]. assert (Hc: In (n, c) an) by (apply Hi; now left).
  replace (match nd_path n with [] => Ok base | _ :: _ => unwrap (assoc (nd_path n) edges) end) with (Ok c)
    by (destruct (nd_path n) eqn:E; [now elim Hn|]; rewrite <- E, (edges_at n c); [reflexivity|exact Hc|rewrite E; exact Hn]).
  cbn [rbind].
  destruct (set_kids_eq c (node_kids n) (c + link_size (nd_obj n))%nat) as [E|(E & m & w & o' & H1 & H2 & H3)];
    [lia|apply an_kids; exact Hc|apply node_kids_path| |]; rewrite E; cbn [rbind].
  - destruct (IH (c + link_size (nd_obj n))%nat c) as [E2|(E2 & n2 & q2 & m & w & o' & H1 & H2 & H3 & H4)];
      [intros x Hx; apply Hi; now right|exact Hl| |]; rewrite E2; cbn [rbind].
    + left. reflexivity.
    + right. split; [reflexivity|]. exists n2, q2, m, w, o'. split; [now right|auto].
  - right. split; [reflexivity|]. exists n, c, m, w, o'. split; [now left|auto].
Qed.
Lemma resolve_eq :
  second_pass edges 0 ns = Ok (cells_of an) \/
  (second_pass edges 0 ns = Panic /\ exists n q m w o', In (n, q) an /\ In (m, w) (kid_pos (n, q)) /\ nd_obj m = Some o' /\ opt_misfit (nd_kind m) (w - q)).
Proof.
  unfold an. rewrite ns_eq. cbn [second_pass ann root nd_path]. fold root. cbn [rbind].
  destruct (set_kids_eq 0 (node_kids root) (0 + link_size (Some o))) as [E|(E & m & w & o' & H1 & H2 & H3)];
    [lia|apply (an_kids root 0); exact an_root|apply node_kids_path| |]; rewrite E; cbn [rbind].
  - destruct (second_pass_eq below (0 + link_size (Some o)) 0) as [E2|(E2 & n2 & q2 & m & w & o' & H1 & H2 & H3 & H4)].
    + unfold an. rewrite ns_eq. cbn [ann root nd_obj]. intros x Hx. now right.
    + apply Forall_forall. exact below_path.
    + rewrite E2. left. reflexivity.
    + rewrite E2. right. split; [reflexivity|]. exists n2, q2, m, w, o'. split; [now right|auto].
  - right. split; [reflexivity|]. exists root, 0%nat, m, w, o'. split; [now left|auto].
Qed.

Lemma spos_kids p ks : forall i c m w, In (m, w) (spos c (number_kids p i ks)) ->
  exists j k o', nd_path m = p ++ [j] /\ nd_kind m = k /\ nd_obj m = o' /\ nth_error ks (j - i) = Some (k, o') /\ (i <= j)%nat /\ (c <= w)%nat.
Proof.
  induction ks as [|[k o'] ks IH]; intros i c m w H; [elim H|]. cbn [number_kids spos] in H. destruct H as [[= <- <-]|H].
  - exists i, k, o'. rewrite Nat.sub_diag. repeat split; auto.
  - apply IH in H as (j & k' & o'' & E1 & E2 & E3 & E4 & E5 & E6). cbn [nd_obj] in E6. exists j, k', o''.
    replace (j - i)%nat with (S (j - S i)) by lia. repeat split; auto; lia.
Qed.
Lemma spos_nth p ks : forall i c j k o', nth_error ks j = Some (k, o') ->
  exists w, In (mk_node (p ++ [(i + j)%nat]) k o', w) (spos c (number_kids p i ks)) /\ (w = c + ref_sum link_total (firstn j ks))%nat.
Proof.
  induction ks as [|[k0 o0] ks IH]; intros i c [|j] k o' H; try discriminate.
  - injection H as -> ->. exists c. rewrite Nat.add_0_r. split; [now left|]. unfold ref_sum. cbn. lia.
  - destruct (IH (S i) (c + link_total o0)%nat j k o' H) as (w & Hw & Hc). exists w.
    split; [|unfold ref_sum in *; cbn [firstn map list_sum fold_right snd]; unfold list_sum in Hc; lia].
    right. cbn [nd_obj]. now rewrite Nat.add_succ_r.
Qed.
Lemma cells_at n q j k o' : In (n, q) an -> nth_error (link_kids (nd_obj n)) j = Some (k, Some o') ->
  exists m w, In (m, w) an /\ nd_obj m = Some o' /\ nd_kind m = k /\ In (m, w) (kid_pos (n, q)) /\
    (w = q + link_size (nd_obj n) + ref_sum link_total (firstn j (link_kids (nd_obj n))))%nat /\
    assoc (nd_path n ++ [j]) (cells_of an) = Some (kid_value k (w - q)).
Proof.
  intros Hn Hj. destruct (spos_nth (nd_path n) _ 0 (q + link_size (nd_obj n))%nat j k (Some o') Hj) as (w & Hw & Hc).
  rewrite Nat.add_0_l in Hw. set (m := mk_node (nd_path n ++ [j]) k (Some o')) in *.
  assert (Hm: In (m, w) an) by (apply (an_kids n q Hn); exact Hw).
  exists m, w. repeat split; auto. change (nd_path n ++ [j]) with (nd_path m). apply assoc_fun.
  - unfold cells_of. apply in_concat. exists (concat (map (cell_of q) (kid_pos (n, q)))). split.
    + apply in_map_iff. exists (n, q). split; [reflexivity|exact Hn].
    + apply in_concat. exists (cell_of q (m, w)). split; [apply in_map; exact Hw|]. unfold cell_of. cbn. now left.
  - intros b Hb. unfold cells_of in Hb. apply in_concat in Hb as (l & Hl & Hb). apply in_map_iff in Hl as ([n2 q2] & <- & Hn2).
    apply in_concat in Hb as (l2 & Hl2 & Hb). apply in_map_iff in Hl2 as ([m2 w2] & <- & Hm2). cbn [snd] in *.
    unfold cell_of in Hb. cbn [fst snd] in Hb. destruct (nd_obj m2) as [o2|] eqn:Eo; [|elim Hb]. destruct Hb as [Hb|[]].
    injection Hb as Ep Eb. assert (Hm2': In (m2, w2) an) by (apply (an_kids n2 q2 Hn2); exact Hm2).
    destruct (an_fun m2 w2 m w Hm2' Hm Ep) as [-> ->].
    unfold kid_pos, node_kids in Hm2. cbn [fst snd] in Hm2. apply spos_kids in Hm2 as (j2 & ? & ? & E1 & _). cbn [m nd_path] in E1.
    apply app_inj_tail in E1 as [E1 _]. destruct (an_fun n q n2 q2 Hn Hn2 E1) as [-> ->]. symmetry. exact Eb.
Qed.
End Root.

(** ** Writing one object *)
Definition go (val : nat -> option Z) := fix go (d gr : nat) (l : list item) {struct l} : res (list Z) :=
  match l with
  | [] => Ok []
  | i :: l' =>
      b <- emit_item val i (match i with IRef _ _ => d | _ => gr end) ;;
      r <- go (match i with IRef _ _ => S d | _ => d end) (gr + length (group_kids i))%nat l' ;;
      Ok (b ++ r)
  end.
Lemma emit_group val g s : emit_item val (IGroup g) s = go val s (s + length (directs g)) g.
Proof. reflexivity. Qed.
Lemma emit_item_length val i : forall s bs, emit_item val i s = Ok bs -> length bs = item_size i.
Proof.
  induction i as [b|k|k l IH|l IH] using item_ind2; intros s bs.
  - cbn. now intros [= <-].
  - cbn [emit_item item_size]. intros H. apply Ok_inj in H. subst. apply be_bytes_length.
  - cbn [emit_item item_size]. destruct (val s); [|discriminate]. intros H. apply Ok_inj in H. subst. apply be_bytes_length.
  - rewrite emit_group. cbn [item_size]. generalize (s + length (directs l))%nat. revert s bs.
    induction IH as [|i l Hi Hl IHl]; intros s bs gr; cbn [go].
    + now intros [= <-].
    + destruct (emit_item val i _) as [b| |] eqn:E1; cbn [rbind]; try discriminate.
      match goal with |- context [go val ?a ?b l] => destruct (go val a b l) as [r| |] eqn:E2 end; cbn [rbind]; try discriminate.
      intros H. apply Ok_inj in H. subst. rewrite app_length. cbn [map list_sum fold_right].
      rewrite (Hi _ _ E1). f_equal. exact (IHl _ _ _ E2).
Qed.
Lemma emit_length val o bs : emit val o = Ok bs -> length bs = size o.
Proof. exact (emit_item_length val (IGroup o) 0 bs). Qed.

Lemma at_pos_app buf pos a b : at_pos buf pos (a ++ b) -> at_pos buf pos a /\ at_pos buf (pos + length a) b.
Proof.
  intros (pre & post & -> & <-). split.
  - exists pre, (b ++ post). rewrite <- !app_assoc. split; reflexivity.
  - exists (pre ++ a), post. rewrite <- !app_assoc. split; [reflexivity|]. now rewrite app_length.
Qed.
Lemma at_pos_len buf pos a : at_pos buf pos a -> (pos + length a <= length buf)%nat.
Proof. intros (pre & post & -> & <-). rewrite !app_length. lia. Qed.

Lemma nth_error_here {A} (K : list A) d x l : firstn (S (length l)) (skipn d K) = x :: l ->
  nth_error K d = Some x /\ firstn (length l) (skipn (S d) K) = l.
Proof.
  revert K. induction d as [|d IH]; intros [|y K] H; try discriminate.
  - cbn [skipn firstn] in H. injection H as -> H. split; [reflexivity|exact H].
  - cbn [skipn] in H. cbn [nth_error]. exact (IH K H).
Qed.
Lemma firstn_plus {A} n m : forall l : list A, firstn (n + m) l = firstn n l ++ firstn m (skipn n l).
Proof. induction n as [|n IH]; intros [|x l]; cbn; try reflexivity; [now rewrite firstn_nil|]. now rewrite IH. Qed.
Lemma skipn_add_comm {A} n m : forall l : list A, skipn n (skipn m l) = skipn (n + m) l.
Proof. induction m as [|m IH]; intros [|x l]; rewrite ?Nat.add_0_r, ?skipn_nil; cbn [skipn]; try reflexivity; try (now rewrite skipn_nil).
  rewrite Nat.add_succ_r. cbn [skipn]. apply IH. Qed.
Lemma firstn_split {A} (K : list A) d a b : firstn (length (a ++ b)) (skipn d K) = a ++ b ->
  firstn (length a) (skipn d K) = a /\ firstn (length b) (skipn (d + length a) K) = b.
Proof.
  intros H. assert (Ha: firstn (length a) (skipn d K) = a).
  { rewrite app_length in H. apply (f_equal (firstn (length a))) in H. rewrite firstn_firstn, Nat.min_l in H by lia. rewrite H.
    rewrite firstn_app, firstn_all, Nat.sub_diag. cbn [firstn]. now rewrite app_nil_r. }
  split; [exact Ha|]. rewrite app_length in H. rewrite firstn_plus in H. rewrite Ha in H. apply app_inv_head in H.
  rewrite Nat.add_comm, <- skipn_add_comm. exact H.
Qed.

Section Emit.
Variables (lim : Z) (buf : list Z) (base : nat) (val : nat -> option Z) (K : list ref).
Hypothesis HK : forall j k o v, nth_error K j = Some (k, Some o) -> val j = Some v ->
  0 < v < farthest lim k /\ v < 256 ^ Z.of_nat (off_width k) /\ stored lim buf (base + Z.to_nat v) (base + Z.to_nat v) o.
Definition refs_at (i : item) (s : nat) : Prop := firstn (length (item_refs i)) (skipn s K) = item_refs i.

Lemma emit_stored i : forall s pos bs l, refs_at i s -> emit_item val i s = Ok bs -> at_pos buf pos bs ->
  stored lim buf base (pos + length bs) l -> stored lim buf base pos (i :: l).
Proof.
  induction i as [b|k|k o IH|g IH] using item_ind2; intros s pos bs l Hr He Hb Hs.
  - cbn in He. injection He as <-. now constructor.
  - cbn [emit_item] in He. apply Ok_inj in He. subst bs. rewrite be_bytes_length in Hs. now constructor.
  - cbn [emit_item] in He. destruct (val s) as [v|] eqn:Ev; [|discriminate]. apply Ok_inj in He. subst bs.
    rewrite be_bytes_length in Hs. unfold refs_at in Hr. cbn [item_refs length] in Hr.
    apply (nth_error_here K s (k, Some o) []) in Hr as [Hr _].
    destruct (HK s k o v Hr Ev) as (H1 & H2 & H3). now apply st_link with v.
  - constructor. rewrite emit_group in He. unfold refs_at in Hr. cbn [item_refs group_kids] in Hr.
    apply firstn_split in Hr as [Hd Hg]. revert Hd Hg He. generalize (s + length (directs g))%nat. intros gr. revert s gr pos bs Hb Hs.
    unfold directs. induction IH as [|i g Hi Hg IHg]; intros s gr pos bs Hb Hs Hd Hgr He; cbn [go] in He.
    + injection He as <-. cbn [length] in Hs. now rewrite Nat.add_0_r in Hs.
    + destruct (emit_item val i _) as [b| |] eqn:E1; cbn [rbind] in He; try discriminate.
      match type of He with context [go val ?a ?c g] => destruct (go val a c g) as [r| |] eqn:E2 end; cbn [rbind] in He; try discriminate.
      apply Ok_inj in He. subst bs. apply at_pos_app in Hb as [Hb1 Hb2]. rewrite app_length in Hs. cbn [map concat app] in *.
      apply firstn_split in Hgr as [Hg1 Hg2].
      eapply Hi; [|exact E1|exact Hb1|].
      * unfold refs_at. destruct i as [x|k o|g']; cbn [item_refs] in *; [exact Hg1| |exact Hg1].
        cbn [app] in Hd. apply (firstn_split K s [(k, o)]) in Hd as [Hd _]. exact Hd.
      * eapply IHg; [exact Hb2|now rewrite <- Nat.add_assoc| | |exact E2].
        -- destruct i as [x|k o|g']; cbn [app] in Hd; try exact Hd. apply (firstn_split K s [(k, o)]) in Hd as [_ Hd].
           now rewrite Nat.add_1_r in Hd.
        -- exact Hg2.
Qed.
Lemma emit_obj_stored o pos bs : K = kids o -> emit val o = Ok bs -> at_pos buf pos bs ->
  (pos + length bs <= length buf)%nat -> stored lim buf base pos o.
Proof.
  intros HKo He Hb Hl. unfold emit in He.
  assert (R: refs_at (IGroup o) 0).
  { unfold refs_at. cbn [skipn item_refs]. change (group_kids (IGroup o)) with (kids o). rewrite HKo. apply firstn_all2. lia. }
  assert (S: stored lim buf base pos [IGroup o]) by (eapply emit_stored; [exact R|exact He|exact Hb|apply st_nil; exact Hl]).
  inversion S; subst. now rewrite app_nil_r in *.
Qed.
End Emit.

(** ** Writing all the objects *)
Lemma write_at cells ns : forall c out pre, write_nodes cells ns = Ok out -> length pre = c ->
  forall n q o, In (n, q) (ann c ns) -> nd_obj n = Some o ->
  exists bs, emit (fun j => match assoc (nd_path n ++ [j]) cells with Some v => v | None => None end) o = Ok bs /\
    at_pos (pre ++ out) q bs.
Proof.
  induction ns as [|m ns IH]; intros c out pre H Hp n q o Hn Ho; [elim Hn|]. cbn [write_nodes] in H.
  match type of H with rbind ?e _ = _ => destruct e as [b| |] eqn:Eb end; cbn [rbind] in H; try discriminate.
  destruct (write_nodes cells ns) as [r| |] eqn:Er; cbn [rbind] in H; try discriminate. apply Ok_inj in H. subst out.
  cbn [ann] in Hn. destruct Hn as [Hn|Hn].
  - injection Hn as -> ->. rewrite Ho in Eb. exists b. split; [exact Eb|]. exists pre, r. split; [reflexivity|exact Hp].
  - destruct (IH (c + link_size (nd_obj m))%nat r (pre ++ b) eq_refl) with (n := n) (q := q) (o := o) as (bs & E & A); auto.
    + rewrite app_length, Hp. f_equal. destruct (nd_obj m) as [om|]; [|injection Eb as <-; reflexivity]. exact (emit_length _ _ _ Eb).
    + exists bs. split; [exact E|]. now rewrite <- app_assoc in A.
Qed.
Lemma write_length cells ns : forall out, write_nodes cells ns = Ok out -> length out = nsum link_size ns.
Proof.
  induction ns as [|m ns IH]; intros out H; cbn [write_nodes] in H; [now injection H as <-|].
  match type of H with rbind ?e _ = _ => destruct e as [b| |] eqn:Eb end; cbn [rbind] in H; try discriminate.
  destruct (write_nodes cells ns) as [r| |] eqn:Er; cbn [rbind] in H; try discriminate. apply Ok_inj in H. subst out.
  rewrite app_length, (IH r eq_refl). change (nsum link_size (m :: ns)) with (link_size (nd_obj m) + nsum link_size ns)%nat. f_equal.
  destruct (nd_obj m) as [om|]; [|injection Eb as <-; reflexivity]. exact (emit_length _ _ _ Eb).
Qed.
Lemma kid_nodes ks : forall j k o, nth_error ks j = Some (k, o) -> (link_nodes o <= ref_sum link_nodes ks)%nat.
Proof.
  induction ks as [|[k0 o0] ks IH]; intros [|j] k o H; try discriminate; unfold ref_sum; cbn [map list_sum fold_right snd].
  - injection H as -> ->. lia.
  - specialize (IH _ _ _ H). unfold ref_sum, list_sum in IH. lia.
Qed.
Lemma kids_nonempty_size o j r : nth_error (kids o) j = Some r -> (2 <= size o)%nat.
Proof. intros H. apply kids_size. intros E. rewrite E in H. destruct j; discriminate. Qed.

Definition fits (k : off_kind) (d : nat) : Prop := match k with Off32 | Far32 => True | _ => Z.of_nat d < 65536 end.
Lemma kid_value_fits k d v : Z.of_nat d < 2 ^ 32 -> kid_value k d = Some v ->
  v = Z.of_nat d /\ v < 256 ^ Z.of_nat (off_width k).
Proof.
  intros Hd. assert (U: u32 (Z.of_nat d) = Z.of_nat d) by (unfold u32, wrap_u; apply Z.mod_small; lia).
  unfold kid_value. rewrite U. unfold try_u.
  destruct k; cbn [off_width]; change (256 ^ Z.of_nat 2) with 65536; change (256 ^ Z.of_nat 4) with (2 ^ 32); change (2 ^ 16) with 65536.
  - destruct ((0 <=? Z.of_nat d) && (Z.of_nat d <? 65536)) eqn:E; [|discriminate]. intros [= <-]. lia.
  - intros [= <-]. lia.
  - destruct ((0 <=? Z.of_nat d) && (Z.of_nat d <? 65536)) eqn:E; [|discriminate]. intros [= <-]. lia.
  - intros [= <-]. lia.
Qed.
Lemma kid_value_some k d : Z.of_nat d < 65536 -> kid_value k d = Some (Z.of_nat d).
Proof.
  intros Hd. assert (U: u32 (Z.of_nat d) = Z.of_nat d) by (unfold u32, wrap_u; apply Z.mod_small; lia).
  unfold kid_value. rewrite U. unfold try_u. change (2 ^ 16) with 65536.
  replace ((0 <=? Z.of_nat d) && (Z.of_nat d <? 65536)) with true by lia. now destruct k.
Qed.

Lemma to_bytes_length o out : to_bytes o = Ok out -> length out = total o.
Proof.
  unfold to_bytes. destruct (second_pass _ _ _) as [cells| |] eqn:E; cbn [rbind]; try discriminate. intros H.
  rewrite (write_length _ _ _ H). unfold traversal. rewrite visit_size by apply fuel_ok. unfold nsum. cbn. lia.
Qed.

Lemma to_bytes_stored o out : Z.of_nat (total o) < 2 ^ 32 -> to_bytes o = Ok out -> stored (2 ^ 32) out 0 0 o.
Proof.
  intros Ht H. pose proof (to_bytes_length _ _ H) as Hlen. unfold to_bytes in H.
  destruct (resolve_eq o) as [E|[E _]]; rewrite E in H; cbn [rbind] in H; [|discriminate].
  pose proof (write_at _ _ 0 out [] H eq_refl) as W. cbn [app] in W.
  assert (G: forall N n q o', (link_nodes (Some o') <= N)%nat -> In (n, q) (ann 0 (traversal o)) -> nd_obj n = Some o' -> stored (2 ^ 32) out q q o').
  { induction N as [|N IHN]; intros n q o' HN Hn Ho; [rewrite link_nodes_eq in HN; lia|].
    destruct (W n q o' Hn Ho) as (bs & Eb & Ab).
    eapply emit_obj_stored with (K := kids o'); [|reflexivity|exact Eb|exact Ab|apply at_pos_len; exact Ab].
    intros j k o2 v Hj Hv. assert (Hj': nth_error (link_kids (nd_obj n)) j = Some (k, Some o2)) by (rewrite Ho; exact Hj).
    destruct (cells_at o n q j k o2 Hn Hj') as (m & w & Hm & Em & Ek & _ & Hw & Ea). cbv beta in Hv. rewrite Ea in Hv.
    rewrite Ho in Hw. cbn [link_size] in Hw. pose proof (kids_nonempty_size _ _ _ Hj) as Hsz.
    pose proof (an_total o m w Hm) as Hb.
    assert (Hd: Z.of_nat (w - q) < 2 ^ 32) by lia.
    destruct (kid_value_fits _ _ _ Hd Hv) as [Ev Hf]. subst v. split; [destruct k; cbn [farthest]; lia|]. split; [exact Hf|].
    rewrite Nat2Z.id. replace (q + (w - q))%nat with w by lia.
    apply (IHN m w o2); auto. rewrite link_nodes_eq in HN. cbn [link_kids] in HN. pose proof (kid_nodes _ _ _ _ Hj). lia. }
  apply (G (link_nodes (Some o)) (mk_node [] Off16 (Some o)) 0%nat o); auto. apply an_root.
Qed.

(** Values that are all present are written *)
Lemma emit_ok val i : forall K s, firstn (length (item_refs i)) (skipn s K) = item_refs i ->
  (forall j k o, nth_error K j = Some (k, Some o) -> exists v, val j = Some v) -> exists bs, emit_item val i s = Ok bs.
Proof.
  induction i as [b|k|k o IH|g IH] using item_ind2; intros K s Hr HK.
  - now exists [b].
  - eexists; reflexivity.
  - cbn [item_refs length] in Hr. apply (nth_error_here K s (k, Some o) []) in Hr as [Hr _]. destruct (HK _ _ _ Hr) as [v Hv].
    cbn [emit_item]. rewrite Hv. eexists; reflexivity.
  - rewrite emit_group. cbn [item_refs group_kids] in Hr.
    apply firstn_split in Hr as [Hd Hg]. revert Hd Hg. generalize (s + length (directs g))%nat. intros gr. revert s gr.
    unfold directs. induction IH as [|i g Hi Hg IHg]; intros s gr Hd Hgr; cbn [go]; [now exists []|].
    cbn [map concat] in *. apply firstn_split in Hgr as [Hg1 Hg2].
    destruct (Hi K (match i with IRef _ _ => s | _ => gr end)) as [b Eb]; [|exact HK|].
    { destruct i as [x|k o|g']; cbn [item_refs] in *; [exact Hg1| |exact Hg1].
      cbn [app] in Hd. apply (firstn_split K s [(k, o)]) in Hd as [Hd _]. exact Hd. }
    destruct (IHg (match i with IRef _ _ => S s | _ => s end) (gr + length (group_kids i))%nat) as [r Er]; [|exact Hg2|].
    { destruct i as [x|k o|g']; cbn [app] in Hd; try exact Hd. apply (firstn_split K s [(k, o)]) in Hd as [_ Hd].
      now rewrite Nat.add_1_r in Hd. }
    rewrite Eb. cbn [rbind]. rewrite Er. cbn [rbind]. eexists; reflexivity.
Qed.
Lemma emit_obj_ok val o : (forall j k o', nth_error (kids o) j = Some (k, Some o') -> exists v, val j = Some v) ->
  exists bs, emit val o = Ok bs.
Proof.
  intros H. apply (emit_ok val (IGroup o) (kids o) 0); [|exact H]. cbn [skipn item_refs].
  change (group_kids (IGroup o)) with (kids o). apply firstn_all2. lia.
Qed.
Lemma write_ok cells ns : (forall n o, In n ns -> nd_obj n = Some o -> forall j k o', nth_error (kids o) j = Some (k, Some o') ->
    exists v, assoc (nd_path n ++ [j]) cells = Some (Some v)) -> exists out, write_nodes cells ns = Ok out.
Proof.
  induction ns as [|n ns IH]; intros H; [now exists []|]. cbn [write_nodes].
  destruct IH as [r Er]; [intros; eapply H; eauto; now right|].
  destruct (nd_obj n) as [o|] eqn:Eo; cbn [rbind].
  - destruct (emit_obj_ok (fun j => match assoc (nd_path n ++ [j]) cells with Some v => v | None => None end) o) as [b Eb].
    { intros j k o' Hj. destruct (H n o (or_introl eq_refl) Eo j k o' Hj) as [v Ev]. rewrite Ev. now exists v. }
    rewrite Eb. cbn [rbind]. rewrite Er. eexists; reflexivity.
  - rewrite Er. eexists; reflexivity.
Qed.
Lemma ann_ex ns : forall c n, In n ns -> exists q, In (n, q) (ann c ns).
Proof.
  induction ns as [|m ns IH]; intros c n H; [elim H|]. destruct H as [->|H]; [exists c; now left|].
  destruct (IH (c + link_size (nd_obj m))%nat n H) as [q Hq]. exists q. now right.
Qed.
Lemma to_bytes_ok o : Z.of_nat (total o) < 65536 -> exists out, to_bytes o = Ok out.
Proof.
  intros Ht. unfold to_bytes. destruct (resolve_eq o) as [E|(_ & n & q & m & w & o' & H1 & H2 & H3 & H4 & H5)].
  - rewrite E. cbn [rbind]. apply write_ok. intros n o' Hn Ho j k o2 Hj. destruct (ann_ex _ 0 n Hn) as [q Hq].
    assert (Hj': nth_error (link_kids (nd_obj n)) j = Some (k, Some o2)) by (rewrite Ho; exact Hj).
    destruct (cells_at o n q j k o2 Hq Hj') as (m & w & Hm & Em & Ek & _ & Hw & Ea).
    pose proof (an_total o m w Hm) as Hb. exists (Z.of_nat (w - q)). rewrite Ea, kid_value_some; [reflexivity|lia].
  - exfalso. assert (Hm: In (m, w) (ann 0 (traversal o))) by (apply (an_kids o n q H1); exact H2).
    pose proof (an_total o m w Hm) as Hb. assert (Hd: Z.of_nat (w - q) < 65536) by lia.
    pose proof (kid_value_some Off16 (w - q) Hd) as E. cbn [kid_value] in E. congruence.
Qed.

(** Tables with 16-bit offsets only, or short tables, are in the readable range *)
Notation narrow := short_offsets. Notation item_narrow := item_short.
Lemma stored_narrow lim buf base pos o : stored lim buf base pos o -> narrow o = true -> stored 65536 buf base pos o.
Proof.
  unfold short_offsets. induction 1 as [| | |base pos k o v l Hv Hw Ha Ho IHo Hl IHl|base pos g l Hg IH]; intros Hn.
  - now constructor.
  - constructor; [assumption|]. apply IHstored. exact Hn.
  - cbn [forallb] in Hn. constructor; [assumption|]. apply IHstored. now apply andb_prop in Hn as [_ Hn].
  - cbn [forallb] in Hn. apply andb_prop in Hn as [Hk Hn].
    assert (W: off_width k = 2%nat /\ forallb item_narrow o = true) by (destruct k; cbn in *; [auto|discriminate|auto|discriminate]).
    destruct W as [W1 W2]. rewrite W1 in Hw. change (256 ^ Z.of_nat 2) with 65536 in Hw.
    apply st_link with v; auto; [destruct k; cbn [farthest off_width] in *; try discriminate; lia|now rewrite W1].
  - cbn [forallb item_narrow] in Hn. constructor. apply IH. now rewrite forallb_app.
Qed.
Lemma stored_pos lim buf base pos o : stored lim buf base pos o -> (pos + size o <= length buf)%nat.
Proof.
  unfold size. induction 1 as [| | |base pos k o v l Hv Hw Ha Ho IHo Hl IHl|base pos g l Hg IH]; cbn [map list_sum fold_right item_size] in *;
    unfold list_sum in *; try lia.
  rewrite map_app, fold_right_app in IH. change (fold_right Init.Nat.add) with (fold_right Nat.add) in *.
  enough (fold_right Nat.add (fold_right Nat.add 0 (map item_size l)) (map item_size g) = fold_right Nat.add 0 (map item_size g) + fold_right Nat.add 0 (map item_size l))%nat by lia.
  clear. induction (map item_size g) as [|x xs IH]; cbn; lia.
Qed.
Lemma stored_short lim buf base pos o : Z.of_nat (length buf) < 65536 -> stored lim buf base pos o -> stored 65536 buf base pos o.
Proof.
  intros Hb. induction 1 as [| | |base pos k o v l Hv Hw Ha Ho IHo Hl IHl|base pos g l Hg IH]; try (constructor; assumption).
  apply st_link with v; auto. apply stored_pos in Ho. destruct k; cbn [farthest off_width] in *; lia.
Qed.
Lemma to_bytes_readable o out : Z.of_nat (total o) < 2 ^ 32 -> narrow o = true \/ Z.of_nat (total o) < 65536 ->
  to_bytes o = Ok out -> stored 65536 out 0 0 o.
Proof.
  intros Ht Hn H. pose proof (to_bytes_stored _ _ Ht H) as S. destruct Hn as [Hn|Hn].
  - eapply stored_narrow; eassumption.
  - eapply stored_short; [|exact S]. now rewrite (to_bytes_length _ _ H).
Qed.

(** ** Exactly which objects can be written *)
Lemma emit_vals val i : forall s bs, emit_item val i s = Ok bs ->
  forall t k o, nth_error (item_refs i) t = Some (k, Some o) -> exists v, val (s + t)%nat = Some v.
Proof.
  induction i as [b|k0|k0 l IH|l IH] using item_ind2; intros s bs He t k o Ht.
  - destruct t; discriminate.
  - destruct t as [|[|t]]; discriminate.
  - cbn [emit_item] in He. destruct (val s) as [v|] eqn:Ev; [|discriminate]. destruct t as [|[|t]]; try discriminate.
    exists v. now rewrite Nat.add_0_r.
  - rewrite emit_group in He. cbn [item_refs group_kids] in Ht.
    assert (G: forall d gr bs, go val d gr l = Ok bs ->
       (forall t k o, nth_error (directs l) t = Some (k, Some o) -> exists v, val (d + t)%nat = Some v) /\
       (forall t k o, nth_error (concat (map group_kids l)) t = Some (k, Some o) -> exists v, val (gr + t)%nat = Some v)).
    { clear He Ht s bs t k o. unfold directs. induction IH as [|i l Hi Hl IHl]; intros d gr bs He; cbn [go map concat] in *.
      - split; intros t k o Ht; destruct t; discriminate.
      - match type of He with rbind ?e _ = _ => destruct e as [b| |] eqn:E1 end; cbn [rbind] in He; try discriminate.
        match type of He with rbind ?e _ = _ => destruct e as [r| |] eqn:E2 end; cbn [rbind] in He; try discriminate.
        destruct (IHl _ _ _ E2) as [I1 I2]. pose proof (Hi _ _ E1) as I0. split; intros t k o Ht.
        + destruct i as [x|k' o'|g']; cbn [app] in Ht; try (now apply I1 with k o).
          destruct t as [|t]; [apply (I0 0%nat k o); exact Ht|]. cbn [nth_error] in Ht.
          destruct (I1 t k o Ht) as [v Hv]. exists v. rewrite <- Hv. f_equal. lia.
        + destruct (Nat.lt_ge_cases t (length (group_kids i))) as [L|L].
          * rewrite nth_error_app1 in Ht by exact L. destruct i as [x|k' o'|g']; try (destruct t; discriminate).
            apply (I0 t k o). exact Ht.
          * rewrite nth_error_app2 in Ht by exact L. destruct (I2 _ _ _ Ht) as [v Hv]. exists v. rewrite <- Hv. f_equal. lia. }
    destruct (G _ _ _ He) as [G1 G2]. destruct (Nat.lt_ge_cases t (length (directs l))) as [L|L].
    + rewrite nth_error_app1 in Ht by exact L. now apply G1 with k o.
    + rewrite nth_error_app2 in Ht by exact L. destruct (G2 _ _ _ Ht) as [v Hv]. exists v. rewrite <- Hv. f_equal. lia.
Qed.
Lemma number_kids_nth p ks : forall i n, In n (number_kids p i ks) -> exists j, nth_error ks j = Some (nd_kind n, nd_obj n).
Proof.
  induction ks as [|[k o] ks IH]; intros i n H; [elim H|]. destruct H as [<-|H]; [now exists 0%nat|].
  destruct (IH (S i) n H) as [j Hj]. now exists (S j).
Qed.
Lemma visit_reachable fuel : forall st, (forall n o, In n st -> nd_obj n = Some o -> reachable o) ->
  forall n o, In n (visit fuel st) -> nd_obj n = Some o -> reachable o.
Proof.
  induction fuel as [|f IH]; intros [|m st] H n o Hn Ho; try (now elim Hn). destruct Hn as [<-|Hn].
  - apply (H m); [now left|exact Ho].
  - apply (IH (node_kids m ++ st)) with n; auto. intros x ox Hx Eo. apply in_app_or in Hx as [Hx|Hx].
    + destruct (number_kids_nth _ _ _ _ Hx) as [j Hj]. destruct (nd_obj m) as [om|] eqn:Em; [|destruct j; discriminate].
      pose proof (H m om (or_introl eq_refl) Em) as R. inversion R as [o0 R0]; subst. rewrite Eo in Hj.
      exact (proj2 (R0 _ _ _ Hj)).
    + apply (H x); [now right|exact Eo].
Qed.
Lemma kid_value_iff k d : Z.of_nat d < 2 ^ 32 ->
  (off_width k = 2%nat -> Z.of_nat d < 65536) <-> exists v, kid_value k d = Some v.
Proof.
  intros Hd. split.
  - intros H. assert (U: u32 (Z.of_nat d) = Z.of_nat d) by (unfold u32, wrap_u; apply Z.mod_small; lia).
    unfold kid_value. rewrite U. unfold try_u. change (2 ^ 16) with 65536.
    destruct k; cbn in H; [specialize (H eq_refl)| |specialize (H eq_refl)|]; try (eexists; reflexivity);
      replace ((0 <=? Z.of_nat d) && (Z.of_nat d <? 65536)) with true by lia; eexists; reflexivity.
  - intros [v Hv] Hw. destruct (kid_value_fits _ _ _ Hd Hv) as [-> F]. rewrite Hw in F. exact F.
Qed.
Lemma to_bytes_iff o : Z.of_nat (total o) < 2 ^ 32 -> (exists out, to_bytes o = Ok out) <-> reachable o.
Proof.
  intros Ht. split.
  - intros [out H]. unfold to_bytes in H.
    destruct (resolve_eq o) as [E|[E _]]; rewrite E in H; cbn [rbind] in H; [|discriminate].
    pose proof (write_at _ _ 0 out [] H eq_refl) as W. cbn [app] in W.
    assert (G: forall N n q o', (link_nodes (Some o') <= N)%nat -> In (n, q) (ann 0 (traversal o)) -> nd_obj n = Some o' -> reachable o').
    { induction N as [|N IHN]; intros n q o' HN Hn Ho; [rewrite link_nodes_eq in HN; lia|].
      destruct (W n q o' Hn Ho) as (bs & Eb & Ab). constructor. intros j k o2 Hj.
      assert (Hj': nth_error (link_kids (nd_obj n)) j = Some (k, Some o2)) by (rewrite Ho; exact Hj).
      destruct (cells_at o n q j k o2 Hn Hj') as (m & w & Hm & Em & Ek & _ & Hw & Ea).
      destruct (emit_vals _ _ _ _ Eb j k o2 Hj) as [v Hv]. cbn [Nat.add] in Hv. rewrite Ea in Hv.
      rewrite Ho in Hw. cbn [link_size link_kids] in Hw. pose proof (an_total o m w Hm) as Hb.
      split.
      - replace (distance o' j) with (w - q)%nat by (rewrite Hw; unfold distance, ref_sum, link_total; lia).
        apply kid_value_iff; [lia|now exists v].
      - apply (IHN m w o2); auto. rewrite link_nodes_eq in HN. cbn [link_kids] in HN. pose proof (kid_nodes _ _ _ _ Hj). lia. }
    apply (G (link_nodes (Some o)) (mk_node [] Off16 (Some o)) 0%nat o); auto. apply an_root.
  - intros R.
    assert (RV: forall n o', In n (traversal o) -> nd_obj n = Some o' -> reachable o').
    { apply visit_reachable. intros n o' [<-|[]] [= <-]. exact R. }
    unfold to_bytes. destruct (resolve_eq o) as [E|(_ & n & q & m & w & o' & H1 & H2 & H3 & H4 & H5)].
    + rewrite E. cbn [rbind]. apply write_ok. intros n o' Hn Ho j k o2 Hj. destruct (ann_ex _ 0 n Hn) as [q Hq].
      assert (Hj': nth_error (link_kids (nd_obj n)) j = Some (k, Some o2)) by (rewrite Ho; exact Hj).
      destruct (cells_at o n q j k o2 Hq Hj') as (m & w & Hm & Em & Ek & _ & Hw & Ea). rewrite Ea.
      rewrite Ho in Hw. cbn [link_size link_kids] in Hw. pose proof (an_total o m w Hm) as Hb.
      pose proof (RV n o' Hn Ho) as Ro. inversion Ro as [o0 R0]; subst o0. destruct (R0 _ _ _ Hj) as [RD _].
      replace (distance o' j) with (w - q)%nat in RD by (rewrite Hw; unfold distance, ref_sum, link_total; lia).
      apply kid_value_iff in RD as [v Hv]; [|lia]. exists v. now rewrite Hv.
    + exfalso. assert (Hm: In (m, w) (ann 0 (traversal o))) by (apply (an_kids o n q H1); exact H2).
      pose proof (an_total o m w Hm) as Hb.
      unfold kid_pos, node_kids in H2. cbn [fst snd] in H2. pose proof (spos_kids _ _ _ _ _ _ H2) as (j & k & o2 & E1 & E2 & E3 & E4 & _).
      rewrite Nat.sub_0_r in E4. rewrite H3 in E3. subst o2.
      destruct (spos_nth (nd_path n) _ 0 (q + link_size (nd_obj n))%nat j k (Some o') E4) as (w3 & Hw3 & Hc3).
      rewrite Nat.add_0_l in Hw3.
      assert (Hm3: In (mk_node (nd_path n ++ [j]) k (Some o'), w3) (ann 0 (traversal o))) by (apply (an_kids o n q H1); exact Hw3).
      destruct (an_fun o _ _ _ _ Hm Hm3 E1) as [-> ->]. cbn [nd_kind] in H4. subst k.
      destruct (nd_obj n) as [on|] eqn:En; [|destruct j; discriminate]. cbn [link_size link_kids] in *.
      assert (Hn: In n (traversal o)) by (eapply ann_in; exact H1).
      pose proof (RV n on Hn En) as Ro. inversion Ro as [o0 R0]; subst o0. destruct (R0 _ _ _ E4) as [RD _].
      replace (distance on j) with (w3 - q)%nat in RD by (rewrite Hc3; unfold distance, ref_sum, link_total; rewrite <- Nat.add_assoc, Nat.add_comm, Nat.add_sub; reflexivity).
      apply kid_value_iff in RD as [v Hv]; [|lia]. cbn [kid_value] in Hv. congruence.
Qed.

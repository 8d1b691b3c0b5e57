(** Inference along a contour, as a total function of the contour *)
From Coq Require Import List ZArith QArith Lia Bool Arith.
From Coq Require Import ZifyBool ZifyNat ZifyN.
Import ListNotations.
From Verif.Model Require Import MBase MFixed MFloat MFloat32 MPacked MIup.
From Verif.Spec Require Import SBase SFloat SIup.
From Verif.Proofs Require Import PBase PIup.
Open Scope Z_scope.
Ltac Zify.zify_post_hook ::= Z.div_mod_to_equations.

(** ** Filtering a range *)
Lemma filter_false {A} (f : A -> bool) l : (forall x, In x l -> f x = false) -> filter f l = [].
Proof. induction l; intros H; [reflexivity|]. cbn. rewrite (H a) by now left. apply IHl. intros; apply H; now right. Qed.
Lemma filter_true {A} (f : A -> bool) l : (forall x, In x l -> f x = true) -> filter f l = l.
Proof. induction l; intros H; [reflexivity|]. cbn. rewrite (H a) by now left. rewrite IHl; auto. intros; apply H; now right. Qed.
Lemma filter_filter {A} (f g : A -> bool) l : filter f (filter g l) = filter g (filter f l).
Proof. induction l; [reflexivity|]. cbn. destruct (g a) eqn:G; destruct (f a) eqn:F; cbn; rewrite ?F, ?G, IHl; reflexivity. Qed.
Lemma seq_split a k b : (a <= b <= a + k)%nat -> seq a k = seq a (b - a) ++ seq b (a + k - b).
Proof. intros H. replace k with ((b - a) + (a + k - b))%nat at 1 by lia. rewrite seq_app. f_equal. f_equal. lia. Qed.
Lemma seq_cons a k : (0 < k)%nat -> seq a k = a :: seq (S a) (k - 1).
Proof. intros H. destruct k; [lia|]. cbn. f_equal. f_equal. lia. Qed.
Lemma filter_below f t n : (t <= n)%nat -> filter (fun i => (i <? t)%nat) (filter f (seq 0 n)) = filter f (seq 0 t).
Proof.
  intros H. rewrite filter_filter. f_equal. rewrite (seq_split 0 n t) by lia. rewrite filter_app.
  rewrite filter_true, filter_false; [rewrite app_nil_r; f_equal; lia| |]; intros x Hx; apply in_seq in Hx; lia.
Qed.
Lemma filter_above f t n : (t < n)%nat ->
  filter (fun i => (t <? i)%nat) (filter f (seq 0 n)) = filter f (seq (S t) (n - S t)).
Proof.
  intros H. rewrite filter_filter. f_equal. rewrite (seq_split 0 n (S t)) by lia. rewrite filter_app.
  rewrite filter_false, filter_true; [reflexivity| |]; intros x Hx; apply in_seq in Hx; lia.
Qed.
Lemma filter_seq_cons f a k e r : filter f (seq a k) = e :: r ->
  (a <= e < a + k)%nat /\ f e = true /\ (forall i, (a <= i < e)%nat -> f i = false) /\ r = filter f (seq (S e) (a + k - S e)).
Proof.
  revert a. induction k as [|k IH]; intros a H; [discriminate|]. cbn in H.
  destruct (f a) eqn:F.
  - injection H as <- <-. repeat split; [lia|lia|assumption|intros; lia|]. f_equal. f_equal. lia.
  - destruct (IH _ H) as (A & B & C & D). repeat split; [lia|lia|assumption| |].
    + intros i Hi. destruct (Nat.eq_dec i a); [now subst|]. apply C. lia.
    + rewrite D. f_equal. f_equal. lia.
Qed.
Lemma filter_seq_nil f a k : filter f (seq a k) = [] -> forall i, (a <= i < a + k)%nat -> f i = false.
Proof.
  intros H i Hi. destruct (f i) eqn:F; [|reflexivity]. exfalso.
  assert (In i (filter f (seq a k))) as Q by (apply filter_In; split; [apply in_seq; lia|assumption]). rewrite H in Q. destruct Q.
Qed.
Lemma last_filter f a k p d : (a <= p < a + k)%nat -> f p = true -> (forall i, (p < i < a + k)%nat -> f i = false) ->
  last (filter f (seq a k)) d = p.
Proof.
  intros H F N. rewrite (seq_split a k p) by lia. rewrite filter_app, (seq_cons p) by lia. cbn [filter]. rewrite F.
  rewrite (filter_false f (seq (S p) _)) by (intros x Hx; apply in_seq in Hx; apply N; lia).
  apply last_last.
Qed.
Lemma hd_filter f a k q d : (a <= q < a + k)%nat -> f q = true -> (forall i, (a <= i < q)%nat -> f i = false) ->
  hd d (filter f (seq a k)) = q.
Proof.
  intros H F N. rewrite (seq_split a k q) by lia. rewrite filter_app, (seq_cons q) by lia. cbn [filter]. rewrite F.
  rewrite (filter_false f (seq a _)) by (intros x Hx; apply in_seq in Hx; apply N; lia). reflexivity.
Qed.
Lemma forallb_const {A} (f : A -> bool) b l : l <> [] -> (forall x, In x l -> f x = b) -> forallb f l = b.
Proof.
  intros N H. destruct b; [apply forallb_forall, H|]. destruct l as [|x l]; [easy|]. cbn. now rewrite (H x) by now left.
Qed.
Lemma skipn_next {A} (l : list A) a x s : skipn a l = x :: s -> skipn (S a) l = s.
Proof. revert l. induction a; intros l H; [cbn in H; now subst|]. destruct l; [discriminate|]. apply (IHa l H). Qed.
Lemma slice_nth {A} (l : list A) d a b : (a <= b <= length l)%nat -> slice l a b = Ok (map (fun i => nth i l d) (seq a (b - a))).
Proof.
  intros H. unfold slice. replace ((a <=? b)%nat && (b <=? length l)%nat) with true by lia. f_equal.
  remember (b - a)%nat as k eqn:K. assert (Hk: (a + k <= length l)%nat) by lia. clear K H b.
  revert a Hk. induction k as [|k IH]; intros a Hk; [reflexivity|].
  cbn [seq map]. destruct (skipn a l) as [|x s] eqn:ES.
  - apply (f_equal (@length A)) in ES. rewrite skipn_length in ES. cbn in ES. lia.
  - cbn [firstn]. f_equal.
    + rewrite <- (firstn_skipn a l) at 1. rewrite ES, app_nth2; rewrite firstn_length; [|lia].
      replace (a - _)%nat with 0%nat by lia. reflexivity.
    + rewrite <- IH by lia. f_equal. symmetry. exact (skipn_next _ _ _ _ ES).
Qed.
Lemma at_nth {A} (l : list A) d i : (i < length l)%nat -> at_ l i = Ok (nth i l d).
Proof. intros H. unfold at_. now rewrite (nth_error_nth' l d H). Qed.

(** ** The contour *)
Section Contour.
Variable dl : list (option (Z * Z)).
Variable cs : list (Z * Z).
Hypothesis Hlen : length cs = length dl.
Hypothesis Hd : forall d, In (Some d) dl -> i16_pair d.

Let n := length dl.
Definition tb (t : nat) : bool := match nth t dl None with Some _ => true | None => false end.
Definition dat (t : nat) : Z * Z := match nth t dl None with Some d => d | None => (0, 0) end.
Definition cat (t : nat) : Z * Z := nth t cs (0, 0).
Definition idx : list nat := filter tb (seq 0 n).
Definition prv (t : nat) : nat := last (filter (fun i => (i <? t)%nat) idx) (last idx 0%nat).
Definition nxt (t : nat) : nat := hd (hd 0%nat idx) (filter (fun i => (t <? i)%nat) idx).
Definition V (t : nat) : Z * Z :=
  if tb t then dat t else infer2 (cat (prv t)) (dat (prv t)) (cat (nxt t)) (dat (nxt t)) (cat t).
Definition safeb (t : nat) : bool :=
  tb t || fits2b (cat (prv t)) (dat (prv t)) (cat (nxt t)) (dat (nxt t)).

Lemma tb_lt t : tb t = true -> (t < n)%nat.
Proof using Type. clear Hlen Hd. unfold tb. intros H. destruct (Nat.lt_ge_cases t n); [assumption|]. rewrite nth_overflow in H by assumption. discriminate. Qed.
Lemma tb_i16 t : tb t = true -> i16_pair (dat t).
Proof.
  intros H. pose proof (tb_lt t H). unfold tb, dat in *. destruct (nth t dl None) eqn:E; [|discriminate].
  apply Hd. rewrite <- E. apply nth_In. assumption.
Qed.
Lemma nth_given t : nth t (given dl) None = option_map (fun d => Delta2D (fst d) (snd d)) (nth t dl None).
Proof using Type. clear Hlen Hd. unfold given. change None with (option_map (fun d : Z * Z => Delta2D (fst d) (snd d)) None) at 1. apply map_nth. Qed.
Lemma given_at t : tb t = true -> at_ (given dl) t = Ok (Some (Delta2D (fst (dat t)) (snd (dat t)))).
Proof using Type. clear Hlen Hd.
  intros H. rewrite (at_nth _ None) by (unfold given; rewrite map_length; now apply tb_lt).
  rewrite nth_given. unfold tb, dat in *. destruct (nth t dl None); [reflexivity|discriminate].
Qed.
Lemma indices_eq : indices (given dl) = idx.
Proof using Type. clear Hlen Hd.
  unfold indices, idx, n, tb.
  enough (G: forall l a f, (forall t, (t < length l)%nat -> f (a + t)%nat = negb (is_none (nth t l None))) ->
    map fst (filter (fun id : nat * option delta => negb (is_none (snd id))) (combine (seq a (length l)) l))
    = filter f (seq a (length l))).
  { rewrite (G (given dl) 0%nat (fun t => match nth t dl None with Some _ => true | None => false end)).
    - unfold given. now rewrite map_length.
    - intros t _. rewrite nth_given. cbn. now destruct (nth t dl None). }
  induction l as [|x l IH]; intros a f Hf; [reflexivity|].
  cbn [length seq combine filter snd]. pose proof (Hf 0%nat ltac:(cbn; lia)) as F0. rewrite Nat.add_0_r in F0. cbn [nth] in F0. rewrite F0.
  destruct (negb (is_none x)); cbn [map fst]; [f_equal|]; apply IH; intros t Ht;
    replace (S a + t)%nat with (a + S t)%nat by lia; rewrite (Hf (S t)) by (cbn; lia); reflexivity.
Qed.
Lemma segment_eq i1 i2 r1 r2 : (i1 <= i2 <= n)%nat -> tb r1 = true -> tb r2 = true ->
  segment (given dl) cs i1 i2 r1 r2 =
  if fits2b (cat r1) (dat r1) (cat r2) (dat r2)
  then Ok (map (fun t => infer2 (cat r1) (dat r1) (cat r2) (dat r2) (cat t)) (seq i1 (i2 - i1))) else Panic.
Proof.
  intros Hi H1 H2. unfold segment. rewrite (@slice_nth pt cs (0, 0)) by (change pt with (Z * Z)%type; rewrite Hlen; exact Hi). cbn [rbind].
  rewrite (@at_nth pt cs (0, 0) r1) by (change pt with (Z * Z)%type; rewrite Hlen; now apply tb_lt). rewrite (given_at r1 H1). cbn [rbind].
  rewrite (@at_nth pt cs (0, 0) r2) by (change pt with (Z * Z)%type; rewrite Hlen; now apply tb_lt). rewrite (given_at r2 H2). cbn [rbind].
  rewrite iup_segment_eq by now apply tb_i16. fold (cat r1) (cat r2).
  destruct (fits2b _ _ _ _); [|reflexivity]. now rewrite map_map.
Qed.

(** the references of a point *)
Lemma prv_in p t : (p < t <= n)%nat -> tb p = true -> (forall i, (p < i < t)%nat -> tb i = false) -> prv t = p.
Proof using Type. clear Hlen Hd. intros H P N. unfold prv, idx. rewrite filter_below by lia. apply last_filter; auto; try lia. Qed.
Lemma nxt_in q t : (t < q < n)%nat -> tb q = true -> (forall i, (t < i < q)%nat -> tb i = false) -> nxt t = q.
Proof using Type. clear Hlen Hd. intros H P N. unfold nxt, idx. rewrite filter_above by lia. apply hd_filter; auto; try lia. Qed.
Lemma prv_out p t : (t <= p < n)%nat -> tb p = true -> (forall i, (p < i < n)%nat -> tb i = false) ->
  (forall i, (i < t)%nat -> tb i = false) -> prv t = p.
Proof using Type. clear Hlen Hd.
  intros H P N M. unfold prv, idx. rewrite filter_below by lia.
  rewrite (filter_false tb (seq 0 t)) by (intros x Hx; apply in_seq in Hx; apply M; lia). cbn [last].
  apply last_filter; auto; lia.
Qed.
Lemma nxt_out q t : (q <= t < n)%nat -> tb q = true -> (forall i, (i < q)%nat -> tb i = false) ->
  (forall i, (t < i < n)%nat -> tb i = false) -> nxt t = q.
Proof using Type. clear Hlen Hd.
  intros H P N M. unfold nxt, idx. rewrite filter_above by lia.
  rewrite (filter_false tb (seq (S t) _)) by (intros x Hx; apply in_seq in Hx; apply M; lia). cbn [hd].
  apply hd_filter; auto; try lia. intros i Hi; apply N; lia.
Qed.

(** a stretch of points with the same references *)
Lemma stretch a k p q : (forall t, (a <= t < a + k)%nat -> tb t = false /\ prv t = p /\ nxt t = q) -> (0 < k)%nat ->
  forallb safeb (seq a k) = fits2b (cat p) (dat p) (cat q) (dat q) /\
  map V (seq a k) = map (fun t => infer2 (cat p) (dat p) (cat q) (dat q) (cat t)) (seq a k).
Proof using Type. clear Hlen Hd.
  intros H K. split.
  - apply forallb_const; [destruct k; [lia|discriminate]|]. intros t Ht. apply in_seq in Ht.
    destruct (H t Ht) as (T & P & N). unfold safeb. now rewrite T, P, N.
  - apply map_ext_in. intros t Ht. apply in_seq in Ht. destruct (H t Ht) as (T & P & N). unfold V. now rewrite T, P, N.
Qed.
Lemma V_touched t : tb t = true -> V t = dat t.
Proof using Type. clear Hlen Hd. intros H. unfold V. now rewrite H. Qed.
Lemma safe_touched t : tb t = true -> safeb t = true.
Proof using Type. clear Hlen Hd. intros H. unfold safeb. now rewrite H. Qed.

Lemma walk_eq ends : forall start, (start < n)%nat -> tb start = true -> ends = filter tb (seq (S start) (n - S start)) ->
  let l := last ends start in
  (start <= l < n)%nat /\ tb l = true /\ (forall i, (l < i < n)%nat -> tb i = false) /\
  walk (given dl) cs start ends =
  if forallb safeb (seq (S start) (l - start)) then Ok (map V (seq (S start) (l - start)), l) else Panic.
Proof.
  induction ends as [|e ends IH]; intros start Hs Ts E l.
  - subst l. cbn [last]. rewrite Nat.sub_diag. cbn. repeat split; try lia; auto.
    intros i Hi. symmetry in E. apply (filter_seq_nil _ _ _ E). lia.
  - symmetry in E. apply filter_seq_cons in E. destruct E as (He & Te & Ne & Er).
    assert (Er': ends = filter tb (seq (S e) (n - S e))) by (rewrite Er; f_equal; f_equal; lia).
    destruct (IH e ltac:(lia) Te Er') as (L1 & L2 & L3 & W).
    assert (EL: l = last ends e).
    { subst l. destruct ends as [|x r]; [reflexivity|]. cbn [last]. clear. revert x. induction r; intros x; [reflexivity|]. cbn [last]. apply IHr. }
    rewrite <- EL in *. split; [lia|]. split; [assumption|]. split; [assumption|].
    cbn [walk]. rewrite W. rewrite (given_at e Te). cbn [rbind get_2d].
    rewrite (seq_split (S start) (l - start) e) by lia.
    replace (S start + (l - start) - e)%nat with (S (l - e)) by lia. cbn [seq].
    rewrite forallb_app, map_app. cbn [forallb map]. rewrite (safe_touched e Te), (V_touched e Te). cbn [andb].
    destruct (Nat.ltb_spec 1 (e - start)).
    + rewrite segment_eq by (auto; lia).
      destruct (stretch (S start) (e - S start) start e) as (F & M); [|lia|].
      { intros t Ht. split; [apply Ne; lia|]. split; [apply prv_in|apply nxt_in]; auto; try lia; intros i Hi; apply Ne; lia. }
      rewrite F, M. destruct (fits2b _ _ _ _); cbn [rbind andb]; [|reflexivity].
      destruct (forallb safeb _); cbn [rbind]; [|reflexivity]. now destruct (dat e).
    + replace (e - S start)%nat with 0%nat by lia. cbn [seq map forallb app rbind andb].
      destruct (forallb safeb _); cbn [rbind]; [|reflexivity]. now destruct (dat e).
Qed.

Lemma iup_contour_none : idx = [] -> iup_contour (given dl) cs = Ok (repeat (0, 0) n).
Proof.
  intros E. unfold iup_contour. rewrite indices_eq, E.
  replace (length (given dl)) with n by (unfold given; now rewrite map_length).
  destruct (forallb _ (given dl)) eqn:F; [|reflexivity].
  destruct (Nat.eq_dec n 0) as [N0|N0].
  - assert (G: given dl = []) by (apply length_zero_iff_nil; unfold given; now rewrite map_length).
    now rewrite G, N0.
  - exfalso. pose proof (filter_seq_nil _ _ _ E 0%nat ltac:(lia)) as T.
    rewrite forallb_forall in F.
    assert (I: In (nth 0 (given dl) None) (given dl)) by (apply nth_In; unfold given; rewrite map_length; fold n; lia).
    apply F in I. rewrite nth_given in I. unfold tb in T. destruct (nth 0 dl None); discriminate.
Qed.
Lemma iup_contour_eq : idx <> [] ->
  iup_contour (given dl) cs = if forallb safeb (seq 0 n) then Ok (map V (seq 0 n)) else Panic.
Proof.
  intros NE. unfold iup_contour. rewrite indices_eq.
  replace (length (given dl)) with n by (unfold given; now rewrite map_length).
  destruct (forallb _ (given dl)) eqn:F.
  - assert (T: forall t, (t < n)%nat -> tb t = true).
    { intros t Ht. rewrite forallb_forall in F. unfold tb.
      assert (I: In (nth t (given dl) None) (given dl)) by (apply nth_In; unfold given; now rewrite map_length).
      apply F in I. rewrite nth_given in I. destruct (nth t dl None); [reflexivity|discriminate]. }
    assert (S0: forallb safeb (seq 0 n) = true).
    { apply forallb_forall. intros t Ht. apply in_seq in Ht. apply safe_touched, T. lia. }
    rewrite S0.
    assert (G: given dl = map (fun t => Some (Delta2D (fst (dat t)) (snd (dat t)))) (seq 0 n)).
    { apply (nth_ext _ _ None None).
      - unfold given. now rewrite !map_length, seq_length.
      - unfold given at 1. rewrite map_length. fold n. intros t Ht. rewrite nth_given.
        rewrite (nth_indep _ None (Some (Delta2D (fst (dat 0)) (snd (dat 0))))) by (rewrite map_length, seq_length; assumption).
        rewrite (map_nth (fun t => Some (Delta2D (fst (dat t)) (snd (dat t))))). rewrite seq_nth by assumption. cbn [Nat.add].
        specialize (T t Ht). unfold tb, dat in *. destruct (nth t dl None); [reflexivity|discriminate]. }
    rewrite G. clear -T.
    enough (Q: forall l, (forall t, In t l -> (t < n)%nat) ->
      rmapM get_2d (map (fun t => Some (Delta2D (fst (dat t)) (snd (dat t)))) l) = Ok (map V l)).
    { apply Q. intros t Ht. apply in_seq in Ht. lia. }
    induction l as [|t l IH]; intros Hl; [reflexivity|]. cbn [map rmapM get_2d rbind].
    rewrite IH by (intros; apply Hl; now right). cbn [rbind]. rewrite (V_touched t) by (apply T, Hl; now left). now destruct (dat t).
  - destruct idx as [|s0 ends] eqn:EI; [easy|].
    assert (EI0: filter tb (seq 0 n) = s0 :: ends) by exact EI.
    apply filter_seq_cons in EI0. destruct EI0 as (Hs & Ts & Ns & Er). cbn [Nat.add] in *.
    destruct (walk_eq ends s0 ltac:(lia) Ts Er) as (L1 & L2 & L3 & W).
    assert (EL: last (s0 :: ends) 0%nat = last ends s0).
    { destruct ends as [|x r]; [reflexivity|]. cbn [last]. clear. revert x. induction r; intros x; [reflexivity|]. cbn [last]. apply IHr. }
    rewrite EL. set (l := last ends s0) in *. rewrite W. rewrite (given_at s0 Ts). cbn [rbind get_2d].
    rewrite (seq_split 0 n s0) by lia. rewrite Nat.sub_0_r. cbn [Nat.add]. rewrite (seq_cons s0) by lia.
    rewrite (seq_split (S s0) (n - s0 - 1) (S l)) by lia.
    replace (S l - S s0)%nat with (l - s0)%nat by lia. replace (S s0 + (n - s0 - 1) - S l)%nat with (n - S l)%nat by lia.
    rewrite !forallb_app, !map_app. cbn [forallb map]. rewrite (safe_touched s0 Ts), (V_touched s0 Ts). cbn [andb].
    rewrite forallb_app, map_app.
    assert (A: (if (s0 =? 0)%nat then Ok [] else segment (given dl) cs 0 s0 s0 l)
      = if forallb safeb (seq 0 s0) then Ok (map V (seq 0 s0)) else Panic).
    { destruct (Nat.eqb_spec s0 0) as [Z0|Z0]; [rewrite Z0; reflexivity|].
      rewrite segment_eq by (auto; lia). rewrite Nat.sub_0_r.
      destruct (stretch 0 s0 l s0) as (S1 & S2); [|lia|].
      { intros t Ht. split; [apply Ns; lia|]. split; [apply prv_out|apply nxt_in]; auto; try lia; intros i Hi; apply Ns; lia. }
      rewrite (fits2b_sym (cat l) (dat l) (cat s0) (dat s0)) in S1. rewrite S1, S2. clear S1 S2. destruct (fits2b (cat s0) (dat s0) (cat l) (dat l)); [|reflexivity]. f_equal. apply map_ext. intros t. apply infer2_sym. }
    assert (B: (if (l =? n - 1)%nat then Ok [] else segment (given dl) cs (S l) n l s0)
      = if forallb safeb (seq (S l) (n - S l)) then Ok (map V (seq (S l) (n - S l))) else Panic).
    { destruct (Nat.eqb_spec l (n - 1)) as [Z0|Z0]; [replace (n - S l)%nat with 0%nat by lia; reflexivity|].
      rewrite segment_eq by (auto; lia).
      destruct (stretch (S l) (n - S l) l s0) as (S1 & S2); [|lia|].
      { intros t Ht. split; [apply L3; lia|]. split; [apply prv_in|apply nxt_out]; auto; try lia;
          intros i Hi; try (apply L3; lia); apply Ns; lia. }
      rewrite S1, S2. destruct (fits2b _ _ _ _); reflexivity. }
    rewrite A.
    destruct (forallb safeb (seq 0 s0)); cbn [rbind andb]; [|reflexivity].
    destruct (forallb safeb (seq (S s0) _)); cbn [rbind andb]; [|reflexivity].
    rewrite B. destruct (forallb safeb (seq (S l) _)); cbn [rbind andb]; [|reflexivity].
    now destruct (dat s0).
Qed.
End Contour.

(** ** The neighbours of the specification *)
Section Neighbours.
Variable dl : list (option (Z * Z)).
Let n := length dl.

Lemma touched_tb t : touched dl t <-> tb dl t = true.
Proof.
  unfold touched, tb. split.
  - intros (d & H). now rewrite (nth_error_nth _ _ None H).
  - intros H. destruct (nth t dl None) as [d|] eqn:E; [|discriminate]. exists d.
    rewrite <- E. apply nth_error_nth'. destruct (Nat.lt_ge_cases t (length dl)); [assumption|].
    rewrite nth_overflow in E by assumption. discriminate.
Qed.
Lemma touched_dat t d : nth_error dl t = Some (Some d) <-> tb dl t = true /\ dat dl t = d.
Proof.
  split.
  - intros H. unfold tb, dat. now rewrite (nth_error_nth _ _ None H).
  - intros [T D]. destruct (proj2 (touched_tb t) T) as (d' & H). unfold dat in D. rewrite (nth_error_nth _ _ None H) in D. now subst.
Qed.
Lemma step_cases t k : (t < n)%nat -> - Z.of_nat n <= k <= Z.of_nat n ->
  (Z.of_nat t + k < 0 /\ Z.of_nat (step n t k) = Z.of_nat t + k + Z.of_nat n) \/
  (0 <= Z.of_nat t + k < Z.of_nat n /\ Z.of_nat (step n t k) = Z.of_nat t + k) \/
  (Z.of_nat n <= Z.of_nat t + k /\ Z.of_nat (step n t k) = Z.of_nat t + k - Z.of_nat n).
Proof.
  intros H K. unfold step. rewrite Z2Nat.id by (apply Z.mod_pos_bound; lia).
  destruct (Z.ltb_spec (Z.of_nat t + k) 0); [|destruct (Z.ltb_spec (Z.of_nat t + k) (Z.of_nat n))].
  - left. split; [assumption|]. symmetry. apply (Z.mod_unique_pos _ _ (-1)); lia.
  - right. left. split; [lia|]. apply Z.mod_small. lia.
  - right. right. split; [lia|]. symmetry. apply (Z.mod_unique_pos _ _ 1); lia.
Qed.
Lemma neighbours_prv t p q : (t < n)%nat -> neighbours dl t p q -> prv dl t = p /\ nxt dl t = q.
Proof.
  intros Ht (a & b & Ha & Hb & Hp & Hq & Tp & Tq & N). fold n in Ha, Hb, Hp, Hq, N.
  apply touched_tb in Tp, Tq.
  assert (N': forall i k, - a < k < b -> step n t k = i -> tb dl i = false).
  { intros i k Hk <-. specialize (N k Hk). rewrite touched_tb in N. now destruct (tb dl (step n t k)). }
  pose proof (step_cases t (- a) Ht ltac:(lia)) as Sp. rewrite <- Hp in Sp.
  pose proof (step_cases t b Ht ltac:(lia)) as Sq. rewrite <- Hq in Sq.
  assert (S1: forall i, (i < n)%nat -> - a < Z.of_nat i - Z.of_nat t < b -> tb dl i = false).
  { intros i Hi K. apply (N' i (Z.of_nat i - Z.of_nat t)); [lia|].
    pose proof (step_cases t (Z.of_nat i - Z.of_nat t) Ht ltac:(lia)) as C. lia. }
  assert (S2: forall i, (i < n)%nat -> - a < Z.of_nat i - Z.of_nat t - Z.of_nat n < b -> tb dl i = false).
  { intros i Hi K. apply (N' i (Z.of_nat i - Z.of_nat t - Z.of_nat n)); [lia|].
    pose proof (step_cases t (Z.of_nat i - Z.of_nat t - Z.of_nat n) Ht ltac:(lia)) as C. lia. }
  assert (S3: forall i, (i < n)%nat -> - a < Z.of_nat i - Z.of_nat t + Z.of_nat n < b -> tb dl i = false).
  { intros i Hi K. apply (N' i (Z.of_nat i - Z.of_nat t + Z.of_nat n)); [lia|].
    pose proof (step_cases t (Z.of_nat i - Z.of_nat t + Z.of_nat n) Ht ltac:(lia)) as C. lia. }
  pose proof (tb_lt dl p Tp) as Lp. pose proof (tb_lt dl q Tq) as Lq. fold n in Lp, Lq.
  split.
  - destruct (Z.ltb_spec (Z.of_nat t + - a) 0) as [C|C].
    + apply prv_out; auto; try (fold n; lia).
      * intros i Hi. apply S2; lia.
      * intros i Hi. apply S1; lia.
    + apply prv_in; auto; try (fold n; lia). intros i Hi. apply S1; lia.
  - destruct (Z.ltb_spec (Z.of_nat t + b) (Z.of_nat n)) as [C|C].
    + apply nxt_in; auto; try (fold n; lia). intros i Hi. apply S1; lia.
    + apply nxt_out; auto; try (fold n; lia).
      * intros i Hi. apply S3; lia.
      * intros i Hi. apply S1; lia.
Qed.
Lemma last_exists f a k : filter f (seq a k) <> [] ->
  exists p, (a <= p < a + k)%nat /\ f p = true /\ forall i, (p < i < a + k)%nat -> f i = false.
Proof.
  induction k as [|k IH]; intros H; [easy|].
  destruct (f (a + k)%nat) eqn:F.
  - exists (a + k)%nat. repeat split; auto; lia.
  - rewrite seq_S, filter_app in H. cbn in H. rewrite F, app_nil_r in H.
    destruct (IH H) as (p & P1 & P2 & P3). exists p. repeat split; auto; try lia.
    intros i Hi. destruct (Nat.eq_dec i (a + k)); [now subst|]. apply P3. lia.
Qed.
Lemma neighbours_exist t i0 : (t < n)%nat -> ~ touched dl t -> touched dl i0 -> neighbours dl t (prv dl t) (nxt dl t).
Proof.
  intros Ht Ut Ti0. rewrite touched_tb in *. assert (Ut': tb dl t = false) by now destruct (tb dl t).
  assert (L: (i0 < n)%nat) by now apply tb_lt.
  assert (NE: filter (tb dl) (seq 0 n) <> []).
  { intros E. rewrite (filter_seq_nil _ _ _ E i0) in Ti0 by lia. discriminate. }
  assert (P: exists a, 0 < a <= Z.of_nat n /\ prv dl t = step n t (- a) /\ tb dl (prv dl t) = true /\
    forall k, - a < k < 0 -> tb dl (step n t k) = false).
  { destruct (filter (tb dl) (seq 0 t)) eqn:E.
    - destruct (last_exists _ _ _ NE) as (p & P1 & P2 & P3). pose proof (filter_seq_nil _ _ _ E) as P0.
      assert (t < p)%nat. { destruct (Nat.lt_ge_cases t p); [assumption|]. destruct (Nat.eq_dec p t); [subst; congruence|].
        rewrite P0 in P2 by lia. discriminate. }
      assert (EP: prv dl t = p) by (apply prv_out; auto; try (fold n; lia); intros; apply P0; lia).
      exists (Z.of_nat t + Z.of_nat n - Z.of_nat p). rewrite EP. split; [lia|]. split; [|split; [assumption|]].
      + pose proof (step_cases t (- (Z.of_nat t + Z.of_nat n - Z.of_nat p)) Ht ltac:(lia)) as C. lia.
      + intros k Hk. pose proof (step_cases t k Ht ltac:(lia)) as C.
        destruct (Z.ltb_spec (Z.of_nat t + k) 0); [apply P3; lia|]. apply P0. lia.
    - destruct (last_exists (tb dl) 0 t) as (p & P1 & P2 & P3); [rewrite E; discriminate|].
      assert (EP: prv dl t = p) by (apply prv_in; auto; fold n; lia).
      exists (Z.of_nat t - Z.of_nat p). rewrite EP. split; [lia|]. split; [|split; [assumption|]].
      + pose proof (step_cases t (- (Z.of_nat t - Z.of_nat p)) Ht ltac:(lia)) as C. lia.
      + intros k Hk. pose proof (step_cases t k Ht ltac:(lia)) as C. apply P3. lia. }
  assert (Q: exists b, 0 < b <= Z.of_nat n /\ nxt dl t = step n t b /\ tb dl (nxt dl t) = true /\
    forall k, 0 < k < b -> tb dl (step n t k) = false).
  { destruct (filter (tb dl) (seq (S t) (n - S t))) as [|q r] eqn:E.
    - pose proof (filter_seq_nil _ _ _ E) as P0.
      destruct (filter (tb dl) (seq 0 n)) as [|q r] eqn:E2; [easy|]. apply filter_seq_cons in E2.
      destruct E2 as (P1 & P2 & P3 & _).
      assert (q < t)%nat. { destruct (Nat.lt_ge_cases q t); [assumption|]. destruct (Nat.eq_dec q t); [subst; congruence|].
        rewrite P0 in P2 by lia. discriminate. }
      assert (EP: nxt dl t = q) by (apply nxt_out; auto; try (fold n; lia); intros; try (apply P3; lia); apply P0; lia).
      exists (Z.of_nat q + Z.of_nat n - Z.of_nat t). rewrite EP. split; [lia|]. split; [|split; [assumption|]].
      + pose proof (step_cases t (Z.of_nat q + Z.of_nat n - Z.of_nat t) Ht ltac:(lia)) as C. lia.
      + intros k Hk. pose proof (step_cases t k Ht ltac:(lia)) as C.
        destruct (Z.ltb_spec (Z.of_nat t + k) 0); [lia|]. destruct (Z.ltb_spec (Z.of_nat t + k) (Z.of_nat n)); [apply P0; lia|]. apply P3. lia.
    - apply filter_seq_cons in E. destruct E as (P1 & P2 & P3 & _).
      assert (EP: nxt dl t = q) by (apply nxt_in; auto; try (fold n; lia); intros; apply P3; lia).
      exists (Z.of_nat q - Z.of_nat t). rewrite EP. split; [lia|]. split; [|split; [assumption|]].
      + pose proof (step_cases t (Z.of_nat q - Z.of_nat t) Ht ltac:(lia)) as C. lia.
      + intros k Hk. pose proof (step_cases t k Ht ltac:(lia)) as C. apply P3. lia. }
  destruct P as (a & A1 & A2 & A3 & A4). destruct Q as (b & B1 & B2 & B3 & B4).
  exists a, b. fold n. repeat (split; [assumption || lia|]). rewrite !touched_tb. split; [assumption|]. split; [assumption|].
  intros k Hk. rewrite touched_tb.
  destruct (Z.lt_trichotomy k 0) as [K|[K|K]].
  - rewrite A4 by lia. discriminate.
  - subst k. pose proof (step_cases t 0 Ht ltac:(lia)) as C. replace (step n t 0) with t by lia. rewrite Ut'. discriminate.
  - rewrite B4 by lia. discriminate.
Qed.
End Neighbours.

Lemma idx_touched dl i : touched dl i -> idx dl <> [].
Proof.
  intros T E. apply touched_tb in T. pose proof (tb_lt dl i T). unfold idx in E.
  rewrite (filter_seq_nil _ _ _ E i) in T by lia. discriminate.
Qed.
Lemma idx_untouched dl : (forall i, ~ touched dl i) -> idx dl = [].
Proof.
  intros H. unfold idx. apply filter_false. intros x _. specialize (H x). rewrite touched_tb in H. now destruct (tb dl x).
Qed.

(** ** A glyph of several contours *)
Lemma given_app a b : given (a ++ b) = given a ++ given b.
Proof. apply map_app. Qed.
Lemma given_length a : length (given a) = length a.
Proof. apply map_length. Qed.
Lemma slice_mid {A} (a b c : list A) : slice (a ++ b ++ c) (length a) (length a + length b) = Ok b.
Proof.
  unfold slice. rewrite !app_length.
  replace (_ && _) with true by lia. f_equal.
  rewrite skipn_app, skipn_all, Nat.sub_diag. cbn [skipn app].
  replace (length a + length b - length a)%nat with (length b + 0)%nat by lia. rewrite firstn_app_2. cbn. apply app_nil_r.
Qed.
Lemma iup_contours_eq contours : forall pre_d pre_c,
  length pre_d = length pre_c ->
  Forall (fun c => length (fst c) = length (snd c) /\ fst c <> []) contours ->
  Z.of_nat (length pre_d + length (concat (map fst contours))) < 2 ^ 64 ->
  iup_contours (given (pre_d ++ concat (map fst contours))) (pre_c ++ concat (map snd contours)) (length pre_d)
    (contour_ends_of (Z.of_nat (length pre_d)) (map (fun c => length (fst c)) contours))
  = (rs <- rmapM (fun c => iup_contour (given (fst c)) (snd c)) contours ;; Ok (concat rs)).
Proof.
  induction contours as [|[d c] contours IH]; intros pd pc Hl F B; [reflexivity|].
  inversion F as [|? ? [E NE] F']; subst. cbn [fst snd] in *. cbn [map concat fst snd contour_ends_of iup_contours rmapM] in *.
  rewrite app_length in B.
  assert (0 < length d)%nat by (destruct d; [easy|cbn; lia]).
  unfold chk_u. replace (_ && _) with true by lia. cbn [rbind].
  replace (Z.to_nat (Z.of_nat (length pd) + Z.of_nat (length d) - 1 + 1)) with (length pd + length d)%nat by lia.
  rewrite !given_app.
  assert (S1: forall l, slice (given pd ++ given d ++ l) (length pd) (length pd + length d) = Ok (given d))
    by (intros l; rewrite <- (given_length pd), <- (given_length d); apply slice_mid).
  rewrite S1. cbn [rbind].
  rewrite Hl, E. rewrite (slice_mid (pc : list pt) c). cbn [rbind].
  destruct (iup_contour (given d) c) as [a| |]; cbn [rbind]; try reflexivity.
  specialize (IH (pd ++ d) (pc ++ c)). rewrite !app_length, <- !app_assoc in IH. rewrite !given_app in IH.
  rewrite Hl, E in IH.
  replace (Z.of_nat (length pc) + Z.of_nat (length c)) with (Z.of_nat (length pc + length c)) by lia.
  match goal with |- context [iup_contours ?a ?b ?c ?e] => replace (iup_contours a b c e) with
    (rs <- rmapM (fun c0 => iup_contour (given (fst c0)) (snd c0)) contours ;; Ok (concat rs)) end.
  - destruct (rmapM _ contours); reflexivity.
  - symmetry. apply IH; [reflexivity|assumption|]. rewrite Hl in B. rewrite E in B. lia.
Qed.
Lemma iup_full l : iup_contour (given (map Some l)) [] = Ok l /\ rmapM get_2d (given (map Some l)) = Ok l.
Proof.
  assert (R: rmapM get_2d (given (map Some l)) = Ok l).
  { induction l as [|[x y] l IH]; [reflexivity|]. cbn [map given option_map rmapM get_2d rbind fst snd] in *. unfold given in IH. rewrite IH. reflexivity. }
  split; [|assumption]. unfold iup_contour.
  replace (forallb _ (given (map Some l))) with true; [assumption|].
  symmetry. apply forallb_forall. intros d Hd. unfold given in Hd. rewrite map_map in Hd. apply in_map_iff in Hd. destruct Hd as (x & <- & _). reflexivity.
Qed.
Lemma rmapM_get_2d_app a b : rmapM get_2d (a ++ b) = (x <- rmapM get_2d a ;; y <- rmapM get_2d b ;; Ok (x ++ y)).
Proof.
  induction a as [|d a IH]; cbn [app rmapM rbind]; [now destruct (rmapM get_2d b)|].
  destruct (get_2d d); cbn [rbind]; try reflexivity. rewrite IH. destruct (rmapM get_2d a); cbn [rbind]; try reflexivity.
  destruct (rmapM get_2d b); reflexivity.
Qed.
Lemma iup_delta_eq contours :
  Forall (fun c => length (fst c) = length (snd c) /\ fst c <> []) contours ->
  Z.of_nat (length (concat (map fst contours))) < 2 ^ 64 ->
  iup_delta (given (concat (map fst contours))) (concat (map snd contours))
    (contour_ends_of 0 (map (fun c => length (fst c)) contours))
  = (rs <- rmapM (fun c => iup_contour (given (fst c)) (snd c)) contours ;; Ok (concat rs)).
Proof.
  intros F B. unfold iup_delta. destruct (forallb _ _) eqn:A.
  - clear F B. induction contours as [|[d c] contours IH]; [reflexivity|].
    cbn [map concat fst snd rmapM] in *. rewrite given_app, forallb_app in A. apply andb_prop in A. destruct A as [A1 A2].
    rewrite given_app, rmapM_get_2d_app, (IH A2). unfold iup_contour at 2. rewrite A1.
    destruct (rmapM get_2d (given d)); cbn [rbind]; try reflexivity.
    destruct (rmapM _ contours); reflexivity.
  - apply (iup_contours_eq contours [] []); auto.
Qed.

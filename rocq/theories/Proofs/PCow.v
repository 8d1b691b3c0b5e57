(** Copy-on-write handles behave as values. *)
From Verif.Model Require Import MBase MCow.
From Verif.Spec Require Import SCow.
From Verif.Proofs Require Import PBase.

Section Cow.
Context {V : Type}.
Implicit Types (m : mem V) (h : heap (V:=V)) (rs : refs).

Lemma pe_eq p q : place_eqb p q = true <-> p = q.
Proof.
  destruct p, q; cbn; try (split; congruence); (split; [intros E; apply Z.eqb_eq in E; congruence|intros [= ->]; apply Z.eqb_refl]).
Qed.
Lemma pe_refl p : place_eqb p p = true. Proof. now apply pe_eq. Qed.
Lemma pe_neq p q : place_eqb p q = false <-> p <> q.
Proof. rewrite <- pe_eq. destruct (place_eqb p q); split; congruence. Qed.

(** Number of references to an address. *)
Fixpoint cnt (a : nat) (rs : refs) : nat :=
  match rs with [] => 0 | (_, b) :: rs' => (if (b =? a)%nat then 1 else 0) + cnt a rs' end.

Lemma ref_get_del p q rs : ref_get q (ref_del p rs) = if place_eqb q p then None else ref_get q rs.
Proof.
  induction rs as [|[k b] rs IH]; cbn [ref_get ref_del]; [now destruct (place_eqb q p)|].
  destruct (place_eqb p k) eqn:E.
  - apply pe_eq in E. subst k. rewrite IH. now destruct (place_eqb q p).
  - cbn [ref_get]. rewrite IH. destruct (place_eqb q k) eqn:E2; [|reflexivity].
    apply pe_eq in E2. subst k. destruct (place_eqb q p) eqn:E3; [|reflexivity]. apply pe_eq in E3. subst. now rewrite pe_refl in E.
Qed.
Lemma ref_get_none p rs : ref_get p rs = None <-> ~ In p (map fst rs).
Proof.
  induction rs as [|[k b] rs IH]; cbn [ref_get map fst In]; [tauto|]. destruct (place_eqb p k) eqn:E.
  - apply pe_eq in E. subst. split; [discriminate|intros H; exfalso; apply H; now left].
  - apply pe_neq in E. rewrite IH. intuition congruence.
Qed.
Lemma ref_del_none p rs : ref_get p rs = None -> ref_del p rs = rs.
Proof.
  induction rs as [|[k b] rs IH]; cbn [ref_get ref_del]; [reflexivity|]. destruct (place_eqb p k); [discriminate|].
  intros H. now rewrite IH.
Qed.
Lemma cnt_del p a b rs : NoDup (map fst rs) -> ref_get p rs = Some b ->
  cnt a rs = ((if (b =? a)%nat then 1 else 0) + cnt a (ref_del p rs))%nat.
Proof.
  induction rs as [|[k c] rs IH]; cbn [ref_get ref_del map fst]; [discriminate|].
  intros Hn. inversion Hn; subst. destruct (place_eqb p k) eqn:E.
  - intros [= ->]. apply pe_eq in E. subst. cbn [cnt]. rewrite ref_del_none; [reflexivity|]. now apply ref_get_none.
  - intros H. cbn [cnt]. rewrite (IH H2 H). lia.
Qed.
Lemma del_nodup p rs : NoDup (map fst rs) -> NoDup (map fst (ref_del p rs)).
Proof.
  induction rs as [|[k c] rs IH]; cbn [ref_del map fst]; [trivial|]. intros Hn. inversion Hn; subst.
  destruct (place_eqb p k); [now apply IH|]. cbn [map fst]. constructor; [|now apply IH].
  apply ref_get_none. rewrite ref_get_del. apply ref_get_none in H1. rewrite H1. now destruct (place_eqb k p).
Qed.
Lemma cnt_pos p a rs : ref_get p rs = Some a -> (0 < cnt a rs)%nat.
Proof.
  induction rs as [|[k c] rs IH]; cbn [ref_get cnt]; [discriminate|]. destruct (place_eqb p k).
  - intros [= ->]. rewrite Nat.eqb_refl. lia.
  - intros H. specialize (IH H). lia.
Qed.

(** Every cell's count is the number of references, stored or in flight. *)
Definition occ (x : list nat) (a : nat) := count_occ Nat.eq_dec x a.
Definition okm (x : list nat) m : Prop :=
  NoDup (map fst (m_refs m)) /\
  forall a, match nth_error (m_heap m) a with
            | Some (Some (v, c)) => c = (cnt a (m_refs m) + occ x a)%nat /\ (0 < c)%nat
            | _ => (cnt a (m_refs m) + occ x a = 0)%nat
            end.
Definition look m (a : nat) : option V := match nth_error (m_heap m) a with Some (Some (v, _)) => Some v | _ => None end.
Definition value m (p : place) : option V := match ref_get p (m_refs m) with Some a => look m a | None => None end.

Lemma live x m a : okm x m -> (0 < cnt a (m_refs m) + occ x a)%nat -> exists v c, nth_error (m_heap m) a = Some (Some (v, c)).
Proof.
  intros [_ H] Hp. specialize (H a). destruct (nth_error (m_heap m) a) as [[[v c]|]|]; [eauto|lia|lia].
Qed.
Lemma live_ref x m p a : okm x m -> ref_get p (m_refs m) = Some a -> exists v c, nth_error (m_heap m) a = Some (Some (v, c)).
Proof. intros H E. apply (live x m a H). pose proof (cnt_pos _ _ _ E). lia. Qed.

Lemma nth_set h a c b : (a < length h)%nat -> nth_error (heap_set h a c) b = if (b =? a)%nat then Some c else nth_error h b.
Proof.
  intros Ha. unfold heap_set. assert (L: length (firstn a h) = a) by (rewrite firstn_length; lia).
  destruct (Nat.eqb_spec b a) as [->|N].
  - rewrite nth_error_app2 by lia. rewrite L, Nat.sub_diag. reflexivity.
  - destruct (Nat.lt_ge_cases b a).
    + rewrite nth_error_app1 by lia. rewrite <- (firstn_skipn a h) at 2. now rewrite nth_error_app1 by lia.
    + rewrite nth_error_app2 by lia. rewrite L. destruct (b - a)%nat as [|k] eqn:E; [lia|]. cbn [nth_error].
      rewrite <- (firstn_skipn (S a) h) at 2. assert (L2: length (firstn (S a) h) = S a) by (rewrite firstn_length; lia).
      rewrite nth_error_app2 by lia. f_equal. lia.
Qed.
Lemma nth_lt {A} (l : list A) a x : nth_error l a = Some x -> (a < length l)%nat.
Proof. intros H. apply nth_error_Some. congruence. Qed.

Lemma occ_cons x a b : occ (b :: x) a = ((if (b =? a)%nat then 1 else 0) + occ x a)%nat.
Proof. unfold occ. cbn [count_occ]. destruct (Nat.eq_dec b a) as [->|N]; [rewrite Nat.eqb_refl; lia|]. destruct (Nat.eqb_spec b a); lia. Qed.

Lemma retain_ok x m p a : okm x m -> ref_get p (m_refs m) = Some a ->
  exists h, retain (m_heap m) a = Ok h /\ okm (a :: x) (mk_mem h (m_refs m)) /\ forall b, look (mk_mem h (m_refs m)) b = look m b.
Proof.
  intros Hm Hp. destruct (live_ref _ _ _ _ Hm Hp) as (v & c & E). unfold retain. rewrite E. eexists. split; [reflexivity|].
  pose proof (nth_lt _ _ _ E) as L. destruct Hm as [Hn H]. split.
  - split; [exact Hn|]. intros b. cbn [m_heap m_refs]. rewrite nth_set by exact L. rewrite occ_cons. specialize (H b).
    destruct (Nat.eqb_spec b a) as [->|N].
    + rewrite E in H. rewrite Nat.eqb_refl. lia.
    + destruct (Nat.eqb_spec a b); [congruence|]. exact H.
  - intros b. unfold look. cbn [m_heap]. rewrite nth_set by exact L. destruct (Nat.eqb_spec b a) as [->|N]; [now rewrite E|reflexivity].
Qed.

Lemma alloc_ok x m v : okm x m ->
  okm (length (m_heap m) :: x) (mk_mem (fst (alloc (m_heap m) v)) (m_refs m)) /\
  look (mk_mem (fst (alloc (m_heap m) v)) (m_refs m)) (length (m_heap m)) = Some v /\
  forall b, (b < length (m_heap m))%nat -> look (mk_mem (fst (alloc (m_heap m) v)) (m_refs m)) b = look m b.
Proof.
  intros [Hn H]. split; [split; [exact Hn|]|split].
  - intros b. cbn [m_heap m_refs alloc fst]. rewrite occ_cons. specialize (H b).
    destruct (Nat.lt_ge_cases b (length (m_heap m))) as [L|L].
    + rewrite nth_error_app1 by exact L. destruct (Nat.eqb_spec (length (m_heap m)) b); [lia|]. exact H.
    + rewrite nth_error_app2 by exact L. assert (E: nth_error (m_heap m) b = None) by (now apply nth_error_None). rewrite E in H.
      destruct (b - length (m_heap m))%nat as [|k] eqn:Ek; cbn [nth_error].
      * destruct (Nat.eqb_spec (length (m_heap m)) b); lia.
      * destruct (Nat.eqb_spec (length (m_heap m)) b); [lia|]. destruct k; cbn; exact H.
  - unfold look. cbn [m_heap alloc fst]. rewrite nth_error_app2 by lia. now rewrite Nat.sub_diag.
  - intros b Hb. unfold look. cbn [m_heap alloc fst]. now rewrite nth_error_app1.
Qed.

Lemma release_ok x m rs' a : okm x m -> NoDup (map fst rs') ->
  (forall b, cnt b (m_refs m) = ((if (a =? b)%nat then 1 else 0) + cnt b rs')%nat) ->
  exists h, release (m_heap m) a = Ok h /\ okm x (mk_mem h rs') /\
    (forall b, (0 < cnt b rs' + occ x b)%nat -> nth_error h b <> None /\ look (mk_mem h rs') b = look m b) /\ length h = length (m_heap m).
Proof.
  intros Hm Hn' Hc. pose proof (Hc a) as Ha. rewrite Nat.eqb_refl in Ha.
  destruct (live x m a Hm) as (v & c & E); [lia|]. pose proof (nth_lt _ _ _ E) as L. destruct Hm as [Hn H].
  pose proof (H a) as H'. rewrite E in H'. destruct H' as [Hcc Hpos].
  assert (SetLen: forall y, length (heap_set (m_heap m) a y) = length (m_heap m)).
  { intros y. unfold heap_set. rewrite app_length. cbn [length]. rewrite firstn_length, skipn_length. lia. }
  unfold release. rewrite E. destruct c as [|[|c]]; [lia| |]; eexists; (split; [reflexivity|]); (split; [split; [exact Hn'|]|split; [|apply SetLen]]).
  - intros b. cbn [m_heap m_refs]. rewrite nth_set by exact L. specialize (H b). rewrite Hc in H.
    destruct (Nat.eqb_spec b a) as [->|N]; [lia|]. destruct (Nat.eqb_spec a b); [congruence|]. exact H.
  - intros b Hb. unfold look. cbn [m_heap]. rewrite nth_set by exact L. destruct (Nat.eqb_spec b a) as [->|N]; [lia|].
    split; [|reflexivity]. specialize (H b). rewrite Hc in H. destruct (nth_error (m_heap m) b); [discriminate|]. lia.
  - intros b. cbn [m_heap m_refs]. rewrite nth_set by exact L. specialize (H b). rewrite Hc in H.
    destruct (Nat.eqb_spec b a) as [->|N]; [lia|]. destruct (Nat.eqb_spec a b); [congruence|]. exact H.
  - intros b Hb. unfold look. cbn [m_heap]. rewrite nth_set by exact L. destruct (Nat.eqb_spec b a) as [->|N]; [now rewrite E|].
    split; [|reflexivity]. specialize (H b). rewrite Hc in H. destruct (nth_error (m_heap m) b); [discriminate|]. lia.
Qed.

Lemma clear_ok x m p : okm x m -> exists m', clear p m = Ok m' /\ okm x m' /\ m_refs m' = ref_del p (m_refs m) /\
  forall b, (0 < cnt b (m_refs m') + occ x b)%nat -> look m' b = look m b.
Proof.
  intros Hm. unfold clear. destruct (ref_get p (m_refs m)) as [a|] eqn:E.
  - destruct (release_ok x m (ref_del p (m_refs m)) a Hm) as (h & -> & Hk & Hl & _).
    + apply del_nodup, Hm.
    + intros b. apply cnt_del; [apply Hm|exact E].
    + cbn [rbind]. eexists. split; [reflexivity|]. split; [exact Hk|]. split; [reflexivity|]. intros b Hb. now apply Hl.
  - exists m. split; [reflexivity|]. split; [exact Hm|]. split; [now rewrite ref_del_none|]. auto.
Qed.

Lemma store_ok x m p a v : okm (a :: x) m -> look m a = Some v -> exists m', store_ref p a m = Ok m' /\ okm x m' /\
  forall q, value m' q = if place_eqb q p then Some v else value m q.
Proof.
  intros Hm Hv. destruct (clear_ok _ _ p Hm) as (m1 & E & H1 & Hr & Hl). unfold store_ref. rewrite E. cbn [rbind].
  eexists. split; [reflexivity|]. split.
  - destruct H1 as [Hn H]. split.
    + cbn [m_refs map fst]. constructor; [|exact Hn]. apply ref_get_none. rewrite Hr, ref_get_del, pe_refl. reflexivity.
    + intros b. cbn [m_heap m_refs cnt]. specialize (H b). rewrite occ_cons in H. destruct (nth_error (m_heap m1) b) as [[[? ?]|]|]; lia.
  - intros q. unfold value. cbn [m_refs ref_get]. destruct (place_eqb q p) eqn:Eq.
    + rewrite <- Hv. apply Hl. rewrite occ_cons, Nat.eqb_refl. lia.
    + rewrite Hr, ref_get_del, Eq. destruct (ref_get q (m_refs m)) as [b|] eqn:Eb; [|reflexivity].
      apply Hl. rewrite Hr. assert (G: ref_get q (ref_del p (m_refs m)) = Some b) by (rewrite ref_get_del, Eq; exact Eb).
      apply cnt_pos in G. lia.
Qed.

Lemma clear_value x m p : okm x m -> exists m', clear p m = Ok m' /\ okm x m' /\
  forall q, value m' q = if place_eqb q p then None else value m q.
Proof.
  intros Hm. destruct (clear_ok _ _ p Hm) as (m1 & E & H1 & Hr & Hl). exists m1. split; [exact E|]. split; [exact H1|].
  intros q. unfold value. rewrite Hr, ref_get_del. destruct (place_eqb q p) eqn:Eq; [reflexivity|].
  destruct (ref_get q (m_refs m)) as [b|] eqn:Eb; [|reflexivity]. apply Hl. rewrite Hr.
  assert (G: ref_get q (ref_del p (m_refs m)) = Some b) by (rewrite ref_get_del, Eq; exact Eb). apply cnt_pos in G. lia.
Qed.

Lemma value_some x m p : okm x m -> match ref_get p (m_refs m) with
  | Some a => exists v, value m p = Some v /\ look m a = Some v /\ deref (m_heap m) a = Ok v
  | None => value m p = None end.
Proof.
  intros Hm. unfold value. destruct (ref_get p (m_refs m)) as [a|] eqn:E; [|reflexivity].
  destruct (live_ref _ _ _ _ Hm E) as (v & c & H). exists v. unfold look, deref. rewrite H. auto.
Qed.

Lemma cstep_ok o m e : okm [] m -> (forall p, value m p = e p) ->
  exists m', cstep o m = Ok (fst (vstep o e), m') /\ okm [] m' /\ forall p, value m' p = snd (vstep o e) p.
Proof.
  intros Hm He. destruct o as [v n|tag n|n n'|n f|n tag|tag|n|n|p]; cbn [cstep vstep fst snd].
  - destruct (alloc_ok [] m v Hm) as (H1 & H2 & H3). change (alloc (m_heap m) v) with (fst (alloc (m_heap m) v), length (m_heap m)).
    cbv beta iota zeta. destruct (store_ok [] _ (InVar n) _ v H1 H2) as (m' & -> & H4 & H5). cbn [rbind]. exists m'.
    split; [reflexivity|]. split; [exact H4|]. intros q. rewrite H5. unfold vset. destruct (place_eqb q (InVar n)); [reflexivity|].
    rewrite <- He. unfold value. cbn [m_refs]. destruct (ref_get q (m_refs m)) as [b|] eqn:Eb; [|reflexivity].
    apply H3. destruct (live_ref _ _ _ _ Hm Eb) as (? & ? & X). now apply nth_lt in X.
  - pose proof (value_some [] m (InFont tag) Hm) as Hv. rewrite He in Hv. destruct (ref_get (InFont tag) (m_refs m)) as [a|] eqn:E.
    + destruct Hv as (v & -> & Hl & _). destruct (retain_ok [] m _ a Hm E) as (h & -> & H1 & H2). cbn [rbind].
      destruct (store_ok [] _ (InVar n) a v H1) as (m' & -> & H4 & H5); [now rewrite H2|]. cbn [rbind]. exists m'.
      split; [reflexivity|]. split; [exact H4|]. intros q. rewrite H5. unfold vset. destruct (place_eqb q (InVar n)); [reflexivity|].
      rewrite <- He. unfold value. cbn [m_refs]. destruct (ref_get q (m_refs m)); [apply H2|reflexivity].
    + rewrite Hv. exists m. auto.
  - pose proof (value_some [] m (InVar n) Hm) as Hv. rewrite He in Hv. destruct (ref_get (InVar n) (m_refs m)) as [a|] eqn:E.
    + destruct Hv as (v & -> & Hl & _). destruct (retain_ok [] m _ a Hm E) as (h & -> & H1 & H2). cbn [rbind].
      destruct (store_ok [] _ (InVar n') a v H1) as (m' & -> & H4 & H5); [now rewrite H2|]. cbn [rbind]. exists m'.
      split; [reflexivity|]. split; [exact H4|]. intros q. rewrite H5. unfold vset. destruct (place_eqb q (InVar n')); [reflexivity|].
      rewrite <- He. unfold value. cbn [m_refs]. destruct (ref_get q (m_refs m)); [apply H2|reflexivity].
    + rewrite Hv. exists m. auto.
  - pose proof (value_some [] m (InVar n) Hm) as Hv. rewrite He in Hv. destruct (ref_get (InVar n) (m_refs m)) as [a|] eqn:E.
    2:{ rewrite Hv. exists m. auto. }
    destruct Hv as (v & -> & Hl & _). destruct (live_ref _ _ _ _ Hm E) as (v' & c & Ec). rewrite Ec.
    assert (v' = v) by (unfold look in Hl; rewrite Ec in Hl; congruence). subst v'. pose proof (nth_lt _ _ _ Ec) as L.
    destruct (Nat.eqb_spec c 1) as [->|N].
    + (* the only reference: changed in place *)
      eexists. split; [reflexivity|]. destruct Hm as [Hn H]. split.
      * split; [exact Hn|]. intros b. cbn [m_heap m_refs]. rewrite nth_set by exact L. specialize (H b).
        destruct (Nat.eqb_spec b a) as [->|Nb]; [now rewrite Ec in H|exact H].
      * intros q. unfold vset, value. cbn [m_refs]. destruct (place_eqb q (InVar n)) eqn:Eq.
        -- apply pe_eq in Eq. subst q. rewrite E. unfold look. cbn [m_heap]. rewrite nth_set, Nat.eqb_refl by exact L. reflexivity.
        -- rewrite <- He. unfold value. destruct (ref_get q (m_refs m)) as [b|] eqn:Eb; [|reflexivity].
           unfold look. cbn [m_heap]. rewrite nth_set by exact L. destruct (Nat.eqb_spec b a) as [->|Nb]; [|reflexivity].
           exfalso. specialize (H a). rewrite Ec in H. rewrite (cnt_del (InVar n) a a _ Hn E) in H. rewrite Nat.eqb_refl in H.
           assert (G: ref_get q (ref_del (InVar n) (m_refs m)) = Some a) by (rewrite ref_get_del, Eq; exact Eb).
           apply cnt_pos in G. lia.
    + (* shared: a new copy *)
      change (alloc (m_heap m) v) with (fst (alloc (m_heap m) v), length (m_heap m)). cbv beta iota zeta.
      destruct (alloc_ok [] m v Hm) as (H1 & H2 & H3). set (m1 := mk_mem (fst (alloc (m_heap m) v)) (m_refs m)) in *.
      destruct (release_ok _ m1 (ref_del (InVar n) (m_refs m)) a H1) as (h' & Eh & Hk & Hlk & Hlen).
      { apply del_nodup, Hm. }
      { intros b. apply cnt_del; [apply Hm|exact E]. }
      change (fst (alloc (m_heap m) v)) with (m_heap m1). rewrite Eh. cbn [rbind]. eexists. split; [reflexivity|].
      set (a' := length (m_heap m)) in *.
      assert (La': (a' < length h')%nat).
      { rewrite Hlen. unfold m1. cbn [m_heap alloc fst]. rewrite app_length. cbn. unfold a'. lia. }
      assert (C0: cnt a' (ref_del (InVar n) (m_refs m)) = 0%nat).
      { destruct Hm as [Hn H]. specialize (H a'). assert (X: nth_error (m_heap m) a' = None) by (apply nth_error_None; unfold a'; lia).
        rewrite X in H. rewrite (cnt_del (InVar n) a' a _ Hn E) in H. lia. }
      split.
      * destruct Hk as [Hn H]. split.
        -- cbn [m_refs map fst]. constructor; [|exact Hn]. apply ref_get_none. rewrite ref_get_del, pe_refl. reflexivity.
        -- intros b. cbn [m_heap m_refs cnt] in *. rewrite nth_set by exact La'. specialize (H b). rewrite occ_cons in H.
           destruct (Nat.eqb_spec b a') as [->|Nb].
           ++ rewrite Nat.eqb_refl, C0. cbn. lia.
           ++ destruct (Nat.eqb_spec a' b); [congruence|]. exact H.
      * intros q. unfold vset, value. cbn [m_refs ref_get]. destruct (place_eqb q (InVar n)) eqn:Eq.
        -- unfold look. cbn [m_heap]. rewrite nth_set, Nat.eqb_refl by exact La'. reflexivity.
        -- rewrite <- He. unfold value. rewrite ref_get_del, Eq. destruct (ref_get q (m_refs m)) as [b|] eqn:Eb; [|reflexivity].
           assert (G: ref_get q (ref_del (InVar n) (m_refs m)) = Some b) by (rewrite ref_get_del, Eq; exact Eb). apply cnt_pos in G.
           assert (Nb: b <> a') by (intros ->; lia).
           unfold look. cbn [m_heap]. rewrite nth_set by exact La'. destruct (Nat.eqb_spec b a'); [congruence|].
           destruct (Hlk b) as [_ X]; [lia|]. unfold look in X. cbn [m_heap] in X. rewrite X.
           apply H3. destruct (live_ref _ _ _ _ Hm Eb) as (? & ? & Y). now apply nth_lt in Y.
  - pose proof (value_some [] m (InVar n) Hm) as Hv. rewrite He in Hv. destruct (ref_get (InVar n) (m_refs m)) as [a|] eqn:E.
    2:{ rewrite Hv. exists m. auto. }
    destruct Hv as (v & -> & Hl & _).
    assert (H1: okm [a] (mk_mem (m_heap m) (ref_del (InVar n) (m_refs m)))).
    { destruct Hm as [Hn H]. split; [now apply del_nodup|]. intros b. cbn [m_heap m_refs]. specialize (H b).
      rewrite (cnt_del (InVar n) b a _ Hn E) in H. rewrite occ_cons. destruct (nth_error (m_heap m) b) as [[[? ?]|]|]; cbn in *; lia. }
    destruct (store_ok [] _ (InFont tag) a v H1 Hl) as (m' & -> & H4 & H5). cbn [rbind]. exists m'. split; [reflexivity|]. split; [exact H4|].
    intros q. rewrite H5. unfold vset. destruct (place_eqb q (InFont tag)); [reflexivity|]. unfold value. cbn [m_refs]. rewrite ref_get_del.
    destruct (place_eqb q (InVar n)); [reflexivity|]. rewrite <- He. reflexivity.
  - destruct (clear_value [] m (InFont tag) Hm) as (m' & -> & H1 & H2). cbn [rbind]. exists m'. split; [reflexivity|]. split; [exact H1|].
    intros q. rewrite H2. unfold vset. now rewrite He.
  - destruct (clear_value [] m (InVar n) Hm) as (m' & -> & H1 & H2). cbn [rbind]. exists m'. split; [reflexivity|]. split; [exact H1|].
    intros q. rewrite H2. unfold vset. now rewrite He.
  - pose proof (value_some [] m (InVar n) Hm) as Hv. rewrite He in Hv.
    destruct (clear_value [] m (InVar n) Hm) as (m' & Ec & H1 & H2). destruct (ref_get (InVar n) (m_refs m)) as [a|] eqn:E.
    + destruct Hv as (v & -> & Hl & ->). cbn [rbind]. rewrite Ec. cbn [rbind]. exists m'. split; [reflexivity|]. split; [exact H1|].
      intros q. rewrite H2. unfold vset. now rewrite He.
    + exists m. rewrite Hv. split; [reflexivity|]. split; [exact Hm|]. intros q. unfold vset. destruct (place_eqb q (InVar n)) eqn:Eq; [|apply He].
      apply pe_eq in Eq. subst. now rewrite He.
  - pose proof (value_some [] m p Hm) as Hv. rewrite He in Hv. destruct (ref_get p (m_refs m)) as [a|].
    + destruct Hv as (v & -> & Hl & ->). cbn [rbind]. exists m. auto.
    + rewrite Hv. exists m. auto.
Qed.

Lemma crun_ok ops : forall m e, okm [] m -> (forall p, value m p = e p) ->
  exists m', crun ops m = Ok (vrun ops e, m') /\ okm [] m'.
Proof.
  induction ops as [|o ops IH]; intros m e Hm He; cbn [crun vrun]; [eauto|].
  destruct (cstep_ok o m e Hm He) as (m1 & -> & H1 & H2). destruct (vstep o e) as [v e1]. cbn [fst snd rbind] in *.
  destruct (IH m1 e1 H1 H2) as (m2 & -> & H3). cbn [rbind]. eauto.
Qed.
Lemma value_semantics (ops : list (cop V)) : exists m', crun ops mem0 = Ok (vrun ops (fun _ => None), m') /\
  (* nothing leaks: every live allocation is still referenced *)
  forall a v c, nth_error (m_heap m') a = Some (Some (v, c)) -> exists p, ref_get p (m_refs m') = Some a.
Proof.
  destruct (crun_ok ops (mem0 (V:=V)) (fun _ => None)) as (m' & E & Hm).
  - split; [constructor|]. intros [|a]; reflexivity.
  - reflexivity.
  - exists m'. split; [exact E|]. intros a v c Ha. destruct Hm as [Hn H]. specialize (H a). rewrite Ha in H. cbn in H.
    assert (P: (0 < cnt a (m_refs m'))%nat) by lia. clear - P Hn. induction (m_refs m') as [|[k b] rs IH]; cbn [cnt] in P; [lia|].
    inversion Hn; subst. destruct (Nat.eqb_spec b a) as [->|N].
    + exists k. cbn [ref_get]. now rewrite pe_refl.
    + destruct IH as [p Hp]; [assumption|lia|]. exists p. cbn [ref_get]. destruct (place_eqb p k) eqn:E; [|exact Hp].
      apply pe_eq in E. subst. exfalso. apply H1. apply ref_get_none in H1. congruence.
Qed.
End Cow.

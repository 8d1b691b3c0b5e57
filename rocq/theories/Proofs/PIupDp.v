(** The search for the deltas to keep, and the whole optimizer *)
From Coq Require Import List ZArith QArith Lia Bool Arith.
From Coq Require Import ZifyBool ZifyNat ZifyN.
Import ListNotations.
From Verif.Model Require Import MBase MFixed MFloat MFloat32 MPacked MGlyph MGlyf MIup.
From Verif.Spec Require Import SBase SFloat SIup.
From Verif.Proofs Require Import PBase PFloat PFloat32 PIup PIupContour PIupOpt.
Open Scope Z_scope.
Ltac Zify.zify_post_hook ::= idtac.

Lemma hget_cons k a v m : hget k ((a, v) :: m) = if a =? k then Some v else hget k m.
Proof. reflexivity. Qed.
Lemma hget_same k v m : hget k ((k, v) :: m) = Some v.
Proof. rewrite hget_cons. now rewrite Z.eqb_refl. Qed.
Lemma hget_other k a v m : a <> k -> hget k ((a, v) :: m) = hget k m.
Proof. intros H. rewrite hget_cons. now rewrite (proj2 (Z.eqb_neq a k) H). Qed.
Lemma zmem_In k l : zmem k l = true <-> In k l.
Proof.
  unfold zmem. rewrite existsb_exists. split.
  - intros (x & H & E). apply Z.eqb_eq in E. now subst.
  - intros H. exists k. split; [assumption|apply Z.eqb_refl].
Qed.

Section Dp.
Variables (ds cs : list (Z * Z)) (forced : list Z).
Let n := length ds.
Hypothesis Hcs : length cs = n.
Hypothesis H0 : (0 < n)%nat.
Hypothesis Hn : Z.of_nat n <= 32768.
Hypothesis Hds : Forall i16_pair ds.

Definition Inv (m : Z) (costs chain : hmap) : Prop :=
  hget (-1) costs = Some 0 /\
  (forall i, 0 <= i < m -> exists c, hget i costs = Some c /\ 0 <= c <= i + 1) /\
  hget (-1) chain = None /\
  (forall i, 0 <= i < m -> exists j, hget i chain = Some j /\ -1 <= j < i /\ okstep ds cs j i) /\
  (forall i, m <= i -> hget i chain = None) /\
  (forall i, m <= i -> hget i costs = None).
Definition small_all : Prop := Forall small_pair ds /\ Forall small_pair cs /\ Z.of_nat n < 32768.

Lemma inv_cost m costs chain j : Inv m costs chain -> -1 <= j < m -> exists c, hget j costs = Some c /\ 0 <= c <= j + 1.
Proof using Type. clear Hcs H0 Hn Hds.
  intros (A & B & _) Hj. destruct (Z.eq_dec j (-1)) as [->|]; [exists 0; split; [assumption|lia]|]. apply B. lia.
Qed.
Lemma inv_set i costs chain c j : 0 <= i -> Inv i costs chain \/ Inv (i + 1) costs chain -> 0 <= c <= i + 1 -> -1 <= j < i -> okstep ds cs j i ->
  Inv (i + 1) ((i, c) :: costs) ((i, j) :: chain).
Proof using Type. clear Hcs H0 Hn Hds.
  intros Hi HI Hc Hj R.
  assert (K: hget (-1) costs = Some 0 /\ (forall i', 0 <= i' < i -> exists c, hget i' costs = Some c /\ 0 <= c <= i' + 1) /\
    hget (-1) chain = None /\ (forall i', 0 <= i' < i -> exists j, hget i' chain = Some j /\ -1 <= j < i' /\ okstep ds cs j i') /\
    (forall i', i + 1 <= i' -> hget i' chain = None) /\ (forall i', i + 1 <= i' -> hget i' costs = None)).
  { destruct HI as [(A & B & C & D & E & F)|(A & B & C & D & E & F)]; (split; [assumption|]; split; [intros; apply B; lia|];
      split; [assumption|]; split; [intros; apply D; lia|]; split; intros; [apply E; lia|apply F; lia]). }
  destruct K as (A & B & C & D & E & F). unfold Inv. rewrite !hget_other by lia.
  split; [assumption|]. split; [|split; [assumption|split; [|split]]].
  - intros i' Hi'. destruct (Z.eq_dec i' i) as [->|]; [rewrite hget_same; eauto|]. rewrite hget_other by lia. apply B. lia.
  - intros i' Hi'. destruct (Z.eq_dec i' i) as [->|]; [rewrite hget_same; eauto|]. rewrite hget_other by lia. apply D. lia.
  - intros i' Hi'. rewrite hget_other by lia. now apply E.
  - intros i' Hi'. rewrite hget_other by lia. now apply F.
Qed.

Lemma dp_inner_inv i lo fuel : 0 <= i < 32768 -> -2 <= lo -> i - lo <= Z.of_nat n -> i - lo <= 2 ^ 15 ->
  forall j best costs chain, j <= i - 2 -> Inv (i + 1) costs chain -> hget i costs = Some best -> 0 <= best <= i + 1 ->
  (forall r, dp_inner ds cs forced half i lo fuel j best costs chain = Ok r -> Inv (i + 1) (fst r) (snd r)) /\
  (small_all -> exists r, dp_inner ds cs forced half i lo fuel j best costs chain = Ok r).
Proof using H0 Hcs Hds Hn.
  intros Hi Hlo Hl1 Hl2. induction fuel as [|fuel IH]; intros j best costs chain Hj HI Hb Rb; cbn [dp_inner].
  { split; [intros r H; apply Ok_inj in H; subst r; exact HI|eauto]. }
  destruct (j >? lo) eqn:J; [|split; [intros r H; apply Ok_inj in H; subst r; exact HI|eauto]].
  destruct (inv_cost _ _ _ j HI ltac:(lia)) as (cj & Ecj & Rcj). rewrite Ecj. cbn [unwrap rbind].
  rewrite chk_i16_ok by lia. cbn [rbind].
  assert (G: forall ok, (ok = true -> cj + 1 < best /\ cgood ds cs j i) ->
    let best' := if ok then cj + 1 else best in
    let costs' := if ok then (i, cj + 1) :: costs else costs in
    let chain' := if ok then (i, j) :: chain else chain in
    let next := (if zmem j forced then Ok (costs', chain')
      else j' <- chk_i 16 (j - 1) ;; dp_inner ds cs forced half i lo fuel j' best' costs' chain') in
    (forall r, next = Ok r -> Inv (i + 1) (fst r) (snd r)) /\ (small_all -> exists r, next = Ok r)).
  { intros ok Hok best' costs' chain' next.
    assert (HI': Inv (i + 1) costs' chain').
    { subst costs' chain'. destruct ok; [|assumption]. destruct (Hok eq_refl) as [Q1 Q2].
      apply inv_set; try lia; auto. now right. }
    assert (Hb': hget i costs' = Some best') by (subst costs' best'; destruct ok; [apply hget_same|assumption]).
    assert (Rb': 0 <= best' <= i + 1) by (subst best'; destruct ok; [specialize (Hok eq_refl)|]; lia).
    subst next. destruct (zmem j forced).
    - split; [intros r H; apply Ok_inj in H; subst r; exact HI'|eauto].
    - rewrite chk_i16_ok by lia. cbn [rbind]. apply IH; auto. lia. }
  destruct (Z.ltb_spec (cj + 1) best) as [L|L].
  - destruct (can_iup_between ds cs j i half) as [ok| |] eqn:Eok; cbn [rbind].
    + apply (G ok). intros ->. split; [assumption|]. apply (can_iup_good ds cs Hcs H0 Hn Hds j i); auto; lia.
    + split; [discriminate|]. intros (S1 & S2 & _). destruct (can_iup_runs ds cs Hcs H0 Hn Hds j i S1 S2) as (b & E); try lia. congruence.
    + split; [discriminate|]. intros (S1 & S2 & _). destruct (can_iup_runs ds cs Hcs H0 Hn Hds j i S1 S2) as (b & E); try lia. congruence.
  - cbn [rbind]. apply (G false). discriminate.
Qed.

Lemma dp_outer_inv lb k : forall a costs chain, 0 < lb <= Z.of_nat n -> lb < 2 ^ 15 -> (a + k <= n)%nat ->
  Inv (Z.of_nat a) costs chain ->
  (forall r, dp_outer ds cs forced half lb (seq a k) costs chain = Ok r -> Inv (Z.of_nat (a + k)) (fst r) (snd r)) /\
  (small_all -> exists r, dp_outer ds cs forced half lb (seq a k) costs chain = Ok r).
Proof using H0 Hcs Hds Hn.
  induction k as [|k IH]; intros a costs chain Hlb Hlb2 Ha HI; cbn [seq dp_outer].
  { rewrite Nat.add_0_r. split; [intros r H; apply Ok_inj in H; subst r; exact HI|eauto]. }
  rewrite (i16_small (Z.of_nat a)) by lia. set (i := Z.of_nat a) in *.
  rewrite chk_i16_ok by lia. cbn [rbind].
  destruct (inv_cost _ _ _ (i - 1) HI ltac:(lia)) as (c & Ec & Rc). rewrite Ec. cbn [unwrap rbind].
  destruct (Z_lt_dec (c + 1) (2 ^ 15)) as [Cb|Cb].
  2: { rewrite chk_i16_bad by lia. cbn [rbind]. split; [discriminate|]. intros (_ & _ & S). exfalso. lia. }
  rewrite chk_i16_ok by lia. cbn [rbind].
  assert (HI': Inv (i + 1) ((i, c + 1) :: costs) ((i, i - 1) :: chain)).
  { apply inv_set; try lia; [now left|]. now left. }
  assert (E1: i + 1 = Z.of_nat (S a)) by lia. assert (E2: (a + S k)%nat = (S a + k)%nat) by lia. rewrite E2.
  destruct (zmem (i - 1) forced).
  - rewrite E1 in HI'. apply IH; auto. lia.
  - rewrite chk_i16_ok by lia. cbn [rbind]. rewrite chk_i16_ok by lia. cbn [rbind].
    destruct (dp_inner_inv i (Z.max (i - lb) (-2)) (length ds) ltac:(lia) ltac:(lia) ltac:(lia) ltac:(lia)
      (i - 2) (c + 1) _ _ ltac:(lia) HI' (hget_same _ _ _) ltac:(lia)) as [D1 D2].
    match goal with |- context [dp_inner ?a1 ?a2 ?a3 ?a4 ?a5 ?a6 ?a7 ?a8 ?a9 ?b1 ?b2] =>
      change (dp_inner a1 a2 a3 a4 a5 a6 a7 a8 a9 b1 b2) with
        (dp_inner ds cs forced half i (Z.max (i - lb) (-2)) (length ds) (i - 2) (c + 1) ((i, c + 1) :: costs) ((i, i - 1) :: chain)) end.
    destruct (dp_inner ds cs forced half i _ _ _ _ _ _) as [[cs' ch']| |]; cbn [rbind].
    + specialize (D1 _ eq_refl). cbn [fst snd] in D1. rewrite E1 in D1. apply IH; auto. lia.
    + split; [discriminate|]. intros S. destruct (D2 S) as (r & Er). discriminate.
    + split; [discriminate|]. intros S. destruct (D2 S) as (r & Er). discriminate.
Qed.
Lemma inv_start : Inv 0 [(-1, 0)] [].
Proof using Type. clear Hcs H0 Hn Hds. unfold Inv. cbn [hget Z.eqb]. repeat split; try (intros; lia); try reflexivity. intros i Hi. destruct i; try reflexivity. lia. Qed.
Lemma optimize_dp_inv lookback : (match lookback with Some l => l | None => i16 (Z.of_nat n) end) = Z.of_nat n \/
    (exists m, (0 < m <= n)%nat /\ lookback = Some (Z.of_nat m)) ->
  (match lookback with Some l => l | None => i16 (Z.of_nat n) end) < 32768 ->
  (forall chain costs, optimize_dp ds cs forced half lookback = Ok (chain, costs) -> Inv (Z.of_nat n) costs chain) /\
  (small_all -> exists r, optimize_dp ds cs forced half lookback = Ok r).
Proof using H0 Hcs Hds Hn.
  intros Hl Hn'. unfold optimize_dp. fold n.
  set (lb := match lookback with Some l => l | None => i16 (Z.of_nat n) end) in *.
  assert (L: 0 < lb <= Z.of_nat n) by (destruct Hl as [->|(m & Hm & E)]; [lia|subst lb; rewrite E; lia]).
  destruct (dp_outer_inv lb n 0 [(-1, 0)] [] L ltac:(lia) ltac:(lia) inv_start) as [A B].
  destruct (dp_outer _ _ _ _ _ _ _ _) as [[costs chain]| |]; cbn [rbind].
  - split; [|eauto]. intros ch co H. injection H as <- <-. apply (A _ eq_refl).
  - split; [discriminate|]. intros S. destruct (B S) as (r & Er). discriminate.
  - split; [discriminate|]. intros S. destruct (B S) as (r & Er). discriminate.
Qed.

(** following the chain *)
Section Follow.
Variables (costs chain : hmap) (m : Z).
Hypothesis HI : Inv m costs chain.
Lemma follow_path fuel : forall i sol, -1 <= i < m -> follow fuel chain i = Ok sol -> cpath (okstep ds cs) i (-1) sol.
Proof using HI. clear Hcs H0 Hn Hds forced.
  destruct HI as (A & B & C & D & E & _). clear HI.
  induction fuel as [|fuel IH]; intros i sol Hi H; [discriminate|]. cbn [follow] in H.
  destruct (Z.eq_dec i (-1)) as [->|N].
  - rewrite C in H. apply Ok_inj in H. subst. constructor.
  - destruct (D i ltac:(lia)) as (j & Ej & Rj & S). rewrite Ej in H.
    destruct (follow fuel chain j) as [r| |] eqn:EF; try discriminate. cbn [rbind] in H. apply Ok_inj in H. subst sol.
    apply cp_step with j; [lia|assumption|]. apply IH; [lia|assumption].
Qed.
Lemma follow_runs fuel : forall i, -1 <= i < m -> i + 1 < Z.of_nat fuel -> exists sol, follow fuel chain i = Ok sol.
Proof using HI. clear Hcs H0 Hn Hds forced.
  destruct HI as (A & B & C & D & E & _). clear HI.
  induction fuel as [|fuel IH]; intros i Hi Hf; [lia|]. cbn [follow].
  destruct (Z.eq_dec i (-1)) as [->|N]; [rewrite C; eauto|].
  destruct (D i ltac:(lia)) as (j & Ej & Rj & S). rewrite Ej.
  destruct (IH j ltac:(lia) ltac:(lia)) as (r & ->). cbn [rbind]. eauto.
Qed.
Lemma follow_to_path n1 lo fuel : (0 < n1 < 32768) -> -1 <= lo -> forall i sol, follow_to fuel chain n1 lo i = Ok (sol, lo) ->
  exists l, cpath (okstep ds cs) i lo l /\ forall z, In z sol <-> exists s, In s l /\ lo < s /\ s mod n1 = z.
Proof using HI. clear Hcs H0 Hn Hds forced.
  destruct HI as (A & B & C & D & E & _). clear HI. intros Hn1 Hlo.
  induction fuel as [|fuel IH]; intros i sol H; [discriminate|]. cbn [follow_to] in H.
  destruct (i >? lo) eqn:G.
  - unfold rem_euclid in H. destruct (Z.eqb_spec n1 0); [lia|]. cbn [rbind] in H. rewrite (Z.abs_eq n1) in H by lia.
    destruct (Z.lt_ge_cases i m) as [L|L].
    + destruct (D i ltac:(lia)) as (j & Ej & Rj & S). rewrite Ej in H.
      destruct (follow_to fuel chain n1 lo j) as [[s e]| |] eqn:EF; try discriminate. cbn [rbind] in H. injection H as <- ->.
      destruct (IH _ _ EF) as (l & P & M). exists (i :: l). split; [now apply cp_step with j; [lia| |]|].
      intros z. split.
      * intros [<-|Hz]; [exists i; split; [now left|split; [lia|reflexivity]]|]. apply M in Hz. destruct Hz as (s' & ? & ? & ?). exists s'. split; [now right|auto].
      * intros (s' & [<-|Hs] & Hlt & Em); [now left|]. right. apply M. eauto.
    + rewrite (E i L) in H. injection H as _ H. lia.
  - injection H as <- ->. exists [lo]. split; [constructor|]. intros z. split; [intros []|]. intros (s & [<-|[]] & Hs & _). lia.
Qed.
Lemma follow_to_runs n1 lo fuel : 0 < n1 -> -1 <= lo -> forall i, Z.of_nat fuel > i - lo -> (0 < fuel)%nat -> exists r, follow_to fuel chain n1 lo i = Ok r.
Proof using HI. clear Hcs H0 Hn Hds forced.
  destruct HI as (A & B & C & D & E & _). clear HI. intros Hn1 Hlo.
  induction fuel as [|fuel IH]; intros i Hf Hf0; [lia|]. cbn [follow_to].
  destruct (i >? lo) eqn:G; [|eauto].
  unfold rem_euclid. destruct (Z.eqb_spec n1 0); [lia|]. cbn [rbind].
  destruct (Z.lt_ge_cases i m) as [L|L]; [|rewrite (E i L); eauto].
  destruct (D i ltac:(lia)) as (j & Ej & Rj & S). rewrite Ej.
  destruct (IH j ltac:(lia) ltac:(lia)) as ([s e] & ->). cbn [rbind]. eauto.
Qed.
Lemma follow_to_bottom n1 fuel : forall i sol e, -1 <= i < m -> follow_to fuel chain n1 (-1) i = Ok (sol, e) -> e = -1.
Proof using HI. clear Hcs H0 Hn Hds forced.
  destruct HI as (A & B & C & D & E & _). clear HI.
  induction fuel as [|fuel IH]; intros i sol e Hi H; [discriminate|]. cbn [follow_to] in H.
  destruct (i >? -1) eqn:G.
  - destruct (rem_euclid i n1); try discriminate. cbn [rbind] in H.
    destruct (D i ltac:(lia)) as (j & Ej & Rj & S). rewrite Ej in H.
    destruct (follow_to fuel chain n1 (-1) j) as [[s e']| |] eqn:EF; try discriminate. cbn [rbind] in H. injection H as <- ->.
    apply (IH j s e); [lia|assumption].
  - injection H as <- <-. lia.
Qed.
End Follow.
End Dp.
Lemma dp_outer_long ds cs forced tol lb k : forall a costs chain r, Z.of_nat a <= 32768 ->
  dp_outer ds cs forced tol lb (seq a k) costs chain = Ok r -> Z.of_nat (a + k) <= 32768.
Proof.
  induction k as [|k IH]; intros a costs chain r Ha H; [lia|]. cbn [seq dp_outer] in H.
  destruct (Z.eq_dec (Z.of_nat a) 32768) as [E|E].
  { rewrite E in H. change (i16 32768) with (-32768) in H. rewrite chk_i16_bad in H by lia. discriminate. }
  destruct (chk_i 16 (i16 (Z.of_nat a) - 1)) as [p| |]; try discriminate. cbn [rbind] in H.
  destruct (hget p costs) as [c|]; try discriminate. cbn [unwrap rbind] in H.
  destruct (chk_i 16 (c + 1)) as [b| |]; try discriminate. cbn [rbind] in H.
  replace (a + S k)%nat with (S a + k)%nat by lia.
  destruct (zmem p forced).
  - apply (IH (S a) _ _ r ltac:(lia) H).
  - destruct (chk_i 16 _) as [j| |]; try discriminate. cbn [rbind] in H.
    destruct (chk_i 16 _) as [lo| |]; try discriminate. cbn [rbind] in H.
    destruct (dp_inner _ _ _ _ _ _ _ _ _ _ _) as [[c' h']| |]; try discriminate. cbn [rbind] in H.
    apply (IH (S a) _ _ r ltac:(lia) H).
Qed.
Lemma optimize_dp_long ds cs forced tol lb r : optimize_dp ds cs forced tol lb = Ok r -> Z.of_nat (length ds) <= 32768.
Proof.
  unfold optimize_dp. intros H. destruct (dp_outer _ _ _ _ _ _ _ _) as [[a b]| |] eqn:E; try discriminate.
  assert (Z.of_nat 0 <= 32768) as Z0 by lia. exact (dp_outer_long _ _ _ _ _ _ _ _ _ _ Z0 E).
Qed.
Lemma dp_long_first ds cs forced tol r : Z.of_nat (length ds) = 32768 -> zmem (-1) forced = false ->
  optimize_dp ds cs forced tol None <> Ok r.
Proof.
  intros E F. unfold optimize_dp. rewrite E. change (i16 32768) with (-32768).
  destruct (length ds) as [|k]; [discriminate|]. cbn [seq dp_outer]. change (i16 (Z.of_nat 0)) with 0.
  change (chk_i 16 (0 - 1)) with (Ok (A:=Z) (-1)). cbn [rbind hget Z.eqb unwrap]. 
  change (chk_i 16 (0 + 1)) with (Ok (A:=Z) 1). cbn [rbind]. rewrite F.
  change (chk_i 16 (0 - 2)) with (Ok (A:=Z) (-2)). cbn [rbind].
  change (chk_i 16 (0 - -32768)) with (Panic (A:=Z)). discriminate.
Qed.

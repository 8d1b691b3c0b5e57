(** The order of the masters, and single-axis masters. *)
From Coq Require Import QArith Qabs Lqa Lia List Permutation Sorted.
Import ListNotations.
From Verif.Model Require Import MBase MFixed MFloat MFloat32 MTag MMap MVarModel.
From Verif.Spec Require Import SFloat SVarModel.
From Verif.Proofs Require Import PMap PBase PFloat PFloat32 PScalar PVarSup PVarAlg.
Open Scope Q_scope.

Lemma packed_ok v : -1 <= val v <= 1 -> exists p, f2dot14_as_packed v = Some p.
Proof.
  intros H. unfold f2dot14_as_packed, ot_round.
  change (f32_add (f32_scale v 14) (Dy 1 (-1))) with (rnd24 (dy_add (f32_scale v 14) (Dy 1 (-1)))).
  rewrite rnd24_rndp. change f32_floor with dy_floor.
  set (x := dy_add (f32_scale v 14) (Dy 1 (-1))).
  assert (E: val x == val v * inject_Z 16384 + (1#2)).
  { unfold x. rewrite val_add. assert (E1: val (Dy 1 (-1)) == 1#2) by reflexivity. rewrite E1.
    assert (E2: val (f32_scale v 14) == val v * inject_Z 16384); [|now rewrite E2].
    unfold f32_scale. rewrite val_Dy, p2_add. change (Qpower 2 14) with (inject_Z 16384). unfold val. ring. }
  change (inject_Z 16384) with 16384 in E.
  assert (U: val (rndp 24 x) <= 32769 # 2).
  { apply rndp_le; [reflexivity| |rewrite E; lra]. exists 32769%Z, (-1)%Z. split; [reflexivity|reflexivity]. }
  assert (D: - (32768 # 1) <= val (rndp 24 x)).
  { apply rndp_ge; [reflexivity| |rewrite E; lra]. exists (-1)%Z, 15%Z. split; [reflexivity|reflexivity]. }
  destruct (floor_spec (rndp 24 x)) as [F1 F2]. set (n := dy_floor (rndp 24 x)) in *.
  assert (B1: (n <= 16384)%Z).
  { apply Z.lt_succ_r. rewrite Zlt_Qlt. change (inject_Z (Z.succ 16384)) with 16385. lra. }
  assert (B2: (-32768 <= n)%Z).
  { apply Z.lt_succ_r. rewrite Zlt_Qlt. unfold Z.succ. change (inject_Z (-32768)) with (- (32768 # 1)). lra. }
  exists n. unfold try_i, sat_i32.
  match goal with |- context [Z.max ?a ?b] => replace (Z.max a b) with n by lia end.
  match goal with |- (if ?c then _ else _) = _ => replace c with true by lia end. reflexivity.
Qed.

(** ** Comparing single-axis masters *)
Definition before (o : list tag) (t s : tag) : Prop :=
  match position t o, position s o with
  | Some i, Some j => (i < j)%nat
  | Some _, None => True
  | None, Some _ => False
  | None, None => lex_ltb t s = true
  end.
Lemma before_trans o a b c : before o a b -> before o b c -> before o a c.
Proof.
  unfold before. destruct (position a o), (position b o), (position c o); try tauto; try lia.
  intros. eapply (st_trans _ lex_strict); eassumption.
Qed.
Lemma position_inj o : forall t s i, position t o = Some i -> position s o = Some i -> t = s.
Proof.
  induction o as [|x o IH]; intros t s i; cbn [position]; [discriminate|].
  destruct (tag_eqb x t) eqn:E1, (tag_eqb x s) eqn:E2; cbn.
  - intros _ _. apply tag_eqb_iff in E1, E2. congruence.
  - intros [= <-]. destruct (position s o); discriminate.
  - intros H [= <-]. destruct (position t o); discriminate.
  - destruct (position t o) as [a|] eqn:A, (position s o) as [b|] eqn:B; try discriminate. cbn. intros [= <-] [= <-]. eauto.
Qed.
Definition le1 (o : list tag) (t : tag) (x : dyadic) (s : tag) (y : dyadic) : Prop :=
  before o t s \/ (t = s /\ ((signum x < signum y)%Z \/ (signum x = signum y /\ Qabs (val x) <= Qabs (val y)))).
Lemma le1_trans o a x b y c z : le1 o a x b y -> le1 o b y c z -> le1 o a x c z.
Proof.
  unfold le1. intros [H1|[-> H1]] [H2|[-> H2]]; auto.
  - left. eapply before_trans; eassumption.
  - right. split; [reflexivity|]. destruct H1 as [H1|[E1 H1]], H2 as [H2|[E2 H2]]; try (left; lia).
    right. split; [congruence|lra].
Qed.
Lemma signum_pos v : signum v = 1%Z <-> 0 < val v.
Proof.
  unfold signum, val. destruct (mant v) as [|m|m]; cbn [Z.sgn].
  - split; [discriminate|]. intros H. change (inject_Z 0) with 0 in H. rewrite Qmult_0_l in H. lra.
  - split; [|reflexivity]. intros _. apply Qmult_lt_0_compat; [reflexivity|]. apply p2_pos.
  - split; [discriminate|]. intros H. exfalso. pose proof (p2_pos (expo v)) as P.
    assert (N: inject_Z (Z.neg m) < 0) by reflexivity.
    assert (C: 0 < - inject_Z (Z.neg m) * Qpower 2 (expo v)) by (apply Qmult_lt_0_compat; [lra|assumption]). lra.
Qed.
Lemma signum_neg v : signum v = (-1)%Z <-> val v < 0.
Proof.
  unfold signum, val. destruct (mant v) as [|m|m]; cbn [Z.sgn].
  - split; [discriminate|]. intros H. change (inject_Z 0) with 0 in H. rewrite Qmult_0_l in H. lra.
  - split; [discriminate|]. intros H. exfalso. pose proof (p2_pos (expo v)) as P.
    assert (C: 0 < inject_Z (Z.pos m) * Qpower 2 (expo v)) by (apply Qmult_lt_0_compat; [reflexivity|assumption]). lra.
  - split; [|reflexivity]. intros _. pose proof (p2_pos (expo v)) as P.
    assert (N: inject_Z (Z.neg m) < 0) by reflexivity.
    assert (C: 0 < - inject_Z (Z.neg m) * Qpower 2 (expo v)) by (apply Qmult_lt_0_compat; [lra|assumption]). lra.
Qed.
Lemma not_gt_close a b : dy_ltb EPSILON (dy_abs (f32_sub a b)) = false -> Qabs (val a - val b) < Qpower 2 (-22).
Proof.
  intros H. apply ltb_false in H. rewrite val_abs, val_EPS in H. unfold f32_sub in H.
  pose proof (rnd_rel (dy_sub a b)) as R. rewrite val_sub in R.
  pose proof (Qabs_triangle (val (rnd24 (dy_sub a b))) ((val a - val b) - val (rnd24 (dy_sub a b)))) as T.
  setoid_replace (val (rnd24 (dy_sub a b)) + (val a - val b - val (rnd24 (dy_sub a b)))) with (val a - val b) in T by ring.
  rewrite (Qabs_Qminus (val a - val b)) in T. pose proof uu_val as U. rewrite U in R.
  assert (E: Qpower 2 (-23) == 1 # 8388608) by reflexivity. rewrite E in H.
  assert (E2: Qpower 2 (-22) == 1 # 4194304) by reflexivity. rewrite E2. lra.
Qed.
Definition nz (v : dyadic) : Prop := ~ val v == 0.
Lemma same_sign_abs x y : signum x = signum y -> nz x -> Qabs (Qabs (val x) - Qabs (val y)) == Qabs (val x - val y).
Proof.
  intros S N. destruct (Qlt_le_dec 0 (val x)) as [P|P].
  - assert (0 < val y) by (apply signum_pos; rewrite <- S; now apply signum_pos). rewrite (Qabs_pos (val x)), (Qabs_pos (val y)) by lra. reflexivity.
  - assert (M: val x < 0) by (unfold nz in N; lra).
    assert (val y < 0) by (apply signum_neg; rewrite <- S; now apply signum_neg). rewrite (Qabs_neg (val x)), (Qabs_neg (val y)) by lra.
    setoid_replace (- val x - - val y) with (- (val x - val y)) by ring. apply Qabs_opp.
Qed.

Section Single.
Variables (pts : list (tag * Z)) (o : list tag).
Variables (t s : tag) (x y : dyadic).
Hypothesis PX : on_point pts (t, x) = true.
Hypothesis PY : on_point pts (s, y) = true.
Hypothesis NX : nz x.
Hypothesis NY : nz y.
Hypothesis AP : t = s -> apart (val x) (val y).
Lemma single_get {V} (k : tag) (v : V) : bm_get lex_ltb k [(k, v)] = Some v.
Proof using Type. cbn [bm_get]. now rewrite (st_irrefl _ lex_strict). Qed.
Lemma single_cmp : let c := master_cmp pts o [(t, x)] [(s, y)] in
  (c <> Gt -> le1 o t x s y) /\ (c = Gt -> le1 o s y t x).
Proof using PX PY NX NY AP.
  unfold master_cmp. cbn [length]. rewrite Nat.compare_refl. cbn [then_cmp].
  unfold on_point_count. cbn [filter]. rewrite PX, PY. cbn [length]. rewrite Nat.compare_refl. cbn [then_cmp].
  cbn [map fst sort_by ins index_cmp]. unfold le1, before.
  destruct (position t o) as [i|] eqn:Ei, (position s o) as [j|] eqn:Ej; cbn [then_cmp].
  2,3: split; [|]; intros; auto; congruence.
  - destruct (Nat.compare_spec i j) as [C|C|C]; cbn [then_cmp]; [|split; intros; auto; congruence|split; intros; auto; congruence].
    subst j. pose proof (position_inj o t s i Ei Ej) as <-. specialize (AP eq_refl).
    cbn [tags_cmp]. unfold tag_cmp. rewrite (st_irrefl _ lex_strict). cbn [then_cmp sign_cmp abs_cmp].
    unfold loc_get. rewrite !single_get.
    destruct (Z.compare_spec (signum x) (signum y)) as [C|C|C]; cbn [then_cmp]; [|split; intros; try congruence; right; auto|split; intros; try congruence; right; auto].
    destruct (dy_ltb EPSILON (dy_abs (f32_sub (dy_abs x) (dy_abs y)))) eqn:L.
    + destruct (cmp_spec (dy_abs x) (dy_abs y)) as [K|K|K]; rewrite !val_abs in K; split; intros; try congruence; right; split; auto; right; split; auto; lra.
    + apply not_gt_close in L. rewrite !val_abs, same_sign_abs in L by assumption. destruct AP as [A|A]; [|lra].
      split; [|discriminate]. intros _. right. split; [reflexivity|]. right. split; [assumption|]. rewrite A. lra.
  - cbn [tags_cmp]. unfold tag_cmp. destruct (lex_ltb t s) eqn:L1; cbn [then_cmp]; [split; intros; auto; congruence|].
    destruct (lex_ltb s t) eqn:L2; cbn [then_cmp]; [split; intros; auto; congruence|].
    assert (E: t = s) by (now apply (st_total _ lex_strict)). specialize (AP E). subst s.
    cbn [then_cmp sign_cmp abs_cmp]. unfold loc_get. rewrite !single_get.
    destruct (Z.compare_spec (signum x) (signum y)) as [C|C|C]; cbn [then_cmp]; [|split; intros; try congruence; right; auto|split; intros; try congruence; right; auto].
    destruct (dy_ltb EPSILON (dy_abs (f32_sub (dy_abs x) (dy_abs y)))) eqn:L.
    + destruct (cmp_spec (dy_abs x) (dy_abs y)) as [K|K|K]; rewrite !val_abs in K; split; intros; try congruence; right; split; auto; right; split; auto; lra.
    + apply not_gt_close in L. rewrite !val_abs, same_sign_abs in L by assumption. destruct AP as [A|A]; [|lra].
      split; [|discriminate]. intros _. right. split; [reflexivity|]. right. split; [assumption|]. rewrite A. lra.
Qed.
End Single.

(** ** The coarse order *)
Definition coarse (o : list tag) (a b : location) : Prop :=
  (length a < length b)%nat \/ (length a = length b /\ forall t x s y, a = [(t, x)] -> b = [(s, y)] -> le1 o t x s y).
Lemma coarse_trans o a b c : coarse o a b -> coarse o b c -> coarse o a c.
Proof.
  unfold coarse. intros [H1|[E1 H1]] [H2|[E2 H2]]; try (left; lia). right. split; [congruence|].
  intros t x s y -> ->. destruct b as [|[r z] [|? ?]]; cbn in E1; try discriminate.
  eapply le1_trans; [apply H1|apply H2]; reflexivity.
Qed.
Definition fit (locs : list location) : Prop :=
  Forall smap locs /\
  (forall b t v, In b locs -> get t b = Some v -> Qpower 2 (-22) <= Qabs (val v) /\ -1 <= val v <= 1) /\
  (forall a b t v w, In a locs -> In b locs -> get t a = Some v -> get t b = Some w -> apart (val v) (val w)).
Lemma far_nz v : Qpower 2 (-22) <= Qabs (val v) -> nz v.
Proof. intros H E. rewrite E in H. vm_compute in H. congruence. Qed.
Lemma axis_points_ok locs : fit locs -> exists pts, axis_points locs = Ok pts /\ forall t v, In [(t, v)] locs -> on_point pts (t, v) = true.
Proof.
  intros (S & B & A). unfold axis_points.
  assert (G: forall l, incl l locs -> exists pts, rmapM (fun l => match l with (t, v) :: _ => p <- unwrap (f2dot14_as_packed v) ;; Ok (t, p) | [] => Panic end)
        (filter (fun l => (length l =? 1)%nat) l) = Ok pts /\ forall t v, In [(t, v)] l -> on_point pts (t, v) = true).
  { induction l as [|a l IH]; intros I; [exists []; split; [reflexivity|easy]|].
    destruct IH as (pts & E & H); [intros b Hb; apply I; now right|].
    cbn [filter]. destruct (length a =? 1)%nat eqn:La.
    - apply Nat.eqb_eq in La. destruct a as [|[t v] [|? ?]]; try discriminate.
      destruct (packed_ok v) as [p Hp]. { apply (B [(t, v)] t v); [apply I; now left|apply single_get]. }
      cbn [rmapM]. rewrite Hp. cbn [unwrap rbind]. rewrite E. cbn [rbind]. exists ((t, p) :: pts). split; [reflexivity|].
      intros t' v' [F|F].
      + injection F as <- <-. unfold on_point. cbn [existsb fst snd]. rewrite tag_eqb_refl, Hp, Z.eqb_refl. reflexivity.
      + unfold on_point in *. cbn [existsb]. rewrite (H t' v' F). apply orb_true_r.
    - exists pts. split; [exact E|]. intros t v [F|F]; [subst; discriminate|]. now apply H. }
  apply (G locs). apply incl_refl.
Qed.
Lemma coarse_cmp locs pts o a b : fit locs -> (forall t v, In [(t, v)] locs -> on_point pts (t, v) = true) -> In a locs -> In b locs ->
  (master_cmp pts o a b <> Gt -> coarse o a b) /\ (master_cmp pts o a b = Gt -> coarse o b a).
Proof.
  intros (S & B & A) HP Ha Hb. unfold coarse. destruct (Nat.compare_spec (length a) (length b)) as [E|E|E].
  - assert (D: length a <> 1%nat \/ exists t x s y, a = [(t, x)] /\ b = [(s, y)]).
    { destruct a as [|[t x] [|? ?]]; [left; discriminate| |left; discriminate]. destruct b as [|[s y] [|? ?]]; try discriminate. right. exists t, x, s, y. auto. }
    destruct D as [D|(t & x & s & y & -> & ->)].
    + split; intros _; right; (split; [lia|]); intros t x s y -> ->; [destruct D; reflexivity|]. cbn in E, D. lia.
    + destruct (B _ t x Ha (single_get t x)) as [Zx _]. destruct (B _ s y Hb (single_get s y)) as [Zy _].
      destruct (single_cmp pts o t s x y (HP _ _ Ha) (HP _ _ Hb) (far_nz _ Zx) (far_nz _ Zy)) as [C1 C2].
      { intros <-. exact (A _ _ t x y Ha Hb (single_get t x) (single_get t y)). }
      split; intros H; right; (split; [reflexivity|]); intros t' x' s' y' Ea Eb; injection Ea as <- <-; injection Eb as <- <-; auto.
  - unfold master_cmp. replace (Nat.compare (length a) (length b)) with Lt by (symmetry; now apply Nat.compare_lt_iff). cbn [then_cmp]. split; [|discriminate]. auto.
  - unfold master_cmp. replace (Nat.compare (length a) (length b)) with Gt by (symmetry; now apply Nat.compare_gt_iff). cbn [then_cmp]. split; [congruence|]. auto.
Qed.

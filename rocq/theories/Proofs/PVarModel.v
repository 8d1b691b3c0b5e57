(** The variation model: masters are recovered. *)
From Coq Require Import QArith Qabs Lqa Lia List Permutation Sorted.
Import ListNotations.
From Verif.Model Require Import MBase MFixed MFloat MFloat32 MTag MMap MVarModel.
From Verif.Spec Require Import SFloat SVarModel.
From Verif.Proofs Require Import PMap PBase PFloat PFloat32 PScalar PVarSup PVarAlg PVarSort.
Open Scope Q_scope.

(** ** Single-axis masters on the same side *)
Definition inner (x : dyadic) (sup : support) (t : tag) (y : dyadic) : Prop :=
  exists l u, get t sup = Some (l, y, u) /\ (0 < val y -> val x <= val l) /\ (val y < 0 -> val u <= val x).
Lemma only_key (c : location) t : smap c -> (forall k v, In (k, v) c -> k = t) -> get t c <> None -> exists z, c = [(t, z)].
Proof.
  intros S H N. destruct c as [|[k z] [|[k' z'] c]]; [easy| |].
  - rewrite (H k z (or_introl eq_refl)). eauto.
  - exfalso. rewrite (H k z (or_introl eq_refl)), (H k' z' (or_intror (or_introl eq_refl))) in S.
    unfold sorted_map, sorted_keys in S. cbn [map fst] in S. apply StronglySorted_inv in S. destruct S as [_ F]. inversion F as [|? ? F1 _].
    now rewrite (st_irrefl _ lex_strict) in F1.
Qed.
Lemma best_up t y l u z pl pu : val z < val y -> val l <= val z -> val l < val y ->
  best_axes [(t, (l, y, u))] [(t, (pl, z, pu))] [] (Dy (-1) 0) = [(t, (z, y, u))].
Proof.
  intros H1 H2 H3. cbn [best_axes]. rewrite single_get.
  replace (dy_ltb z y) with true by (symmetry; now apply ltb_iff).
  destruct (ratio_down (dy_sub z y) (dy_sub l y) (val y - val z) (val y - val l)) as (R0 & _); try (rewrite val_sub; ring); try lra.
  change (f32_div (f32_sub z y) (f32_sub l y)) with (f32_div (rnd24 (dy_sub z y)) (rnd24 (dy_sub l y))).
  replace (dy_ltb (Dy (-1) 0) (f32_div (rnd24 (dy_sub z y)) (rnd24 (dy_sub l y)))) with true.
  2:{ symmetry. apply ltb_iff. assert (E: val (Dy (-1) 0) == -1) by reflexivity. rewrite E. lra. }
  rewrite near_self by reflexivity. reflexivity.
Qed.
Lemma best_down t y l u z pl pu : val y < val z -> val z <= val u -> val y < val u ->
  best_axes [(t, (l, y, u))] [(t, (pl, z, pu))] [] (Dy (-1) 0) = [(t, (l, y, z))].
Proof.
  intros H1 H2 H3. cbn [best_axes]. rewrite single_get.
  replace (dy_ltb z y) with false by (symmetry; apply ltb_false; lra).
  replace (dy_ltb y z) with true by (symmetry; now apply ltb_iff).
  destruct (ratio_up (dy_sub z y) (dy_sub u y) (val z - val y) (val u - val y)) as (R0 & _); try (rewrite val_sub; ring); try lra.
  change (f32_div (f32_sub z y) (f32_sub u y)) with (f32_div (rnd24 (dy_sub z y)) (rnd24 (dy_sub u y))).
  replace (dy_ltb (Dy (-1) 0) (f32_div (rnd24 (dy_sub z y)) (rnd24 (dy_sub u y)))) with true.
  2:{ symmetry. apply ltb_iff. assert (E: val (Dy (-1) 0) == -1) by reflexivity. rewrite E. lra. }
  rewrite near_self by reflexivity. reflexivity.
Qed.
Lemma best_same t y l u z pl pu : val y == val z -> best_axes [(t, (l, y, u))] [(t, (pl, z, pu))] [] (Dy (-1) 0) = [].
Proof.
  intros H. cbn [best_axes]. rewrite single_get.
  replace (dy_ltb z y) with false by (symmetry; apply ltb_false; lra).
  now replace (dy_ltb y z) with false by (symmetry; apply ltb_false; lra).
Qed.

Lemma sorted_nth o : forall (l : list location) a b, StronglySorted (coarse o) l -> (a < b)%nat -> (b < length l)%nat -> coarse o (nth a l []) (nth b l []).
Proof.
  induction l as [|z l IH]; intros a b S Hab Hb; [cbn in Hb; lia|]. apply StronglySorted_inv in S. destruct S as [S F].
  destruct b as [|b]; [lia|]. destruct a as [|a]; cbn [nth].
  - rewrite Forall_forall in F. apply F. apply nth_In. cbn in Hb. lia.
  - apply IH; [assumption|lia|cbn in Hb; lia].
Qed.

Section Axis.
Variables (o : list tag) (locs : list location).
Hypothesis FIT : fit locs.
Hypothesis SS : StronglySorted (coarse o) locs.
Variables (i j : nat) (t : tag) (x y : dyadic).
Hypothesis Hij : (i < j)%nat.
Hypothesis Hj : (j < length locs)%nat.
Hypothesis Ei : nth i locs [] = [(t, x)].
Hypothesis Ej : nth j locs [] = [(t, y)].
Hypothesis SG : signum x = signum y.
Hypothesis NE : ~ val x == val y.
Let R := region_of locs [(t, y)].
Lemma AZ' : forall b t v, In b locs -> get t b = Some v -> Qpower 2 (-22) <= Qabs (val v).
Proof using FIT. destruct FIT as (_ & B & _). intros; eapply B; eassumption. Qed.
(** between i and j, a master on this axis and side lies between x and y *)
Lemma le1_same a b : le1 o t a t b -> signum a = signum b -> Qabs (val a) <= Qabs (val b).
Proof using Type.
  clear Hij Hj. intros [H|[_ [H|[_ H]]]] E; [|lia|exact H]. unfold before in H.
  destruct (position t o); [lia|]. now rewrite (st_irrefl _ lex_strict) in H.
Qed.
Lemma axis_step k copy : (i <= k < j)%nat -> inner x copy t y \/ k = i -> inner x (MVarModel.split R copy (region_of locs (nth k locs []))) t y.
Proof using All.
  intros Hk HC. set (c := nth k locs []).
  assert (Hc: In c locs) by (apply nth_In; lia).
  assert (HJ: In [(t, y)] locs) by (rewrite <- Ej; now apply nth_In).
  assert (HI: In [(t, x)] locs) by (rewrite <- Ei; apply nth_In; lia).
  assert (Sc: smap c) by (destruct FIT as (S & _); rewrite Forall_forall in S; now apply S).
  pose proof (AZ' _ t y HJ (single_get t y)) as Zy. pose proof (AZ' _ t x HI (single_get t x)) as Zx.
  pose proof (tent_proper locs AZ' _ t y HJ (single_get t y)) as Py.
  assert (ER: R = [(t, tent_at locs t y)]) by reflexivity.
  assert (TY: tent_at locs t y = (dy0, y, extreme dy_max (axis_values t locs)) /\ 0 < val y \/ tent_at locs t y = (extreme dy_min (axis_values t locs), y, dy0) /\ val y < 0).
  { unfold tent_at, proper in *. destruct (dy_ltb dy0 y) eqn:L; [left|right]; (split; [reflexivity|]).
    - now apply ltb_iff in L.
    - apply ltb_false in L. rewrite val_dy0 in *. lra. }
  assert (XY: (0 < val y /\ 0 < val x /\ val x < val y) \/ (val y < 0 /\ val x < 0 /\ val y < val x)).
  { assert (A: Qabs (val x) <= Qabs (val y)).
    { apply le1_same; [|exact SG]. pose proof (sorted_nth o locs i j SS Hij Hj) as C. rewrite Ei, Ej in C. unfold coarse in C. destruct C as [C|[_ C]]; [cbn in C; lia|]. now apply C. }
    destruct TY as [[_ P]|[_ P]]; [left|right].
    - assert (0 < val x) by (apply signum_pos; rewrite SG; now apply signum_pos). rewrite !Qabs_pos in A by lra. lra.
    - assert (val x < 0) by (apply signum_neg; rewrite SG; now apply signum_neg). rewrite !Qabs_neg in A by lra. lra. }
  unfold MVarModel.split. destruct (forallb _ _ && relevant R (region_of locs c)) eqn:Cd.
  - apply andb_true_iff in Cd. destruct Cd as [K Rl].
    destruct (only_key c t Sc) as [z Ec].
    { intros k0 v Hv. rewrite forallb_forall in K.
      assert (Hv': In (k0, tent_at locs k0 v) (region_of locs c)) by (unfold region_of; apply in_map_iff; exists (k0, v); auto).
      specialize (K _ Hv'). rewrite ER in K. unfold has_key in K. cbn [existsb fst] in K. rewrite orb_false_r in K. apply tag_eqb_iff in K. congruence. }
    { intros N. unfold relevant in Rl. rewrite ER in Rl. cbn [forallb fst snd] in Rl. rewrite region_get, N in Rl. cbn [option_map] in Rl.
      now destruct (tent_at locs t y) as [[? ?] ?]. }
    pose proof (relevant_same locs AZ' [(t, y)] c t y z HJ Hc Sc Rl (single_get t y)) as RS. rewrite Ec in RS. specialize (RS (single_get t z)).
    assert (SZ: signum z = signum y).
    { destruct RS as [[? ?]|[? ?]]; [transitivity 1%Z; [now apply signum_pos|symmetry; now apply signum_pos]|transitivity (-1)%Z; [now apply signum_neg|symmetry; now apply signum_neg]]. }
    assert (XZ: Qabs (val x) <= Qabs (val z)).
    { destruct (Nat.eq_dec k i) as [->|Nk].
      - unfold c in Ec. rewrite Ei in Ec. injection Ec as <-. lra.
      - apply le1_same; [|congruence]. assert (Hik: (i < k)%nat) by lia. assert (Hkl: (k < length locs)%nat) by lia.
        pose proof (sorted_nth o locs i k SS Hik Hkl) as C. fold c in C. rewrite Ei, Ec in C. destruct C as [C|[_ C]]; [cbn in C; lia|]. now apply C. }
    assert (ZY: Qabs (val z) <= Qabs (val y)).
    { apply le1_same; [|congruence]. destruct Hk as [_ Hk]. pose proof (sorted_nth o locs k j SS Hk Hj) as C. fold c in C. rewrite Ej, Ec in C. destruct C as [C|[_ C]]; [cbn in C; lia|]. now apply C. }
    rewrite Ec. change (region_of locs [(t, z)]) with [(t, tent_at locs t z)]. rewrite ER.
    assert (TZ: exists pl pu, tent_at locs t z = (pl, z, pu)) by (unfold tent_at; destruct (dy_ltb dy0 z); eauto). destruct TZ as (pl & pu & ->).
    destruct (Qeq_dec (val y) (val z)) as [EQ|NQ].
    + destruct (tent_at locs t y) as [[l0 y0] u0] eqn:TE. assert (y0 = y) by (unfold tent_at in TE; destruct (dy_ltb dy0 y); congruence). subst y0.
      rewrite best_same by exact EQ. cbn [fold_left]. destruct HC as [HC|HC]; [exact HC|].
      subst k. unfold c in Ec. rewrite Ei in Ec. injection Ec as <-. exfalso. apply NE. now symmetry.
    + destruct TY as [[-> P]|[-> P]].
      * rewrite (Qabs_pos (val x)), (Qabs_pos (val z)) in XZ by lra. rewrite (Qabs_pos (val z)), (Qabs_pos (val y)) in ZY by lra.
        rewrite best_up by (try rewrite val_dy0; lra). cbn [fold_left fst snd]. exists z, (extreme dy_max (axis_values t locs)).
        rewrite (get_insert_same lex_ltb lex_strict). split; [reflexivity|]. split; lra.
      * rewrite (Qabs_neg (val x)), (Qabs_neg (val z)) in XZ by lra. rewrite (Qabs_neg (val z)), (Qabs_neg (val y)) in ZY by lra.
        rewrite best_down by (try rewrite val_dy0; lra). cbn [fold_left fst snd]. exists (extreme dy_min (axis_values t locs)), z.
        rewrite (get_insert_same lex_ltb lex_strict). split; [reflexivity|]. split; lra.
  - destruct HC as [HC|HC]; [exact HC|]. exfalso. subst k. unfold c in Cd. rewrite Ei in Cd.
    change (region_of locs [(t, x)]) with [(t, tent_at locs t x)] in Cd. rewrite ER in Cd.
    cbn [forallb fst snd has_key existsb] in Cd. rewrite tag_eqb_refl in Cd. cbn [orb andb] in Cd.
    unfold relevant in Cd. cbn [forallb fst snd] in Cd. rewrite single_get in Cd.
    assert (TX: exists pl pu, tent_at locs t x = (pl, x, pu)) by (unfold tent_at; destruct (dy_ltb dy0 x); eauto). destruct TX as (pl & pu & TX). rewrite TX in Cd.
    rewrite andb_true_r in Cd.
    destruct TY as [[E P]|[E P]]; rewrite E in Cd, Py; apply orb_false_iff in Cd; destruct Cd as [_ Cd]; unfold proper in Py; rewrite val_dy0 in Py; apply andb_false_iff in Cd; destruct Cd as [Cd|Cd]; apply ltb_false in Cd; rewrite ?val_dy0 in Cd; lra.
Qed.
Lemma axis_inner : inner x (nth j (master_supports locs) []) t y.
Proof using All.
  rewrite supports_nth by exact Hj. rewrite Ej. fold R.
  assert (G: forall m, (i < m <= j)%nat -> inner x (fold_left (MVarModel.split R) (firstn m (map (region_of locs) locs)) R) t y).
  { induction m as [|m IH]; intros Hm; [lia|].
    assert (F: firstn (S m) (map (region_of locs) locs) = firstn m (map (region_of locs) locs) ++ [region_of locs (nth m locs [])]).
    { rewrite !firstn_map. change ([region_of locs (nth m locs [])]) with (map (region_of locs) [nth m locs []]).
      rewrite <- map_app. f_equal. assert (Hm': (m < length locs)%nat) by lia. clear - Hm'. revert m Hm'. induction locs as [|a l IH]; intros m H; [cbn in H; lia|].
      destruct m; [reflexivity|]. cbn [nth]. change (firstn (S (S m)) (a :: l)) with (a :: firstn (S m) l). rewrite IH by (cbn in H; lia). reflexivity. }
    rewrite F, fold_left_app. cbn [fold_left]. apply axis_step; [lia|].
    destruct (Nat.eq_dec m i) as [->|Nm]; [now right|]. left. apply IH. lia. }
  apply G. lia.
Qed.
Lemma axis_scalar loc : coord t loc == val x -> support_scalar loc (nth j (master_supports locs) []) = dy0.
Proof using All.
  intros E. destruct axis_inner as (l & u & G & I1 & I2).
  assert (SM: Forall smap locs) by (destruct FIT; assumption).
  pose proof (sup_proper locs SM j Hj AZ' _ _ G) as P. unfold proper in P.
  apply (scalar_outside loc _ t l y u).
  - now apply (get_In lex_ltb lex_strict).
  - unfold ignored. lra.
  - rewrite E. destruct FIT as (_ & _ & A).
    destruct (A [(t, x)] [(t, y)] t x y) as [A1|A1]; try apply single_get; try easy.
    + rewrite <- Ei. apply nth_In. lia.
    + rewrite <- Ej. now apply nth_In.
    + assert (E1: Qpower 2 (-22) == 1 # 4194304) by reflexivity. assert (E2: Qpower 2 (-23) == 1 # 8388608) by reflexivity. rewrite E2. rewrite E1 in A1. lra.
  - rewrite E. lra.
Qed.
End Axis.

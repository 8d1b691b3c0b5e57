(** The regions the variation model gives its masters. *)
From Coq Require Import QArith Qabs Lqa Lia List Permutation Sorted.
Import ListNotations.
From Verif.Model Require Import MBase MFixed MFloat MFloat32 MTag MMap MVarModel.
From Verif.Spec Require Import SFloat SVarModel.
From Verif.Proofs Require Import PMap PFloat PFloat32 PScalar.
Open Scope Q_scope.

Notation get := (bm_get lex_ltb).
Notation smap := (sorted_map lex_ltb).

Lemma tag_eqb_iff a b : tag_eqb a b = true <-> a = b.
Proof. unfold tag_eqb. rewrite negb_true_iff. apply (eq_case lex_ltb lex_strict). Qed.
Lemma tag_eqb_refl a : tag_eqb a a = true.
Proof. now apply tag_eqb_iff. Qed.
Lemma nth_sorted (l : list (list Z)) : (forall i j a b, (i < j)%nat -> nth_error l i = Some a -> nth_error l j = Some b -> lex_ltb a b = true) ->
  StronglySorted (fun a b => lex_ltb a b = true) l.
Proof.
  induction l as [|x l IH]; intros H; [constructor|]. constructor.
  - apply IH. intros i j a b Hij Ha Hb. apply (H (S i) (S j) a b); [lia|assumption|assumption].
  - rewrite Forall_forall. intros y Hy. apply In_nth_error in Hy. destruct Hy as [j Hj]. apply (H 0%nat (S j)); [lia|reflexivity|assumption].
Qed.
Lemma keyed_smap a : keyed a -> smap a.
Proof. intros H. apply nth_sorted. exact H. Qed.

(** ** Pruning *)
Lemma prune_in t v a : In (t, v) (prune a) <-> In (t, v) a /\ ~ val v == 0.
Proof.
  unfold prune. rewrite filter_In. cbn [snd]. rewrite negb_true_iff. rewrite <- not_true_iff_false, eqb_iff, val_dy0. tauto.
Qed.
Lemma smap_filter {V} (f : tag * V -> bool) (a : list (tag * V)) : smap a -> smap (filter f a).
Proof.
  unfold sorted_map, sorted_keys. induction a as [|[k v] a IH]; cbn [map filter fst]; intros H; [constructor|].
  apply StronglySorted_inv in H. destruct H as [H F]. destruct (f (k, v)); [|now apply IH].
  cbn [map fst]. constructor; [now apply IH|]. rewrite Forall_forall in F |- *. intros x Hx. apply F.
  apply in_map_iff in Hx. destruct Hx as (y & <- & Hy). apply filter_In in Hy. now apply in_map.
Qed.
Lemma prune_smap a : smap a -> smap (prune a).
Proof. apply smap_filter. Qed.
Lemma prune_get t v a : smap a -> get t (prune a) = Some v <-> get t a = Some v /\ ~ val v == 0.
Proof.
  intros S. split.
  - intros H. apply (get_In lex_ltb lex_strict) in H. apply prune_in in H. destruct H. split; [now apply (In_get lex_ltb lex_strict)|assumption].
  - intros [H N]. apply (In_get lex_ltb lex_strict); [now apply prune_smap|]. apply prune_in. split; [now apply (get_In lex_ltb lex_strict)|assumption].
Qed.
Lemma prune_coord t a : smap a -> coord t (prune a) == coord t a.
Proof.
  intros S. unfold coord, loc_get. destruct (get t (prune a)) as [v|] eqn:E.
  - apply prune_get in E; [|assumption]. destruct E as [E _]. now rewrite E.
  - destruct (get t a) as [v|] eqn:E2; [|reflexivity]. destruct (Qeq_dec (val v) 0) as [Z|N]; [now rewrite Z|].
    assert (C: get t (prune a) = Some v) by (apply prune_get; auto). congruence.
Qed.
Lemma coord_get t a v : get t a = Some v -> coord t a = val v.
Proof. unfold coord, loc_get. now intros ->. Qed.
Lemma coord_none t a : get t a = None -> coord t a == 0.
Proof. unfold coord, loc_get. now intros ->. Qed.
Lemma moved_prune t a : smap a -> moved a t <-> exists v, get t (prune a) = Some v.
Proof.
  intros S. unfold moved. rewrite <- (prune_coord t a S). split.
  - intros H. destruct (get t (prune a)) as [v|] eqn:E; [eauto|]. destruct H. now apply coord_none.
  - intros [v E]. rewrite (coord_get _ _ _ E). apply prune_get in E; tauto.
Qed.

(** ** Regions *)
Definition tent_at (locs : list location) (t : tag) (v : dyadic) : tent :=
  if dy_ltb dy0 v then (dy0, v, extreme dy_max (axis_values t locs)) else (extreme dy_min (axis_values t locs), v, dy0).
Lemma region_keys locs a : map fst (region_of locs a) = map fst a.
Proof. unfold region_of. rewrite map_map. now apply map_ext. Qed.
Lemma region_smap locs a : smap a -> smap (region_of locs a).
Proof. unfold sorted_map. now rewrite region_keys. Qed.
Lemma region_get locs a t : get t (region_of locs a) = option_map (tent_at locs t) (get t a).
Proof.
  induction a as [|[k v] a IH]; [reflexivity|]. cbn [region_of map bm_get fst snd]. fold (region_of locs a).
  destruct (lex_ltb t k || lex_ltb k t) eqn:E; [exact IH|].
  apply (eq_case lex_ltb lex_strict) in E. subst. reflexivity.
Qed.
Lemma extreme_max l v : In v l -> val v <= val (extreme dy_max l).
Proof.
  destruct l as [|x l]; [easy|]. cbn [extreme]. revert x.
  assert (M: forall (l : list dyadic) x, val x <= val (fold_left dy_max l x)).
  { induction l0 as [|y l0 IH]; intros x; cbn [fold_left]; [apply Qle_refl|]. eapply Qle_trans; [|apply IH].
    unfold dy_max. destruct (dy_leb x y) eqn:E; [now apply leb_iff|apply Qle_refl]. }
  induction l as [|y l IH]; intros x [->|H]; cbn [fold_left].
  - apply Qle_refl.
  - easy.
  - eapply Qle_trans; [|apply M]. unfold dy_max. destruct (dy_leb v y) eqn:E; [now apply leb_iff|apply Qle_refl].
  - destruct H as [->|H].
    + eapply Qle_trans; [|apply M]. unfold dy_max. destruct (dy_leb x v) eqn:E; [apply Qle_refl|]. apply leb_false in E. lra.
    + apply IH. now right.
Qed.
Lemma extreme_min l v : In v l -> val (extreme dy_min l) <= val v.
Proof.
  destruct l as [|x l]; [easy|]. cbn [extreme]. revert x.
  assert (M: forall (l : list dyadic) x, val (fold_left dy_min l x) <= val x).
  { induction l0 as [|y l0 IH]; intros x; cbn [fold_left]; [apply Qle_refl|]. eapply Qle_trans; [apply IH|].
    unfold dy_min. destruct (dy_leb x y) eqn:E; [apply Qle_refl|apply leb_false in E; lra]. }
  induction l as [|y l IH]; intros x [->|H]; cbn [fold_left].
  - apply Qle_refl.
  - easy.
  - eapply Qle_trans; [apply M|]. unfold dy_min. destruct (dy_leb v y) eqn:E; [apply Qle_refl|apply leb_false in E; lra].
  - destruct H as [->|H].
    + eapply Qle_trans; [apply M|]. unfold dy_min. destruct (dy_leb x v) eqn:E; [now apply leb_iff|]. apply Qle_refl.
    + apply IH. now right.
Qed.
Lemma in_axis_values locs a t v : In a locs -> get t a = Some v -> In v (axis_values t locs).
Proof.
  intros Ha Hv. unfold axis_values. apply in_map_iff. exists (t, v). split; [reflexivity|]. apply filter_In. split.
  - apply in_concat. exists a. split; [assumption|now apply (get_In lex_ltb lex_strict)].
  - apply tag_eqb_refl.
Qed.

(** ** What splitting keeps *)
Lemma fold_insert_keep (P : tag -> tent -> Prop) : forall best copy,
  (forall t x, In (t, x) best -> P t x) -> (forall t x, get t copy = Some x -> P t x) ->
  forall t x, get t (fold_left (fun m kv => bm_insert lex_ltb (fst kv) (snd kv) m) best copy) = Some x -> P t x.
Proof.
  induction best as [|[k y] best IH]; intros copy HB HC; [exact HC|]. cbn [fold_left fst snd]. apply IH.
  - intros; apply HB; now right.
  - intros t x. rewrite (get_insert lex_ltb lex_strict). destruct (lex_ltb k t || lex_ltb t k) eqn:E; [apply HC|].
    apply (eq_case lex_ltb lex_strict) in E. subst. intros [= <-]. apply HB. now left.
Qed.
Lemma fold_insert_has : forall (best copy : support) t, get t copy <> None ->
  get t (fold_left (fun m kv => bm_insert lex_ltb (fst kv) (snd kv) m) best copy) <> None.
Proof.
  induction best as [|[k y] best IH]; intros copy t H; [exact H|]. cbn [fold_left fst snd]. apply IH.
  rewrite (get_insert lex_ltb lex_strict). now destruct (lex_ltb k t || lex_ltb t k).
Qed.
Lemma fold_insert_smap : forall (best copy : support), smap copy ->
  smap (fold_left (fun m kv => bm_insert lex_ltb (fst kv) (snd kv) m) best copy).
Proof.
  induction best as [|[k y] best IH]; intros copy H; [exact H|]. cbn [fold_left fst snd]. apply IH. now apply (insert_sorted lex_ltb lex_strict).
Qed.
Lemma bm_insert_in (k : tag) (y : tent) m t x : In (t, x) (bm_insert lex_ltb k y m) -> (t, x) = (k, y) \/ In (t, x) m.
Proof.
  induction m as [|[k' y'] m IH]; cbn [bm_insert]; [intros [H|[]]; auto|].
  destruct (lex_ltb k k'); [intros [H|H]; auto|]. destruct (lex_ltb k' k).
  - intros [H|H]; [right; now left|]. destruct (IH H); auto. right; now right.
  - intros [H|H]; auto. right; now right.
Qed.
(** each entry comes from one axis of the earlier region *)
Lemma best_axes_in region : forall prev best ratio t x, In (t, x) (best_axes region prev best ratio) ->
  In (t, x) best \/ exists pl v pu l p u, In (t, (pl, v, pu)) prev /\ get t region = Some (l, p, u) /\
    ((val v < val p /\ x = (v, p, u)) \/ (val p < val v /\ x = (l, p, v))).
Proof.
  induction prev as [|[k [[pl v] pu]] prev IH]; intros best ratio t x H; [now left|]. cbn [best_axes] in H.
  destruct (get k region) as [[[l p] u]|] eqn:G.
  2:{ destruct (IH _ _ _ _ H) as [?|(a & b & c & d & e & f & I & R)]; [now left|]. right. exists a, b, c, d, e, f. split; [now right|exact R]. }
  assert (K: forall (nl nu r : dyadic) best',
      In (t, x) (best_axes region prev (if near r (snd (if dy_ltb ratio r then ([], r) else (best, ratio)))
                 then bm_insert lex_ltb k (nl, p, nu) (fst (if dy_ltb ratio r then ([], r) else (best, ratio))) else fst (if dy_ltb ratio r then ([], r) else (best, ratio))) best') ->
      In (t, x) best \/ (t, x) = (k, (nl, p, nu)) \/ exists pl v pu l p u, In (t, (pl, v, pu)) prev /\ get t region = Some (l, p, u) /\
    ((val v < val p /\ x = (v, p, u)) \/ (val p < val v /\ x = (l, p, v)))).
  { intros nl nu r b' H'. destruct (IH _ _ _ _ H') as [I|I]; [|tauto].
    assert (In (t, x) (fst (if dy_ltb ratio r then ([], r) else (best, ratio))) -> In (t, x) best) by (destruct (dy_ltb ratio r); cbn; tauto).
    destruct (near _ _); [apply bm_insert_in in I|]; tauto. }
  assert (W: forall (Q : Prop), (exists pl v pu l p u, In (t, (pl, v, pu)) prev /\ get t region = Some (l, p, u) /\
    ((val v < val p /\ x = (v, p, u)) \/ (val p < val v /\ x = (l, p, v)))) -> Q \/ exists pl0 v0 pu0 l p u, In (t, (pl0, v0, pu0)) ((k, (pl, v, pu)) :: prev) /\ get t region = Some (l, p, u) /\
    ((val v0 < val p /\ x = (v0, p, u)) \/ (val p < val v0 /\ x = (l, p, v0)))).
  { intros Q (a & b & c & d & e & f & I & R). right. exists a, b, c, d, e, f. split; [now right|exact R]. }
  destruct (dy_ltb v p) eqn:L1.
  - destruct (if dy_ltb ratio _ then _ else _) as [b r'] eqn:EB in H.
    destruct (K v u (f32_div (f32_sub v p) (f32_sub l p)) r') as [I|[I|I]]; [rewrite EB; exact H|now left| |now apply W].
    injection I as -> ->. right. exists pl, v, pu, l, p, u. split; [now left|]. split; [assumption|]. left. apply ltb_iff in L1. auto.
  - destruct (dy_ltb p v) eqn:L2.
    + destruct (if dy_ltb ratio _ then _ else _) as [b r'] eqn:EB in H.
      destruct (K l v (f32_div (f32_sub v p) (f32_sub u p)) r') as [I|[I|I]]; [rewrite EB; exact H|now left| |now apply W].
      injection I as -> ->. right. exists pl, v, pu, l, p, u. split; [now left|]. split; [assumption|]. right. apply ltb_iff in L2. auto.
    + destruct (IH _ _ _ _ H) as [?|?]; [now left|now apply W].
Qed.

Lemma split_keep (P : tag -> tent -> Prop) region prev copy :
  (forall pl v pu t l p u, relevant region prev = true -> In (t, (pl, v, pu)) prev -> get t region = Some (l, p, u) ->
     (val v < val p -> P t (v, p, u)) /\ (val p < val v -> P t (l, p, v))) ->
  (forall t x, get t copy = Some x -> P t x) -> forall t x, get t (split region copy prev) = Some x -> P t x.
Proof.
  intros HP HC. unfold split. destruct (forallb _ prev); [|exact HC]. cbn [andb]. destruct (relevant region prev) eqn:R; [|exact HC].
  apply fold_insert_keep; [|exact HC]. intros t x H. apply best_axes_in in H. destruct H as [[]|(pl & v & pu & l & p & u & I & G & D)].
  destruct (HP pl v pu t l p u eq_refl I G) as [D1 D2]. destruct D as [[L ->]|[L ->]]; auto.
Qed.
Lemma folds_keep (P : tag -> tent -> Prop) region : forall prevs copy,
  (forall prev pl v pu t l p u, In prev prevs -> relevant region prev = true -> In (t, (pl, v, pu)) prev -> get t region = Some (l, p, u) ->
     (val v < val p -> P t (v, p, u)) /\ (val p < val v -> P t (l, p, v))) ->
  (forall t x, get t copy = Some x -> P t x) -> forall t x, get t (fold_left (split region) prevs copy) = Some x -> P t x.
Proof.
  induction prevs as [|prev prevs IH]; intros copy HP HC; [exact HC|]. cbn [fold_left]. apply IH.
  - intros; eapply HP; try eassumption. now right.
  - apply split_keep; [|exact HC]. intros; eapply HP; try eassumption. now left.
Qed.
Lemma split_has region prev copy t : get t copy <> None -> get t (split region copy prev) <> None.
Proof. intros H. unfold split. destruct (_ && _); [now apply fold_insert_has|exact H]. Qed.
Lemma folds_has region : forall prevs copy t, get t copy <> None -> get t (fold_left (split region) prevs copy) <> None.
Proof. induction prevs as [|prev prevs IH]; intros copy t H; [exact H|]. cbn [fold_left]. apply IH. now apply split_has. Qed.
Lemma split_smap region prev copy : smap copy -> smap (split region copy prev).
Proof. intros H. unfold split. destruct (_ && _); [now apply fold_insert_smap|exact H]. Qed.
Lemma folds_smap region : forall prevs copy, smap copy -> smap (fold_left (split region) prevs copy).
Proof. induction prevs as [|prev prevs IH]; intros copy H; [exact H|]. cbn [fold_left]. apply IH. now apply split_smap. Qed.

(** ** The supports *)
Lemma supports_length locs : length (master_supports locs) = length locs.
Proof. unfold master_supports. now rewrite map_length, seq_length. Qed.
Lemma supports_nth locs i : (i < length locs)%nat ->
  nth i (master_supports locs) [] = fold_left (split (region_of locs (nth i locs []))) (firstn i (map (region_of locs) locs)) (region_of locs (nth i locs [])).
Proof.
  intros H. unfold master_supports. cbv zeta.
  match goal with |- context [map ?f (seq 0 _)] => rewrite (nth_indep _ _ (f 0%nat)) by (rewrite map_length, seq_length; assumption); rewrite (map_nth f) end.
  rewrite seq_nth by assumption. cbn [Nat.add].
  rewrite (nth_indep _ _ (region_of locs [])) by (rewrite map_length; assumption). now rewrite (map_nth (region_of locs)).
Qed.
Section Sup.
Variable locs : list location.
Hypothesis SM : Forall smap locs.
Variable i : nat.
Hypothesis Hi : (i < length locs)%nat.
Let a := nth i locs [].
Let sup := nth i (master_supports locs) [].
Lemma loc_smap : smap a.
Proof using Hi SM. rewrite Forall_forall in SM. apply SM. now apply nth_In. Qed.
Lemma sup_smap : smap sup.
Proof using Hi SM. unfold sup. rewrite supports_nth by exact Hi. apply folds_smap, region_smap, loc_smap. Qed.
(** the peak is the coordinate of the master *)
Lemma sup_peak t l p u : get t sup = Some (l, p, u) -> get t a = Some p.
Proof using Hi SM.
  unfold sup. rewrite supports_nth by exact Hi. fold a. intros H.
  apply (folds_keep (fun t x => get t a = Some (snd (fst x)))) in H; [exact H| |].
  - intros prev pl v pu t0 l0 p0 u0 _ _ _ G. rewrite region_get in G. destruct (get t0 a) as [w|] eqn:E; [|discriminate].
    cbn [option_map] in G. cbn [fst snd]. assert (p0 = w) by (unfold tent_at in G; destruct (dy_ltb dy0 w); congruence). subst. auto.
  - intros t0 x G. rewrite region_get in G. destruct (get t0 a) as [w|]; [|discriminate]. cbn [option_map] in G. injection G as <-.
    unfold tent_at. now destruct (dy_ltb dy0 w).
Qed.
Lemma sup_has t v : get t a = Some v -> exists l u, get t sup = Some (l, v, u).
Proof using Hi SM.
  intros H. assert (N: get t sup <> None).
  { unfold sup. rewrite supports_nth by exact Hi. fold a. apply folds_has. rewrite region_get, H. discriminate. }
  destruct (get t sup) as [[[l p] u]|] eqn:E; [|easy]. pose proof (sup_peak _ _ _ _ E) as E2. exists l, u. rewrite H in E2. injection E2 as ->. reflexivity.
Qed.
Lemma own_scalar loc : (forall t, coord t loc == coord t a) -> support_scalar loc sup = dy1.
Proof using Hi SM.
  intros H. apply scalar_peak. intros t l p u I. apply (In_get lex_ltb lex_strict) in I; [|apply sup_smap].
  apply sup_peak in I. rewrite H. now rewrite (coord_get _ _ _ I).
Qed.

(** with coordinates well away from 0, the tents stay on their side of 0 *)
Definition proper (x : tent) : Prop := let '(l, p, u) := x in
  (0 < val p /\ 0 <= val l /\ val l < val p /\ val p <= val u) \/ (val p < 0 /\ val l <= val p /\ val p < val u /\ val u <= 0).
Hypothesis AZ : forall b t v, In b locs -> get t b = Some v -> Qpower 2 (-22) <= Qabs (val v).
Lemma tent_proper b t v : In b locs -> get t b = Some v -> proper (tent_at locs t v).
Proof using AZ.
  clear SM a sup Hi. intros Hb Hv. pose proof (AZ b t v Hb Hv) as Z. pose proof (in_axis_values locs b t v Hb Hv) as I.
  pose proof (extreme_max _ _ I). pose proof (extreme_min _ _ I).
  assert (E: Qpower 2 (-22) == 1 # 4194304) by reflexivity. rewrite E in Z.
  unfold tent_at, proper. destruct (dy_ltb dy0 v) eqn:L.
  - apply ltb_iff in L. rewrite val_dy0 in *. left. lra.
  - apply ltb_false in L. rewrite val_dy0 in *. right. rewrite Qabs_neg in Z by assumption. lra.
Qed.
(** an earlier region that is relevant lies on the same side *)
Lemma relevant_same b c t v w : In b locs -> In c locs -> smap c -> relevant (region_of locs b) (region_of locs c) = true ->
  get t b = Some v -> get t c = Some w -> (0 < val v /\ 0 < val w) \/ (val v < 0 /\ val w < 0).
Proof using AZ.
  clear SM a sup Hi. intros Hb Hc Sc R Gb Gc. unfold relevant in R. rewrite forallb_forall in R.
  assert (I: get t (region_of locs b) = Some (tent_at locs t v)) by (now rewrite region_get, Gb).
  specialize (R _ (get_In lex_ltb lex_strict _ _ _ I)). cbn [fst snd] in R. rewrite region_get, Gc in R. cbn [option_map] in R.
  pose proof (tent_proper b t v Hb Gb) as P.
  assert (V: snd (fst (tent_at locs t v)) = v /\ (fst (fst (tent_at locs t v)) = dy0 \/ snd (tent_at locs t v) = dy0)) by (unfold tent_at; destruct (dy_ltb dy0 v); cbn; auto).
  assert (W: snd (fst (tent_at locs t w)) = w) by (unfold tent_at; now destruct (dy_ltb dy0 w)).
  destruct (tent_at locs t v) as [[l p] u]. destruct (tent_at locs t w) as [[l' p'] u']. cbn [fst snd] in *. destruct V as [-> V]. subst p'.
  pose proof (AZ b t v Hb Gb) as Zb. assert (E: Qpower 2 (-22) == 1 # 4194304) by reflexivity. rewrite E in Zb.
  unfold proper in P. apply orb_true_iff in R. destruct R as [R|R].
  - apply near_true in R. assert (E2: Qpower 2 (-23) == 1 # 8388608) by reflexivity. rewrite E2 in R.
    apply Qabs_Qlt_condition in R. destruct P as [P|P]; [rewrite Qabs_pos in Zb by lra|rewrite Qabs_neg in Zb by lra]; [left|right]; lra.
  - apply andb_true_iff in R. rewrite !ltb_iff in R. destruct P as [P|P]; [left|right]; lra.
Qed.
Lemma sup_proper t x : get t sup = Some x -> proper x.
Proof using AZ Hi SM.
  unfold sup. rewrite supports_nth by exact Hi. fold a. assert (Ha: In a locs) by (now apply nth_In).
  apply (folds_keep (fun _ => proper)).
  - intros prev pl v pu t0 l0 p0 u0 Hp R I G.
    assert (Hp': In prev (map (region_of locs) locs)) by (rewrite <- (firstn_skipn i (map (region_of locs) locs)); apply in_or_app; now left).
    apply in_map_iff in Hp'. destruct Hp' as (c & <- & Hc).
    assert (Sc: smap c) by (rewrite Forall_forall in SM; auto).
    apply (In_get lex_ltb lex_strict) in I; [|now apply region_smap].
    rewrite region_get in I, G. destruct (get t0 c) as [w|] eqn:Gc; [|discriminate]. destruct (get t0 a) as [y|] eqn:Ga; [|discriminate].
    cbn [option_map] in I, G. injection I as I. injection G as G.
    assert (v = w) by (unfold tent_at in I; destruct (dy_ltb dy0 w); congruence). subst w.
    assert (p0 = y) by (unfold tent_at in G; destruct (dy_ltb dy0 y); congruence). subst y.
    pose proof (relevant_same a c t0 p0 v Ha Hc Sc R Ga Gc) as S. pose proof (tent_proper a t0 p0 Ha Ga) as P. rewrite G in P.
    unfold proper in *. split; intros L; lra.
  - intros t0 x0 G. rewrite region_get in G. destruct (get t0 a) as [y|] eqn:Ga; [|discriminate]. injection G as <-. now apply (tent_proper a).
Qed.
(** a location on the other side of 0, or at 0, on some axis of the region *)
Lemma other_side loc t v : get t a = Some v -> (0 < val v /\ coord t loc <= 0) \/ (val v < 0 /\ 0 <= coord t loc) ->
  support_scalar loc sup = dy0.
Proof using AZ Hi SM.
  intros G S. destruct (sup_has t v G) as (l & u & Gs). pose proof (sup_proper _ _ Gs) as P.
  assert (Z: Qpower 2 (-22) <= Qabs (val v)) by (apply (AZ a t v); [now apply nth_In|assumption]).
  assert (E: Qpower 2 (-22) == 1 # 4194304) by reflexivity. rewrite E in Z.
  unfold support_scalar. apply (scalar_outside loc sup t l v u).
  - now apply (get_In lex_ltb lex_strict).
  - unfold ignored. unfold proper in P. lra.
  - assert (E2: Qpower 2 (-23) == 1 # 8388608) by reflexivity. rewrite E2.
    destruct S as [[S1 S2]|[S1 S2]].
    + rewrite Qabs_pos in Z by lra. rewrite Qabs_neg by lra. lra.
    + rewrite Qabs_neg in Z by lra. rewrite Qabs_pos by lra. lra.
  - unfold proper in P. lra.
Qed.
End Sup.

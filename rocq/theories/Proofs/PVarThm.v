(** The variation model as a whole. *)
From Coq Require Import QArith Qabs Lqa Lia List Permutation Sorted.
Import ListNotations.
From Verif.Model Require Import MBase MFixed MFloat MFloat32 MTag MMap MVarModel.
From Verif.Spec Require Import SFloat SVarModel.
From Verif.Proofs Require Import PMap PBase PFloat PFloat32 PScalar PVarSup PVarAlg PVarSort PVarModel.
Open Scope Q_scope.

(** ** Locations that differ only in explicit zeros *)
Definition same (a b : location) : Prop := forall t, loc_get t a = loc_get t b \/ (coord t a == 0 /\ coord t b == 0).
Lemma near_ext a b p : val a == val b -> near a p = near b p.
Proof.
  intros E. unfold near. apply Bool.eq_true_iff_eq. rewrite !ltb_iff, !val_abs. unfold f32_sub.
  rewrite (rnd_val_eq (dy_sub a p) (dy_sub b p)) by (rewrite !val_sub, E; reflexivity). tauto.
Qed.
Lemma scalar_same a b sup : same a b -> forall s, scalar_from a sup s = scalar_from b sup s.
Proof.
  intros S. induction sup as [|[t [[l p] u]] sup IH]; intros s; [reflexivity|]. rewrite !scalar_cons. cbv zeta.
  destruct (ignoredb l p u) eqn:I; [apply IH|].
  destruct (S t) as [E|[Ea Eb]]; [rewrite E; destruct (near _ p); [apply IH|]; destruct (_ || _); [reflexivity|]; destruct (dy_ltb _ p); apply IH|].
  unfold coord in *. rewrite (near_ext (loc_get t a) (loc_get t b)) by (now rewrite Ea, Eb).
  destruct (near _ p); [apply IH|].
  assert (NI: ~ ignored (val l) (val p) (val u)) by (rewrite <- ignoredb_iff, I; discriminate).
  assert (O: forall v, val v == 0 -> dy_leb v l || dy_leb u v = true).
  { intros v V. rewrite orb_true_iff, !leb_iff, V. unfold ignored in NI.
    destruct (Qlt_le_dec (val l) 0); [right|now left]. destruct (Qlt_le_dec 0 (val u)); [|assumption]. destruct NI. auto. }
  rewrite !O by assumption. reflexivity.
Qed.
Lemma same_prune a : smap a -> same a (prune a).
Proof.
  intros S t. pose proof (prune_coord t a S) as P. unfold loc_get. destruct (get t (prune a)) as [v|] eqn:E.
  - apply prune_get in E; [|assumption]. destruct E as [E _]. rewrite E. now left.
  - right. rewrite <- P. split; apply coord_none; assumption.
Qed.
Lemma interpolate_same out a b : same a b -> interpolate out a == interpolate out b.
Proof.
  intros S. unfold interpolate. induction out as [|[d s] out IH]; [reflexivity|]. cbn [fold_right fst snd]. rewrite IH.
  unfold support_scalar. rewrite (scalar_same a b s S). reflexivity.
Qed.

(** ** The new model *)
Section Built.
Variables (locs : list location) (o : list tag) (m : var_model).
Hypothesis KY : Forall keyed locs.
Hypothesis BM : vm_new locs o = Ok m.
Let n := length locs.
Lemma built : exists pts, axis_points (map prune locs) = Ok pts /\
  vm_order m = sort_by (fun i j => master_cmp pts o (nth i (map prune locs) []) (nth j (map prune locs) [])) (seq 0 n) /\
  vm_locations m = map (fun i => nth i (map prune locs) []) (vm_order m) /\
  vm_supports m = master_supports (vm_locations m) /\
  vm_weights m = delta_weights (vm_locations m) (vm_supports m) /\ vm_axis_order m = o /\ vm_original m = locs.
Proof using BM.
  unfold vm_new in BM. destruct (axis_points (map prune locs)) as [pts| |] eqn:E; try discriminate. cbn [rbind] in BM.
  apply Ok_inj in BM. subst m. cbn. exists pts. rewrite map_length. repeat split.
Qed.
Lemma order_perm : Permutation (vm_order m) (seq 0 n).
Proof using BM. destruct built as (pts & _ & -> & _). apply sort_perm. Qed.
Lemma order_length : length (vm_order m) = n.
Proof using BM. rewrite (Permutation_length order_perm). apply seq_length. Qed.
Lemma locs_length : length (vm_locations m) = n.
Proof using BM. destruct built as (pts & _ & _ & -> & _). rewrite map_length. apply order_length. Qed.
Lemma sups_length : length (vm_supports m) = n.
Proof using BM. destruct built as (pts & _ & _ & _ & -> & _). rewrite supports_length. apply locs_length. Qed.
Lemma order_bound k : In k (vm_order m) -> (k < n)%nat.
Proof using BM. intros H. apply (Permutation_in _ order_perm) in H. apply in_seq in H. lia. Qed.
Lemma loc_nth i : (i < n)%nat -> nth i (vm_locations m) [] = prune (nth (nth i (vm_order m) 0%nat) locs []).
Proof using BM.
  intros H. destruct built as (pts & _ & _ & -> & _).
  rewrite (nth_indep _ [] (nth 0 (map prune locs) [])) by (rewrite map_length, order_length; exact H).
  rewrite (map_nth (fun i => nth i (map prune locs) [])).
  change (@nil (tag * dyadic)) with (prune []) at 1. apply map_nth.
Qed.
Lemma locs_smap : Forall smap (vm_locations m).
Proof using BM KY.
  rewrite Forall_forall. intros a Ha. apply (In_nth _ _ ([] : location)) in Ha. destruct Ha as (i & Hi & <-). rewrite locs_length in Hi.
  rewrite loc_nth by exact Hi. apply prune_smap, keyed_smap. rewrite Forall_forall in KY. apply KY. apply nth_In. apply order_bound.
  apply nth_In. now rewrite order_length.
Qed.
(** every master has a place in the order *)
Lemma place k : (k < n)%nat -> exists i, (i < n)%nat /\ nth i (vm_order m) 0%nat = k.
Proof using BM.
  intros H. assert (I: In k (vm_order m)) by (apply (Permutation_in _ (Permutation_sym order_perm)); apply in_seq; lia).
  apply (In_nth _ _ 0%nat) in I. destruct I as (i & Hi & E). rewrite order_length in Hi. eauto.
Qed.
Lemma own i loc : (i < n)%nat -> same loc (nth i (vm_locations m) []) -> support_scalar loc (nth i (vm_supports m) []) = dy1.
Proof using BM KY.
  intros Hi S. destruct built as (pts & _ & _ & _ & -> & _). apply own_scalar.
  - apply locs_smap.
  - now rewrite locs_length.
  - intros t. destruct (S t) as [E|[E1 E2]]; [unfold coord; now rewrite E|now rewrite E1, E2].
Qed.

Variable vs : list Q.
Hypothesis LV : length vs = n.
(** interpolating at a master: its value and what later regions add *)
Lemma formula : exists out, deltas_from (vm_weights m) (vm_order m) (vm_supports m) vs [] = Ok out /\
  length out = n /\ map snd out = vm_supports m /\
  (forall i, (i < n)%nat -> exists d, nth_error out i = Some (d, nth i (vm_supports m) []) /\
    d == nth (nth i (vm_order m) 0%nat) vs 0 - contrib out (fun j => val (scal (vm_locations m) (vm_supports m) i j)) 0 i) /\
  forall i loc, (i < n)%nat -> same loc (nth i (vm_locations m) []) ->
    interpolate out loc == nth (nth i (vm_order m) 0%nat) vs 0 +
      contrib out (fun j => val (scal (vm_locations m) (vm_supports m) i j)) (S i) (n - S i).
Proof using BM KY LV.
  destruct built as (pts & _ & _ & _ & _ & EW & _).
  destruct (deltas_spec vs (vm_weights m) (vm_order m) (vm_supports m) []) as (out & E & L & HN).
  - rewrite EW, weight_length, locs_length. symmetry. apply order_length.
  - now rewrite sups_length, order_length.
  - intros i w j x Hw Hx. assert (Hi: (i < n)%nat).
    { rewrite <- locs_length, <- (weight_length _ (vm_supports m)), <- EW. apply nth_error_Some. congruence. }
    rewrite EW, weight_row in Hw by (now rewrite locs_length). injection Hw as <-. apply filter_In in Hx. destruct Hx as [Hx _].
    apply in_map_iff in Hx. destruct Hx as (j' & Ej & Hj). injection Ej as -> _. apply in_seq in Hj. cbn [length]. lia.
  - intros ix H. rewrite LV. now apply order_bound.
  - cbn [app] in *. rewrite order_length in L. exists out. split; [exact E|]. split; [exact L|].
    assert (SN: forall i, (i < n)%nat -> exists d, nth_error out i = Some (d, nth i (vm_supports m) []) /\
       d == nth (nth i (vm_order m) 0%nat) vs 0 - contrib out (fun j => val (scal (vm_locations m) (vm_supports m) i j)) 0 i).
    { intros i Hi. destruct (nth_error out i) as [[d s]|] eqn:En; [|apply nth_error_None in En; lia].
      destruct (HN i d s En) as (Hs & ix & v & w & H1 & H2 & H3 & H4).
      rewrite EW, weight_row in H3 by (now rewrite locs_length). injection H3 as <-. rewrite weigh_filter in H4.
      exists d. rewrite (nth_error_nth _ _ ([] : support) Hs). split; [reflexivity|].
      rewrite (nth_error_nth _ _ 0%nat H1), (nth_error_nth _ _ 0 H2). exact H4. }
    split.
    { apply (nth_ext _ _ ([] : support) ([] : support)); [now rewrite map_length, L, sups_length|]. rewrite map_length. intros i Hi. rewrite L in Hi.
      destruct (SN i Hi) as (d & En & _). apply (map_nth_error snd) in En. now apply nth_error_nth. }
    split; [exact SN|].
    intros i loc Hi HS. rewrite (interpolate_same out _ _ HS), interpolate_all.
    rewrite (contrib_ext _ _ (fun j => val (scal (vm_locations m) (vm_supports m) i j))).
    2:{ intros j Hj. assert (Hj': (j < n)%nat) by lia. destruct (SN j Hj') as (d & En & _). rewrite (nth_error_nth _ _ _ En). reflexivity. }
    rewrite L. match goal with |- contrib _ ?f 0 _ == _ => replace (contrib out f 0 n) with (contrib out f 0 (i + S (n - S i))) by (f_equal; lia) end. rewrite contrib_app. cbn [Nat.add contrib].
    destruct (SN i Hi) as (d & En & Ed). rewrite (nth_error_nth _ _ _ En). cbn [fst].
    unfold scal at 2. rewrite own by (auto; intros t; now left). rewrite val_dy1. rewrite Ed. ring.
Qed.
End Built.

(** ** Values for some of the masters *)
Definition known {B} (v : list (option B)) : list B := concat (map (fun v => match v with Some x => [x] | None => [] end) v).
Lemma zip_length {A B} : forall (l : list A) (v : list (option B)), length v = length l -> length (zip_known l v) = length (known v).
Proof.
  unfold known. induction l as [|a l IH]; intros [|[x|] v] H; cbn in H |- *; try lia; [|apply IH; lia]. f_equal. apply IH. lia.
Qed.
Lemma zip_in {A B} : forall (l : list A) (v : list (option B)) x, In x (zip_known l v) -> In x l.
Proof. induction l as [|a l IH]; intros [|[y|] v] x; cbn; try tauto; [intros [H|H]; auto; right; eauto|intros H; right; eauto]. Qed.
Lemma zip_nth {A B} : forall (l : list A) (v : list (option B)) k a x, nth_error l k = Some a -> nth_error v k = Some (Some x) ->
  exists k', nth_error (zip_known l v) k' = Some a /\ nth_error (known v) k' = Some x.
Proof.
  unfold known. induction l as [|a l IH]; intros v k b x Ha Hv; [destruct k; discriminate|].
  destruct v as [|w v]; [destruct k; discriminate|]. destruct k as [|k]; cbn [nth_error] in Ha, Hv.
  - injection Ha as ->. injection Hv as ->. exists 0%nat. split; reflexivity.
  - destruct (IH v k b x Ha Hv) as (k' & H1 & H2). destruct w as [y|]; [exists (S k')|exists k']; cbn; auto.
Qed.
Lemma zip_all {A B} : forall (l : list A) (v : list B), length v = length l -> zip_known l (map Some v) = l /\ known (map Some v) = v.
Proof.
  unfold known. induction l as [|a l IH]; intros [|y v] H; cbn in H |- *; try lia; [auto|]. destruct (IH v) as [-> ->]; auto.
Qed.
Lemma zip_pairs {A B} (R : A -> A -> Prop) : forall (l : list A) (v : list (option B)), ForallOrdPairs R l -> ForallOrdPairs R (zip_known l v).
Proof.
  induction l as [|a l IH]; intros v H; [destruct v; constructor|]. inversion H as [|? ? F P]; subst.
  destruct v as [|[y|] v]; cbn; [constructor| |now apply IH]. constructor; [|now apply IH].
  rewrite Forall_forall in F |- *. intros x Hx. apply F. eapply zip_in; eassumption.
Qed.
Lemma masters_zip {B} locs (v : list (option B)) : masters locs -> masters (zip_known locs v).
Proof.
  intros (K & B1 & A). split; [|split].
  - rewrite Forall_forall in K |- *. intros a Ha. apply K. eapply zip_in; eassumption.
  - intros a t Ha. apply B1. eapply zip_in; eassumption.
  - intros a b t Ha Hb. apply A; eapply zip_in; eassumption.
Qed.

(** ** Masters are fit *)
Lemma masters_fit locs : masters locs -> fit (map prune locs).
Proof.
  intros (K & B & A). rewrite Forall_forall in K. split; [|split].
  - rewrite Forall_forall. intros a Ha. apply in_map_iff in Ha. destruct Ha as (b & <- & Hb). apply prune_smap, keyed_smap. now apply K.
  - intros b t v Hb G. apply in_map_iff in Hb. destruct Hb as (a & <- & Ha). apply prune_get in G; [|apply keyed_smap; now apply K].
    destruct G as [G N]. destruct (B a t Ha) as [B1 B2]. rewrite (coord_get _ _ _ G) in *. split; [|exact B1].
    destruct B2 as [B2|B2]; [contradiction|]. now setoid_replace (val v - 0) with (val v) in B2 by ring.
  - intros a b t v w Ha Hb Gv Gw. apply in_map_iff in Ha, Hb. destruct Ha as (a' & <- & Ha), Hb as (b' & <- & Hb).
    apply prune_get in Gv, Gw; try (apply keyed_smap; now apply K). destruct Gv as [Gv _], Gw as [Gw _].
    rewrite <- (coord_get _ _ _ Gv), <- (coord_get _ _ _ Gw). now apply A.
Qed.
Lemma masters_new locs o : masters locs -> exists m, vm_new locs o = Ok m.
Proof.
  intros M. destruct (axis_points_ok _ (masters_fit _ M)) as (pts & E & _). unfold vm_new. rewrite E. cbn [rbind]. eauto.
Qed.
Lemma fit_incl a b : fit a -> (forall x, In x b -> In x a) -> fit b.
Proof.
  intros (S & B & A) I. split; [|split].
  - rewrite Forall_forall in *. auto.
  - intros; eapply B; eauto.
  - intros; eapply A; try eassumption; auto.
Qed.
Lemma built_fit locs o m : masters locs -> vm_new locs o = Ok m -> fit (vm_locations m).
Proof.
  intros M E. eapply fit_incl; [apply masters_fit; exact M|]. intros x Hx. apply (In_nth _ _ ([] : location)) in Hx. destruct Hx as (i & Hi & <-).
  rewrite (locs_length locs o m E) in Hi. rewrite (loc_nth locs o m E) by exact Hi. apply in_map. apply nth_In.
  apply (order_bound locs o m E). apply nth_In. now rewrite (order_length locs o m E).
Qed.
Lemma SS_map {A B} (R : B -> B -> Prop) (f : A -> B) l : StronglySorted (fun x y => R (f x) (f y)) l -> StronglySorted R (map f l).
Proof.
  induction 1 as [|a l S IH F]; [constructor|]. cbn [map]. constructor; [assumption|].
  rewrite Forall_forall in *. intros b Hb. apply in_map_iff in Hb. destruct Hb as (x & <- & Hx). auto.
Qed.
Lemma built_sorted locs o m : masters locs -> vm_new locs o = Ok m -> StronglySorted (coarse o) (vm_locations m).
Proof.
  intros M E. destruct (built locs o m E) as (pts & EP & EO & EL & _). rewrite EL, EO.
  pose proof (masters_fit _ M) as F. destruct (axis_points_ok _ F) as (pts' & EP' & HP). assert (pts' = pts) by congruence. subst pts'.
  apply (SS_map (coarse o) (fun i => nth i (map prune locs) [])).
  apply sort_sorted with (P := fun i => (i < length locs)%nat).
  - intros a b c. apply coarse_trans.
  - intros a b Ha Hb. apply (coarse_cmp (map prune locs) pts o); auto; apply nth_In; now rewrite map_length.
  - intros a b Ha Hb. apply (coarse_cmp (map prune locs) pts o); auto; apply nth_In; now rewrite map_length.
  - rewrite Forall_forall. intros i Hi. apply in_seq in Hi. lia.
Qed.

(** ** Separated masters: later regions vanish at earlier masters *)
Lemma sorted_nodup (l : list (list Z)) : StronglySorted (fun a b => lex_ltb a b = true) l -> NoDup l.
Proof.
  induction 1 as [|x l S IH F]; [constructor|]. constructor; [|assumption].
  rewrite Forall_forall in F. intros C. specialize (F x C). now rewrite (st_irrefl _ lex_strict) in F.
Qed.
Lemma keys_incl (a b : location) : smap a -> smap b -> (length a <= length b)%nat -> (forall t, get t b <> None -> get t a <> None) ->
  forall t, get t a <> None -> get t b <> None.
Proof.
  intros Sa Sb L H t Ha.
  assert (K: forall c : location, smap c -> forall t, get t c <> None <-> In t (map fst c)).
  { intros c Sc s. split.
    - intros N. destruct (get s c) as [v|] eqn:E; [|easy]. apply (get_In lex_ltb lex_strict) in E. apply in_map_iff. exists (s, v). auto.
    - intros I. apply in_map_iff in I. destruct I as ([s' v] & <- & I). cbn [fst]. rewrite (In_get lex_ltb lex_strict _ _ _ Sc I). discriminate. }
  assert (ND: NoDup (map fst b)).
  { exact (sorted_nodup _ Sb). }
  apply (K b Sb). apply (K a Sa) in Ha. revert t Ha. change (incl (map fst a) (map fst b)). apply NoDup_length_incl; [exact ND|now rewrite !map_length|].
  intros t Ht. apply (K a Sa). apply H. now apply (K b Sb).
Qed.
Lemma later_zero locs o m i j : masters locs -> vm_new locs o = Ok m -> (i < j < length locs)%nat ->
  separated (nth i (vm_locations m) []) (nth j (vm_locations m) []) ->
  support_scalar (nth i (vm_locations m) []) (nth j (vm_supports m) []) = dy0.
Proof.
  intros M E Hij SP. pose proof (built_fit _ _ _ M E) as F. pose proof (built_sorted _ _ _ M E) as S.
  pose proof (locs_length _ _ _ E) as LL. destruct (built locs o m E) as (pts & _ & _ & _ & ES & _). rewrite ES.
  set (L := vm_locations m) in *. set (a := nth i L []) in *. set (b := nth j L []) in *.
  assert (Hj: (j < length L)%nat) by lia. assert (Hi: (i < length L)%nat) by lia.
  assert (Ha: In a L) by (now apply nth_In). assert (Hb: In b L) by (now apply nth_In).
  destruct F as (SM & FB & FA). assert (F: fit L) by (split; [assumption|split; assumption]).
  assert (Sa: smap a) by (rewrite Forall_forall in SM; auto). assert (Sb: smap b) by (rewrite Forall_forall in SM; auto).
  assert (AZ: forall b t v, In b L -> get t b = Some v -> Qpower 2 (-22) <= Qabs (val v)) by (intros; eapply FB; eassumption).
  assert (MV: forall c, In c L -> forall t, moved c t <-> get t c <> None).
  { intros c Hc t. unfold moved. destruct (get t c) as [v|] eqn:G.
    - split; [discriminate|]. intros _. rewrite (coord_get _ _ _ G). apply far_nz. eapply AZ; eassumption.
    - split; [|easy]. intros N. destruct N. now apply coord_none. }
  pose proof (sorted_nth o L i j S (proj1 Hij) Hj) as C. fold a b in C.
  assert (LE: (length a <= length b)%nat) by (destruct C as [C|[C _]]; lia).
  (* an axis of b that a does not move *)
  assert (D: (forall t, get t b <> None -> get t a <> None) \/ exists t v, get t b = Some v /\ get t a = None).
  { assert (D': forall l : location, (forall t v, In (t, v) l -> get t b = Some v) -> (forall t v, In (t, v) l -> get t a <> None) \/ exists t v, get t b = Some v /\ get t a = None).
    { induction l as [|[t v] l IH]; intros I; [left; easy|]. destruct IH as [IH|IH]; [intros; apply I; now right| |now right].
      destruct (get t a) eqn:G; [|right; exists t, v; split; [apply I; now left|assumption]]. left. intros t' v' [X|X]; [injection X as <- <-; congruence|eapply IH; eassumption]. }
    destruct (D' b) as [D1|D1]; [intros t v I; now apply (In_get lex_ltb lex_strict)| |now right].
    left. intros t N. destruct (get t b) as [v|] eqn:G; [|easy]. apply (D1 t v). now apply (get_In lex_ltb lex_strict). }
  destruct D as [D|(t & v & Gb & Ga)].
  2:{ apply (other_side L SM j Hj AZ a t v Gb). pose proof (coord_none _ _ Ga) as Z. pose proof (far_nz v (AZ b t v Hb Gb)) as N. unfold nz in N.
      rewrite Z. destruct (Qlt_le_dec 0 (val v)); [left|right]; lra. }
  assert (KK: forall t, moved a t <-> moved b t).
  { intros t. rewrite !MV by assumption. split; [|apply D]. apply keys_incl; assumption. }
  destruct (SP KK) as [(t & O)|(t & Mt & U & N)].
  - assert (Gb: exists v, get t b = Some v).
    { destruct (get t b) as [v|] eqn:G; [eauto|]. pose proof (coord_none _ _ G). lra. }
    destruct Gb as [v Gb]. apply (other_side L SM j Hj AZ a t v Gb). rewrite (coord_get _ _ _ Gb) in O. lra.
  - assert (One: forall c, In c L -> (forall s, moved c s <-> moved a s) -> exists z, c = [(t, z)]).
    { intros c Hc H. apply only_key.
      - rewrite Forall_forall in SM. auto.
      - intros k v I. apply U. apply H. apply MV; [assumption|]. rewrite (In_get lex_ltb lex_strict k v c); [discriminate| |assumption]. rewrite Forall_forall in SM. auto.
      - apply MV; [assumption|]. now apply H. }
    destruct (One a Ha) as [x Ea]; [tauto|]. destruct (One b Hb) as [y Eb]; [intros; now rewrite KK|].
    assert (Ga: get t a = Some x) by (rewrite Ea; apply single_get). assert (Gb: get t b = Some y) by (rewrite Eb; apply single_get).
    rewrite (coord_get _ _ _ Ga), (coord_get _ _ _ Gb) in N.
    pose proof (far_nz x (AZ a t x Ha Ga)) as Nx. pose proof (far_nz y (AZ b t y Hb Gb)) as Ny. unfold nz in Nx, Ny.
    assert (CA: coord t a = val x) by (now apply coord_get).
    assert (Sg: signum x = signum y \/ (0 < val y /\ val x <= 0) \/ (val y < 0 /\ 0 <= val x)).
    { destruct (Qlt_le_dec 0 (val x)) as [X|X], (Qlt_le_dec 0 (val y)) as [Y|Y].
      - left. transitivity 1%Z; [now apply signum_pos|symmetry; now apply signum_pos].
      - right. right. lra.
      - right. left. lra.
      - left. transitivity (-1)%Z; [apply signum_neg; lra|symmetry; apply signum_neg; lra]. }
    destruct Sg as [Sg|Sg]; [|apply (other_side L SM j Hj AZ a t y Gb); rewrite CA; lra].
    apply (axis_scalar o L F S i j t x y (proj1 Hij) Hj Ea Eb Sg N). rewrite CA. reflexivity.
Qed.

(** ** Results *)
Lemma separated_sym a b : separated a b -> separated b a.
Proof.
  unfold separated. intros H E. destruct H as [(t & H)|(t & M & U & N)]; [intros t; symmetry; apply E| |].
  - left. exists t. tauto.
  - right. exists t. split; [now apply E|]. split; [intros s Hs; apply U; now apply E|]. intros C. apply N. now symmetry.
Qed.
Lemma separated_ext a b a' b' : (forall t, coord t a == coord t a') -> (forall t, coord t b == coord t b') -> separated a b -> separated a' b'.
Proof.
  intros Ea Eb H E.
  assert (Ma: forall t, moved a t <-> moved a' t) by (intros t; unfold moved; rewrite Ea; tauto).
  assert (Mb: forall t, moved b t <-> moved b' t) by (intros t; unfold moved; rewrite Eb; tauto).
  destruct H as [(t & H)|(t & M & U & N)].
  - intros t. rewrite Ma, Mb. apply E.
  - left. exists t. rewrite Ea, Eb in H. exact H.
  - right. exists t. split; [now apply Ma|]. split; [intros s Hs; apply U; now apply Ma|]. now rewrite <- Ea, <- Eb.
Qed.
Lemma pairs_nth {A} (R : A -> A -> Prop) d : (forall a b, R a b -> R b a) -> forall l, ForallOrdPairs R l -> forall p q, (p < length l)%nat -> (q < length l)%nat -> p <> q -> R (nth p l d) (nth q l d).
Proof.
  intros Sy. induction 1 as [|a l F P IH]; intros p q Hp Hq N; [cbn in Hp; lia|]. rewrite Forall_forall in F.
  destruct p as [|p], q as [|q]; cbn [nth length] in *; [lia|apply F, nth_In; lia|apply Sy, F, nth_In; lia|apply IH; lia].
Qed.
Lemma get_out locs o m vs (values : list (option Q)) : vm_new locs o = Ok m -> length values = length locs ->
  vs = known values -> get_deltas_and_supports m values =
  match vm_new (zip_known locs values) o with
  | Ok sub => deltas_from (vm_weights sub) (vm_order sub) (vm_supports sub) vs []
  | Err => Err | Panic => Panic
  end.
Proof.
  intros E L ->. unfold get_deltas_and_supports. destruct (built _ _ _ E) as (_ & _ & _ & _ & _ & _ & -> & ->).
  destruct (vm_new (zip_known locs values) o) as [sub| |] eqn:Es; [|reflexivity|reflexivity]. cbn [rbind]. fold (known values).
  destruct (built _ _ _ Es) as (_ & _ & _ & _ & _ & EW & _).
  rewrite EW, weight_length, (locs_length _ _ _ Es), zip_length by exact L. rewrite Nat.eqb_refl. reflexivity.
Qed.
Lemma orig_same locs o m k i : Forall keyed locs -> vm_new locs o = Ok m -> (i < length locs)%nat -> nth i (vm_order m) 0%nat = k ->
  same (nth k locs []) (nth i (vm_locations m) []).
Proof.
  intros K E Hi Ek. rewrite (loc_nth _ _ _ E) by exact Hi. rewrite Ek. apply same_prune. rewrite Forall_forall in K. apply keyed_smap, K, nth_In.
  rewrite <- Ek. apply (order_bound _ _ _ E). apply nth_In. now rewrite (order_length _ _ _ E).
Qed.
Lemma keyed_zip {B} locs (v : list (option B)) : Forall keyed locs -> Forall keyed (zip_known locs v).
Proof. rewrite !Forall_forall. intros K a Ha. apply K. eapply zip_in; eassumption. Qed.

Theorem recovered locs o values : masters locs -> ForallOrdPairs separated locs -> length values = length locs ->
  exists m out, vm_new locs o = Ok m /\ get_deltas_and_supports m values = Ok out /\
    forall k loc v, nth_error locs k = Some loc -> nth_error values k = Some (Some v) -> interpolate out loc == v.
Proof.
  intros M SP L. destruct (masters_new locs o M) as [m E]. exists m.
  pose proof (masters_zip _ values M) as M'. destruct (masters_new _ o M') as [sub Es].
  assert (K: Forall keyed (zip_known locs values)) by (destruct M'; assumption).
  destruct (formula _ _ _ K Es (known values)) as (out & EO & LO & _ & _ & HF); [symmetry; now apply zip_length|].
  exists out. split; [exact E|]. split; [rewrite (get_out locs o m _ values E L eq_refl), Es; exact EO|].
  intros k loc v Hk Hv. destruct (zip_nth _ _ _ _ _ Hk Hv) as (k' & Hk' & Hv').
  set (locs' := zip_known locs values) in *.
  assert (Lk: (k' < length locs')%nat) by (apply nth_error_Some; congruence).
  destruct (place _ _ _ Es k' Lk) as (i & Hi & Ei).
  assert (EL: loc = nth k' locs' []) by (symmetry; now apply nth_error_nth).
  rewrite EL, (HF i (nth k' locs' []) Hi (orig_same _ _ _ _ _ K Es Hi Ei)).
  rewrite Ei, (nth_error_nth _ _ 0 Hv'). rewrite contrib_zero; [ring|].
  intros j Hj. unfold scal. rewrite (later_zero locs' o sub i j M' Es); [apply val_dy0|lia|].
  assert (Hj': (j < length locs')%nat) by lia.
  pose proof (order_length _ _ _ Es) as OL.
  eapply separated_ext; [| |apply (pairs_nth separated [] separated_sym locs' (zip_pairs _ _ _ SP) (nth i (vm_order sub) 0%nat) (nth j (vm_order sub) 0%nat))].
  - intros t. rewrite (loc_nth _ _ _ Es) by exact Hi. symmetry. apply prune_coord, keyed_smap. rewrite Forall_forall in K. apply K, nth_In. apply (order_bound _ _ _ Es), nth_In. lia.
  - intros t. rewrite (loc_nth _ _ _ Es) by exact Hj'. symmetry. apply prune_coord, keyed_smap. rewrite Forall_forall in K. apply K, nth_In. apply (order_bound _ _ _ Es), nth_In. lia.
  - apply (order_bound _ _ _ Es), nth_In. lia.
  - apply (order_bound _ _ _ Es), nth_In. lia.
  - intros C. assert (ND: NoDup (vm_order sub)) by (eapply Permutation_NoDup; [symmetry; apply (order_perm _ _ _ Es)|apply seq_NoDup]).
    rewrite NoDup_nth in ND. assert (i = j) by (apply (ND i j); [lia|lia|exact C]). lia.
Qed.

Lemma contrib_skip : forall out loc k, (k <= length out)%nat ->
  interpolate (skipn k out) loc == contrib out (fun j => val (support_scalar loc (snd (nth j out (0, []))))) k (length out - k).
Proof.
  intros out loc k H. rewrite (interpolate_contrib loc (skipn k out) (firstn k out)), firstn_skipn, firstn_length, skipn_length.
  rewrite Nat.min_l by exact H. reflexivity.
Qed.
Theorem any_masters locs o values m out : Forall keyed locs -> vm_new locs o = Ok m -> length values = length locs ->
  get_deltas_and_supports m values = Ok out ->
  length out = length (zip_known locs values) /\
  forall k loc v, nth_error locs k = Some loc -> nth_error values k = Some (Some v) ->
    exists pre d s post, out = pre ++ (d, s) :: post /\ support_scalar loc s = dy1 /\
      interpolate out loc == v + interpolate post loc.
Proof.
  intros K E L EO. rewrite (get_out locs o m _ values E L eq_refl) in EO.
  destruct (vm_new (zip_known locs values) o) as [sub| |] eqn:Es; try discriminate.
  pose proof (keyed_zip _ values K) as K'. 
  destruct (formula _ _ _ K' Es (known values)) as (out' & EO' & LO & SN & HD & HF); [symmetry; now apply zip_length|].
  assert (out' = out) by congruence. subst out'. split; [exact LO|].
  intros k loc v Hk Hv. destruct (zip_nth _ _ _ _ _ Hk Hv) as (k' & Hk' & Hv').
  set (locs' := zip_known locs values) in *.
  assert (Lk: (k' < length locs')%nat) by (apply nth_error_Some; congruence).
  destruct (place _ _ _ Es k' Lk) as (i & Hi & Ei).
  assert (EL: loc = nth k' locs' []) by (symmetry; now apply nth_error_nth). subst loc.
  pose proof (orig_same _ _ _ _ _ K' Es Hi Ei) as SA.
  destruct (HD i Hi) as (d & En & _). exists (firstn i out), d, (nth i (vm_supports sub) []), (skipn (S i) out).
  split; [|split].
  - rewrite <- (firstn_skipn i out) at 1. f_equal. generalize dependent (nth i (vm_supports sub) []). intros s0 En. clear - En. revert i En. induction out as [|x out IH]; intros [|i] En; try discriminate; [injection En as ->; reflexivity|]. now apply IH.
  - apply (own _ _ _ K' Es); assumption.
  - rewrite (HF i _ Hi SA), Ei, (nth_error_nth _ _ 0 Hv'). rewrite (interpolate_same (skipn (S i) out) _ _ SA), contrib_skip by lia.
    rewrite LO. apply Qplus_comp; [reflexivity|]. apply contrib_ext. intros j Hj. unfold scal.
    assert (Hj': (j < length locs')%nat) by lia. destruct (HD j Hj') as (dj & Ej & _). rewrite (nth_error_nth _ _ _ Ej). reflexivity.
Qed.

(** exactly when every choice of values is recovered *)
Theorem recovered_iff locs o m : Forall keyed locs -> vm_new locs o = Ok m ->
  (forall vs out k loc v, length vs = length locs -> get_deltas_and_supports m (map Some vs) = Ok out ->
     nth_error locs k = Some loc -> nth_error vs k = Some v -> interpolate out loc == v) <->
  (forall i j loc s, (i < j)%nat -> nth_error (vm_locations m) i = Some loc -> nth_error (vm_supports m) j = Some s ->
     val (support_scalar loc s) == 0).
Proof.
  intros K E. set (n := length locs). pose proof (locs_length _ _ _ E) as LL. pose proof (sups_length _ _ _ E) as LS. pose proof (order_length _ _ _ E) as LO. fold n in LL, LS, LO.
  assert (GO: forall vs, length vs = n -> get_deltas_and_supports m (map Some vs) = deltas_from (vm_weights m) (vm_order m) (vm_supports m) vs []).
  { intros vs L. destruct (zip_all locs vs L) as [Z1 Z2]. rewrite (get_out locs o m vs (map Some vs) E); [|now rewrite map_length|now symmetry]. now rewrite Z1, E. }
  split.
  - intros H i j loc s Hij Hl Hs.
    assert (Hj: (j < n)%nat) by (rewrite <- LS; apply nth_error_Some; congruence). assert (Hi: (i < n)%nat) by lia.
    (* the values that make only region j contribute *)
    set (f := fun p => if (p <? j)%nat then 0 else val (scal (vm_locations m) (vm_supports m) p j)).
    assert (IV: exists vs, length vs = n /\ forall p, (p < n)%nat -> nth (nth p (vm_order m) 0%nat) vs 0 = f p).
    { set (inv := fun k => match find (fun p => (nth p (vm_order m) 0 =? k)%nat) (seq 0 n) with Some p => p | None => 0%nat end).
      exists (map (fun k => f (inv k)) (seq 0 n)). split; [now rewrite map_length, seq_length|].
      intros p Hp. assert (Hq: (nth p (vm_order m) 0 < n)%nat) by (apply (order_bound _ _ _ E), nth_In; lia).
      rewrite (nth_indep _ 0 (f (inv 0%nat))) by (now rewrite map_length, seq_length). rewrite (map_nth (fun k => f (inv k))), seq_nth by assumption.
      cbn [Nat.add]. f_equal. unfold inv. destruct (find _ _) as [q|] eqn:F.
      - apply find_some in F. destruct F as [F1 F2]. apply in_seq in F1. apply Nat.eqb_eq in F2.
        assert (ND: NoDup (vm_order m)) by (eapply Permutation_NoDup; [symmetry; apply (order_perm _ _ _ E)|apply seq_NoDup]).
        rewrite (NoDup_nth _ 0%nat) in ND. apply ND; [lia|lia|exact F2].
      - exfalso. assert (C: In p (seq 0 n)) by (apply in_seq; lia). apply (find_none _ _ F) in C. cbv beta in C. rewrite Nat.eqb_refl in C. discriminate. }
    destruct IV as (vs & LV & HV).
    destruct (formula _ _ _ K E vs LV) as (out & EO & LO' & _ & HD & HF).
    assert (DD: forall p, (p < n)%nat -> fst (nth p out (0, [])) == if (p =? j)%nat then 1 else 0).
    { intros p. induction p as [p IH] using lt_wf_ind. intros Hp. destruct (HD p Hp) as (d & En & Ed). rewrite (nth_error_nth _ _ _ En). cbn [fst].
      rewrite Ed, HV by exact Hp. unfold f.
      assert (CZ: forall c a, (a + c <= p)%nat -> (forall q, (a <= q < a + c)%nat -> q <> j) -> contrib out (fun j0 => val (scal (vm_locations m) (vm_supports m) p j0)) a c == 0).
      { induction c as [|c IHc]; intros a Ha Hq; [reflexivity|]. cbn [contrib]. rewrite IHc by (try lia; intros; apply Hq; lia). rewrite IH by lia.
        replace (a =? j)%nat with false by (symmetry; apply Nat.eqb_neq; apply Hq; lia). ring. }
      destruct (Nat.ltb_spec p j) as [Hpj|Hpj].
      - rewrite CZ by lia. replace (p =? j)%nat with false by (symmetry; apply Nat.eqb_neq; lia). ring.
      - destruct (Nat.eqb_spec p j) as [->|Npj].
        + rewrite CZ by lia. unfold scal. rewrite (own _ _ _ K E) by (auto; intros t; now left). rewrite val_dy1. ring.
        + match goal with |- context [contrib out ?g 0 p] => replace (contrib out g 0 p) with (contrib out g 0 (j + S (p - S j))) by (f_equal; lia) end. rewrite contrib_app. cbn [Nat.add contrib].
          rewrite CZ by lia. rewrite (CZ (p - S j)%nat (S j)) by lia. rewrite IH by lia. rewrite Nat.eqb_refl. ring. }
    assert (Kk: (nth i (vm_order m) 0 < n)%nat) by (apply (order_bound _ _ _ E), nth_In; lia).
    set (k := nth i (vm_order m) 0%nat) in *.
    assert (RV: interpolate out (nth k locs []) == nth k vs 0).
    { apply (H vs out k); [exact LV|rewrite (GO vs LV); exact EO|now apply nth_error_nth'|now apply nth_error_nth'; rewrite LV]. }
    pose proof (HF i _ Hi (orig_same _ _ _ _ _ K E Hi eq_refl)) as FF. fold k n in FF. rewrite FF in RV.
    assert (CC: forall c a, (a + c <= n)%nat -> (a <= j < a + c)%nat -> contrib out (fun j0 => val (scal (vm_locations m) (vm_supports m) i j0)) a c == val (scal (vm_locations m) (vm_supports m) i j)).
    { induction c as [|c IHc]; intros a Ha Hq; [lia|]. cbn [contrib]. rewrite DD by lia. destruct (Nat.eqb_spec a j) as [->|Nn].
      - assert (CZ: forall c' a', (a' + c' <= n)%nat -> (j < a')%nat -> contrib out (fun j0 => val (scal (vm_locations m) (vm_supports m) i j0)) a' c' == 0).
        { induction c' as [|c' IHc']; intros a' Ha' Hq'; [reflexivity|]. cbn [contrib]. rewrite DD by lia. rewrite IHc' by lia.
          replace (a' =? j)%nat with false by (symmetry; apply Nat.eqb_neq; lia). ring. }
        rewrite CZ by lia. ring.
      - rewrite IHc by lia. ring. }
    rewrite CC in RV by lia. unfold scal in RV. rewrite (nth_error_nth _ _ ([] : location) Hl), (nth_error_nth _ _ ([] : support) Hs) in RV.
    clear - RV. lra.
  - intros H vs out k loc v L EO Hk Hv. rewrite GO in EO by exact L.
    destruct (formula _ _ _ K E vs L) as (out' & EO' & LO' & _ & _ & HF). assert (out' = out) by congruence. subst out'.
    assert (Lk: (k < n)%nat) by (apply nth_error_Some; congruence).
    destruct (place _ _ _ E k Lk) as (i & Hi & Ei).
    assert (EL: loc = nth k locs []) by (symmetry; now apply nth_error_nth). subst loc.
    rewrite (HF i _ Hi (orig_same _ _ _ _ _ K E Hi Ei)), Ei, (nth_error_nth _ _ 0 Hv). rewrite contrib_zero; [ring|].
    intros j Hj. unfold scal. apply (H i j); [lia|apply nth_error_nth'; unfold n in *; lia|apply nth_error_nth'; unfold n in *; lia].
Qed.

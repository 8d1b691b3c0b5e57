(** What is left of fvar, avar and STAT. *)
From Coq Require Import List ZArith Bool QArith Qabs Qminmax Lqa Lia Permutation.
Import ListNotations.
From Verif.Model Require Import MBase MFixed MFloat MFloat32 MTag MMap MGlyph MTables MStat MGvar MAvar MVarModel MInst.
From Verif.Spec Require Import SBase SFloat SVarModel SAvar.
From Verif.Proofs Require Import PBase PMap PFixed PFloat PFloat32 PScalar PVarSort PGlyf PAvar PInst PInstNorm PInstScale PInstGlyph PInstTop.
From Verif.Spec Require Import SInst.
Open Scope Z_scope.
Ltac Zify.zify_post_hook ::= idtac.

Lemma differ_iff a b : separate a b -> (differ a b = false <-> (val a == val b)%Q).
Proof.
  intros S0. unfold differ. split.
  - intros H. destruct S0 as [S0|S0]; [exact S0|]. exfalso. apply ltb_false in H. rewrite val_abs, val_EPS in H. unfold f32_sub in H. rewrite rnd24_rndp in H.
    assert (R: representable 24 (Qpower 2 (-22))) by (exists 1, (-22); split; reflexivity).
    assert (L: (Qpower 2 (-23) < Qpower 2 (-22))%Q) by reflexivity. rewrite <- val_sub in S0.
    destruct (Qlt_le_dec (val (dy_sub a b)) 0) as [N|P].
    + rewrite Qabs_neg in S0 by lra. assert (X: (val (rndp 24 (dy_sub a b)) <= - Qpower 2 (-22))%Q) by (apply rndp_le; [reflexivity|apply rep_opp, R|lra]).
      rewrite Qabs_neg in H by lra. lra.
    + rewrite Qabs_pos in S0 by assumption. assert (X: (Qpower 2 (-22) <= val (rndp 24 (dy_sub a b)))%Q) by (apply rndp_ge; [reflexivity|exact R|lra]).
      rewrite Qabs_pos in H by lra. lra.
  - intros E. apply not_true_is_false. intros H. apply ltb_iff in H. rewrite val_abs, val_EPS in H. apply sub_zero in E. rewrite E in H. discriminate H.
Qed.
Lemma range_check x y c : negb (dy_ltb c x || dy_ltb y c) = true <-> (val x <= val c <= val y)%Q.
Proof.
  rewrite negb_true_iff, orb_false_iff. split; intros [A B]; [apply ltb_false in A, B; auto|]. split; apply not_true_is_false; intros H; apply ltb_iff in H; lra.
Qed.

Section Rest.
Context (f : fvar) (user l : limits) (N : NoDup (axis_tags f)) (M : as_map user) (FIL : Forall2 (filled f) user l) (K : known f user).
Let LM : as_map l := filled_map _ _ _ FIL M.
Lemma in_axis t : In t (axis_tags f) -> exists i a, nth_error (fv_axes f) i = Some a /\ ax_axisTag a = t.
Proof. unfold axis_tags. rewrite in_map_iff. intros (a & <- & I). apply In_nth_error in I as (i & I). eauto. Qed.
Lemma pins_get t v : bm_get lex_ltb t (pins l) = Some v <-> fixed_at f user t v.
Proof.
  rewrite in_get by now apply pins_map. rewrite in_pins. split.
  - intros I. assert (T: In t (axis_tags f)) by (apply (known_filled f user l FIL) in K; exact (K t _ I)).
    apply in_axis in T as (i & a & A & <-). apply nth_error_In in A. exists a. split; [exact A|]. split; [reflexivity|]. now apply (filled_pin f user l a v N FIL A).
  - intros (a & A & <- & V). now apply (filled_pin f user l a v N FIL A).
Qed.
Lemma fixed_axis a v : In a (fv_axes f) -> (fixed_at f user (ax_axisTag a) v <-> asked user a v).
Proof.
  intros A. split; [|intros V; exists a; auto]. intros (b & B & E & V). now rewrite <- (tags_inj f b a N B A E).
Qed.
Lemma free_iff a : In a (fv_axes f) -> (has_key (ax_axisTag a) (pins l) = false <-> free user a).
Proof.
  intros A. unfold has_key, free. destruct (bm_get lex_ltb (ax_axisTag a) (pins l)) as [v|] eqn:E; split; try discriminate; auto.
  - intros H. exfalso. apply H. exists v. apply pins_get in E. now apply fixed_axis.
  - intros _ (v & V). apply fixed_axis in V; [|exact A]. apply pins_get in V. congruence.
Qed.
Lemma ranges_get t x y : bm_get lex_ltb t (ranges l) = Some (x, y) <-> In (t, Range x y) user.
Proof. rewrite in_get by now apply ranges_map. rewrite in_ranges. now apply (filled_range f user l). Qed.
Lemma fixed_no_range t v x y : fixed_at f user t v -> In (t, Range x y) user -> False.
Proof.
  intros (a & A & <- & V) R. apply (filled_pin f user l a v N FIL A) in V. apply (filled_range f user l _ x y FIL) in R.
  pose proof (nodup_in _ _ _ _ (sorted_nodup _ LM) V R). discriminate.
Qed.
(** a limit is a pin or a range *)
Lemma no_limit a : In a (fv_axes f) -> free user a -> bm_get lex_ltb (ax_axisTag a) (ranges l) = None -> forall lim, ~ In (ax_axisTag a, lim) user.
Proof.
  intros A F R lim I. destruct lim as [v|x y|].
  - apply F. exists v. now left.
  - apply ranges_get in I. congruence.
  - apply F. exists (ax_defaultValue a). right. auto.
Qed.
Lemma outside_iff t c : told_apart f user t c -> (outside l t c = false <-> agrees f user t c).
Proof.
  intros TA. unfold outside, agrees. rewrite orb_false_iff. split.
  - intros [A B]. split.
    + intros v V. pose proof (TA v V) as S0. apply pins_get in V. rewrite V in A. now apply (differ_iff c v S0).
    + intros x y I. apply ranges_get in I. rewrite I in B. apply range_check. now rewrite B.
  - intros [A B]. split.
    + destruct (bm_get lex_ltb t (pins l)) as [v|] eqn:E; [|reflexivity]. apply pins_get in E. apply (differ_iff c v (TA v E)). now apply A.
    + destruct (bm_get lex_ltb t (ranges l)) as [(x & y)|] eqn:E; [|reflexivity]. apply ranges_get in E. apply B in E. apply range_check in E. now apply negb_true_iff in E.
Qed.

(** ** Axes *)
Lemma axes_left axes : incl axes (fv_axes f) -> selects (free user) (narrowed user) axes (flat_map (new_axis l) axes).
Proof.
  induction axes as [|a axes IH]; intros I; [constructor|]. cbn [flat_map]. assert (A: In a (fv_axes f)) by (apply I; now left).
  assert (R: incl axes (fv_axes f)) by (intros x X; apply I; now right). unfold new_axis at 1. destruct (has_key (ax_axisTag a) (pins l)) eqn:H.
  - apply sel_drop; [|auto]. intros F. apply free_iff in F; [|exact A]. congruence.
  - pose proof (proj1 (free_iff a A) H) as F. destruct (bm_get lex_ltb (ax_axisTag a) (ranges l)) as [(x & y)|] eqn:E.
    + apply sel_keep; [exact F| |auto]. left. apply ranges_get in E. eauto.
    + apply sel_keep; [exact F| |auto]. right. split; [now apply no_limit|reflexivity].
Qed.
Lemma new_axis_tag a a' : In a' (new_axis l a) -> ax_axisTag a' = ax_axisTag a.
Proof.
  unfold new_axis. destruct (has_key _ _); [intros []|]. destruct (bm_get _ _ _) as [(x & y)|]; intros [<-|[]]; reflexivity.
Qed.

(** ** Instances *)
Lemma unpinned_spec ps loc o : as_map loc -> NoDup (map fst ps) -> unpinned ps loc = Ok o ->
  match o with
  | None => exists t v w, In (t, v) ps /\ bm_get lex_ltb t loc = Some w /\ differ w v = true
  | Some loc' => as_map loc' /\ (forall t v, In (t, v) ps -> exists w, bm_get lex_ltb t loc = Some w /\ differ w v = false) /\
      (forall t, In t (map fst ps) -> bm_get lex_ltb t loc' = None) /\ (forall t, ~ In t (map fst ps) -> bm_get lex_ltb t loc' = bm_get lex_ltb t loc)
  end.
Proof.
  revert loc. induction ps as [|(t & v) ps IH]; intros loc A B H; cbn [unpinned] in H.
  - injection H as <-. split; [exact A|]. split; [intros t v []|]. split; [intros t []|auto].
  - cbn [map fst] in B. inversion_clear B as [|? ? B1 B2]. apply rbind_ok in H as (w & W & H).
    assert (W': bm_get lex_ltb t loc = Some w) by (destruct (bm_get lex_ltb t loc) as [w'|]; [now injection W as ->|discriminate]).
    destruct (differ w v) eqn:D.
    + injection H as <-. exists t, v, w. split; [now left|auto].
    + assert (A': as_map (bm_remove lex_ltb t loc)) by (apply (remove_sorted lex_ltb); exact A).
      specialize (IH _ A' B2 H). destruct o as [loc'|].
      * destruct IH as (C & E & F & G). split; [exact C|]. split; [|split].
        -- intros t' v' [X|X]; [injection X as <- <-; eauto|]. destruct (E t' v' X) as (w' & W2 & D2). exists w'. split; [|exact D2].
           rewrite (get_remove_other lex_ltb lex_strict) in W2; [exact W2|]. intros ->. apply B1. apply in_map_iff. exists (t', v'). auto.
        -- cbn [map fst]. intros t' [<-|X]; [|now apply F]. rewrite G by exact B1. now apply (get_remove_same lex_ltb lex_strict).
        -- cbn [map fst In]. intros t' X. rewrite G by tauto. apply (get_remove_other lex_ltb lex_strict). tauto.
      * destruct IH as (t' & v' & w' & X & W2 & D2). exists t', v', w'. split; [now right|]. split; [|exact D2].
        rewrite (get_remove_other lex_ltb lex_strict) in W2; [exact W2|]. intros ->. apply B1. apply in_map_iff. exists (t', v'). auto.
Qed.
Section Instance.
Context (i : instance_record) (LEN : length (in_coordinates i) = length (fv_axes f)).
Definition coords_of : location := bm_of_list lex_ltb (combine (axis_tags f) (in_coordinates i)).
Lemma coords_iff t c : bm_get lex_ltb t coords_of = Some c <-> exists j a, nth_error (fv_axes f) j = Some a /\ ax_axisTag a = t /\ nth_error (in_coordinates i) j = Some c.
Proof.
  split.
  - intros H. assert (T: In t (axis_tags f)).
    { assert (X: In (t, c) coords_of) by (apply in_get; [apply of_list_map|exact H]).
      unfold coords_of in X. eapply in_combine_l. refine (proj1 (in_of_list (combine (axis_tags f) (in_coordinates i)) t c _) X).
      assert (E: map fst (combine (axis_tags f) (in_coordinates i)) = axis_tags f); [|exact (eq_ind_r (@NoDup tag) N E)].
      assert (L: length (axis_tags f) = length (in_coordinates i)) by (unfold axis_tags; now rewrite map_length). clear - L. revert L. generalize (in_coordinates i). induction (axis_tags f) as [|x xs IH]; intros [|y ys] L; try discriminate L; cbn; [reflexivity|]. f_equal. apply IH. now injection L. }
    apply in_axis in T as (j & a & A & <-). exists j, a. split; [exact A|]. split; [reflexivity|]. unfold coords_of in H. rewrite (segs_get f _ j a N A) in H. exact H.
  - intros (j & a & A & <- & C). unfold coords_of. rewrite (segs_get f _ j a N A). exact C.
Qed.
Context (TA : forall j a c, nth_error (fv_axes f) j = Some a -> nth_error (in_coordinates i) j = Some c -> told_apart f user (ax_axisTag a) c).
Lemma reach_iff : in_reach f user i <-> forall t c, bm_get lex_ltb t coords_of = Some c -> agrees f user t c.
Proof.
  unfold in_reach. split.
  - intros H t c G. apply coords_iff in G as (j & a & A & <- & C). eauto.
  - intros H j a c A C. apply H. apply coords_iff. eauto.
Qed.
Lemma apart_at t c : bm_get lex_ltb t coords_of = Some c -> told_apart f user t c.
Proof. intros G. apply coords_iff in G as (j & a & A & <- & C). eauto. Qed.
Lemma new_instance_spec r : new_instance f l (flat_map (new_axis l) (fv_axes f)) i = Ok r ->
  (~ in_reach f user i /\ r = []) \/ (in_reach f user i /\ exists i', reduced f (flat_map (new_axis l) (fv_axes f)) i i' /\ r = [i']).
Proof.
  unfold new_instance. fold coords_of. intros H. apply rbind_ok in H as (o & U & H).
  apply unpinned_spec in U; [|apply of_list_map|apply sorted_nodup, pins_map, LM]. rewrite reach_iff. destruct o as [loc'|].
  - destruct U as (A' & PI & OUT & IN). destruct (within_ranges loc' (ranges l)) eqn:W.
    + apply rbind_ok in H as (cs & C & H). injection H as <-. right. unfold within_ranges in W. rewrite forallb_forall in W. split.
      * intros t c G. split.
        -- intros v V. pose proof (apart_at t c G v V) as S0. apply pins_get in V. apply in_get in V; [|now apply pins_map]. destruct (PI t v V) as (w & G2 & D).
           assert (w = c) by congruence. subst w. now apply (differ_iff c v S0).
        -- intros x y R. assert (NP: ~ In t (map fst (pins l))).
           { intros X. apply in_map_iff in X as ((t' & v) & E & X). cbn [fst] in E. subst t'. apply in_get in X; [|now apply pins_map]. apply pins_get in X. exact (fixed_no_range t v x y X R). }
           rewrite <- (IN t NP) in G. apply in_get in G; [|exact A']. specialize (W (t, c) G). cbn [fst snd] in W. apply ranges_get in R. rewrite R in W. now apply range_check.
      * eexists. split; [|reflexivity]. split; [reflexivity|]. cbn [in_coordinates]. apply rmapM_Forall2 in C. 
        eapply F2_impl; [|exact C]. intros a' c G. cbn beta in G. destruct (bm_get lex_ltb (ax_axisTag a') loc') as [c'|] eqn:G'; [|discriminate]. injection G as ->.
        assert (NP: ~ In (ax_axisTag a') (map fst (pins l))) by (intros X; rewrite (OUT _ X) in G'; discriminate). rewrite (IN _ NP) in G'.
        apply coords_iff in G' as (j & a & ? & ? & ?). eauto.
    + injection H as <-. left. split; [|reflexivity]. intros AG.
      assert (X: exists kv, In kv loc' /\ (match bm_get lex_ltb (fst kv) (ranges l) with Some (x, y) => negb (dy_ltb (snd kv) x || dy_ltb y (snd kv)) | None => true end) = false).
      { clear - W. unfold within_ranges in W. induction loc' as [|kv m IH]; [discriminate|]. cbn [forallb] in W. apply andb_false_iff in W as [W|W]; [exists kv; split; [now left|exact W]|].
        destruct (IH W) as (kv' & I & E). exists kv'. split; [now right|exact E]. }
      destruct X as ((t & c) & I & E). cbn [fst snd] in E. destruct (bm_get lex_ltb t (ranges l)) as [(x & y)|] eqn:R; [|discriminate]. apply ranges_get in R.
      apply in_get in I; [|exact A']. assert (NP: ~ In t (map fst (pins l))) by (intros Y; rewrite (OUT _ Y) in I; discriminate). rewrite (IN _ NP) in I.
      apply AG in I. destruct I as [_ I]. apply I in R. apply range_check in R. congruence.
  - injection H as <-. left. split; [|reflexivity]. intros AG. destruct U as (t & v & w & I & G & D). apply in_get in I; [|now apply pins_map]. apply pins_get in I.
    pose proof (apart_at t w G v I) as S0. apply AG in G. destruct G as [G _]. apply G in I. apply (differ_iff w v S0) in I. congruence.
Qed.
End Instance.
Lemma fvar_left f' : ~ complete f user -> instantiate_fvar f l = Ok f' -> exists f2, f' = Some f2 /\
  selects (free user) (narrowed user) (fv_axes f) (fv_axes f2) /\
  (proper_instances f user -> selects (in_reach f user) (reduced f (fv_axes f2)) (fv_instances f) (fv_instances f2)).
Proof.
  intros NC. unfold instantiate_fvar. destruct (all_pinned f l) eqn:AP; [apply (all_pinned_iff f user l N M FIL) in AP; contradiction|].
  intros H. apply rbind_ok in H as (is & I & H). injection H as <-. eexists. split; [reflexivity|]. cbn [fv_axes fv_instances]. split; [apply axes_left, incl_refl|].
  intros P. unfold proper_instances in P. apply rmapM_Forall2 in I. induction I as [|i r ls rs H _ IH]; cbn [concat]; [constructor|].
  destruct (P i (or_introl eq_refl)) as [L TA]. assert (P': forall j, In j ls -> length (in_coordinates j) = length (fv_axes f) /\ forall j0 a c, nth_error (fv_axes f) j0 = Some a -> nth_error (in_coordinates j) j0 = Some c -> told_apart f user (ax_axisTag a) c) by (intros j J; apply P; now right).
  destruct (new_instance_spec i L TA r H) as [[NR ->]|[R (i' & RD & ->)]]; cbn [app]; [apply sel_drop|apply sel_keep]; auto.
Qed.

(** ** Style attributes *)
Lemma any_outside_spec s locs b : any_outside l s locs = Ok b ->
  if b then exists i x d, In (i, x) locs /\ nth_error (st_axes s) (Z.to_nat i) = Some d /\ outside l (da_tag d) x = true
  else forall i x, In (i, x) locs -> exists d, nth_error (st_axes s) (Z.to_nat i) = Some d /\ outside l (da_tag d) x = false.
Proof.
  induction locs as [|(i & x) locs IH]; cbn [any_outside]; [intros H; injection H as <-; intros i x []|].
  intros H. apply rbind_ok in H as (t & T & H). unfold axis_tag_at in T. destruct (nth_error (st_axes s) (Z.to_nat i)) as [d|] eqn:D; [|discriminate]. injection T as <-.
  destruct (outside l (da_tag d) x) eqn:O.
  - injection H as <-. exists i, x, d. split; [now left|auto].
  - apply IH in H. destruct b.
    + destruct H as (i' & x' & d' & I & H). exists i', x', d'. split; [now right|exact H].
    + intros i' x' [E|I]; [injection E as <- <-; eauto|auto].
Qed.
Lemma keep_spec s v r : (forall t x, places s v t x -> told_apart f user t x) -> keep_value l s v = Ok r ->
  (style_left f user s v /\ r = [v]) \/ (~ style_left f user s v /\ r = []).
Proof.
  intros TA H. unfold keep_value in H. apply rbind_ok in H as (o1 & O1 & H).
  assert (A1: if o1 then exists t x, places s v t x /\ outside l t x = true
              else forall i x, av_nominal v = Some x -> av_axis v = Some i -> exists d, nth_error (st_axes s) (Z.to_nat i) = Some d /\ outside l (da_tag d) x = false).
  { destruct (av_nominal v) as [n|] eqn:EN; [|injection O1 as <-; discriminate]. apply rbind_ok in O1 as (i & I & O1). apply rbind_ok in O1 as (t & T & O1).
    destruct (av_axis v) as [i'|] eqn:EA; [|discriminate]. injection I as ->. unfold axis_tag_at in T. destruct (nth_error (st_axes s) (Z.to_nat i)) as [d|] eqn:D; [|discriminate]. injection T as <-.
    injection O1 as <-. destruct (outside l (da_tag d) n) eqn:O; [exists (da_tag d), n; split; [|exact O]; exists i, d; auto|].
    intros i' x E1 E2. injection E1 as <-. injection E2 as <-. eauto. }
  assert (BAD: (exists t x, places s v t x /\ outside l t x = true) -> ~ style_left f user s v).
  { intros (t & x & P & O) SL. pose proof (SL t x P) as AG. apply (outside_iff t x (TA t x P)) in AG. congruence. }
  destruct o1; [injection H as <-; right; split; [now apply BAD|reflexivity]|].
  apply rbind_ok in H as (o2 & O2 & H).
  assert (A2: if o2 then exists t x, places s v t x /\ outside l t x = true
              else forall locs i x, av_locations v = Some locs -> In (i, x) locs -> exists d, nth_error (st_axes s) (Z.to_nat i) = Some d /\ outside l (da_tag d) x = false).
  { destruct (av_locations v) as [locs|] eqn:EL; [|injection O2 as <-; discriminate]. apply any_outside_spec in O2. destruct o2.
    - destruct O2 as (i & x & d & I & D & O). exists (da_tag d), x. split; [|exact O]. exists i, d. split; [exact D|]. split; [reflexivity|]. right. exists locs. auto.
    - intros locs' i x E I. injection E as <-. eauto. }
  destruct o2; injection H as <-; [right; split; [now apply BAD|reflexivity]|left]. split; [|reflexivity].
  intros t x P. apply (outside_iff t x (TA t x P)). destruct P as (i & d & D & <- & [[E1 E2]|(locs & E & I)]).
  - destruct (A1 i x E2 E1) as (d' & D' & O). congruence.
  - destruct (A2 locs i x E I) as (d' & D' & O). congruence.
Qed.
Lemma stat_left s s' : styles_apart f user s -> instantiate_stat l s = Ok s' ->
  st_elided s' = st_elided s /\ st_axes s' = st_axes s /\ selects (style_left f user s) eq (st_values s) (st_values s').
Proof.
  intros TA. unfold instantiate_stat. destruct (is_nil (st_axes s) || is_nil (st_values s)) eqn:E.
  - intros H. injection H as <-. split; [reflexivity|]. split; [reflexivity|]. apply orb_true_iff in E as [E|E].
    + assert (EA: st_axes s = []) by (destruct (st_axes s); [reflexivity|discriminate]).
      induction (st_values s) as [|v vs IH]; constructor; [|reflexivity|exact IH]. intros t x (i & d & D & _). rewrite EA in D. destruct (Z.to_nat i); discriminate.
    + destruct (st_values s); [constructor|discriminate].
  - intros H. apply rbind_ok in H as (vs & V & H). injection H as <-. cbn [st_elided st_axes st_values]. split; [reflexivity|]. split; [reflexivity|].
    unfold styles_apart in TA. apply rmapM_Forall2 in V. clear E. induction V as [|v r vs0 rs H _ IH]; cbn [concat]; [constructor|].
    assert (IH': selects (style_left f user s) eq vs0 (concat rs)) by (apply IH; intros w t x I; apply TA; now right).
    destruct (keep_spec s v r (fun t x => TA v t x (or_introl eq_refl)) H) as [[A ->]|[A ->]]; cbn [app]; [now apply sel_keep|now apply sel_drop].
Qed.

(** ** Segment maps *)
Lemma remove_all_get {V W} (ps : list (list Z * W)) (m : list (list Z * V)) t : as_map m ->
  let m' := fold_left (fun m kv => bm_remove lex_ltb (fst kv) m) ps m in
  as_map m' /\ forall v, bm_get lex_ltb t m' = Some v -> bm_get lex_ltb t m = Some v /\ ~ In t (map fst ps).
Proof.
  revert m. induction ps as [|(k & w) ps IH]; intros m A; cbn [fold_left fst map]; [auto|].
  assert (A': as_map (bm_remove lex_ltb k m)) by (apply (remove_sorted lex_ltb); exact A).
  destruct (IH _ A') as [B C]. split; [exact B|]. intros v H. apply C in H as [H NI].
  assert (NE: t <> k). { intros ->. rewrite (get_remove_same lex_ltb lex_strict) in H by exact A. discriminate. }
  rewrite (get_remove_other lex_ltb lex_strict) in H by congruence. split; [exact H|]. cbn [In]. intros [E|I]; [congruence|contradiction].
Qed.
Lemma limit_axis_spec rs ts r t m : limit_axis rs ts = Ok r -> In (t, m) r -> t = fst ts /\ seg_valid (snd ts) = true /\
  match bm_get lex_ltb t rs with Some (x, y) => limit_map (snd ts) x y = Ok m | None => m = snd ts end.
Proof.
  unfold limit_axis. destruct (seg_valid (snd ts)); [|intros H; injection H as <-; intros []].
  destruct (bm_get lex_ltb (fst ts) rs) as [(x & y)|] eqn:G.
  - intros H. apply rbind_ok in H as (m' & E & H). injection H as <-. intros [X|[]]. injection X as <- <-. rewrite G. auto.
  - intros H. injection H as <-. intros [X|[]]. subst ts. cbn [fst snd] in *. rewrite G. auto.
Qed.
(** normalized ranges start at 0 or above, so that no map can be limited *)
Lemma round_nonneg x c : f2_round x = Ok c -> (0 <= val x)%Q -> (0 <= val c)%Q.
Proof.
  unfold f2_round. destruct (f2dot14_as_packed x) as [p|] eqn:E; [|discriminate]. cbn [unwrap rbind]. intros F P. injection F as <-.
  unfold f2dot14_as_packed, try_i in E. destruct ((_ <=? _)%Z && _) eqn:C; [|discriminate]. injection E as E.
  rewrite E in C. apply andb_true_iff in C as [C1 C2]. apply Z.leb_le in C1. apply Z.ltb_lt in C2. change (2 ^ (16 - 1))%Z with 32768%Z in *.
  assert (V: (val (f2dot14_from_packed p) == inject_Z p / 16384)%Q).
  { unfold f2dot14_from_packed, f32_of_int. rewrite rnd24_small by lia. unfold f32_scale. cbn [mant expo]. rewrite val_Dy. reflexivity. }
  rewrite V. clear V.
  change (ot_round (f32_scale x 14)) with (sat_i32 (dy_floor (rnd24 (dy_add (f32_scale x 14) (Dy 1 (-1)))))) in E. set (y := dy_add (f32_scale x 14) (Dy 1 (-1))) in E.
  assert (Y: (0 <= val y)%Q).
  { unfold y. rewrite val_add. assert (E1: (val (Dy 1 (-1)) == 1#2)%Q) by reflexivity. rewrite E1.
    assert (E2: (val (f32_scale x 14) == val x * 16384)%Q).
    { unfold f32_scale. rewrite val_Dy, p2_add. change (Qpower 2 14) with (inject_Z 16384). unfold val. ring. }
    rewrite E2. lra. }
  assert (R: (0 <= val (rnd24 y))%Q) by (rewrite rnd24_rndp; apply rndp_ge; [reflexivity|apply rep0|exact Y]). apply floor_nonneg in R.
  assert (P0: 0 <= p) by (unfold sat_i32 in E; change (2 ^ 31)%Z with 2147483648%Z in E; lia).
  apply Qle_shift_div_l; [reflexivity|]. rewrite Qmult_0_l. change 0%Q with (inject_Z 0). now rewrite <- Zle_Qle.
Qed.
Lemma packed0 : (0 <= val (f2dot14_from_packed 0))%Q.
Proof. assert (Z0: (val (f2dot14_from_packed 0) == 0)%Q) by reflexivity. rewrite Z0. apply Qle_refl. Qed.
Lemma width_pos lo hi : (val lo <= val hi)%Q -> dy_eqb (f32_sub hi lo) dy0 = false -> (val lo < val hi)%Q.
Proof.
  intros L E. destruct (Qlt_le_dec (val lo) (val hi)) as [X|X]; [exact X|]. exfalso.
  assert (T: dy_eqb (f32_sub hi lo) dy0 = true) by (apply eqb_iff; rewrite val_dy0; apply sub_zero; lra). congruence.
Qed.
Lemma normalize_nonneg v lo hi c : normalize v lo hi None = Ok c -> (0 <= val c)%Q.
Proof.
  unfold normalize. intros H. apply rbind_ok in H as (w & C & H). cbv zeta in H. pose proof (clamp_spec _ _ _ _ C) as [L _].
  destruct (dy_eqb (f32_sub hi lo) dy0) eqn:E.
  - apply (f_equal (fun r => match r with Ok x => x | _ => dy0 end)) in H. cbv beta iota in H. rewrite <- H. apply packed0.
  - pose proof (width_pos lo hi L E) as LT. destruct (fraction_spec v lo hi w LT C) as [[X _] _].
    apply rbind_ok in H as (y & Y & R). injection Y as Y. rewrite <- Y in R. exact (round_nonneg _ _ R X).
Qed.
Lemma not_near_m1 a : (0 <= val a)%Q -> near a minus1 = false.
Proof.
  intros H. apply near_far. assert (E: (val minus1 == - (1))%Q) by reflexivity. rewrite E. rewrite Qabs_pos by lra. 
  assert (X: (Qpower 2 (-23) <= 1)%Q) by discriminate. lra.
Qed.
Lemma limit_node_spec lo hi mlo mhi n r : (0 <= val lo)%Q -> (0 <= val hi)%Q -> limit_node lo hi mlo mhi n = Ok r -> Forall (fun k => near (fst k) minus1 = false) r.
Proof.
  intros L HI. unfold limit_node. destruct n as [from to]. destruct (dy_ltb from dy0) eqn:F.
  - assert (S0: dy_eqb lo dy0 || dy_ltb from lo = true).
    { apply orb_true_iff. right. apply ltb_iff in F. rewrite val_dy0 in F. apply ltb_iff. lra. }
    rewrite S0. intros H. injection H as <-. constructor.
  - apply ltb_false in F. rewrite val_dy0 in F. destruct (dy_ltb dy0 from) eqn:G.
    + destruct (dy_eqb hi dy0 || dy_ltb hi from) eqn:S0; [intros H; injection H as <-; constructor|]. intros H. apply rbind_ok in H as (to' & _ & H). apply rbind_ok in H as (a & A & H). apply rbind_ok in H as (b & _ & H). injection H as <-.
      constructor; [|constructor]. cbn [fst]. apply not_near_m1. apply (round_nonneg _ _ A). rewrite f32_div_fdiv.
      apply orb_false_iff in S0 as [Z0 _]. assert (NZ: ~ (val hi == 0)%Q). { intros X. rewrite <- val_dy0 in X. apply eqb_iff in X. congruence. }
      apply fdiv_ge; [reflexivity| |apply rep0|].
      * intros X. apply NZ. unfold val. rewrite X. apply Qmult_0_l.
      * apply Qle_shift_div_l; lra.
    + intros H. apply rbind_ok in H as (to' & _ & H). apply rbind_ok in H as (a & A & H). apply rbind_ok in H as (b & _ & H). injection H as <-.
      constructor; [|constructor]. cbn [fst]. apply not_near_m1. now apply (round_nonneg _ _ A).
Qed.
Lemma limit_map_never m lo hi r : (0 <= val lo)%Q -> (0 <= val hi)%Q -> limit_map m lo hi <> Ok r.
Proof.
  intros L HI H. unfold limit_map in H. apply rbind_ok in H as (a & _ & H). apply rbind_ok in H as (mlo & _ & H). apply rbind_ok in H as (b & _ & H). apply rbind_ok in H as (mhi & _ & H).
  apply rbind_ok in H as (ns & NS & H). apply rmapM_Forall2 in NS. unfold seg_new in H. destruct (seg_valid (concat ns)) eqn:V; [|discriminate]. clear H.
  assert (F: Forall (fun k => near (fst k) minus1 = false) (concat ns)).
  { clear V. induction NS as [|n r0 m0 ns0 H _ IH]; cbn [concat]; [constructor|]. apply Forall_app. split; [|exact IH]. exact (limit_node_spec _ _ _ _ _ _ L HI H). }
  unfold seg_valid in V. apply seg_check_spec in V as [_ (_ & C & _)].
  assert (Z0: cnt ism1 (concat ns) = 0%nat).
  { unfold cnt. clear C. induction F as [|k ks A _ IH]; [reflexivity|]. cbn [filter]. unfold ism1 at 1. rewrite A. cbn [andb]. exact IH. }
  rewrite Z0 in C. discriminate.
Qed.
Lemma avar_left maps o : ~ complete f user -> instantiate_avar f maps l = Ok o ->
  (forall t x y, ~ In (t, Range x y) user) /\ exists ms, o = Some ms /\
  selects (fun ia => free user (snd ia)) (fun ia m => nth_error maps (fst ia) = Some m /\ seg_valid m = true) (combine (seq 0 (length (fv_axes f))) (fv_axes f)) ms.
Proof.
  intros NC H. unfold instantiate_avar in H. apply rbind_ok in H as (nl & NRM & H).
  destruct (all_pinned f l) eqn:AP; [apply (all_pinned_iff f user l N M FIL) in AP; contradiction|].
  apply rbind_ok in H as (new & NEW & H). apply rbind_ok in H as (ms & MS & H). injection H as <-.
  destruct (normalize_limits_spec f (Some maps) l false N LM nl NRM) as (_ & NM & NE).
  pose proof (normalize_limits_all f (Some maps) l false N LM nl NRM) as NALL. cbn [axis_map] in NE, NALL.
  set (segs := fold_left _ _ _) in NEW. apply rmapM_Forall2 in NEW. apply rmapM_Forall2 in MS.
  (* every free axis has a valid map; if it has a range, limiting it fails *)
  assert (GET: forall i a m, nth_error (fv_axes f) i = Some a -> bm_get lex_ltb (ax_axisTag a) (concat new) = Some m -> nth_error maps i = Some m /\ seg_valid m = true /\ forall x y, ~ In (ax_axisTag a, Range x y) user).
  { intros i a m A G. apply get_In in G; [|apply lex_strict]. apply in_concat in G as (r & IR & G). destruct (Forall2_in_r _ _ _ _ NEW IR) as (ts & IT & LA).
    destruct (limit_axis_spec _ _ _ _ _ LA G) as (T & V & E). 
    assert (SG: nth_error maps i = Some (snd ts)).
    { destruct (remove_all_get (pins l) (bm_of_list lex_ltb (combine (axis_tags f) maps)) (ax_axisTag a)) as [RM RG]; [apply of_list_map|]. fold segs in RM, RG.
      assert (X: bm_get lex_ltb (ax_axisTag a) segs = Some (snd ts)). { apply in_get; [exact RM|]. rewrite T. destruct ts; exact IT. }
      apply RG in X as [X _]. rewrite (segs_get f maps i a N A) in X. exact X. }
    assert (NRG: forall x y, ~ In (ax_axisTag a, Range x y) user).
    { intros x y R. apply (filled_range f user l _ x y FIL) in R. destruct (NALL i a _ A R) as (lim' & NO). pose proof NO as NO'. cbn [normal] in NO. destruct NO as (_ & x' & y' & X & Y & ->).
      assert (J: In (ax_axisTag a, Range x' y') nl) by (apply NE; exists i, a, (Range x y); auto).
      apply in_ranges in J. apply in_get in J; [|now apply ranges_map]. rewrite J in E. revert E. apply limit_map_never; eapply normalize_nonneg; eassumption. }
    split; [|split; [|exact NRG]].
    - destruct (bm_get lex_ltb (ax_axisTag a) (ranges nl)) as [(x' & y')|] eqn:G2; [|congruence]. exfalso. apply in_get in G2; [|now apply ranges_map]. apply in_ranges in G2.
      apply NE in G2 as (j & b & lim & B & E2 & R & NO). pose proof (tags_inj f b a N (nth_error_In _ _ B) (nth_error_In _ _ A) E2). subst b.
      destruct lim as [v|x y|]; cbn [normal] in NO; [destruct NO as (? & _ & X); discriminate| |contradiction]. apply (NRG x y). now apply (filled_range f user l _ x y FIL).
    - destruct (bm_get lex_ltb (ax_axisTag a) (ranges nl)) as [(x' & y')|] eqn:G2; [|congruence]. exfalso. apply in_get in G2; [|now apply ranges_map]. apply in_ranges in G2.
      apply NE in G2 as (j & b & lim & B & E2 & R & NO). pose proof (tags_inj f b a N (nth_error_In _ _ B) (nth_error_In _ _ A) E2). subst b.
      destruct lim as [v|x y|]; cbn [normal] in NO; [destruct NO as (? & _ & X); discriminate| |contradiction]. apply (NRG x y). now apply (filled_range f user l _ x y FIL). }
  split.
  - intros t x y R. pose proof (K t _ R) as T. destruct (in_axis t T) as (i & a & A & <-).
    assert (FR: has_key (ax_axisTag a) (pins l) = false).
    { apply free_iff; [now apply nth_error_In in A|]. intros (v & V). apply (fixed_no_range (ax_axisTag a) v x y); [apply fixed_axis; [now apply nth_error_In in A|exact V]|exact R]. }
    assert (IN: In (ax_axisTag a) (filter (fun t => negb (has_key t (pins l))) (axis_tags f))) by (apply filter_In; split; [exact T|now rewrite FR]).
    destruct (Forall2_in_l _ _ _ _ MS IN) as (m & _ & G). cbn beta in G. destruct (bm_get lex_ltb (ax_axisTag a) (concat new)) as [m'|] eqn:G'; [|discriminate].
    destruct (GET i a m' A G') as (_ & _ & NR). exact (NR x y R).
  - exists ms. split; [reflexivity|].
    assert (GEN: forall axes k, (forall j a, nth_error axes j = Some a -> nth_error (fv_axes f) (k + j)%nat = Some a) ->
      forall ms, Forall2 (fun t m => unwrap (bm_get lex_ltb t (concat new)) = Ok m) (filter (fun t => negb (has_key t (pins l))) (map ax_axisTag axes)) ms ->
      selects (fun ia => free user (snd ia)) (fun ia m => nth_error maps (fst ia) = Some m /\ seg_valid m = true) (combine (seq k (length axes)) axes) ms).
    { clear - GET N FIL K M LM. induction axes as [|a axes IH]; intros k AT ms F; cbn [map filter length seq combine] in *; [inversion F; constructor|].
      assert (A: nth_error (fv_axes f) k = Some a) by (rewrite <- (AT 0%nat a eq_refl); f_equal; lia). pose proof (nth_error_In _ _ A) as AI.
      assert (AT': forall j b, nth_error axes j = Some b -> nth_error (fv_axes f) (S k + j)%nat = Some b) by (intros j b B; rewrite <- (AT (S j) b B); f_equal; lia).
      destruct (has_key (ax_axisTag a) (pins l)) eqn:HK; cbn [negb] in F.
      - apply sel_drop; [|now apply IH]. cbn [snd]. intros FR. apply free_iff in FR; [|exact AI]. congruence.
      - inversion F as [|? m ? ms' G F']; subst. destruct (bm_get lex_ltb (ax_axisTag a) (concat new)) as [m'|] eqn:G'; [|discriminate]. injection G as ->.
        destruct (GET k a m A G') as (X & Y & _). apply sel_keep; [cbn [snd]; now apply free_iff|cbn [fst]; auto|now apply IH]. }
    apply GEN; [auto|exact MS].
Qed.
End Rest.

(** ** Where it aborts *)
Lemma tent_some pinned tags d ix k t : In t tags -> has_key t pinned = false -> tent_key pinned ix tags d = Ok k -> k <> [].
Proof.
  revert ix k. induction tags as [|x tags IH]; intros ix k I F; [destruct I|]. cbn [tent_key]. intros H. apply rbind_ok in H as (p & _ & H).
  destruct (has_key x pinned) eqn:X.
  - destruct I as [->|I]; [congruence|]. eapply IH; eauto.
  - repeat (apply rbind_ok in H as (? & _ & H)). injection H as <-. discriminate.
Qed.
Lemma merge_no_key pinned tags t sets m m' : In t tags -> has_key t pinned = false -> bm_get lex_ltb [] m = None -> merge pinned tags sets m = Ok m' -> bm_get lex_ltb [] m' = None.
Proof.
  intros I F. revert m. induction sets as [|d sets IH]; intros m G; cbn [merge]; [intros H; now injection H as <-|].
  intros H. apply rbind_ok in H as (k & KK & H). apply (tent_some _ _ _ _ _ t I F) in KK. apply rbind_ok in H as (v & _ & H). apply IH in H; [exact H|].
  rewrite (get_insert_other lex_ltb lex_strict); [exact G|congruence].
Qed.
Lemma glyph_aborts tags nl g sets x : (exists t, In t tags /\ has_key t (pins nl) = false) -> concat (g_contours g) <> [] -> instantiate_glyph tags nl g (Some sets) <> Ok x.
Proof.
  intros (t & I & F) NE H. cbn [instantiate_glyph] in H. apply rbind_ok in H as ((others & ds) & D & H). apply rbind_ok in H as (cs & C & H).
  unfold gvar_data in D. apply rbind_ok in D as (s1 & _ & D). apply rbind_ok in D as (s2 & _ & D). apply rbind_ok in D as (m & MM & D).
  apply (merge_no_key _ _ t) in MM; auto. rewrite MM in D. injection D as _ <-. apply move_contours_spec in C as (_ & L & _). destruct (concat (g_contours g)); [contradiction|cbn in L; lia].
Qed.
Lemma glyph_range_aborts tags nl g sets x : ranges nl <> [] -> instantiate_glyph tags nl g (Some sets) <> Ok x.
Proof.
  intros R H. cbn [instantiate_glyph] in H. apply rbind_ok in H as (o & D & _). unfold gvar_data in D. apply rbind_ok in D as (s1 & _ & D).
  destruct (ranges nl); [contradiction|]. discriminate D.
Qed.
(** what a font that comes out went through *)
Lemma instantiate_parts ft user f ft' : vf_fvar ft = Some f -> NoDup (axis_tags f) -> as_map user -> instantiate ft user = Ok ft' ->
  exists l nl, Forall2 (filled f) user l /\ known f user /\ normalize_limits f (vf_avar ft) l true = Ok nl /\
    (forall vs gs i g v, vf_gvar ft = Some vs -> vf_glyf ft = Some gs -> nth_error gs i = Some g -> nth_error vs i = Some v -> exists x, instantiate_glyph (axis_tags f) nl g v = Ok x) /\
    match vf_avar ft with Some maps => instantiate_avar f maps l = Ok (vf_avar ft') | None => vf_avar ft' = None end /\
    match vf_stat ft with Some s => exists s', vf_stat ft' = Some s' /\ instantiate_stat l s = Ok s' | None => vf_stat ft' = None end /\
    instantiate_fvar f l = Ok (vf_fvar ft').
Proof.
  intros FV N M H. unfold instantiate in H. rewrite FV in H. cbn [unwrap rbind] in H. destruct (vf_cff2 ft); [discriminate|].
  apply rbind_ok in H as (l & P & H). apply (populate_iff f user l N) in P. apply rbind_ok in H as (nl & NRM & H).
  apply rbind_ok in H as ((gs2 & gv2) & G & H). apply rbind_ok in H as (av2 & A & H). apply rbind_ok in H as (st2 & S0 & H). apply rbind_ok in H as (fv2 & V & H).
  exists l, nl. split; [exact P|].
  assert (E: ft' = mk_vf fv2 av2 gv2 gs2 st2 false) by (destruct fv2, gs2; try discriminate H; now injection H as <-). subst ft'. cbn [vf_avar vf_stat vf_fvar].
  split; [apply (known_filled f user l P); apply (normalize_limits_spec f (vf_avar ft) l true N (filled_map _ _ _ P M) nl NRM)|].
  split; [exact NRM|]. split; [|split; [|split; [|exact V]]].
  - intros vs gs i g v EV EG I J. rewrite EV, EG in G. cbn [unwrap rbind] in G. apply rbind_ok in G as ((gs3 & gv3) & G & _). unfold instantiate_gvar in G. apply rbind_ok in G as (x & G & _).
    eapply glyphs_each; eassumption.
  - destruct (vf_avar ft); [exact A|congruence].
  - destruct (vf_stat ft); [|congruence]. apply rbind_ok in S0 as (s' & S0 & E). injection E as <-. eauto.
Qed.
Lemma partial_aborts ft f user gs vs i g sets ft' : vf_fvar ft = Some f -> NoDup (axis_tags f) -> as_map user -> ~ complete f user ->
  vf_glyf ft = Some gs -> vf_gvar ft = Some vs -> nth_error gs i = Some g -> nth_error vs i = Some (Some sets) -> concat (g_contours g) <> [] -> instantiate ft user <> Ok ft'.
Proof.
  intros FV N M NC EG EV I J NE H. destruct (instantiate_parts ft user f ft' FV N M H) as (l & nl & P & KN & NRM & GL & _).
  destruct (GL vs gs i g _ EV EG I J) as (x & X). revert X. apply glyph_aborts; [|exact NE].
  assert (AP: all_pinned f l = false) by (apply not_true_is_false; intros AP; apply (all_pinned_iff f user l N M P) in AP; contradiction).
  assert (EX: exists t, In t (axis_tags f) /\ has_key t (pins l) = false).
  { unfold all_pinned in AP. clear - AP. induction (axis_tags f) as [|t ts IH]; [discriminate|]. cbn [forallb] in AP. destruct (has_key t (pins l)) eqn:E; [|exists t; split; [now left|exact E]].
    destruct (IH AP) as (t' & I & E'). exists t'. split; [now right|exact E']. }
  destruct EX as (t & T & HK). exists t. split; [exact T|]. apply not_true_is_false. intros Y.
  destruct (normalize_limits_spec f (vf_avar ft) l true N (filled_map _ _ _ P M) nl NRM) as (_ & NM & E).
  apply has_key_ex in Y as (c & Y); [|now apply pins_map]. apply in_pins in Y. apply E in Y as (j & a & lim & A & <- & IL & NO).
  destruct lim as [v|x0 y0|]; cbn [normal] in NO; [|destruct NO as (_ & ? & ? & _ & _ & Z0); discriminate|contradiction].
  assert (HK': has_key (ax_axisTag a) (pins l) = true); [|congruence]. apply has_key_ex; [apply pins_map; exact (filled_map _ _ _ P M)|]. exists v. now apply in_pins.
Qed.
Lemma range_aborts ft f user gs vs i g sets t x y ft' : vf_fvar ft = Some f -> NoDup (axis_tags f) -> as_map user -> In (t, Range x y) user ->
  vf_glyf ft = Some gs -> vf_gvar ft = Some vs -> nth_error gs i = Some g -> nth_error vs i = Some (Some sets) -> instantiate ft user <> Ok ft'.
Proof.
  intros FV N M R EG EV I J H. destruct (instantiate_parts ft user f ft' FV N M H) as (l & nl & P & KN & NRM & GL & _).
  destruct (GL vs gs i g _ EV EG I J) as (z & X). revert X. apply glyph_range_aborts. pose proof (filled_map _ _ _ P M) as LM.
  pose proof (KN t _ R) as T. unfold axis_tags in T. apply in_map_iff in T as (a & <- & A). apply In_nth_error in A as (j & A).
  apply (filled_range f user l _ x y P) in R. destruct (normalize_limits_all f (vf_avar ft) l true N LM nl NRM j a _ A R) as (lim' & NO).
  destruct (normalize_limits_spec f (vf_avar ft) l true N LM nl NRM) as (_ & NM & E).
  assert (IN: In (ax_axisTag a, lim') nl) by (apply E; exists j, a, (Range x y); auto). cbn [normal] in NO. destruct NO as (_ & x' & y' & _ & _ & ->).
  apply in_ranges in IN. intros Z0. rewrite Z0 in IN. destruct IN.
Qed.

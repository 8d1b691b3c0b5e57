(** Instances with every axis fixed. *)
From Coq Require Import List ZArith Bool QArith Qabs Qminmax Lqa Lia Permutation.
Import ListNotations.
From Verif.Model Require Import MBase MFixed MFloat MFloat32 MTag MMap MGlyph MTables MStat MGvar MAvar MVarModel MInst.
From Verif.Spec Require Import SBase SFloat SVarModel SAvar.
From Verif.Spec Require SIup.
From Verif.Proofs Require Import PBase PMap PFixed PFloat PFloat32 PScalar PVarSort PGlyf PAvar PInst PInstNorm PInstScale PInstGlyph.
From Verif.Spec Require Import SInst.
Open Scope Z_scope.
Ltac Zify.zify_post_hook ::= idtac.

Lemma known_filled f user l : Forall2 (filled f) user l -> (known f l <-> known f user).
Proof.
  intros F. pose proof (filled_keys _ _ _ F) as E. unfold known. split; intros H t x I; apply (in_map fst) in I; cbn [fst] in I.
  - rewrite <- E in I. apply in_map_iff in I as ((t' & x') & E' & I). cbn [fst] in E'. subst t'. exact (H t x' I).
  - rewrite E in I. apply in_map_iff in I as ((t' & x') & E' & I). cbn [fst] in E'. subst t'. exact (H t x' I).
Qed.
Lemma populate_ok f user : NoDup (axis_tags f) -> known f user -> exists l, Forall2 (filled f) user l.
Proof.
  intros N K. assert (G: forall kv, In kv user -> exists kv', filled f kv kv').
  { intros (t & lim) I. unfold filled. cbn [fst snd]. destruct lim; eauto. apply K in I. unfold axis_tags in I. apply in_map_iff in I as (a & E & I). eauto. }
  clear K. revert G. induction user as [|kv user IH]; intros G; [exists []; constructor|].
  destruct IH as (l & F); [intros kv' I; apply G; now right|]. destruct (G kv (or_introl eq_refl)) as (kv' & H). exists (kv' :: l). now constructor.
Qed.
Lemma flat_map_nil {A B} (g : A -> list B) l : (forall x, In x l -> g x = []) -> flat_map g l = [].
Proof. induction l as [|x l IH]; intros H; [reflexivity|]. cbn. rewrite (H x (or_introl eq_refl)). apply IH. intros y I. apply H. now right. Qed.

Section Complete.
Context (f : fvar) (av : option (list segment_map)) (user l nl : limits) (N : NoDup (axis_tags f)) (M : as_map user) (C : complete f user)
  (FIL : Forall2 (filled f) user l) (NRM : normalize_limits f av l true = Ok nl).
Lemma lM : as_map l. Proof. exact (filled_map _ _ _ FIL M). Qed.
Lemma only_pins i a lim : nth_error (fv_axes f) i = Some a -> In (ax_axisTag a, lim) l -> exists v, lim = Pin v /\ asked user a v.
Proof.
  intros I J. apply nth_error_In in I. destruct (C a I) as (v & V). pose proof V as V'. apply (filled_pin f user l a v N FIL I) in V.
  exists v. split; [|exact V']. exact (nodup_in _ _ _ _ (sorted_nodup _ lM) J V).
Qed.
Lemma nl_spec : known f user /\ as_map nl /\ (forall t x, In (t, x) nl <-> exists i a v c, nth_error (fv_axes f) i = Some a /\ ax_axisTag a = t /\ asked user a v /\ normalize v (ax_minValue a) (ax_maxValue a) (axis_map av i) = Ok c /\ x = Pin c).
Proof.
  destruct (normalize_limits_spec f av l true N lM nl NRM) as (K & NM & E). split; [now apply (known_filled f user l FIL)|]. split; [exact NM|].
  intros t x. rewrite E. split.
  - intros (i & a & lim & I & <- & J & H). destruct (only_pins i a lim I J) as (v & -> & V). cbn [normal] in H. destruct H as (c & H & ->). exists i, a, v, c. auto.
  - intros (i & a & v & c & I & <- & V & H & ->). exists i, a, (Pin v). split; [exact I|]. split; [reflexivity|]. split; [apply (filled_pin f user l a v N FIL); [now apply nth_error_In in I|exact V]|].
    cbn [normal]. exists c. auto.
Qed.
Lemma nl_ranges : ranges nl = [].
Proof.
  apply flat_map_nil. intros (t & x) I. apply nl_spec in I as (i & a & v & c & _ & _ & _ & _ & ->). reflexivity.
Qed.
Lemma nl_location : location_of f av user (pins nl) /\ Forall (fun kv => f2dot14 (snd kv)) (pins nl).
Proof.
  destruct nl_spec as (K & NM & E). split.
  - split; [now apply pins_map|]. split.
    + intros t. rewrite in_map_iff. unfold axis_tags. rewrite in_map_iff. split.
      * intros ((t' & c) & <- & I). apply in_pins in I. apply E in I as (i & a & v & c' & I & <- & _). exists a. split; [reflexivity|]. now apply nth_error_In in I.
      * intros (a & <- & I). destruct (C a I) as (v & V). apply In_nth_error in I as (i & I). 
        assert (P: In (ax_axisTag a, Pin v) l) by (apply (filled_pin f user l a v N FIL); [now apply nth_error_In in I|exact V]).
        assert (Q0: exists c, normalize v (ax_minValue a) (ax_maxValue a) (axis_map av i) = Ok c).
        { destruct (normalize_limits_all f av l true N lM nl NRM i a (Pin v) I P) as (lim' & H). cbn [normal] in H. destruct H as (c & H & _). eauto. }
        destruct Q0 as (c & H). exists (ax_axisTag a, c). split; [reflexivity|]. apply in_pins. apply E. exists i, a, v, c. auto.
    + intros i a v I V. destruct (normalize_limits_all f av l true N lM nl NRM i a (Pin v) I) as (lim' & H); [apply (filled_pin f user l a v N FIL); [now apply nth_error_In in I|exact V]|].
      cbn [normal] in H. destruct H as (c & H & _). exists c. split; [|now apply normalize_stands].
      apply in_pins. apply E. exists i, a, v, c. auto.
  - apply Forall_forall. intros (t & c) I. apply in_pins in I. apply E in I as (i & a & v & c' & I & _ & _ & H & E'). injection E' as ->. apply normalize_stands in H. apply H.
Qed.
End Complete.

(** ** All glyphs *)
Lemma glyphs_spec tags nl gs vs gs' vs' : instantiate_glyphs tags nl gs vs = Ok (gs', vs') ->
  (length gs <= length vs)%nat /\ length gs' = length gs /\ exists vs1, vs' = vs1 ++ skipn (length gs) vs /\ length vs1 = length gs /\
  forall i g v, nth_error gs i = Some g -> nth_error vs i = Some v -> exists g' v', nth_error gs' i = Some g' /\ nth_error vs1 i = Some v' /\ instantiate_glyph tags nl g v = Ok (g', v').
Proof.
  revert vs gs' vs'. induction gs as [|g gs IH]; intros vs gs' vs'; cbn [instantiate_glyphs].
  - intros H. injection H as <- <-. repeat split; [cbn; lia|]. exists []. repeat split. intros [|i]; discriminate.
  - destruct vs as [|v vs]; [discriminate|]. intros H. apply rbind_ok in H as ((g' & v') & G & H). apply rbind_ok in H as ((gs2 & vs2) & R & H). injection H as <- <-.
    apply IH in R as (L & L2 & vs1 & -> & L3 & E). cbn [length skipn]. repeat split; [lia|lia|]. exists (v' :: vs1). repeat split; [cbn; lia|].
    intros [|i] g0 v0 H1 H2; cbn [nth_error] in *; [injection H1 as <-; injection H2 as <-; eauto|eauto].
Qed.
Lemma glyphs_ok tags nl gs vs : (length gs <= length vs)%nat -> (forall i g v, nth_error gs i = Some g -> nth_error vs i = Some v -> exists x, instantiate_glyph tags nl g v = Ok x) ->
  exists x, instantiate_glyphs tags nl gs vs = Ok x.
Proof.
  revert vs. induction gs as [|g gs IH]; intros vs L H; cbn [instantiate_glyphs]; [eauto|]. destruct vs as [|v vs]; [cbn in L; lia|].
  destruct (H 0%nat g v eq_refl eq_refl) as ((g' & v') & ->). cbn [rbind]. destruct (IH vs) as ((gs' & vs') & ->); [cbn in L; lia|intros i; apply (H (S i))|]. cbn. eauto.
Qed.
Lemma glyphs_each tags nl gs vs x : instantiate_glyphs tags nl gs vs = Ok x -> forall i g v, nth_error gs i = Some g -> nth_error vs i = Some v -> exists y, instantiate_glyph tags nl g v = Ok y.
Proof. destruct x as [gs' vs']. intros H i g v G V. apply glyphs_spec in H as (_ & _ & vs1 & _ & _ & E). destruct (E i g v G V) as (g' & v' & _ & _ & R). eauto. Qed.

(** ** STAT *)
Lemma stat_ok l s : (forall v, In v (st_values s) -> proper_value s v) -> exists s', instantiate_stat l s = Ok s'.
Proof.
  intros P. unfold instantiate_stat. destruct (_ || _); [eauto|].
  assert (E: exists vs, rmapM (keep_value l s) (st_values s) = Ok vs).
  { assert (G: Forall (fun v => exists r, keep_value l s v = Ok r) (st_values s)).
    { apply Forall_forall. intros v I. destruct (P v I) as [P1 P2]. unfold keep_value.
      assert (T: forall i, (Z.to_nat i < length (st_axes s))%nat -> exists t, axis_tag_at s i = Ok t).
      { intros i L. unfold axis_tag_at. destruct (nth_error (st_axes s) (Z.to_nat i)) eqn:E; [cbn; eauto|apply nth_error_None in E; lia]. }
      assert (O2: exists b, match av_locations v with Some locs => any_outside l s locs | None => Ok false end = Ok b).
      { destruct (av_locations v) as [locs|] eqn:E; [|eauto]. specialize (P2 locs). clear - P2 T. 
        assert (Q0: forall i x, In (i, x) locs -> (Z.to_nat i < length (st_axes s))%nat) by (intros i x; now apply P2). clear P2.
        induction locs as [|(i & x) locs IH]; cbn [any_outside]; [eauto|]. destruct (T i (Q0 i x (or_introl eq_refl))) as (t & ->). cbn [rbind].
        destruct (outside l t x); [eauto|]. apply IH. intros j y J. apply (Q0 j y). now right. }
      destruct O2 as (b & ->). destruct (av_nominal v) as [n|]; [destruct P1 as (i & -> & L); [discriminate|]; cbn [unwrap rbind]; destruct (T i L) as (t & ->); cbn [rbind]; destruct (outside l t n); [eauto|]|cbn [rbind]]; destruct b; eauto. }
    clear - G. induction G as [|v vs (r & E) _ (rs & IH)]; cbn [rmapM]; [eauto|]. rewrite E. cbn [rbind]. rewrite IH. cbn. eauto. }
  destruct E as (vs & ->). cbn. eauto.
Qed.

(** ** The font *)
Lemma instance_result ft user f ft' : vf_fvar ft = Some f -> NoDup (axis_tags f) -> (length (fv_axes f) <= 1000)%nat -> as_map user -> complete f user ->
  (forall vs v, vf_gvar ft = Some vs -> In v vs -> typed v) -> instantiate ft user = Ok ft' ->
  known f user /\ vf_fvar ft' = None /\ vf_avar ft' = None /\ exists loc, location_of f (vf_avar ft) user loc /\
  exists gs gs', vf_glyf ft = Some gs /\ vf_glyf ft' = Some gs' /\
    match vf_gvar ft with
    | None => gs' = gs /\ vf_gvar ft' = None
    | Some vs => (length gs <= length vs)%nat /\ length gs' = length gs /\
        (forall i g v g', nth_error gs i = Some g -> nth_error vs i = Some v -> nth_error gs' i = Some g' -> instance_of (axis_tags f) loc g v g') /\
        (vf_gvar ft' = None <-> forall v, In v (skipn (length gs) vs) -> v = None)
    end.
Proof.
  intros FV N K M C T H. unfold instantiate in H. rewrite FV in H. cbn [unwrap rbind] in H. destruct (vf_cff2 ft); [discriminate|].
  apply rbind_ok in H as (l & P & H). apply (populate_iff f user l N) in P. apply rbind_ok in H as (nl & NRM & H).
  apply rbind_ok in H as ((gs2 & gv2) & G & H). apply rbind_ok in H as (av2 & A & H). apply rbind_ok in H as (st2 & S0 & H). apply rbind_ok in H as (fv2 & V & H).
  pose proof (proj2 (all_pinned_iff f user l N M P) C) as AP. unfold instantiate_fvar in V. rewrite AP in V. injection V as <-.
  destruct (nl_spec f (vf_avar ft) user l nl N M C P NRM) as (KN & NM & _). destruct (nl_location f (vf_avar ft) user l nl N M C P NRM) as (LOC & F2).
  pose proof (nl_ranges f (vf_avar ft) user l nl N M C P NRM) as RG.
  destruct gs2 as [gs2|]; [|discriminate]. injection H as <-. cbn [vf_fvar vf_avar vf_gvar vf_glyf].
  split; [exact KN|]. split; [reflexivity|]. split.
  { destruct (vf_avar ft) as [maps|]; [|now injection A as <-]. unfold instantiate_avar in A. apply rbind_ok in A as (nl2 & _ & A). rewrite AP in A. now injection A as <-. }
  exists (pins nl). split; [exact LOC|]. destruct LOC as (LM & LK & _).
  destruct (vf_gvar ft) as [vs|] eqn:GV.
  - apply rbind_ok in G as (gs & EG & G). destruct (vf_glyf ft) as [gs0|]; [|discriminate]. injection EG as ->.
    apply rbind_ok in G as ((gs3 & gv3) & G & E). injection E as -> ->. unfold instantiate_gvar in G. apply rbind_ok in G as ((gs3 & vs') & G & E). injection E as -> <-.
    exists gs, gs2. split; [reflexivity|]. split; [reflexivity|]. apply glyphs_spec in G as (L & L2 & vs1 & -> & L3 & EA). split; [exact L|]. split; [exact L2|].
    assert (SP: forall i g v, nth_error gs i = Some g -> nth_error vs i = Some v -> exists g', nth_error gs2 i = Some g' /\ nth_error vs1 i = Some None /\ instance_of (axis_tags f) (pins nl) g v g').
    { intros i g v I J. destruct (EA i g v I J) as (g' & v' & X & Y & R).
      apply (glyph_spec (axis_tags f) (pins nl) N LM LK nl eq_refl RG) in R as [-> R]; [exists g'; auto|apply (T vs); [reflexivity|eapply nth_error_In; exact J]|unfold axis_tags; now rewrite map_length]. }
    split.
    + intros i g v g' I J X. destruct (SP i g v I J) as (g2 & X2 & _ & R). congruence.
    + assert (V1: existsb varies vs1 = false).
      { apply not_true_is_false. intros X. apply existsb_exists in X as (v' & I & X). apply In_nth_error in I as (i & I).
        assert (LI: (i < length gs)%nat) by (rewrite <- L3; apply nth_error_Some; congruence).
        destruct (nth_error gs i) as [g|] eqn:EG; [|apply nth_error_None in EG; lia]. destruct (nth_error vs i) as [v|] eqn:EV; [|apply nth_error_None in EV; lia].
        destruct (SP i g v EG EV) as (g' & _ & Y & _). rewrite I in Y. injection Y as ->. discriminate. }
      rewrite existsb_app, V1, orb_false_l. destruct (existsb varies (skipn (length gs) vs)) eqn:X; split; try discriminate; auto.
      * intros H. apply existsb_exists in X as (v & I & X). rewrite (H v I) in X. discriminate.
      * intros _ v I. destruct v as [sets|]; [|reflexivity]. assert (Y: existsb varies (skipn (length gs) vs) = true) by (apply existsb_exists; exists (Some sets); auto). congruence.
  - injection G as G <-. exists gs2, gs2. repeat split; auto.
Qed.

Lemma proper_none a m : proper_axis a m -> proper_axis a None.
Proof. intros [L _]. split; [exact L|exact I]. Qed.
Lemma instance_when ft f gs user : proper_font ft f gs -> as_map user -> complete f user -> known f user ->
  exists loc, location_of f (vf_avar ft) user loc /\ ((exists ft', instantiate ft user = Ok ft') <-> all_reached ft f gs loc).
Proof.
  intros (FV & GL & CF & N & AX & ST & GV) M C K. destruct (populate_ok f user N K) as (l & P).
  pose proof (filled_map _ _ _ P M) as LM.
  assert (NOK: forall ua, exists nl, normalize_limits f (vf_avar ft) l ua = Ok nl).
  { intros ua. apply normalize_limits_ok; [exact N|exact LM|now apply (known_filled f user l P)|]. intros i a lim I J.
    destruct (only_pins f user l N M C P i a lim I J) as (v & -> & V). cbn [normal]. 
    assert (PA: proper_axis a (if ua then axis_map (vf_avar ft) i else None)) by (destruct ua; [exact (AX i a I)|exact (proper_none a _ (AX i a I))]).
    destruct (normalize_total a _ v PA) as (c & E). exists (Pin c), c. auto. }
  destruct (NOK true) as (nl & NRM).
  destruct (nl_location f (vf_avar ft) user l nl N M C P NRM) as (LOC & F2). pose proof (nl_ranges f (vf_avar ft) user l nl N M C P NRM) as RG.
  exists (pins nl). split; [exact LOC|]. destruct LOC as (PM & PK & _).
  pose proof (proj2 (all_pinned_iff f user l N M P) C) as AP.
  unfold instantiate. rewrite FV, CF. cbn [unwrap rbind]. rewrite (proj2 (populate_iff f user l N) P). cbn [rbind]. rewrite NRM. cbn [rbind].
  assert (AV: exists av2, match vf_avar ft with Some maps => instantiate_avar f maps l | None => Ok None end = Ok av2).
  { destruct (vf_avar ft) as [maps|] eqn:EA; [|eauto]. unfold instantiate_avar. destruct (NOK false) as (nl2 & ->). cbn [rbind]. rewrite AP. eauto. }
  destruct AV as (av2 & ->).
  assert (SS: exists st2, match vf_stat ft with Some s => s' <- instantiate_stat l s ;; Ok (Some s') | None => Ok None end = Ok st2).
  { destruct (vf_stat ft) as [s|] eqn:ES; [|eauto]. destruct (stat_ok l s) as (s' & ->); [intros v; now apply ST|]. cbn. eauto. }
  destruct SS as (st2 & ->). unfold instantiate_fvar. rewrite AP. rewrite GL.
  assert (LT: length (axis_tags f) = length (fv_axes f)) by (unfold axis_tags; apply map_length).
  destruct (vf_gvar ft) as [vs|] eqn:EG.
  - cbn [unwrap rbind]. destruct (GV vs eq_refl) as (LV & GO).
    assert (IFF: forall i g v, nth_error gs i = Some g -> nth_error vs i = Some v ->
       ((exists x, instantiate_glyph (axis_tags f) nl g v = Ok x) <-> forall sets, v = Some sets -> concat (g_contours g) <> [] -> reached (axis_tags f) (pins nl) sets)).
    { intros i g v I J. destruct (GO i g v I J). apply glyph_iff; auto. now rewrite LT. }
    split.
    + intros (ft' & H). intros vs0 i g sets EV I J NE. rewrite EG in EV. injection EV as <-.
      apply rbind_ok in H as ((gs2 & gv2) & G & _). apply rbind_ok in G as ((gs3 & gv3) & G & _). unfold instantiate_gvar in G. apply rbind_ok in G as (x & G & _).
      apply (proj1 (IFF i g (Some sets) I J)); auto. eapply glyphs_each; eassumption.
    + intros R. destruct (glyphs_ok (axis_tags f) nl gs vs LV) as ((gs' & vs') & E).
      { intros i g v I J. apply (IFF i g v I J). intros sets -> NE. now apply (R vs i g sets). }
      unfold instantiate_gvar. rewrite E. cbn [rbind]. eauto.
  - split; [|cbn [rbind]; eauto]. intros _ vs0 i g sets EV. rewrite EG in EV. discriminate.
Qed.

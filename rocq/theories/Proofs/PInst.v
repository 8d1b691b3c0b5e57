(** Limits, and where they are. *)
From Coq Require Import List ZArith Bool QArith Qabs Qminmax Lqa Lia Sorted Permutation.
Import ListNotations.
From Verif.Model Require Import MBase MFixed MFloat MFloat32 MTag MMap MGlyph MTables MStat MGvar MAvar MVarModel MInst.
From Verif.Spec Require Import SBase SFloat SVarModel SAvar SInst.
From Verif.Proofs Require Import PBase PMap PFixed PFloat PFloat32 PScalar PVarSort PGlyf PAvar.
Open Scope Z_scope.
Ltac Zify.zify_post_hook ::= idtac.

(** ** Maps *)
Lemma in_get {V} (m : list (list Z * V)) t v : as_map m -> (bm_get lex_ltb t m = Some v <-> In (t, v) m).
Proof. intros M. split; [apply get_In, lex_strict|now apply In_get; [apply lex_strict|]]. Qed.
Lemma sorted_nodup {V} (m : list (tag * V)) : as_map m -> NoDup (map fst m).
Proof.
  unfold as_map. induction 1 as [|a l H IH F]; constructor; [|exact IH].
  intros I. rewrite Forall_forall in F. apply F in I. now rewrite (st_irrefl _ lex_strict) in I.
Qed.
Lemma of_list_map {V} (l : list (tag * V)) : as_map (bm_of_list lex_ltb l).
Proof. apply of_list_sorted, lex_strict. Qed.
Lemma nodup_in {K V} (l : list (K * V)) k v w : NoDup (map fst l) -> In (k, v) l -> In (k, w) l -> v = w.
Proof.
  induction l as [|[a b] l IH]; cbn [map fst]; [easy|]. intros N. inversion_clear N as [|? ? N1 N2]. intros [E|H] [F|G].
  - congruence.
  - injection E as -> ->. contradict N1. change k with (fst (k, w)). now apply in_map.
  - injection F as -> ->. contradict N1. change k with (fst (k, v)). now apply in_map.
  - eauto.
Qed.
Lemma in_of_list {V} (l : list (list Z * V)) t v : NoDup (map fst l) -> (In (t, v) (bm_of_list lex_ltb l) <-> In (t, v) l).
Proof.
  intros N. rewrite <- in_get by apply of_list_map. unfold bm_of_list. rewrite get_fold_insert by apply lex_strict. cbn [bm_get].
  match goal with |- context [find ?h (rev l)] => destruct (find h (rev l)) as [[k w]|] eqn:E end.
  - apply find_some in E as [I E]. cbn [fst snd] in *. apply negb_true_iff, (eq_case _ lex_strict) in E. subst k. rewrite <- in_rev in I.
    split; [intros H; injection H as <-; exact I|]. intros H. f_equal. eapply nodup_in; eassumption.
  - split; [discriminate|]. intros H. rewrite in_rev in H. apply (find_none _ _ E) in H. cbn [fst] in H.
    rewrite (st_irrefl _ lex_strict) in H. discriminate.
Qed.
Lemma get_of_list {V} (l : list (tag * V)) t v : NoDup (map fst l) -> (bm_get lex_ltb t (bm_of_list lex_ltb l) = Some v <-> In (t, v) l).
Proof. intros N. rewrite in_get by apply of_list_map. now apply in_of_list. Qed.
Lemma has_key_in {V} (m : list (tag * V)) t : as_map m -> (has_key t m = true <-> In t (map fst m)).
Proof.
  intros M. unfold has_key. rewrite in_map_iff. destruct (bm_get lex_ltb t m) as [v|] eqn:E.
  - split; [|reflexivity]. intros _. apply in_get in E; [|exact M]. now exists (t, v).
  - split; [discriminate|]. intros ((t' & v) & <- & H). cbn [fst] in E. apply in_get in H; congruence.
Qed.
Lemma has_key_ex {V} (m : list (tag * V)) t : as_map m -> (has_key t m = true <-> exists v, In (t, v) m).
Proof.
  intros M. rewrite has_key_in, in_map_iff by exact M. split.
  - intros ((t' & v) & <- & H). now exists v.
  - intros (v & H). now exists (t, v).
Qed.

Lemma in_pins l t v : In (t, v) (pins l) <-> In (t, Pin v) l.
Proof.
  unfold pins. rewrite in_flat_map. split.
  - intros ((t' & lim) & I & H). cbn [fst snd] in H. destruct lim; try easy. destruct H as [H|[]]. injection H as -> ->. exact I.
  - intros H. exists (t, Pin v). split; [exact H|now left].
Qed.
Lemma in_ranges l t a b : In (t, (a, b)) (ranges l) <-> In (t, Range a b) l.
Proof.
  unfold ranges. rewrite in_flat_map. split.
  - intros ((t' & lim) & I & H). cbn [fst snd] in H. destruct lim; try easy. destruct H as [H|[]]. injection H as -> -> ->. exact I.
  - intros H. exists (t, Range a b). split; [exact H|now left].
Qed.
Lemma flat_map_sorted {V W} (g : tag * V -> list (tag * W)) l :
  (forall kv, g kv = [] \/ exists w, g kv = [(fst kv, w)]) -> as_map l -> as_map (flat_map g l).
Proof.
  intros G. unfold as_map. induction l as [|kv l IH]; cbn [flat_map map]; [constructor|]. intros H. inversion_clear H as [|? ? H1 H2].
  destruct (G kv) as [-> | (w & ->)]; [now apply IH|]. cbn [app map fst]. constructor; [now apply IH|].
  apply Forall_forall. intros t I. apply in_map_iff in I as ((t' & w') & <- & I). cbn [fst]. apply in_flat_map in I as (kv' & I & J).
  assert (E: t' = fst kv'). { destruct (G kv') as [E|(w'' & E)]; rewrite E in J; [easy|]. destruct J as [J|[]]. now injection J as <- _. }
  subst t'. rewrite Forall_forall in H2. apply H2. now apply in_map.
Qed.
Lemma pins_map l : as_map l -> as_map (pins l).
Proof. apply flat_map_sorted. intros [t [v|a b|]]; cbn; [right; now exists v|now left|now left]. Qed.
Lemma ranges_map l : as_map l -> as_map (ranges l).
Proof. apply flat_map_sorted. intros [t [v|a b|]]; cbn; [now left|right; now exists (a, b)|now left]. Qed.

Lemma tag_eqb_iff a b : tag_eqb a b = true <-> a = b.
Proof. unfold tag_eqb. rewrite negb_true_iff. apply (eq_case _ lex_strict). Qed.

Lemma F2_impl {A B} (R R' : A -> B -> Prop) l l' : (forall a b, R a b -> R' a b) -> Forall2 R l l' -> Forall2 R' l l'.
Proof. induction 2; constructor; auto. Qed.
(** ** Filling in defaults *)
Definition filled (f : fvar) (kv kv' : tag * limit) : Prop :=
  match snd kv with
  | Drop => exists a, In a (fv_axes f) /\ ax_axisTag a = fst kv /\ kv' = (fst kv, Pin (ax_defaultValue a))
  | _ => kv' = kv
  end.
Lemma populate_iff f user l : NoDup (axis_tags f) -> (populate f user = Ok l <-> Forall2 (filled f) user l).
Proof.
  intros N. unfold populate. eapply iff_trans; [apply rmapM_Forall2|]. split; apply F2_impl; intros [t lim] kv'; unfold filled; cbn [fst snd].
  - destruct lim; try (intros H; now injection H as <-).
    destruct (bm_get _ _ _) as [d|] eqn:E; cbn [unwrap rbind]; [|discriminate]. intros H. injection H as <-.
    apply get_of_list in E; [|now rewrite map_map]. apply in_map_iff in E as (a & E & I). injection E as <- <-. eauto.
  - destruct lim; try (intros ->; reflexivity). intros (a & I & <- & ->).
    replace (bm_get _ _ _) with (Some (ax_defaultValue a)); [reflexivity|]. symmetry. apply get_of_list; [now rewrite map_map|].
    apply in_map_iff. now exists a.
Qed.
Lemma filled_keys f user l : Forall2 (filled f) user l -> map fst l = map fst user.
Proof.
  induction 1 as [|[t lim] kv l l' H _ IH]; cbn [map]; [reflexivity|]. f_equal; [|exact IH].
  unfold filled in H. cbn [fst snd] in *. destruct lim; [now subst|now subst|]. destruct H as (a & _ & _ & ->). reflexivity.
Qed.
Lemma filled_map f user l : Forall2 (filled f) user l -> as_map user -> as_map l.
Proof. intros F. unfold as_map. now rewrite (filled_keys _ _ _ F). Qed.
Lemma Forall2_in_r {A B} (R : A -> B -> Prop) l l' b : Forall2 R l l' -> In b l' -> exists a, In a l /\ R a b.
Proof. induction 1 as [|x y l l' H _ IH]; cbn [In]; [easy|]. intros [<-|I]; [eauto|]. destruct (IH I) as (a & ? & ?). eauto. Qed.
Lemma Forall2_in_l {A B} (R : A -> B -> Prop) l l' a : Forall2 R l l' -> In a l -> exists b, In b l' /\ R a b.
Proof. induction 1 as [|x y l l' H _ IH]; cbn [In]; [easy|]. intros [<-|I]; [eauto|]. destruct (IH I) as (b & ? & ?). eauto. Qed.
Lemma tags_inj f a b : NoDup (axis_tags f) -> In a (fv_axes f) -> In b (fv_axes f) -> ax_axisTag a = ax_axisTag b -> a = b.
Proof.
  intros N A B E. apply (nodup_in (map (fun a => (ax_axisTag a, a)) (fv_axes f)) (ax_axisTag a)).
  - now rewrite map_map.
  - apply in_map_iff. now exists a.
  - apply in_map_iff. exists b. now rewrite E.
Qed.
(** the values the axes are fixed at *)
Lemma filled_pin f user l a v : NoDup (axis_tags f) -> Forall2 (filled f) user l -> In a (fv_axes f) ->
  (In (ax_axisTag a, Pin v) l <-> asked user a v).
Proof.
  intros N F A. unfold asked. split.
  - intros I. destruct (Forall2_in_r _ _ _ _ F I) as ([t lim] & J & H). unfold filled in H. cbn [fst snd] in H. destruct lim as [w|x y|].
    + injection H as -> ->. now left.
    + discriminate.
    + destruct H as (b & B & E & H). injection H as E2 ->. right. rewrite E2. split; [exact J|]. f_equal. apply (tags_inj f); congruence.
  - intros [I|[I ->]]; destruct (Forall2_in_l _ _ _ _ F I) as (kv & J & H); unfold filled in H; cbn [fst snd] in H.
    + now subst.
    + destruct H as (b & B & E & ->). apply (tags_inj f) in E; auto. now subst b.
Qed.
Lemma filled_range f user l t x y : Forall2 (filled f) user l -> (In (t, Range x y) l <-> In (t, Range x y) user).
Proof.
  intros F. split; intros I.
  - destruct (Forall2_in_r _ _ _ _ F I) as ([t' lim] & J & H). unfold filled in H. cbn [fst snd] in H. destruct lim as [w|x' y'|]; [discriminate|congruence|].
    destruct H as (b & _ & _ & H). discriminate.
  - destruct (Forall2_in_l _ _ _ _ F I) as (kv & J & H). unfold filled in H. cbn [fst snd] in H. now subst.
Qed.
Lemma all_pinned_iff f user l : NoDup (axis_tags f) -> as_map user -> Forall2 (filled f) user l ->
  (all_pinned f l = true <-> complete f user).
Proof.
  intros N M F. unfold all_pinned, complete. rewrite forallb_forall.
  assert (P: as_map (pins l)) by (apply pins_map; eapply filled_map; eassumption).
  split.
  - intros H a A. assert (I: In (ax_axisTag a) (axis_tags f)) by now apply in_map. apply H in I. apply has_key_ex in I; [|exact P].
    destruct I as (v & I). rewrite in_pins in I. exists v. now apply (filled_pin f user l).
  - intros H t I. apply in_map_iff in I as (a & <- & A). destruct (H a A) as (v & B). apply has_key_ex; [exact P|]. exists v. rewrite in_pins.
    now apply (filled_pin f user l).
Qed.

(** ** Normalizing *)
(** the map of an axis, as the code looks it up *)
Lemma segs_get {V} f (maps : list V) i a : NoDup (axis_tags f) -> nth_error (fv_axes f) i = Some a ->
  bm_get lex_ltb (ax_axisTag a) (bm_of_list lex_ltb (combine (axis_tags f) maps)) = nth_error maps i.
Proof.
  intros N E. assert (T: nth_error (axis_tags f) i = Some (ax_axisTag a)) by (unfold axis_tags; now apply map_nth_error).
  assert (C: forall (k : tag) (m : V), In (k, m) (combine (axis_tags f) maps) <-> exists j, nth_error (axis_tags f) j = Some k /\ nth_error maps j = Some m).
  { intros k m. generalize (axis_tags f) as ts. intros ts. clear. revert maps. induction ts as [|x ts IH]; intros [|y maps]; cbn [combine In].
    - split; [easy|]. intros ([|j] & H & _); discriminate.
    - split; [easy|]. intros ([|j] & H & _); discriminate.
    - split; [easy|]. intros ([|j] & _ & H); discriminate.
    - rewrite IH. split.
      + intros [H|(j & H)]; [injection H as -> ->; now exists O|now exists (S j)].
      + intros ([|j] & H); cbn [nth_error] in H; [left; destruct H as [H1 H2]; now injection H1 as ->; injection H2 as ->|right; eauto]. }
  assert (ND: NoDup (map fst (combine (axis_tags f) maps))).
  { revert N. generalize (axis_tags f) as ts. clear. intros ts. revert maps. induction ts as [|x ts IH]; intros [|y maps] N; cbn [combine map fst]; try constructor; inversion_clear N as [|? ? N1 N2]; [|now apply IH].
    contradict N1. apply in_map_iff in N1 as ((x' & y') & E & H). cbn [fst] in E. subst x'. now apply in_combine_l in H. }
  destruct (nth_error maps i) as [m|] eqn:M.
  - apply get_of_list; [exact ND|]. apply C. now exists i.
  - destruct (bm_get _ _ _) as [m|] eqn:G; [|reflexivity]. apply get_of_list in G; [|exact ND]. apply C in G as (j & J1 & J2).
    assert (i = j); [|congruence]. apply (proj1 (NoDup_nth_error (axis_tags f)) N); [apply nth_error_Some; intros X; pose proof (eq_trans (eq_sym T) X) as Y; discriminate|exact (eq_trans T (eq_sym J1))].
Qed.

Definition normal (a : axis_record) (m : option segment_map) (lim lim' : limit) : Prop :=
  match lim with
  | Pin v => exists x, normalize v (ax_minValue a) (ax_maxValue a) m = Ok x /\ lim' = Pin x
  | Range u v => dy_ltb (ax_defaultValue a) u || dy_ltb v (ax_defaultValue a) = false /\
      exists x y, normalize u (ax_minValue a) (ax_maxValue a) m = Ok x /\ normalize v (ax_minValue a) (ax_maxValue a) m = Ok y /\ lim' = Range x y
  | Drop => False
  end.
Lemma rbind_ok {A B} (x : res A) (g : A -> res B) b : rbind x g = Ok b -> exists a, x = Ok a /\ g a = Ok b.
Proof. destruct x; [|discriminate|discriminate]. cbn [rbind]. eauto. Qed.
Section Normalize.
Variables (f : fvar) (av : option (list segment_map)) (l : limits) (use_avar : bool).
Hypothesis N : NoDup (axis_tags f).
Hypothesis M : as_map l.
Let amap i := if use_avar then axis_map av i else None.
Let axes := bm_of_list lex_ltb (map (fun a => (ax_axisTag a, (ax_minValue a, ax_defaultValue a, ax_maxValue a)))
                                        (filter (fun a => has_key (ax_axisTag a) l) (fv_axes f))).
Let segs := if use_avar then match av with Some maps => bm_of_list lex_ltb (combine (axis_tags f) maps) | None => [] end else [].
Lemma nodup_filter {A B} (g : A -> B) (h : A -> bool) xs : NoDup (map g xs) -> NoDup (map g (filter h xs)).
Proof.
  induction xs as [|x xs IH]; cbn [map filter]; [auto|]. intros H. inversion_clear H as [|? ? H1 H2]. destruct (h x); [|now apply IH].
  cbn [map]. constructor; [|now apply IH]. contradict H1. apply in_map_iff in H1 as (y & E & I). apply filter_In in I as [I _]. apply in_map_iff. eauto.
Qed.
Lemma axes_in t x : In (t, x) axes <-> exists i a, nth_error (fv_axes f) i = Some a /\ ax_axisTag a = t /\ x = (ax_minValue a, ax_defaultValue a, ax_maxValue a) /\ exists lim, In (t, lim) l.
Proof.
  unfold axes. rewrite in_of_list by (rewrite map_map; cbn [fst]; now apply (nodup_filter ax_axisTag)). rewrite in_map_iff. split.
  - intros (a & E & I). injection E as <- <-. apply filter_In in I as [I H]. apply In_nth_error in I as (i & I). exists i, a. repeat split; auto.
    now apply has_key_ex in H.
  - intros (i & a & I & <- & -> & L). exists a. split; [reflexivity|]. apply filter_In. split; [eapply nth_error_In; eassumption|]. now apply has_key_ex.
Qed.
Lemma seg_at i a : nth_error (fv_axes f) i = Some a -> bm_get lex_ltb (ax_axisTag a) segs = amap i.
Proof.
  intros I. unfold segs, amap. destruct use_avar; [|reflexivity]. unfold axis_map. destruct av; [|reflexivity]. now apply segs_get.
Qed.
Lemma normalize_limit_iff i a lim kv' : nth_error (fv_axes f) i = Some a -> In (ax_axisTag a, lim) l ->
  (normalize_limit l segs (ax_axisTag a, (ax_minValue a, ax_defaultValue a, ax_maxValue a)) = Ok kv' <->
   exists lim', kv' = (ax_axisTag a, lim') /\ normal a (amap i) lim lim').
Proof.
  intros I L. unfold normalize_limit. rewrite (seg_at i a I). apply in_get in L; [|exact M]. rewrite L. cbn [unwrap rbind].
  unfold normal. destruct lim as [v|u v|].
  - split.
    + intros H. apply rbind_ok in H as (x & H & E). injection E as <-. eauto.
    + intros (lim' & -> & x & H & ->). now rewrite H.
  - destruct (_ || _).
    + split; [discriminate|]. intros (lim' & _ & H & _). discriminate.
    + split.
      * intros H. apply rbind_ok in H as (x & H & H'). apply rbind_ok in H' as (y & H' & E). injection E as <-. eexists. split; [reflexivity|]. split; eauto.
      * intros (lim' & -> & _ & x & y & H1 & H2 & ->). now rewrite H1, H2.
  - split; [discriminate|]. intros (lim' & _ & []).
Qed.
Lemma known_iff : forallb (fun kv => existsb (tag_eqb (fst kv)) (axis_tags f)) l = true <-> known f l.
Proof.
  unfold known. rewrite forallb_forall. split.
  - intros H t lim I. apply H in I. cbn [fst] in I. apply existsb_exists in I as (t' & I & E). apply tag_eqb_iff in E. now subst.
  - intros H [t lim] I. apply existsb_exists. exists t. split; [eapply H; eassumption|now apply tag_eqb_iff].
Qed.
Lemma normalize_limits_spec nl : normalize_limits f av l use_avar = Ok nl ->
  known f l /\ as_map nl /\
  (forall t lim', In (t, lim') nl <-> exists i a lim, nth_error (fv_axes f) i = Some a /\ ax_axisTag a = t /\ In (t, lim) l /\ normal a (amap i) lim lim').
Proof.
  unfold normalize_limits. fold axes segs. destruct (forallb _ l) eqn:K; [|discriminate]. apply known_iff in K. intros H. split; [exact K|].
  apply rmapM_Forall2 in H.
  assert (AX: forall t x, In (t, x) axes -> exists i a lim, nth_error (fv_axes f) i = Some a /\ ax_axisTag a = t /\ x = (ax_minValue a, ax_defaultValue a, ax_maxValue a) /\ In (t, lim) l).
  { intros t x I. apply axes_in in I as (i & a & I & E & X & lim & L). exists i, a, lim. auto. }
  assert (KEYS: map fst nl = map fst axes).
  { clear K. induction H as [|[t x] kv xs nl' H _ IH]; [reflexivity|]. cbn [map]. f_equal; [|apply IH; intros; apply AX; now right].
    destruct (AX t x (or_introl eq_refl)) as (i & a & lim & I & <- & -> & L). apply (normalize_limit_iff i a lim) in H; auto. destruct H as (lim' & -> & _). reflexivity. }
  split; [unfold as_map; rewrite KEYS; apply of_list_map|].
  intros t lim'. split.
  - intros I. destruct (Forall2_in_r _ _ _ _ H I) as ([t' x] & J & E). apply AX in J as (i & a & lim & J & <- & -> & L).
    apply (normalize_limit_iff i a lim) in E; auto. destruct E as (lim2 & E & NO). injection E as -> ->. exists i, a, lim. auto.
  - intros (i & a & lim & I & <- & L & NO).
    assert (J: In (ax_axisTag a, (ax_minValue a, ax_defaultValue a, ax_maxValue a)) axes) by (apply axes_in; exists i, a; eauto).
    destruct (Forall2_in_l _ _ _ _ H J) as (kv & J' & E). apply (normalize_limit_iff i a lim) in E; auto.
    destruct E as (lim2 & -> & NO2). replace lim' with lim2; [exact J'|]. clear - NO NO2. unfold normal in *. destruct lim as [v|u v|].
    + destruct NO as (x & E & ->), NO2 as (x2 & E2 & ->). congruence.
    + destruct NO as (_ & x & y & E & F & ->), NO2 as (_ & x2 & y2 & E2 & F2 & ->). congruence.
    + contradiction.
Qed.
Lemma normalize_limits_all nl : normalize_limits f av l use_avar = Ok nl -> forall i a lim, nth_error (fv_axes f) i = Some a -> In (ax_axisTag a, lim) l -> exists lim', normal a (amap i) lim lim'.
Proof.
  unfold normalize_limits. fold axes segs. destruct (forallb _ l) eqn:K; [|discriminate]. intros H i a lim I L. apply rmapM_Forall2 in H.
  assert (J: In (ax_axisTag a, (ax_minValue a, ax_defaultValue a, ax_maxValue a)) axes) by (apply axes_in; exists i, a; eauto).
  destruct (Forall2_in_l _ _ _ _ H J) as (kv & J' & E). apply (normalize_limit_iff i a lim) in E; auto. destruct E as (lim2 & _ & NO). eauto.
Qed.
Lemma normalize_limits_ok : known f l -> (forall i a lim, nth_error (fv_axes f) i = Some a -> In (ax_axisTag a, lim) l -> exists lim', normal a (amap i) lim lim') ->
  exists nl, normalize_limits f av l use_avar = Ok nl.
Proof.
  intros K H. unfold normalize_limits. rewrite (proj2 known_iff K). fold axes segs.
  assert (A: Forall (fun x => exists y, normalize_limit l segs x = Ok y) axes).
  { apply Forall_forall. intros [t x] I. apply axes_in in I as (i & a & I & <- & -> & lim & L). destruct (H i a lim I L) as (lim' & NO).
    exists (ax_axisTag a, lim'). apply (normalize_limit_iff i a lim); eauto. }
  clear - A. induction A as [|x xs (y & H) _ (ys & IH)]; cbn [rmapM]; [now exists []|]. rewrite H. cbn [rbind]. rewrite IH. cbn [rbind]. eauto.
Qed.
End Normalize.

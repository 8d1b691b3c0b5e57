(** C29 region scalars, C30 the variation model. *)
From Coq Require Import QArith Qabs Lqa Lia List Permutation.
Import ListNotations.
From Verif.Model Require Import MBase MFixed MFloat MFloat32 MTag MMap MVarModel.
From Verif.Spec Require Import SFloat SVarModel.
From Verif.Proofs Require Import PMap PBase PFloat PFloat32 PScalar PVarSup PVarAlg PVarSort PVarModel PVarThm.
Open Scope Q_scope.

(** ** C29: the contribution of a region *)

(** It is between 0 and 1, whatever the region and the location. *)
Theorem C29_range loc sup : 0 <= val (support_scalar loc sup) <= 1.
Proof. apply scalar_range. rewrite val_dy1. lra. Qed.

(** It is the product of the tents of its axes, up to a relative error of 2^-21
    for each axis; in particular an exact 0 stays 0. *)
Theorem C29_accuracy loc sup : exists q, region_value loc sup q /\
  q * (1 - Qpower 2 (-21)) ^ Z.of_nat (length sup) <= val (support_scalar loc sup) <= q * (1 + Qpower 2 (-21)) ^ Z.of_nat (length sup).
Proof.
  destruct (scalar_accuracy loc sup dy1) as (q & R & A & B); [discriminate|]. exists q. split; [exact R|].
  rewrite val_dy1 in A, B. unfold lo in A. unfold hi in B. unfold support_scalar. rewrite Qmult_1_l in A, B. split; assumption.
Qed.

(** It is exactly 1 at the peak of every axis, *)
Theorem C29_peak loc sup : (forall t l p u, In (t, (l, p, u)) sup -> coord t loc == val p) -> val (support_scalar loc sup) == 1.
Proof. intros H. unfold support_scalar. rewrite scalar_peak by exact H. apply val_dy1. Qed.

(** exactly 0 as soon as one axis is at or beyond an end of its tent, *)
Theorem C29_zero_outside loc sup t l p u : In (t, (l, p, u)) sup -> ~ ignored (val l) (val p) (val u) ->
  Qpower 2 (-23) <= Qabs (coord t loc - val p) -> coord t loc <= val l \/ val u <= coord t loc ->
  val (support_scalar loc sup) == 0.
Proof. intros. unfold support_scalar. erewrite scalar_outside by eassumption. apply val_dy0. Qed.

(** and positive inside all of them. *)
Theorem C29_positive_inside loc sup : (forall t l p u, In (t, (l, p, u)) sup ->
    ignored (val l) (val p) (val u) \/ (val l < coord t loc /\ coord t loc < val u)) ->
  0 < val (support_scalar loc sup).
Proof. intros H. apply scalar_positive; [|reflexivity]. intros t l p u I. destruct (H t l p u I); auto. Qed.

Definition wght : tag := [119; 103; 104; 116]%Z.
Definition wdth : tag := [119; 100; 116; 104]%Z.
(** non-vacuity *)
Example C29_ex : val (support_scalar [(wdth, Dy 1 (-1)); (wght, Dy 3 (-2))] [(wdth, (dy0, Dy 1 (-1), dy1)); (wght, (dy0, Dy 1 (-1), dy1))]) == 1 # 2.
Proof. vm_compute. reflexivity. Qed.
Example C29_ex_inside : forall t l p u, In (t, (l, p, u)) [(wght, (dy0, Dy 1 (-1), dy1))] ->
    ignored (val l) (val p) (val u) \/ (val l < coord t [(wght, Dy 3 (-2))] /\ coord t [(wght, Dy 3 (-2))] < val u).
Proof. intros t l p u [E|[]]. injection E as <- <- <- <-. right. split; reflexivity. Qed.
Example C29_ex_outside : In (wght, (dy0, Dy 1 (-1), dy1)) [(wght, (dy0, Dy 1 (-1), dy1))] /\ ~ ignored (val dy0) (val (Dy 1 (-1))) (val dy1) /\
  Qpower 2 (-23) <= Qabs (coord wght [] - val (Dy 1 (-1))) /\ coord wght [] <= val dy0.
Proof. split; [now left|]. split; [intros [H|[H|[H|[H _]]]]; vm_compute in H; discriminate|]. split; vm_compute; discriminate. Qed.

(** ** C30: the variation model *)

(** The regions the model publishes: one per location, on the axes that location
    moves, with the peak at its coordinate and on its side of the default. *)
Theorem C30_supports locs axis_order m : masters locs -> vm_new locs axis_order = Ok m ->
  (exists locs', Permutation locs' locs /\ vm_locations m = map prune locs') /\
  length (vm_supports m) = length (vm_locations m) /\
  forall i loc sup, nth_error (vm_locations m) i = Some loc -> nth_error (vm_supports m) i = Some sup ->
    (forall t, moved loc t <-> exists l p u, bm_get lex_ltb t sup = Some (l, p, u)) /\
    (forall t l p u, bm_get lex_ltb t sup = Some (l, p, u) -> val p == coord t loc /\
       ((0 < val p /\ 0 <= val l < val p /\ val p <= val u) \/ (val p < 0 /\ val l <= val p /\ val p < val u <= 0))).
Proof.
  intros M E. assert (K: Forall keyed locs) by (destruct M; assumption).
  pose proof (locs_length _ _ _ E) as LL. pose proof (sups_length _ _ _ E) as LS. pose proof (built_fit _ _ _ M E) as (_ & FB & _).
  destruct (built _ _ _ E) as (pts & _ & _ & EL & ES & _). split; [|split].
  - exists (map (fun i => nth i locs []) (vm_order m)). split.
    + transitivity (map (fun i => nth i locs []) (seq 0 (length locs))); [apply Permutation_map; apply (order_perm _ _ _ E)|].
      replace (map (fun i => nth i locs []) (seq 0 (length locs))) with locs; [reflexivity|].
      apply (nth_ext _ _ ([] : location) ([] : location)); [now rewrite map_length, seq_length|]. intros i Hi.
      rewrite (nth_indep (map _ _) [] (nth 0 locs [])) by (now rewrite map_length, seq_length).
      rewrite (map_nth (fun i => nth i locs [])), seq_nth by exact Hi. reflexivity.
    + rewrite EL, map_map. apply map_ext. intros i. change (@nil (tag * dyadic)) with (prune []) at 1. apply map_nth.
  - congruence.
  - intros i loc sup Hl Hs.
    assert (Hi: (i < length (vm_locations m))%nat) by (apply nth_error_Some; congruence).
    pose proof (nth_error_nth _ _ ([] : location) Hl) as El. pose proof (nth_error_nth _ _ ([] : support) Hs) as Es. rewrite ES in Es.
    pose proof (locs_smap _ _ _ K E) as SM.
    assert (AZ: forall b t v, In b (vm_locations m) -> bm_get lex_ltb t b = Some v -> Qpower 2 (-22) <= Qabs (val v)) by (intros; eapply FB; eassumption).
    split.
    + intros t. split.
      * intros N. destruct (bm_get lex_ltb t loc) as [v|] eqn:G; [|destruct N; now apply coord_none].
        rewrite <- El in G. destruct (sup_has _ SM i Hi t v G) as (l & u & G'). rewrite Es in G'. eauto.
      * intros (l & p & u & G). rewrite <- Es in G. apply (sup_peak _ SM i Hi) in G. unfold moved. rewrite <- El, (coord_get _ _ _ G).
        apply far_nz. eapply AZ; [|exact G]. now apply nth_In.
    + intros t l p u G. rewrite <- Es in G. pose proof (sup_peak _ SM i Hi t l p u G) as P. rewrite <- El, (coord_get _ _ _ P). split; [reflexivity|].
      pose proof (sup_proper _ SM i Hi AZ t (l, p, u) G) as PR. unfold proper in PR. lra.
Qed.

(** Interpolating at a master gives its value, plus what the regions of later
    masters contribute there. *)
Theorem C30_at_master locs axis_order values m out : Forall keyed locs -> vm_new locs axis_order = Ok m -> length values = length locs ->
  get_deltas_and_supports m values = Ok out ->
  forall k loc v, nth_error locs k = Some loc -> nth_error values k = Some (Some v) ->
    exists earlier d s later, out = earlier ++ (d, s) :: later /\ val (support_scalar loc s) == 1 /\
      interpolate out loc == v + interpolate later loc.
Proof.
  intros K E L EO k loc v Hk Hv. destruct (any_masters locs axis_order values m out K E L EO) as [_ H].
  destruct (H k loc v Hk Hv) as (a & d & s & b & H1 & H2 & H3). exists a, d, s, b. rewrite H2. auto using val_dy1.
Qed.

(** So all masters are recovered, whatever their values, exactly when no region
    reaches the location of an earlier master. *)
Theorem C30_recovered_iff locs axis_order m : Forall keyed locs -> vm_new locs axis_order = Ok m ->
  (forall values out k loc v, length values = length locs -> get_deltas_and_supports m (map Some values) = Ok out ->
     nth_error locs k = Some loc -> nth_error values k = Some v -> interpolate out loc == v) <->
  (forall i j loc s, (i < j)%nat -> nth_error (vm_locations m) i = Some loc -> nth_error (vm_supports m) j = Some s ->
     val (support_scalar loc s) == 0).
Proof. apply recovered_iff. Qed.

(** That is so when any two masters move different axes, go in opposite
    directions on one, or are on one axis only and differ: values given for all
    or only some of the masters are found again. *)
Theorem C30_masters_recovered locs axis_order values : masters locs -> ForallOrdPairs separated locs -> length values = length locs ->
  exists m out, vm_new locs axis_order = Ok m /\ get_deltas_and_supports m values = Ok out /\
    forall k loc v, nth_error locs k = Some loc -> nth_error values k = Some (Some v) -> interpolate out loc == v.
Proof. apply recovered. Qed.

(** It is not so for all masters: of two earlier masters inside a region only the
    last one cuts it, so the region still reaches the other. *)
Definition inside : list location :=
  [[]; [(wdth, Dy 29 (-5)); (wght, Dy 1 (-1))]; [(wdth, Dy 30 (-5)); (wght, Dy 1 (-2))]; [(wdth, dy1); (wght, dy1)]].
Definition family : list location :=
  [[]; [(wght, dy1)]; [(wght, Dy (-1) 0)]; [(wght, Dy 1 (-1))]; [(wdth, dy1); (wght, dy0)]; [(wdth, dy1); (wght, dy1)]].
Lemma masters_by locs vals : Forall keyed locs -> (forall a kv, In a locs -> In kv a -> In (snd kv) vals \/ val (snd kv) == 0) ->
  Forall (fun v => -1 <= val v /\ val v <= 1 /\ Qpower 2 (-22) <= Qabs (val v)) vals ->
  (forall v w, In v vals -> In w vals -> apart (val v) (val w)) -> masters locs.
Proof.
  intros K H B A. rewrite Forall_forall in B.
  assert (C: forall a t, In a locs -> coord t a == 0 \/ exists v, In v vals /\ coord t a = val v).
  { intros a t Ha. destruct (bm_get lex_ltb t a) as [v|] eqn:G; [|left; now apply coord_none]. rewrite (coord_get _ _ _ G).
    apply (get_In lex_ltb lex_strict) in G. destruct (H a (t, v) Ha G) as [I|Z]; [right; eauto|now left]. }
  split; [exact K|]. split.
  - intros a t Ha. unfold apart. destruct (C a t Ha) as [Z|(v & Hv & ->)]; [rewrite Z; split; [lra|left; reflexivity]|].
    destruct (B v Hv) as (B1 & B2 & B3). split; [lra|]. right. setoid_replace (val v - 0) with (val v) by ring. exact B3.
  - intros a b t Ha Hb. destruct (C a t Ha) as [Z|(v & Hv & E)], (C b t Hb) as [Z'|(w & Hw & E')]; unfold apart.
    + left. now rewrite Z, Z'.
    + right. rewrite Z, E'. setoid_replace (0 - val w) with (- val w) by ring. rewrite Qabs_opp. now apply B.
    + right. rewrite Z', E. setoid_replace (val v - 0) with (val v) by ring. now apply B.
    + rewrite E, E'. now apply A.
Qed.
Ltac by_values := unfold inside, family in *;
  first [ solve [repeat (apply Forall_cons || apply Forall_nil); intros i j a b Hij Ha Hb; (destruct i as [|[|i]]; [| |destruct i; discriminate]); (destruct j as [|[|j]]; [lia| |destruct j; discriminate]); try lia; cbn in Ha, Hb; try discriminate; injection Ha as <-; injection Hb as <-; reflexivity]
  | solve [intros a kv Ha Hk; cbn [In] in Ha; decompose [or] Ha; subst; cbn [In] in Hk; decompose [or] Hk; try contradiction; subst; cbn [snd In]; first [left; tauto|right; reflexivity]]
  | solve [repeat constructor; vm_compute; congruence]
  | solve [intros v w Hv Hw; cbn [In] in Hv, Hw; decompose [or] Hv; decompose [or] Hw; try contradiction; subst; first [left; reflexivity|right; vm_compute; discriminate]] ].
Theorem C30_masters_refuted : exists locs m out values k loc v,
  masters locs /\ NoDup locs /\ vm_new locs [wght; wdth] = Ok m /\ length values = length locs /\
  get_deltas_and_supports m (map Some values) = Ok out /\
  nth_error locs k = Some loc /\ nth_error values k = Some v /\ ~ interpolate out loc == v.
Proof.
  exists inside.
  let r := eval vm_compute in (vm_new inside [wght; wdth]) in match r with Ok ?m => exists m end.
  let r := eval vm_compute in (m <- vm_new inside [wght; wdth] ;; get_deltas_and_supports m (map Some [0; 0; 0; 1])) in match r with Ok ?b => exists b end.
  exists [0; 0; 0; 1], 1%nat, [(wdth, Dy 29 (-5)); (wght, Dy 1 (-1))], 0.
  split; [apply (masters_by inside [Dy 29 (-5); Dy 30 (-5); Dy 1 (-1); Dy 1 (-2); dy1]); by_values|].
  split; [repeat constructor; cbn [In]; intros C; decompose [or] C; try discriminate; contradiction|].
  repeat split; try reflexivity; try (vm_compute; reflexivity). vm_compute. discriminate.
Qed.

(** Non-vacuity: the masters of a two-axis family, with a corner master. *)
Example C30_ex_masters : masters family.
Proof. apply (masters_by family [dy1; Dy (-1) 0; Dy 1 (-1)]); by_values. Qed.
Example C30_ex_separated : ForallOrdPairs separated family.
Proof.
  assert (D1: forall t a b, coord t a == 0 -> moved b t -> separated a b) by (intros t a b H N E; destruct (proj2 (E t) N); exact H).
  assert (D2: forall t a b, coord t b == 0 -> moved a t -> separated a b) by (intros t a b H N E; destruct (proj1 (E t) N); exact H).
  assert (D3: forall x y, ~ val x == 0 -> ~ val x == val y -> separated [(wght, x)] [(wght, y)]).
  { intros x y Nx N _. right. exists wght. split; [exact Nx|]. split; [|exact N].
    intros s Hs. unfold moved, coord, loc_get in Hs. cbn [bm_get] in Hs. destruct (lex_ltb s wght || lex_ltb wght s) eqn:F; [destruct Hs; reflexivity|].
    now apply (eq_case lex_ltb lex_strict) in F. }
  unfold family.
  repeat match goal with |- ForallOrdPairs _ [] => constructor | |- ForallOrdPairs _ (_ :: _) => apply FOP_cons
    | |- Forall _ [] => constructor | |- Forall _ (_ :: _) => apply Forall_cons end;
  first [ apply D3; vm_compute; congruence
        | apply (D1 wght); [vm_compute; reflexivity|vm_compute; congruence] | apply (D1 wdth); [vm_compute; reflexivity|vm_compute; congruence]
        | apply (D2 wght); [vm_compute; reflexivity|vm_compute; congruence] | apply (D2 wdth); [vm_compute; reflexivity|vm_compute; congruence] ].
Qed.
Example C30_ex_run : exists m out, vm_new family [wght; wdth] = Ok m /\ get_deltas_and_supports m [Some 100; Some 180; None; Some 130; Some 300; Some 500] = Ok out /\
  interpolate out [(wght, Dy 1 (-1))] == 130 /\ interpolate out [(wdth, dy1); (wght, dy1)] == 500 /\ interpolate out [(wdth, Dy 1 (-1))] == 200.
Proof.
  let r := eval vm_compute in (vm_new family [wght; wdth]) in match r with Ok ?m => exists m end.
  let r := eval vm_compute in (m <- vm_new family [wght; wdth] ;; get_deltas_and_supports m [Some 100; Some 180; None; Some 130; Some 300; Some 500]) in match r with Ok ?b => exists b end.
  repeat split; vm_compute; reflexivity.
Qed.

Print Assumptions C29_range.
Print Assumptions C29_accuracy.
Print Assumptions C29_peak.
Print Assumptions C29_zero_outside.
Print Assumptions C29_positive_inside.
Print Assumptions C30_supports.
Print Assumptions C30_at_master.
Print Assumptions C30_recovered_iff.
Print Assumptions C30_masters_recovered.
Print Assumptions C30_masters_refuted.

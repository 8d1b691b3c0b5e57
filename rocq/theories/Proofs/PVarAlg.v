(** The algebra of the variation model: deltas against interpolation. *)
From Verif.Model Require Import MBase MFixed MFloat MFloat32 MTag MMap MVarModel.
From Verif.Spec Require Import SFloat SVarModel.
From Verif.Proofs Require Import PFloat PFloat32 PScalar.
From Coq Require Import QArith Qabs Lqa Lia List Permutation Sorted.
Import ListNotations.
Open Scope Q_scope.

Lemma q_of_val w : q_of w = val w.
Proof. reflexivity. Qed.

(** ** Sorting *)
Section Sort.
Context {A : Type} (cmp : A -> A -> comparison).
Lemma ins_perm x l : Permutation (ins cmp x l) (x :: l).
Proof.
  induction l as [|y l IH]; cbn [ins]; [reflexivity|]. destruct (cmp x y); try reflexivity.
  rewrite IH. apply perm_swap.
Qed.
Lemma sort_perm l : Permutation (sort_by cmp l) l.
Proof. induction l as [|x l IH]; cbn [sort_by]; [reflexivity|]. now rewrite ins_perm, IH. Qed.
(** sorted for any coarser transitive relation the comparison decides *)
Variable R : A -> A -> Prop.
Hypothesis RT : forall a b c, R a b -> R b c -> R a c.
Variable P : A -> Prop.
Hypothesis RC : forall a b, P a -> P b -> cmp a b <> Gt -> R a b.
Hypothesis RG : forall a b, P a -> P b -> cmp a b = Gt -> R b a.
Lemma ins_sorted x l : P x -> Forall P l -> StronglySorted R l -> StronglySorted R (ins cmp x l).
Proof using RC RG RT.
  intros Px FP. induction l as [|y l IH]; intros S; cbn [ins].
  - repeat constructor.
  - apply StronglySorted_inv in S. destruct S as [S F]. inversion FP as [|? ? Py FPl]; subst.
    assert (D: cmp x y <> Gt -> StronglySorted R (x :: y :: l)).
    { intros C. apply RC in C; try assumption. constructor; [now constructor|]. constructor; [assumption|].
      eapply Forall_impl; [|exact F]. intros a Ha. eapply RT; eassumption. }
    destruct (cmp x y) eqn:C; try (apply D; discriminate).
    constructor; [now apply IH|]. rewrite Forall_forall. intros a Ha.
    apply (Permutation_in _ (ins_perm x l)) in Ha. destruct Ha as [->|Ha]; [now apply RG|].
    rewrite Forall_forall in F. now apply F.
Qed.
Lemma sort_sorted l : Forall P l -> StronglySorted R (sort_by cmp l).
Proof using RC RG RT.
  induction l as [|x l IH]; intros F; cbn [sort_by]; [constructor|]. inversion F; subst.
  apply ins_sorted; auto. eapply Permutation_Forall; [symmetry; apply sort_perm|assumption].
Qed.
End Sort.

(** ** Weighted sums *)
Definition weigh (out : list (Q * support)) (w : list (nat * dyadic)) : Q :=
  fold_right (fun jw acc => fst (nth (fst jw) out (0, [])) * val (snd jw) + acc) 0 w.
Lemma weigh_app out out' w : (forall j x, In (j, x) w -> (j < length out)%nat) -> weigh (out ++ out') w == weigh out w.
Proof.
  induction w as [|[j x] w IH]; intros H; [reflexivity|]. unfold weigh in *. cbn [fold_right fst snd].
  rewrite IH by (intros ? ? ?; eapply H; right; eassumption).
  rewrite app_nth1 by (eapply H; now left). reflexivity.
Qed.
Lemma weights_fold out : forall w (d : Q), (forall j x, In (j, x) w -> (j < length out)%nat) ->
  exists d', fold_left (fun (r : res Q) jw => d <- r ;; o <- unwrap (nth_error out (fst jw)) ;;
                                  Ok (d - fst o * q_of (snd jw))) w (Ok d) = Ok d' /\ d' == d - weigh out w.
Proof.
  induction w as [|[j x] w IH]; intros d H.
  - exists d. split; [reflexivity|]. cbn. ring.
  - cbn [fold_left fst snd rbind]. assert (Hj: (j < length out)%nat) by (eapply H; now left).
    destruct (nth_error out j) as [o|] eqn:E; [|apply nth_error_None in E; lia]. cbn [unwrap rbind].
    destruct (IH (d - fst o * q_of x)) as (d' & E1 & E2); [intros ? ? ?; eapply H; right; eassumption|].
    exists d'. split; [exact E1|]. rewrite E2. unfold weigh at 2. cbn [fold_right fst snd]. fold (weigh out w).
    rewrite (nth_error_nth _ _ _ E), q_of_val. ring.
Qed.

(** every delta is its value less what the earlier regions contribute *)
Lemma deltas_spec values : forall weights order sups out,
  length weights = length order -> length sups = length order ->
  (forall i w j x, nth_error weights i = Some w -> In (j, x) w -> (j < length out + i)%nat) ->
  (forall ix, In ix order -> (ix < length values)%nat) ->
  exists new, deltas_from weights order sups values out = Ok (out ++ new) /\ length new = length order /\
    forall i d s, nth_error new i = Some (d, s) ->
      nth_error sups i = Some s /\
      exists ix v w, nth_error order i = Some ix /\ nth_error values ix = Some v /\ nth_error weights i = Some w /\
        d == v - weigh (out ++ new) w.
Proof.
  induction weights as [|w weights IH]; intros [|ix order] [|s sups] out Hl1 Hl2 HW HO; try discriminate.
  - exists []. cbn. rewrite app_nil_r. split; [reflexivity|]. split; [reflexivity|]. intros [|i] d s H; discriminate.
  - cbn [deltas_from]. destruct (nth_error values ix) as [v|] eqn:Ev; [|apply nth_error_None in Ev; specialize (HO ix (or_introl eq_refl)); lia].
    cbn [unwrap rbind].
    destruct (weights_fold out w v) as (d & Ed & Qd); [intros j x H; specialize (HW 0%nat w j x eq_refl H); lia|].
    rewrite Ed. cbn [rbind].
    destruct (IH order sups (out ++ [(d, s)])) as (new & En & Ln & HN).
    + cbn in Hl1; lia.
    + cbn in Hl2; lia.
    + intros i w' j x E H. rewrite app_length. cbn [length]. specialize (HW (S i) w' j x E H). lia.
    + intros ix' H. apply HO. now right.
    + exists ((d, s) :: new). rewrite En, <- app_assoc. split; [reflexivity|]. split; [cbn; congruence|].
      intros [|i] d' s' H.
      * cbn in H. injection H as <- <-. split; [reflexivity|]. exists ix, v, w. repeat split; try assumption.
        eapply Qeq_trans; [exact Qd|]. rewrite weigh_app by (intros j x H; specialize (HW 0%nat w j x eq_refl H); lia). reflexivity.
      * cbn [nth_error] in H |- *. destruct (HN i d' s' H) as (Hs & ix' & v' & w' & Q1 & Q2 & Q3 & Q4). split; [assumption|].
        exists ix', v', w'. repeat split; try assumption. rewrite Q4, <- app_assoc. reflexivity.
Qed.

(** ** Weights are the scalars *)
Definition scal (locs : list location) (sups : list support) (i j : nat) : dyadic := support_scalar (nth i locs []) (nth j sups []).
Lemma weight_row locs sups i : (i < length locs)%nat ->
  nth_error (delta_weights locs sups) i = Some (filter (fun jw => negb (dy_eqb (snd jw) dy0)) (map (fun j => (j, scal locs sups i j)) (seq 0 i))).
Proof.
  intros H. unfold delta_weights. rewrite nth_error_map.
  assert (E: nth_error (seq 0 (length locs)) i = Some i).
  { rewrite (nth_error_nth' _ 0%nat) by (now rewrite seq_length). now rewrite seq_nth. }
  now rewrite E.
Qed.
Lemma weight_length locs sups : length (delta_weights locs sups) = length locs.
Proof. unfold delta_weights. now rewrite map_length, seq_length. Qed.
(** contribution of the first n regions at a location *)
Fixpoint contrib (out : list (Q * support)) (f : nat -> Q) (k n : nat) : Q :=
  match n with O => 0 | S n' => fst (nth k out (0, [])) * f k + contrib out f (S k) n' end.
Lemma weigh_filter out (g : nat -> dyadic) : forall n k,
  weigh out (filter (fun jw => negb (dy_eqb (snd jw) dy0)) (map (fun j => (j, g j)) (seq k n))) == contrib out (fun j => val (g j)) k n.
Proof.
  induction n as [|n IH]; intros k; [reflexivity|]. cbn [seq map filter contrib snd].
  destruct (dy_eqb (g k) dy0) eqn:E; cbn [negb].
  - rewrite IH. apply eqb_iff in E. rewrite val_dy0 in E. rewrite E. ring.
  - unfold weigh. cbn [fold_right fst snd]. fold (weigh out (filter (fun jw => negb (dy_eqb (snd jw) dy0)) (map (fun j => (j, g j)) (seq (S k) n)))).
    rewrite IH. reflexivity.
Qed.
Lemma contrib_app out f : forall n m k, contrib out f k (n + m) == contrib out f k n + contrib out f (k + n) m.
Proof.
  induction n as [|n IH]; intros m k; cbn [Nat.add contrib].
  - rewrite Nat.add_0_r. ring.
  - rewrite IH. replace (S k + n)%nat with (k + S n)%nat by lia. ring.
Qed.
Lemma contrib_ext out f g : forall n k, (forall j, (k <= j < k + n)%nat -> f j == g j) -> contrib out f k n == contrib out g k n.
Proof.
  induction n as [|n IH]; intros k H; [reflexivity|]. cbn [contrib]. rewrite (H k) by lia.
  rewrite (IH (S k)) by (intros; apply H; lia). reflexivity.
Qed.
Lemma contrib_zero out f : forall n k, (forall j, (k <= j < k + n)%nat -> f j == 0) -> contrib out f k n == 0.
Proof.
  induction n as [|n IH]; intros k H; [reflexivity|]. cbn [contrib]. rewrite (H k) by lia.
  rewrite IH by (intros; apply H; lia). ring.
Qed.
Lemma interpolate_contrib loc : forall out pre,
  interpolate out loc == contrib (pre ++ out) (fun j => val (support_scalar loc (snd (nth j (pre ++ out) (0, []))))) (length pre) (length out).
Proof.
  induction out as [|ds out IH]; intros pre; [reflexivity|]. unfold interpolate in *. cbn [fold_right length contrib].
  rewrite app_nth2, Nat.sub_diag by lia. cbn [nth].
  rewrite (IH (pre ++ [ds])), <- !app_assoc. rewrite app_length. cbn [app length].
  replace (length pre + 1)%nat with (S (length pre)) by lia. reflexivity.
Qed.
Lemma interpolate_all out loc :
  interpolate out loc == contrib out (fun j => val (support_scalar loc (snd (nth j out (0, []))))) 0 (length out).
Proof. apply (interpolate_contrib loc out []). Qed.

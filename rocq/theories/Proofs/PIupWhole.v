(** The optimizer as a whole *)
From Coq Require Import List ZArith QArith Lia Bool Arith.
From Coq Require Import ZifyBool ZifyNat ZifyN.
Import ListNotations.
From Verif.Model Require Import MBase MFixed MFloat MFloat32 MPacked MGlyph MGlyf MIup.
From Verif.Spec Require Import SBase SFloat SIup.
From Verif.Proofs Require Import PBase PFloat PFloat32 PIup PIupContour PIupOpt PIupDp.
Open Scope Z_scope.
Ltac Zify.zify_post_hook ::= idtac.

(** ** Forced points *)
Lemma forced_loop_range ds cs tol fuel : forall i ld lc nd nc r,
  forced_loop ds cs tol fuel i ld lc nd nc = Ok r -> forall x, In x r -> 0 <= x <= i.
Proof.
  induction fuel as [|fuel IH]; intros i ld lc nd nc r H x Hx; cbn [forced_loop] in H; [apply Ok_inj in H; subst; destruct Hx|].
  destruct (i >? -1) eqn:G; [|apply Ok_inj in H; subst; destruct Hx].
  destruct (rem_euclid _ _) as [l1| |]; try discriminate. cbn [rbind] in H.
  destruct (at_i16 ds l1) as [ld'| |]; try discriminate. cbn [rbind] in H.
  destruct (rem_euclid _ _) as [l2| |]; try discriminate. cbn [rbind] in H.
  destruct (at_i16 cs l2) as [lc'| |]; try discriminate. cbn [rbind] in H.
  destruct (forced_loop _ _ _ _ _ _ _ _ _) as [r'| |] eqn:E; try discriminate. cbn [rbind] in H.
  apply Ok_inj in H. subst r. specialize (IH _ _ _ _ _ _ E).
  destruct (_ || _); [destruct Hx as [<-|Hx]; [lia|]|]; specialize (IH x Hx); lia.
Qed.
Lemma at_i16_ok {A} (l : list A) i d : 0 <= i < Z.of_nat (length l) -> at_i16 l i = Ok (nth (Z.to_nat i) l d).
Proof. intros H. unfold at_i16. destruct (Z.ltb_spec i 0); [lia|]. apply at_nth. lia. Qed.
Lemma forced_loop_runs ds cs tol fuel : (0 < length ds)%nat -> length cs = length ds -> Z.of_nat (length ds) <= 32768 ->
  forall i ld lc nd nc, exists r, forced_loop ds cs tol fuel i ld lc nd nc = Ok r.
Proof.
  intros H0 Hc Hn. induction fuel as [|fuel IH]; intros i ld lc nd nc; cbn [forced_loop]; [eauto|].
  destruct (i >? -1); [|eauto]. change pt with (Z * Z)%type in *. rewrite Hc.
  pose proof (Z.mod_pos_bound (i - 1) (Z.of_nat (length ds)) ltac:(lia)) as B.
  rewrite rem_euclid_eq by lia. cbn [rbind].
  rewrite (at_i16_ok ds _ (0, 0)) by lia. cbn [rbind]. rewrite (at_i16_ok cs _ (0, 0)) by lia. cbn [rbind].
  match goal with |- context [forced_loop ?a ?b ?c ?d ?e ?f ?g ?h ?k] => destruct (IH e f g h k) as (r & ->) end. cbn [rbind]. eauto.
Qed.
Lemma forced_set_range ds cs tol r : forced_set ds cs tol = Ok r -> Z.of_nat (length ds) <= 32768 ->
  forall x, In x r -> 0 <= x < Z.of_nat (length ds).
Proof.
  unfold forced_set. intros H Hn. destruct (_ =? _)%nat; [|discriminate].
  destruct (at_ ds 0) as [nd| |] eqn:E0; try discriminate. cbn [rbind] in H.
  assert (L: (0 < length ds)%nat).
  { unfold at_ in E0. destruct ds; [discriminate|cbn; lia]. }
  destruct (at_ cs 0) as [nc| |]; try discriminate. cbn [rbind] in H.
  rewrite i16_small in H by lia.
  destruct (at_i16 ds _) as [ld| |]; try discriminate. cbn [rbind] in H.
  destruct (at_i16 cs _) as [lc| |]; try discriminate. cbn [rbind] in H.
  intros x Hx. pose proof (forced_loop_range _ _ _ _ _ _ _ _ _ _ H x Hx). lia.
Qed.
Lemma forced_set_runs ds cs tol : (0 < length ds)%nat -> length cs = length ds -> Z.of_nat (length ds) <= 32768 ->
  exists r, forced_set ds cs tol = Ok r.
Proof.
  intros H0 Hc Hn. unfold forced_set. change pt with (Z * Z)%type in *. rewrite Hc, Nat.eqb_refl.
  rewrite (at_nth ds (0, 0)) by lia. cbn [rbind]. rewrite (at_nth cs (0, 0)) by lia. cbn [rbind].
  rewrite i16_small by lia. rewrite (at_i16_ok ds _ (0, 0)) by lia. cbn [rbind].
  rewrite (at_i16_ok cs _ (0, 0)) by lia. cbn [rbind]. apply (forced_loop_runs ds cs); assumption.
Qed.
Lemma fold_max_In l : forall a, In (fold_left Z.max l a) (a :: l).
Proof.
  induction l as [|x l IH]; intros a; [now left|]. cbn [fold_left]. destruct (IH (Z.max a x)) as [E|I].
  - rewrite <- E. destruct (Z.max_spec a x) as [[_ ->]|[_ ->]]; [right; now left|now left].
  - right. now right.
Qed.
Lemma rotate_list_len {A} (l : list A) k r : rotate_list l k = Ok r -> length r = length l.
Proof.
  unfold rotate_list. destruct (rem_euclid _ _) as [k'| |]; try discriminate. cbn [rbind].
  destruct (k' =? 0); [intros H; apply Ok_inj in H; now subst|].
  destruct (chk_i 16 _) as [p| |]; try discriminate. cbn [rbind]. destruct (p <? 0); [discriminate|].
  unfold slice. destruct (_ && _) eqn:E1; [|discriminate]. cbn [rbind]. destruct ((0 <=? _)%nat && _) eqn:E2; [|discriminate]. cbn [rbind].
  intros H. apply Ok_inj in H. subst r. rewrite app_length, !firstn_length, !skipn_length. lia.
Qed.
Lemma rotate_list_long {A} (l : list A) k r : Z.of_nat (length l) = 32768 -> 0 <= k < 32768 -> rotate_list l k = Ok r -> k = 0 /\ r = l.
Proof.
  intros E Hk. unfold rotate_list. rewrite E. rewrite rem_euclid_eq by lia. cbn [rbind]. rewrite Z.mod_small by lia.
  destruct (Z.eqb_spec k 0); [intros H; apply Ok_inj in H; now subst|].
  change (i16 32768) with (-32768). rewrite chk_i16_bad by lia. discriminate.
Qed.

(** ** The best way round *)
Section Best.
Variables (ds cs : list (Z * Z)).
Let n := length ds.
Hypothesis H0 : (0 < n)%nat.
Hypothesis Hn : Z.of_nat n <= 16384.
Variables (costs chain : hmap).
Hypothesis HI : Inv (ds ++ ds) (cs ++ cs) (2 * Z.of_nat n) costs chain.

Definition valid (sol : list Z) : Prop :=
  exists a l, cpath (okstep ds cs) a (a - Z.of_nat n) l /\ forall z, In z sol <-> exists s, In s l /\ s mod Z.of_nat n = z.

Lemma okstep_double p q : okstep (ds ++ ds) (cs ++ cs) p q -> okstep ds cs p q.
Proof using Type. clear HI H0 Hn. intros [H|H]; [now left|right]. now apply cgood_double. Qed.

Lemma follow_valid s fuel sol : Z.of_nat n - 1 <= s -> follow_to fuel chain (Z.of_nat n) (s - Z.of_nat n) s = Ok (sol, s - Z.of_nat n) -> valid sol.
Proof using HI H0 Hn.
  intros Hs H.
  destruct (follow_to_path _ _ _ _ _ HI (Z.of_nat n) (s - Z.of_nat n) fuel ltac:(lia) ltac:(lia) s sol H) as (l & P & M).
  exists s, l. split; [now apply (cpath_impl _ _ _ _ _ okstep_double)|].
  intros z. rewrite M. split.
  - intros (x & A & B & C). eauto.
  - intros (x & A & C). destruct (cpath_range _ _ _ _ P) as [_ RG]. pose proof (RG x A) as RX.
    destruct (Z.eq_dec x (s - Z.of_nat n)) as [->|N].
    + destruct (cpath_ends _ _ _ _ P) as [E _]. exists s. split; [assumption|]. split; [lia|].
      rewrite <- C. replace (s - Z.of_nat n) with (s + (-1) * Z.of_nat n) by lia. now rewrite Z_mod_plus_full.
    + exists x. split; [assumption|]. split; [lia|assumption].
Qed.
Lemma best_loop_valid starts : forall bc best r, Forall (fun s => (n - 1 <= s <= 2 * n)%nat) starts -> valid best ->
  best_loop chain costs n starts bc best = Ok r -> valid r.
Proof using HI H0 Hn.
  induction starts as [|s starts IH]; intros bc best r F V H; cbn [best_loop] in H; [apply Ok_inj in H; now subst|].
  inversion F as [|? ? Hs F']; subst. rewrite (i16_small (Z.of_nat n)) in H by lia.
  destruct (Z.eq_dec (Z.of_nat s) 32768) as [E|E].
  { rewrite E in H. change (i16 32768) with (-32768) in H. rewrite chk_i16_bad in H by lia. discriminate. }
  rewrite (i16_small (Z.of_nat s)) in H by lia. rewrite chk_i16_ok in H by lia. cbn [rbind] in H.
  destruct (follow_to _ _ _ _ _) as [[sol e]| |] eqn:EF; try discriminate. cbn [rbind] in H.
  destruct (Z.eqb_spec e (Z.of_nat s - Z.of_nat n)) as [->|]; [|now apply (IH bc best)].
  destruct (chk_i 16 (Z.of_nat n * 4)); try discriminate. cbn [rbind] in H.
  destruct (chk_i 16 (Z.of_nat n * 3)); try discriminate. cbn [rbind] in H.
  destruct (chk_i 16 _) as [cost| |]; try discriminate. cbn [rbind] in H.
  destruct (cost <=? bc); [|now apply (IH bc best)].
  apply (IH cost sol); auto. apply (follow_valid (Z.of_nat s) (S (S n))); [lia|assumption].
Qed.
Lemma best_loop_first r : best_loop chain costs n (seq (n - 1) (n + 2)) (Z.of_nat n + 1) [] = Ok r -> valid r.
Proof using HI H0 Hn.
  rewrite seq_cons by lia. intros H.
  set (rest := seq (S (n - 1)) (n + 2 - 1)) in *.
  assert (F: Forall (fun s => (n - 1 <= s <= 2 * n)%nat) rest).
  { apply Forall_forall. intros x Hx. apply in_seq in Hx. lia. }
  cbn [best_loop] in H. rewrite (i16_small (Z.of_nat n)) in H by lia. rewrite (i16_small (Z.of_nat (n - 1))) in H by lia.
  rewrite chk_i16_ok in H by lia. cbn [rbind] in H.
  replace (Z.of_nat (n - 1) - Z.of_nat n) with (-1) in H by lia.
  destruct (follow_to _ _ _ _ _) as [[sol e]| |] eqn:EF; try discriminate. cbn [rbind] in H.
  assert (e = -1) by (apply (follow_to_bottom _ _ _ _ _ HI (Z.of_nat n) (S (S n)) (Z.of_nat (n - 1)) sol e); [lia|exact EF]). subst e.
  rewrite Z.eqb_refl in H.
  destruct (chk_i 16 (Z.of_nat n * 4)); try discriminate. cbn [rbind] in H.
  destruct (chk_i 16 (Z.of_nat n * 3)); try discriminate. cbn [rbind] in H.
  destruct (inv_cost _ _ _ _ _ (-1) HI ltac:(lia)) as (c0 & E0 & R0).
  destruct (inv_cost _ _ _ _ _ (Z.of_nat (n - 1)) HI ltac:(lia)) as (c1 & E1 & R1).
  rewrite E0, E1 in H. destruct (chk_i 16 (c1 - c0)) as [cost| |] eqn:EC; try discriminate. cbn [rbind] in H.
  apply chk_i16_inv in EC. destruct EC as [-> _].
  destruct (Z.leb_spec (c1 - c0) (Z.of_nat n + 1)); [|lia].
  apply (best_loop_valid rest (c1 - c0) sol); auto.
  apply (follow_valid (Z.of_nat (n - 1)) (S (S n))); [lia|]. replace (Z.of_nat (n - 1) - Z.of_nat n) with (-1) by lia. exact EF.
Qed.
Lemma best_loop_runs starts : Z.of_nat n <= 8191 -> forall bc best, Forall (fun s => (n - 1 <= s <= 2 * n)%nat) starts ->
  exists r, best_loop chain costs n starts bc best = Ok r.
Proof using HI H0 Hn.
  intros Hb. induction starts as [|s starts IH]; intros bc best F; cbn [best_loop]; [eauto|].
  inversion F as [|? ? Hs F']; subst. rewrite (i16_small (Z.of_nat n)) by lia. rewrite (i16_small (Z.of_nat s)) by lia.
  rewrite chk_i16_ok by lia. cbn [rbind].
  destruct (follow_to_runs _ _ _ _ _ HI (Z.of_nat n) (Z.of_nat s - Z.of_nat n) (S (S n)) ltac:(lia) ltac:(lia) (Z.of_nat s) ltac:(lia) ltac:(lia)) as ([sol e] & ->).
  cbn [rbind]. destruct (e =? _); [|now apply IH].
  rewrite chk_i16_ok by lia. cbn [rbind]. rewrite chk_i16_ok by lia. cbn [rbind].
  assert (C: forall k d, -1 <= k <= 2 * Z.of_nat n -> 0 <= d <= 4 * Z.of_nat n ->
    0 <= match hget k costs with Some c => c | None => d end <= 4 * Z.of_nat n).
  { intros k d Hk Hd. destruct (Z.eq_dec k (2 * Z.of_nat n)) as [->|].
    - destruct HI as (_ & _ & _ & _ & _ & K). rewrite K by lia. assumption.
    - destruct (inv_cost _ _ _ _ _ k HI ltac:(lia)) as (c & -> & R). lia. }
  pose proof (C (Z.of_nat s) (Z.of_nat n * 4) ltac:(lia) ltac:(lia)) as C1.
  pose proof (C (Z.of_nat s - Z.of_nat n) (Z.of_nat n * 3) ltac:(lia) ltac:(lia)) as C2.
  rewrite chk_i16_ok by lia. cbn [rbind]. destruct (_ <=? bc); now apply IH.
Qed.
End Best.

(** ** The whole *)
Lemma all_small_zero ds : all_small half ds = Ok true -> ds = repeat (0, 0) (length ds).
Proof.
  induction ds as [|[x y] ds IH]; intros H; [reflexivity|]. cbn [all_small] in H. unfold abs16 in H.
  assert (Z0: forall z, - 2 ^ 15 <= z < 2 ^ 15 -> dy_leb (f32_of_int z) half = true -> 0 <= z -> z = 0).
  { intros z Hz D Pz. apply leb_iff in D. rewrite val_half, val_f32_int in D by lia.
    destruct (Z.eq_dec z 0); [assumption|]. exfalso. assert (1 <= z) as L by lia. rewrite Zle_Qle in L. change (inject_Z 1) with 1%Q in L.
    assert (1 <= 1 # 2)%Q as Bad by (eapply Qle_trans; eassumption). vm_compute in Bad. now apply Bad. }
  destruct (chk_i 16 (Z.abs x)) as [a| |] eqn:A; try discriminate. cbn [rbind] in H.
  destruct (dy_leb (f32_of_int a) half) eqn:DA; [|discriminate].
  destruct (chk_i 16 (Z.abs y)) as [b| |] eqn:B; try discriminate. cbn [rbind] in H.
  destruct (dy_leb (f32_of_int b) half) eqn:DB; [|discriminate].
  apply chk_i16_inv in A, B. destruct A as [-> A]. destruct B as [-> B].
  apply Z0 in DA; [|lia|lia]. apply Z0 in DB; [|lia|lia].
  cbn [length repeat]. rewrite <- IH by assumption. f_equal. f_equal; lia.
Qed.
Lemma all_small_runs ds : Forall small_pair ds -> exists b, all_small half ds = Ok b.
Proof.
  induction 1 as [|[x y] ds [H1 H2] F IH]; [now exists true|]. cbn [all_small fst snd] in *. unfold abs16.
  rewrite chk_i16_ok by lia. cbn [rbind]. destruct (dy_leb _ half); [|eauto].
  rewrite chk_i16_ok by lia. cbn [rbind]. destruct (dy_leb _ half); eauto.
Qed.

(** what was asked of the deltas that are left *)
Definition lossless (ds cs : list (Z * Z)) (o : list (option delta)) : Prop :=
  exists dl, o = given dl /\ length dl = length ds /\
    (forall t d, nth_error dl t = Some (Some d) -> nth_error ds t = Some d) /\ iup_contour o cs = Ok ds.

Lemma kept_originals (ds : list (Z * Z)) (dl : list (option (Z * Z))) : length dl = length ds ->
  (forall t, (t < length ds)%nat -> nth t dl None = None \/ nth t dl None = Some (nth t ds (0, 0))) ->
  forall t d, nth_error dl t = Some (Some d) -> nth_error ds t = Some d.
Proof.
  intros L K t d H. assert (Ht: (t < length ds)%nat) by (rewrite <- L; apply nth_error_Some; congruence).
  rewrite (nth_error_nth' ds (0, 0) Ht). f_equal. apply (nth_error_nth _ _ None) in H.
  destruct (K t Ht) as [E|E]; rewrite H in E; congruence.
Qed.
Lemma lossless_none n cs : length cs = n -> iup_contour (given (repeat None n)) cs = Ok (repeat (0, 0) n).
Proof.
  intros L. rewrite iup_contour_none.
  - now rewrite repeat_length.
  - now rewrite repeat_length.
  - apply idx_untouched. intros i (d & H). apply nth_error_In in H. apply repeat_spec in H. discriminate.
Qed.
Lemma given_repeat n : given (repeat None n) = repeat None n.
Proof. unfold given. induction n; cbn; congruence. Qed.
Lemma cy_const (l : list (Z * Z)) d : l <> [] -> (forall x, In x l -> x = d) -> forall t, Cy l t = d.
Proof. intros N H t. apply H, cy_In, N. Qed.

Lemma nth_seq_map {A} (f : nat -> A) n t d : (t < n)%nat -> nth t (map f (seq 0 n)) d = f t.
Proof.
  intros H. rewrite (nth_indep _ d (f 0%nat)) by (rewrite map_length, seq_length; assumption).
  rewrite map_nth, seq_nth by assumption. reflexivity.
Qed.

(** the general case, iup.rs:194-265 *)
Definition opt_rest (ds cs : list pt) (tol : dyadic) (d0 : pt) : res (list (option delta)) :=
      let n := length ds in
      if forallb (pt_eqb d0) ds then Ok (full d0 :: repeat None (n - 1))
      else
        forced <- forced_set ds cs tol ;;
        match forced with
        | f0 :: fs =>
            let k := i16 (Z.of_nat n - 1 - fold_left Z.max fs f0) in
            if k <? 0 then Panic
            else
              ds' <- rotate_list ds k ;;
              cs' <- rotate_list cs k ;;
              forced' <- rotate_set forced k (Z.of_nat n) ;;
              ' (chain, _) <- optimize_dp ds' cs' forced' tol None ;;
              last_i <- chk_i 16 (i16 (Z.of_nat n) - 1) ;;
              sol <- follow (S (S n)) chain last_i ;;
              out <- keep_chosen sol n ds' ;;
              rotate_list out (- k)
        | [] =>
            let ds2 := ds ++ ds in
            let cs2 := cs ++ cs in
            ' (chain, costs) <- optimize_dp ds2 cs2 [] tol (Some (i16 (Z.of_nat n))) ;;
            b0 <- chk_i 16 (i16 (Z.of_nat n) + 1) ;;
            sol <- best_loop chain costs n (seq (n - 1) (n + 2)) b0 [] ;;
            rmapM (fun ix => if zmem (Z.of_nat ix) sol then d <- at_ ds2 ix ;; Ok (full d) else Ok None) (seq 0 n)
        end.
Lemma opt_unfold d0 d1 l ds cs tol : ds = d0 :: d1 :: l ->
  iup_contour_optimize ds cs tol = (small <- all_small tol ds ;; if small : bool then Ok (repeat None (length ds)) else opt_rest ds cs tol d0).
Proof. intros ->. reflexivity. Qed.

Section Optimize.
Variables (ds cs : list (Z * Z)).
Let n := length ds.
Hypothesis Hcs : length cs = n.
Hypothesis Hds : Forall i16_pair ds.

Lemma lossless_same d0 l : ds = d0 :: l -> forallb (pt_eqb d0) ds = true -> lossless ds cs (full d0 :: repeat None (n - 1)).
Proof.
  intros E F. exists (Some d0 :: repeat None (n - 1)).
  assert (LN: (0 < n)%nat) by (unfold n; rewrite E; cbn; lia).
  assert (Same: forall x, In x ds -> x = d0).
  { intros x Hx. rewrite forallb_forall in F. apply F in Hx. unfold pt_eqb in Hx. destruct x, d0. cbn [fst snd] in Hx. f_equal; lia. }
  assert (NE: ds <> []) by (rewrite E; discriminate).
  split; [unfold full, given; cbn [map option_map]; f_equal; symmetry; apply given_repeat|].
  assert (LD: length (Some d0 :: repeat None (n - 1)) = n) by (cbn [length]; rewrite repeat_length; lia).
  split; [exact LD|].
  assert (K: forall t, (t < n)%nat -> nth t (Some d0 :: repeat None (n - 1)) None = None \/
    nth t (Some d0 :: repeat None (n - 1)) None = Some (nth t ds (0, 0))).
  { intros t Ht. destruct t as [|t]; [right|left].
    - cbn [nth]. f_equal. symmetry. apply Same, nth_In. exact LN.
    - cbn [nth]. apply nth_repeat. }
  split; [now apply kept_originals|].
  assert (G: full d0 :: repeat None (n - 1) = given (Some d0 :: repeat None (n - 1))).
  { unfold full, given. cbn [map option_map]. f_equal. symmetry. apply given_repeat. }
  rewrite G.
  apply (path_lossless ds cs (Some d0 :: repeat None (n - 1)) 0 [0; - Z.of_nat n]); auto.
  - fold n. replace (0 - Z.of_nat n) with (- Z.of_nat n) by lia. apply cp_step with (- Z.of_nat n); [lia| |constructor].
    right. assert (CN: forall l : list (Z * Z), length l = n -> Cy l (- Z.of_nat n) = Cy l 0).
    { intros l' L. apply cy_cong. rewrite L. replace (- Z.of_nat n - 0) with ((-1) * Z.of_nat n) by lia. apply Z_mod_mult. }
    split.
    + rewrite (CN cs Hcs), (CN ds eq_refl). unfold fits2b, fitsb. now rewrite !Z.eqb_refl.
    + intros t _. rewrite (CN cs Hcs), (CN ds eq_refl), !(cy_const ds d0 NE Same). unfold infer2, infer1. rewrite !Z.eqb_refl. now destruct d0.
  - fold n. intros t Ht. split.
    + destruct t as [|t]; [|cbn [nth]; now rewrite nth_repeat]. intros _. exists 0. split; [now left|]. apply Zmod_0_l.
    + intros (s & [<-|[<-|[]]] & E').
      * rewrite Zmod_0_l in E'. assert (t = 0%nat) by lia. subst t. discriminate.
      * replace (- Z.of_nat n) with (0 + (-1) * Z.of_nat n) in E' by lia. rewrite Z_mod_plus_full, Zmod_0_l in E'.
        assert (t = 0%nat) by lia. subst t. discriminate.
Qed.

Lemma lossless_valid sol out : (0 < n)%nat -> valid ds cs sol ->
  rmapM (fun ix => if zmem (Z.of_nat ix) sol then d <- at_ (ds ++ ds) ix ;; Ok (full d) else Ok None) (seq 0 n) = Ok out ->
  lossless ds cs out.
Proof.
  intros H0 (a & l & P & M) H.
  set (dl := map (fun t => if zmem (Z.of_nat t) sol then Some (nth t ds (0, 0)) else None) (seq 0 n)).
  assert (EO: out = given dl).
  { assert (R: rmapM (fun ix => if zmem (Z.of_nat ix) sol then d <- at_ (ds ++ ds) ix ;; Ok (full d) else Ok None) (seq 0 n)
      = Ok (map (fun t => option_map (fun d => Delta2D (fst d) (snd d)) (if zmem (Z.of_nat t) sol then Some (nth t ds (0, 0)) else None)) (seq 0 n))).
    { apply rmapM_Ok. intros t Ht. apply in_seq in Ht. destruct (zmem (Z.of_nat t) sol); [|reflexivity].
      rewrite (at_nth (ds ++ ds) (0, 0)) by (rewrite app_length; fold n; lia). cbn [rbind]. rewrite app_nth1 by (fold n; lia). reflexivity. }
    rewrite R in H. apply Ok_inj in H. subst out. unfold dl, given. now rewrite map_map. }
  assert (LD: length dl = n) by (unfold dl; now rewrite map_length, seq_length).
  assert (ND: forall t, (t < n)%nat -> nth t dl None = if zmem (Z.of_nat t) sol then Some (nth t ds (0, 0)) else None)
    by (intros t Ht; unfold dl; now rewrite nth_seq_map).
  assert (K: forall t, (t < n)%nat -> nth t dl None = None \/ nth t dl None = Some (nth t ds (0, 0)))
    by (intros t Ht; rewrite (ND t Ht); destruct (zmem _ sol); auto).
  exists dl. split; [assumption|]. split; [assumption|]. split; [now apply kept_originals|].
  subst out. apply (path_lossless ds cs dl a l); auto.
  intros t Ht. rewrite (ND t Ht), <- M, <- zmem_In. destruct (zmem _ sol); split; intros; try easy.
Qed.

Lemma lossless_chosen ds' cs' k sol out o : (0 < n)%nat -> Z.of_nat n < 32768 ->
  length ds' = n -> length cs' = n ->
  (forall t, Cy ds' t = Cy ds (t - k)) -> (forall t, Cy cs' t = Cy cs (t - k)) ->
  cpath (okstep ds' cs') (Z.of_nat n - 1) (-1) sol ->
  keep_chosen sol n ds' = Ok out -> rotate_list out (- k) = Ok o -> lossless ds cs o.
Proof.
  intros H0 Hn LD' LC' RD RC P HK HR.
  set (dl' := map (fun t => if zmem (Z.of_nat t) sol then Some (nth t ds' (0, 0)) else None) (seq 0 n)).
  assert (EO: out = given dl').
  { unfold keep_chosen in HK.
    assert (R: rmapM (fun ix => if zmem (i16 (Z.of_nat ix)) sol then d <- at_ ds' ix ;; Ok (Some (Delta2D (fst d) (snd d))) else Ok None) (seq 0 n)
      = Ok (map (fun t => option_map (fun d => Delta2D (fst d) (snd d)) (if zmem (Z.of_nat t) sol then Some (nth t ds' (0, 0)) else None)) (seq 0 n))).
    { apply rmapM_Ok. intros t Ht. apply in_seq in Ht. rewrite i16_small by lia. destruct (zmem (Z.of_nat t) sol); [|reflexivity].
      rewrite (at_nth ds' (0, 0)) by (rewrite LD'; lia). reflexivity. }
    pose proof (eq_trans (eq_sym HK) R) as Q. apply Ok_inj in Q. subst out. unfold dl', given. now rewrite map_map. }
  assert (LL: length dl' = n) by (unfold dl'; now rewrite map_length, seq_length).
  assert (LO: length out = n) by (rewrite EO, given_length; exact LL).
  destruct (rotate_list_eq (None : option delta) out (- k)) as (r & ER & LR & CR); [lia|lia|].
  rewrite ER in HR. apply Ok_inj in HR. subst r.
  set (dl := map (fun t => cy None dl' (Z.of_nat t + k)) (seq 0 n)).
  assert (LD: length dl = n) by (unfold dl; now rewrite map_length, seq_length).
  assert (EG: o = given dl).
  { apply (nth_ext _ _ None None); [now rewrite given_length, LR, LO, LD|].
    rewrite LR, LO. intros t Ht. rewrite nth_given. unfold dl. rewrite nth_seq_map by assumption.
    assert (Q: nth t o None = cy None o (Z.of_nat t)) by (rewrite cy_small by lia; now rewrite Nat2Z.id). rewrite Q, CR.
    replace (Z.of_nat t - - k) with (Z.of_nat t + k) by lia. unfold cy. rewrite EO, given_length. apply nth_given. }
  set (N := Z.of_nat n) in *.
  assert (ND: forall t, (t < n)%nat -> nth t dl None = if zmem ((Z.of_nat t + k) mod N) sol then Some (nth t ds (0, 0)) else None).
  { intros t Ht. unfold dl. rewrite nth_seq_map by assumption. unfold cy. rewrite LL. fold N.
    pose proof (Z.mod_pos_bound (Z.of_nat t + k) N ltac:(lia)) as B.
    unfold dl'. rewrite nth_seq_map by lia. rewrite Z2Nat.id by lia. destruct (zmem _ sol); [|reflexivity]. f_equal.
    specialize (RD (Z.of_nat t + k)). replace (Z.of_nat t + k - k) with (Z.of_nat t) in RD by lia.
    unfold Cy in RD at 2. rewrite cy_small in RD by (fold n; lia). rewrite Nat2Z.id in RD. rewrite <- RD. unfold Cy, cy. rewrite LD'. reflexivity. }
  assert (K: forall t, (t < n)%nat -> nth t dl None = None \/ nth t dl None = Some (nth t ds (0, 0)))
    by (intros t Ht; rewrite (ND t Ht); destruct (zmem _ sol); auto).
  exists dl. split; [assumption|]. split; [assumption|]. split; [now apply kept_originals|].
  rewrite EG.
  assert (P2: cpath (okstep ds cs) (N - 1 - k) (N - 1 - k - N) (map (fun x => x + - k) sol)).
  { replace (N - 1 - k - N) with (-1 + - k) by lia. replace (N - 1 - k) with (N - 1 + - k) by lia.
    apply (cpath_shift (okstep ds' cs')); [|exact P].
    intros p q [R|[R1 R2]]; [left; lia|right]. rewrite !RD, !RC in R1.
    split; [exact R1|]. intros t Ht. specialize (R2 (t + k) ltac:(lia)). rewrite !RD, !RC in R2.
    replace (t + k - k) with t in R2 by lia. exact R2. }
  apply (path_lossless ds cs dl (N - 1 - k) (map (fun x => x + - k) sol)); auto.
  intros t Ht. fold n in Ht. rewrite (ND t Ht). fold n. fold N.
  assert (Z1: zmem ((Z.of_nat t + k) mod N) sol = true <-> exists s, In s (map (fun x => x + - k) sol) /\ s mod N = Z.of_nat t).
  { rewrite zmem_In. split.
    - intros I. exists ((Z.of_nat t + k) mod N + - k). split; [apply in_map_iff; eauto|].
      rewrite Zplus_mod_idemp_l. replace (Z.of_nat t + k + - k) with (Z.of_nat t) by lia. apply Z.mod_small. lia.
    - intros (s & I & E). apply in_map_iff in I. destruct I as (x & <- & I).
      destruct (cpath_range _ _ _ _ P) as [_ RG]. pose proof (RG x I) as RX.
      assert (E2: (Z.of_nat t + k) mod N = x mod N).
      { rewrite <- E. rewrite Zplus_mod_idemp_l. f_equal. lia. }
      rewrite E2. destruct (Z.eq_dec x (-1)) as [->|].
      + replace (-1 mod N) with (N - 1) by (apply (Z.mod_unique_pos _ _ (-1)); lia). apply (cpath_ends _ _ _ _ P).
      + rewrite Z.mod_small by lia. assumption. }
  rewrite <- Z1. destruct (zmem _ sol); split; intros; try easy.
Qed.

Theorem optimize_sound o : iup_contour_optimize ds cs half = Ok o -> lossless ds cs o.
Proof.
  intros H.
  assert (SM: all_small half ds = Ok true -> o = repeat None n -> lossless ds cs o).
  { intros ES ->. exists (repeat None n). split; [symmetry; apply given_repeat|].
    split; [apply repeat_length|]. split.
    - intros t d Hn. apply nth_error_In in Hn. apply repeat_spec in Hn. discriminate.
    - rewrite <- given_repeat. rewrite lossless_none by assumption. f_equal. symmetry. apply all_small_zero, ES. }
  assert (C: ds = [] \/ (exists d0, ds = [d0]) \/ exists d0 d1 l, ds = d0 :: d1 :: l).
  { destruct ds as [|d0 [|d1 l]]; [now left|right; left; eauto|right; right; eauto]. }
  destruct C as [ED|[(d0 & ED)|(d0 & d1 & l & ED)]].
  { apply SM; [now rewrite ED|]. rewrite ED in H. cbn in H. apply Ok_inj in H. unfold n. now rewrite ED. }
  { destruct (all_small half ds) as [[|]| |] eqn:ES.
    - apply SM; [reflexivity|]. unfold iup_contour_optimize in H. rewrite ES in H. cbn [rbind] in H. apply Ok_inj in H. now rewrite <- H.
    - unfold iup_contour_optimize in H. rewrite ES in H. cbn [rbind] in H. rewrite ED in H. apply Ok_inj in H. subst o.
      exists [Some d0]. rewrite ED. split; [reflexivity|]. split; [reflexivity|]. split.
      + intros [|[|t]] d Hd; try discriminate. cbn in *. congruence.
      + unfold full. now destruct d0.
    - unfold iup_contour_optimize in H. rewrite ES in H. discriminate.
    - unfold iup_contour_optimize in H. rewrite ES in H. discriminate. }
  rewrite (opt_unfold d0 d1 l ds cs half ED) in H.
  destruct (all_small half ds) as [sm| |] eqn:ES; try discriminate. cbn [rbind] in H. destruct sm.
  { apply Ok_inj in H. subst o. now apply SM. }
  unfold opt_rest in H. cbv zeta in H. change pt with (Z * Z)%type in H. fold n in H.
  assert (LN: (2 <= n)%nat) by (unfold n; rewrite ED; cbn; lia).
  match type of H with (if ?b then _ else _) = _ => destruct b eqn:EA end.
  { apply Ok_inj in H. subst o. apply (lossless_same d0 (d1 :: l)); assumption. }
  destruct (forced_set ds cs half) as [forced| |] eqn:EF; try discriminate. cbn [rbind] in H.
  destruct forced as [|f0 fs].
  - (* no point is forced *)
    destruct (optimize_dp (ds ++ ds) (cs ++ cs) [] half (Some (i16 (Z.of_nat n)))) as [[chain costs]| |] eqn:EO; try discriminate.
    cbn [rbind] in H. pose proof (optimize_dp_long _ _ _ _ _ _ EO) as LL. rewrite app_length in LL. fold n in LL.
    rewrite (i16_small (Z.of_nat n)) in EO, H by lia.
    assert (HI: Inv (ds ++ ds) (cs ++ cs) (2 * Z.of_nat n) costs chain).
    { replace (2 * Z.of_nat n) with (Z.of_nat (length (ds ++ ds))) by (rewrite app_length; fold n; lia).
      refine (proj1 (optimize_dp_inv (ds ++ ds) (cs ++ cs) [] _ _ _ _ (Some (Z.of_nat n)) _ _) _ _ EO).
      - rewrite !app_length. fold n. lia.
      - rewrite app_length. fold n. lia.
      - rewrite app_length. fold n. lia.
      - apply Forall_app. now split.
      - right. exists n. rewrite app_length. fold n. split; [lia|reflexivity].
      - lia. }
    rewrite chk_i16_ok in H by lia. cbn [rbind] in H.
    destruct (best_loop _ _ _ _ _ _) as [sol| |] eqn:EB; try discriminate. cbn [rbind] in H.
    apply (lossless_valid sol); [lia| |exact H].
    refine (best_loop_first ds cs _ _ costs chain HI sol EB); fold n; lia.
  - (* some are *)
    set (mx := fold_left Z.max fs f0) in *. set (k := i16 (Z.of_nat n - 1 - mx)) in *.
    destruct (k <? 0) eqn:EK; [discriminate|].
    destruct (rotate_list ds k) as [ds'| |] eqn:RD; try discriminate. cbn [rbind] in H.
    destruct (rotate_list cs k) as [cs'| |] eqn:RC; try discriminate. cbn [rbind] in H.
    destruct (rotate_set (f0 :: fs) k (Z.of_nat n)) as [forced'| |] eqn:RF; try discriminate. cbn [rbind] in H.
    destruct (optimize_dp ds' cs' forced' half None) as [[chain costs]| |] eqn:EO; try discriminate. cbn [rbind] in H.
    pose proof (rotate_list_len _ _ _ RD) as LD. pose proof (rotate_list_len _ _ _ RC) as LC. fold n in LD. rewrite Hcs in LC.
    pose proof (optimize_dp_long _ _ _ _ _ _ EO) as LL. change pt with (Z * Z)%type in *. rewrite LD in LL.
    pose proof (forced_set_range ds cs half (f0 :: fs) EF ltac:(change (Z.of_nat n <= 32768); lia)) as FR. change (forall x : Z, In x (f0 :: fs) -> 0 <= x < Z.of_nat n) in FR.
    assert (Hmx: 0 <= mx < Z.of_nat n) by (apply FR, fold_max_In).
    assert (Ek: k = Z.of_nat n - 1 - mx) by (unfold k; apply i16_small; lia).
    destruct (Z.eq_dec (Z.of_nat n) 32768) as [Big|Big].
    { exfalso. destruct (rotate_list_long ds k ds' Big ltac:(lia) RD) as [K0 _].
      rewrite K0, Big in RF. unfold rotate_set in RF. change (i16 32768) with (-32768) in RF. cbn [Z.eqb Z.rem] in RF.
      change (Z.rem 0 (-32768)) with 0 in RF. cbn [Z.eqb] in RF. apply Ok_inj in RF. subst forced'.
      apply (dp_long_first ds' cs' (f0 :: fs) half (chain, costs)); [exact (eq_trans (f_equal Z.of_nat LD) Big)| |exact EO].
      destruct (zmem (-1) (f0 :: fs)) eqn:ZM; [|reflexivity]. apply zmem_In in ZM. apply FR in ZM. lia. }
    assert (LT: Z.of_nat n < 32768) by lia.
    destruct (rotate_list_eq (0, 0) ds k) as (r1 & E1 & _ & C1); [fold n; lia|fold n; lia|]. rewrite E1 in RD. apply Ok_inj in RD. subst r1.
    destruct (rotate_list_eq (0, 0) cs k) as (r2 & E2 & _ & C2); [lia|lia|]. rewrite E2 in RC. apply Ok_inj in RC. subst r2.
    assert (FD: Forall i16_pair ds').
    { apply Forall_forall. intros x Hx. apply (In_nth _ _ (0, 0)) in Hx. destruct Hx as (t & Ht & Ex). subst x.
      rewrite <- (Nat2Z.id t). rewrite <- cy_small by lia. rewrite C1. rewrite Forall_forall in Hds. apply Hds, cy_In. rewrite ED. discriminate. }
    assert (HI: Inv ds' cs' (Z.of_nat (length ds')) costs chain).
    { refine (proj1 (optimize_dp_inv ds' cs' forced' _ _ _ FD None _ _) _ _ EO).
      - rewrite LD, LC. reflexivity.
      - rewrite LD. lia.
      - rewrite LD. lia.
      - left. rewrite LD. apply i16_small. lia.
      - rewrite LD. rewrite i16_small by lia. lia. }
    rewrite LD in HI. rewrite (i16_small (Z.of_nat n)) in H by lia. rewrite chk_i16_ok in H by lia. cbn [rbind] in H.
    destruct (follow (S (S n)) chain (Z.of_nat n - 1)) as [sol| |] eqn:EW; try discriminate. cbn [rbind] in H.
    destruct (keep_chosen sol n ds') as [out| |] eqn:EC; try discriminate. cbn [rbind] in H.
    apply (lossless_chosen ds' cs' k sol out o); auto; try lia.
    apply (follow_path _ _ _ _ _ HI (S (S n))); [lia|assumption].
Qed.
End Optimize.

Lemma rmapM_length {A B} (f : A -> res B) l : forall r, rmapM f l = Ok r -> length r = length l.
Proof.
  induction l as [|x l IH]; intros r H; cbn [rmapM] in H; [apply Ok_inj in H; now subst|].
  destruct (f x); try discriminate. cbn [rbind] in H. destruct (rmapM f l); try discriminate. cbn [rbind] in H.
  apply Ok_inj in H. subst r. cbn [length]. f_equal. now apply IH.
Qed.

(** ** It does not abort on contours of moderate size *)
Section Runs.
Variables (ds cs : list (Z * Z)).
Let n := length ds.
Hypothesis Hcs : length cs = n.
Hypothesis Hd : Forall small_pair ds.
Hypothesis Hc : Forall small_pair cs.
Hypothesis Hn : Z.of_nat n <= 8191.

Lemma optimize_runs : exists o, iup_contour_optimize ds cs half = Ok o.
Proof.
  assert (Hds: Forall i16_pair ds) by (eapply Forall_impl; [|exact Hd]; apply small_i16).
  destruct (all_small_runs ds Hd) as (sm & ES).
  assert (C: ds = [] \/ (exists d0, ds = [d0]) \/ exists d0 d1 l, ds = d0 :: d1 :: l).
  { destruct ds as [|d0 [|d1 l]]; [now left|right; left; eauto|right; right; eauto]. }
  destruct C as [ED|[(d0 & ED)|(d0 & d1 & l & ED)]].
  { rewrite ED. cbn. eauto. }
  { unfold iup_contour_optimize. rewrite ES. cbn [rbind]. destruct sm; [eauto|]. rewrite ED. eauto. }
  rewrite (opt_unfold d0 d1 l ds cs half ED), ES. cbn [rbind]. destruct sm; [eauto|].
  unfold opt_rest. cbv zeta. change pt with (Z * Z)%type. fold n.
  assert (LN: (2 <= n)%nat) by (unfold n; rewrite ED; cbn; lia).
  match goal with |- exists o, (if ?b then _ else _) = _ => destruct b; [eauto|] end.
  destruct (forced_set_runs ds cs half) as (forced & EF); [change (0 < n)%nat; lia|exact Hcs|change (Z.of_nat n <= 32768); lia|].
  rewrite EF. cbn [rbind].
  pose proof (forced_set_range ds cs half forced EF ltac:(change (Z.of_nat n <= 32768); lia)) as FR.
  change (forall x : Z, In x forced -> 0 <= x < Z.of_nat n) in FR.
  destruct forced as [|f0 fs].
  - rewrite (i16_small (Z.of_nat n)) by lia.
    destruct (optimize_dp_inv (ds ++ ds) (cs ++ cs) []) with (lookback := Some (Z.of_nat n)) as [I R].
    + rewrite !app_length. fold n. lia.
    + rewrite app_length. fold n. lia.
    + rewrite app_length. fold n. lia.
    + apply Forall_app. now split.
    + right. exists n. rewrite app_length. fold n. split; [lia|reflexivity].
    + lia.
    + destruct R as ([chain costs] & EO).
      { unfold small_all. rewrite !Forall_app, app_length. fold n. repeat split; auto. lia. }
      specialize (I _ _ EO). rewrite EO. cbn [rbind]. rewrite chk_i16_ok by lia. cbn [rbind].
      replace (Z.of_nat (length (ds ++ ds))) with (2 * Z.of_nat n) in I by (rewrite app_length; fold n; lia).
      destruct (best_loop_runs ds cs ltac:(fold n; lia) ltac:(fold n; lia) costs chain I (seq (n - 1) (n + 2)) ltac:(fold n; lia) (Z.of_nat n + 1) []) as (sol & EB).
      { apply Forall_forall. intros x Hx. apply in_seq in Hx. fold n. lia. }
      fold n in EB. rewrite EB. cbn [rbind].
      eexists. apply rmapM_Ok with (g := fun ix => if zmem (Z.of_nat ix) sol then full (nth ix (ds ++ ds) (0, 0)) else None).
      intros t Ht. apply in_seq in Ht. destruct (zmem _ sol); [|reflexivity].
      rewrite (at_nth (ds ++ ds) (0, 0)) by (rewrite app_length; fold n; lia). reflexivity.
  - set (mx := fold_left Z.max fs f0). assert (Hmx: 0 <= mx < Z.of_nat n) by (apply FR, fold_max_In).
    rewrite (i16_small (Z.of_nat n - 1 - mx)) by lia. set (k := Z.of_nat n - 1 - mx).
    destruct (Z.ltb_spec k 0); [lia|].
    destruct (rotate_list_eq (0, 0) ds k) as (ds' & E1 & LD & C1); [fold n; lia|fold n; lia|].
    destruct (rotate_list_eq (0, 0) cs k) as (cs' & E2 & LC & C2); [lia|lia|].
    rewrite E1. cbn [rbind]. rewrite E2. cbn [rbind]. fold n in LD. rewrite Hcs in LC.
    assert (RF: exists forced', rotate_set (f0 :: fs) k (Z.of_nat n) = Ok forced').
    { unfold rotate_set. rewrite i16_small by lia. destruct (Z.eqb_spec (Z.of_nat n) 0); [lia|].
      rewrite (Z.rem_small k) by lia. destruct (k =? 0); [eauto|].
      eexists. apply rmapM_Ok with (g := fun v => Z.rem (v + k) (Z.of_nat n)). intros v Hv. apply FR in Hv. rewrite chk_i16_ok by lia. reflexivity. }
    destruct RF as (forced' & ->). cbn [rbind].
    assert (FA: forall (P : Z * Z -> Prop) (x y : list (Z * Z)), length x = n -> length y = n -> (forall t, cy (0, 0) y t = cy (0, 0) x (t - k)) -> Forall P x -> Forall P y).
    { intros P x y Lx Ly Cxy Fx. apply Forall_forall. intros z Hz. apply (In_nth _ _ (0, 0)) in Hz. destruct Hz as (t & Ht & <-).
      rewrite <- (Nat2Z.id t). rewrite <- cy_small by lia. rewrite Cxy. rewrite Forall_forall in Fx. apply Fx, cy_In.
      intros ->. cbn in Lx. lia. }
    destruct (optimize_dp_inv ds' cs' forced') with (lookback := @None Z) as [I R].
    + rewrite LD, LC. reflexivity.
    + rewrite LD. lia.
    + rewrite LD. lia.
    + apply (FA _ ds ds'); auto.
    + left. rewrite LD. apply i16_small. lia.
    + rewrite LD. rewrite i16_small by lia. lia.
    + destruct R as ([chain costs] & EO).
      { unfold small_all. rewrite LD. split; [apply (FA _ ds ds'); auto|]. split; [apply (FA _ cs cs'); auto|lia]. }
      specialize (I _ _ EO). rewrite LD in I. rewrite EO. cbn [rbind].
      rewrite (i16_small (Z.of_nat n)) by lia. rewrite chk_i16_ok by lia. cbn [rbind].
      destruct (follow_runs ds' cs' costs chain (Z.of_nat n) I (S (S n)) (Z.of_nat n - 1) ltac:(lia) ltac:(lia)) as (sol & EW).
      rewrite EW. cbn [rbind]. unfold keep_chosen.
      match goal with |- context [rmapM ?f (seq 0 n)] => assert (KC: exists out, rmapM f (seq 0 n) = Ok out) end.
      { eexists. apply rmapM_Ok with (g := fun ix => if zmem (i16 (Z.of_nat ix)) sol then full (nth ix ds' (0, 0)) else None).
        intros t Ht. apply in_seq in Ht. destruct (zmem _ sol); [|reflexivity].
        rewrite (@at_nth pt ds' (0, 0)) by (change pt with (Z * Z)%type; lia). reflexivity. }
      destruct KC as (out & KC). rewrite KC. cbn [rbind].
      assert (LO: length out = n) by (apply rmapM_length in KC; rewrite KC; apply seq_length).
      destruct (rotate_list_eq (None : option delta) out (- k)) as (r & ER & _); [lia|lia|]. eauto.
Qed.
End Runs.

(** ** The fuel of the search is enough *)
Lemma dp_inner_fuel ds cs forced tol i lo f : forall f' j best costs chain, (Z.to_nat (j - lo) <= f)%nat -> (f <= f')%nat ->
  dp_inner ds cs forced tol i lo f j best costs chain = dp_inner ds cs forced tol i lo f' j best costs chain.
Proof.
  induction f as [|f IH]; intros f' j best costs chain Hf Hf'.
  - destruct f' as [|f']; [reflexivity|]. cbn [dp_inner]. destruct (j >? lo) eqn:E; [lia|reflexivity].
  - destruct f' as [|f']; [lia|]. cbn [dp_inner]. destruct (j >? lo) eqn:E; [|reflexivity].
    destruct (unwrap (hget j costs)) as [cj| |]; cbn [rbind]; try reflexivity.
    destruct (chk_i 16 (cj + 1)) as [cost| |]; cbn [rbind]; try reflexivity.
    destruct (if cost <? best then _ else _) as [ok| |]; cbn [rbind]; try reflexivity.
    destruct (zmem j forced); [reflexivity|].
    destruct (chk_i 16 (j - 1)) as [j'| |] eqn:EJ; cbn [rbind]; try reflexivity.
    apply chk_i16_inv in EJ. destruct EJ as [-> _]. apply IH; lia.
Qed.

(** ** A glyph *)
Lemma infer1_i16 x1 d1 x2 d2 x : - 2 ^ 15 <= d1 < 2 ^ 15 -> - 2 ^ 15 <= d2 < 2 ^ 15 -> fitsb x1 d1 x2 d2 = true ->
  - 2 ^ 15 <= infer1 x1 d1 x2 d2 x < 2 ^ 15.
Proof.
  intros H1 H2 F. apply fitsb_iff in F. unfold fits in F. unfold infer1, infer_up. destruct (Z.eqb_spec x1 x2); [destruct (d1 =? d2); lia|].
  destruct (x1 >? x2) eqn:G.
  - destruct (Z.leb_spec x x2); [lia|]. destruct (Z.leb_spec x1 x); [lia|].
    pose proof (slope_range x2 d2 x1 d1 x ltac:(lia) ltac:(lia) ltac:(lia)). lia.
  - destruct (Z.leb_spec x x1); [lia|]. destruct (Z.leb_spec x2 x); [lia|].
    pose proof (slope_range x1 d1 x2 d2 x ltac:(lia) ltac:(lia) ltac:(lia)). lia.
Qed.
Lemma iup_contour_i16 dl cs r : length cs = length dl -> (forall d, In (Some d) dl -> i16_pair d) ->
  iup_contour (given dl) cs = Ok r -> length r = length dl /\ Forall i16_pair r.
Proof.
  intros L D H. destruct (idx dl) as [|i0 il] eqn:EI.
  - rewrite iup_contour_none in H by assumption. apply Ok_inj in H. subst r. split; [apply repeat_length|].
    apply Forall_forall. intros x Hx. apply repeat_spec in Hx. subst x. unfold i16_pair. cbn. lia.
  - rewrite iup_contour_eq in H by (auto; congruence). destruct (forallb _ _) eqn:F; [|discriminate]. apply Ok_inj in H. subst r.
    split; [now rewrite map_length, seq_length|]. apply Forall_forall. intros x Hx. apply in_map_iff in Hx. destruct Hx as (t & <- & Ht).
    rewrite forallb_forall in F. specialize (F t Ht). unfold safeb, V in *. destruct (tb dl t) eqn:T; [now apply tb_i16|]. cbn [orb] in F.
    apply in_seq in Ht.
    assert (T0: touched dl i0). { apply touched_tb. assert (I: In i0 (idx dl)) by (rewrite EI; now left). unfold idx in I. apply filter_In in I. apply I. }
    assert (UT: ~ touched dl t) by (rewrite touched_tb; congruence).
    destruct (neighbours_exist dl t i0 ltac:(lia) UT T0) as (a & b & _ & _ & _ & _ & TP & TQ & _).
    apply touched_tb in TP, TQ. pose proof (tb_i16 dl D _ TP) as [P1 P2]. pose proof (tb_i16 dl D _ TQ) as [Q1 Q2].
    unfold fits2b in F. apply andb_prop in F. destruct F as [F1 F2].
    split; cbn [infer2 fst snd]; apply infer1_i16; assumption.
Qed.
Lemma slice_inv {A} (l : list A) a b r : slice l a b = Ok r -> (a <= b <= length l)%nat /\ r = firstn (b - a) (skipn a l) /\ length r = (b - a)%nat.
Proof.
  unfold slice. destruct (_ && _) eqn:E; [|discriminate]. intros H. apply Ok_inj in H. subst r. split; [lia|]. split; [reflexivity|].
  rewrite firstn_length, skipn_length. lia.
Qed.
Lemma firstn_given k l : firstn k (given l) = given (firstn k l).
Proof. apply firstn_map. Qed.
Lemma skipn_given k l : skipn k (given l) = given (skipn k l).
Proof. apply skipn_map. Qed.
Lemma In_part {A} (x : A) k j l : In x (firstn k (skipn j l)) -> In x l.
Proof.
  intros H. rewrite <- (firstn_skipn j l). apply in_or_app. right. rewrite <- (firstn_skipn k (skipn j l)). apply in_or_app. now left.
Qed.
Lemma firstn_plus {A} w m (l : list A) : firstn (w + m) l = firstn w l ++ firstn m (skipn w l).
Proof. revert l. induction w; intros l; [reflexivity|]. destruct l; [cbn; now rewrite !firstn_nil|]. cbn. now rewrite IHw. Qed.
Lemma last_cons {A} (x : A) l d : last (x :: l) d = last l x.
Proof. revert x d. induction l as [|y l IH]; intros x d; [reflexivity|]. change (last (x :: y :: l) d) with (last (y :: l) d). now rewrite !IH. Qed.
Lemma iup_contours_facts dl cs : (forall d, In (Some d) dl -> i16_pair d) -> forall ends start r,
  iup_contours (given dl) cs start ends = Ok r ->
  Forall i16_pair r /\ Z.of_nat (start + length r) = last ends (Z.of_nat start - 1) + 1.
Proof.
  intros D. induction ends as [|e ends IH]; intros start r H; cbn [iup_contours] in H.
  { apply Ok_inj in H. subst r. cbn [length last]. split; [constructor|lia]. }
  destruct (chk_u 64 (e + 1)) as [e1| |] eqn:E1; try discriminate. cbn [rbind] in H.
  assert (EE: e1 = e + 1 /\ 0 <= e1) by (unfold chk_u in E1; destruct (_ && _) eqn:Q; [apply Ok_inj in E1; lia|discriminate]). destruct EE as [-> P1].
  destruct (slice (given dl) start _) as [d| |] eqn:SD; try discriminate. cbn [rbind] in H.
  destruct (slice cs start _) as [c| |] eqn:SC; try discriminate. cbn [rbind] in H.
  destruct (iup_contour d c) as [a| |] eqn:EA; try discriminate. cbn [rbind] in H.
  destruct (iup_contours _ _ _ ends) as [r'| |] eqn:ER; try discriminate. cbn [rbind] in H. apply Ok_inj in H. subst r.
  apply slice_inv in SD, SC. destruct SD as (S1 & S2 & S3). destruct SC as (S4 & _ & S6).
  rewrite skipn_given, firstn_given in S2. subst d. rewrite given_length in S3.
  destruct (iup_contour_i16 _ c a ltac:(rewrite S3, S6; reflexivity) (fun d Hd => D d (In_part _ _ _ _ Hd)) EA) as [LA FA].
  destruct (IH _ _ ER) as [F L]. split; [now apply Forall_app|].
  rewrite app_length, last_cons. rewrite Z2Nat.id in L by lia. replace (e + 1 - 1) with e in L by lia. lia.
Qed.
Lemma opt_contours_lossless xy cs : Forall i16_pair xy -> forall ends start o,
  optimize_contours xy cs start ends = Ok o ->
  Z.of_nat (start + length o) = last ends (Z.of_nat start - 1) + 1 /\
  (forall pre, length pre = start -> iup_contours (pre ++ o) cs start ends = Ok (firstn (length o) (skipn start xy))).
Proof.
  intros FX. induction ends as [|e ends IH]; intros start o H; cbn [optimize_contours] in H.
  { apply Ok_inj in H. subst o. cbn [length last iup_contours firstn]. split; [lia|reflexivity]. }
  destruct (chk_u 64 (e + 1)) as [e1| |] eqn:E1; try discriminate. cbn [rbind] in H.
  assert (EE: e1 = e + 1 /\ 0 <= e1) by (unfold chk_u in E1; destruct (_ && _) eqn:Q; [apply Ok_inj in E1; lia|discriminate]). destruct EE as [-> P1].
  destruct (@slice pt xy start _) as [d| |] eqn:SD; try discriminate. cbn [rbind] in H.
  destruct (slice cs start _) as [c| |] eqn:SC; try discriminate. cbn [rbind] in H.
  destruct (iup_contour_optimize d c half) as [a| |] eqn:EA; try discriminate. cbn [rbind] in H.
  destruct (chk_u 64 (e - Z.of_nat start)) as [m| |] eqn:E2; try discriminate. cbn [rbind] in H.
  destruct (_ =? _) eqn:EL; [|discriminate].
  destruct (optimize_contours _ _ _ ends) as [r'| |] eqn:ER; try discriminate. cbn [rbind] in H. apply Ok_inj in H. subst o.
  pose proof SD as SD0. pose proof SC as SC0.
  apply slice_inv in SD, SC. destruct SD as (S1 & S2 & S3). destruct SC as (S4 & _ & S6). change pt with (Z * Z)%type in *.
  assert (FD: Forall i16_pair d).
  { subst d. apply Forall_forall. intros x Hx. apply In_part in Hx. rewrite Forall_forall in FX. now apply FX. }
  destruct (optimize_sound d c (eq_trans S6 (eq_sym S3)) FD a EA) as (dl & -> & LA & _ & LO).
  rewrite given_length in *. 
  assert (LA': length dl = (Z.to_nat (e + 1) - start)%nat) by (rewrite LA; exact S3).
  destruct (IH _ _ ER) as [L I]. rewrite app_length, given_length, last_cons.
  rewrite Z2Nat.id in L by lia. replace (e + 1 - 1) with e in L by lia. split; [lia|].
  intros pre Hp. cbn [iup_contours]. rewrite E1. cbn [rbind].
  assert (SL: slice (pre ++ given dl ++ r') start (Z.to_nat (e + 1)) = Ok (given dl)).
  { rewrite <- Hp. replace (Z.to_nat (e + 1)) with (length pre + length (given dl))%nat by (rewrite given_length; lia). apply slice_mid. }
  rewrite SL. cbn [rbind]. change pt with (Z * Z)%type in *. rewrite SC0. cbn [rbind]. rewrite LO. cbn [rbind].
  specialize (I (pre ++ given dl)). rewrite app_length, given_length, <- app_assoc in I. rewrite I by lia. cbn [rbind]. f_equal.
  rewrite LA', firstn_plus, skipn_skipn. replace (start + (Z.to_nat (e + 1) - start))%nat with (Z.to_nat (e + 1)) by lia. rewrite S2. reflexivity.
Qed.
Lemma push_ends_ne k : forall l, (0 < k)%nat -> push_ends k l <> [].
Proof.
  induction k as [|k IH]; intros l H; [lia|]. cbn [push_ends]. destruct k as [|k]; [|apply IH; lia].
  cbn [push_ends]. unfold push_end. destruct l; discriminate.
Qed.
Lemma optimize_deltas_lossless dl g o : (forall d, In (Some d) dl -> i16_pair d) ->
  (forall cs ends, gvar_coords_and_ends g = Ok (cs, ends) -> length dl = length cs) ->
  optimize_deltas (given dl) g = Ok o ->
  exists cs ends xy, gvar_coords_and_ends g = Ok (cs, ends) /\ iup_delta (given dl) cs ends = Ok xy /\
    length o = length dl /\ iup_delta o cs ends = Ok xy.
Proof.
  intros D Hlen H. unfold optimize_deltas in H.
  destruct (gvar_coords_and_ends g) as [[cs ends]| |] eqn:EG; try discriminate. cbn [rbind] in H.
  specialize (Hlen cs ends eq_refl).
  destruct (iup_delta (given dl) cs ends) as [xy| |] eqn:EX; try discriminate. cbn [rbind] in H.
  exists cs, ends, xy. split; [reflexivity|]. split; [assumption|].
  assert (LE: last ends (Z.of_nat 0 - 1) + 1 = Z.of_nat (length cs)).
  { unfold gvar_coords_and_ends in EG. destruct (contour_ends 0 (g_contours g)) as [e0| |]; try discriminate. cbn [rbind] in EG.
    destruct (_ =? _) eqn:Q in EG; [|discriminate]. injection EG as <- <-.
    set (en := push_ends _ _) in *. assert (NE: en <> []) by (apply push_ends_ne; lia).
    destruct en as [|x en]; [easy|]. rewrite !last_cons in *. lia. }
  assert (FX: Forall i16_pair xy /\ length xy = length dl).
  { unfold iup_delta in EX. destruct (forallb _ _) eqn:FA.
    - split.
      + clear -D EX. revert xy EX. induction dl as [|d dl IH]; intros xy EX; cbn [given map rmapM] in EX; [apply Ok_inj in EX; subst; constructor|].
        destruct d as [d|]; [|discriminate]. cbn [option_map get_2d rbind] in EX.
        destruct (rmapM get_2d _) as [r| |] eqn:R in EX; try discriminate. cbn [rbind] in EX. apply Ok_inj in EX. subst xy.
        constructor; [rewrite <- surjective_pairing; apply D; now left|]. apply IH; [intros; apply D; now right|exact R].
      + apply rmapM_length in EX. rewrite given_length in EX. exact EX.
    - destruct (iup_contours_facts dl cs D _ _ _ EX) as [F L]. split; [assumption|]. cbn [Nat.add] in L. lia. }
  destruct FX as [FX LX].
  destruct (opt_contours_lossless xy cs FX _ _ _ H) as [L I]. cbn [Nat.add] in L.
  change pt with (Z * Z)%type in *.
  split; [lia|]. specialize (I [] eq_refl). cbn [app skipn] in I.
  rewrite firstn_all2 in I by lia.
  unfold iup_delta. destruct (forallb _ o) eqn:FA; [|exact I].
  (* nothing was dropped: contour by contour the same as taking all deltas *)
  enough (G: forall ends start r, iup_contours o cs start ends = Ok r -> (start <= length o)%nat ->
     forallb (fun d => negb (is_none d)) o = true ->
     rmapM get_2d (firstn (length r) (skipn start o)) = Ok r).
  { specialize (G _ _ _ I ltac:(lia) FA). cbn [skipn] in G. change pt with (Z * Z)%type in *. rewrite firstn_all2 in G by lia. exact G. }
  clear. induction ends as [|e ends IH]; intros start r H Hs FA; cbn [iup_contours] in H; [apply Ok_inj in H; now subst|].
  destruct (chk_u 64 (e + 1)) as [e1| |] eqn:E1; try discriminate. cbn [rbind] in H.
  destruct (slice o start _) as [d| |] eqn:SD; try discriminate. cbn [rbind] in H.
  destruct (@slice pt cs start _) as [c| |] eqn:SC; try discriminate. cbn [rbind] in H.
  destruct (iup_contour d c) as [a| |] eqn:EA; try discriminate. cbn [rbind] in H.
  destruct (iup_contours _ _ _ ends) as [r'| |] eqn:ER; try discriminate. cbn [rbind] in H. apply Ok_inj in H. subst r.
  change pt with (Z * Z)%type in *. apply slice_inv in SD. destruct SD as (S1 & S2 & S3).
  assert (FD: forallb (fun d => negb (is_none d)) d = true).
  { apply forallb_forall. intros x Hx. rewrite forallb_forall in FA. apply FA. subst d. eapply In_part, Hx. }
  unfold iup_contour in EA. rewrite FD in EA.
  pose proof (rmapM_length _ _ _ EA) as LA. rewrite app_length, firstn_plus, rmapM_get_2d_app.
  rewrite LA, S3. rewrite S2 in EA. rewrite EA. cbn [rbind].
  specialize (IH _ _ ER ltac:(lia) FA). rewrite skipn_skipn.
  replace (start + (Z.to_nat e1 - start))%nat with (Z.to_nat e1) by lia. change pt with (Z * Z)%type in *. rewrite IH. reflexivity.
Qed.

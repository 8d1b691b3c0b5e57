(** Weights of delta sets, and scaling. *)
From Coq Require Import List ZArith Bool QArith Qabs Qminmax Qpower Lqa Lia Permutation.
Import ListNotations.
From Verif.Model Require Import MBase MFixed MFloat MFloat32 MTag MMap MTables MGvar MAvar MVarModel MInst.
From Verif.Spec Require Import SBase SFloat SVarModel SAvar SInst.
From Verif.Proofs Require Import PBase PMap PFixed PFloat PFloat32 PScalar PVarSort PGlyf PAvar PInst.
Open Scope Q_scope.
Ltac Zify.zify_post_hook ::= idtac.

(** ** Powers close to 1 *)
Lemma inj_S n : inject_Z (Z.of_nat (S n)) == inject_Z (Z.of_nat n) + 1.
Proof. rewrite Nat2Z.inj_succ. unfold Z.succ. rewrite inject_Z_plus. reflexivity. Qed.
Lemma inj_nonneg n : 0 <= inject_Z (Z.of_nat n).
Proof. change 0 with (inject_Z 0). rewrite <- Zle_Qle. lia. Qed.
Lemma hi_pow n : (n <= 1001)%nat -> hi ^ Z.of_nat n <= 1 + inject_Z (Z.of_nat n) * (1025 # 2147483648).
Proof.
  induction n as [|n IH]; intros L; [cbn; discriminate|]. rewrite pow_S, inj_S by discriminate.
  assert (H: hi ^ Z.of_nat n <= 1 + inject_Z (Z.of_nat n) * (1025 # 2147483648)) by (apply IH; lia).
  assert (B: inject_Z (Z.of_nat n) <= 1001) by (change 1001 with (inject_Z 1001); rewrite <- Zle_Qle; lia).
  pose proof (inj_nonneg n) as P. set (m := inject_Z (Z.of_nat n)) in *. set (h := hi ^ Z.of_nat n) in *. clearbody m h.
  change hi with (2097153 # 2097152). 
  apply Qle_trans with ((2097153 # 2097152) * (1 + m * (1025 # 2147483648))); [lra|]. lra.
Qed.
Lemma lo_pow n : (n <= 1001)%nat -> 1 - inject_Z (Z.of_nat n) * (1 # 2097152) <= lo ^ Z.of_nat n.
Proof.
  induction n as [|n IH]; intros L; [cbn; discriminate|]. rewrite pow_S, inj_S by discriminate.
  assert (H: 1 - inject_Z (Z.of_nat n) * (1 # 2097152) <= lo ^ Z.of_nat n) by (apply IH; lia).
  pose proof (inj_nonneg n) as P. set (m := inject_Z (Z.of_nat n)) in *. set (h := lo ^ Z.of_nat n) in *. clearbody m h.
  change lo with (2097151 # 2097152).
  apply Qle_trans with ((2097151 # 2097152) * (1 - m * (1 # 2097152))); [|lra]. lra.
Qed.

(** ** Scaling one number *)
Definition scaled (f : dyadic) (x : Z) : Z := f_as_i16 (f32_mul (f32_of_int x) f).
Definition i16v (x : Z) : Prop := (-32768 <= x <= 32767)%Z.
Lemma val_f32_int x : i16v x -> val (f32_of_int x) == inject_Z x.
Proof. unfold i16v. intros H. unfold f32_of_int. rewrite rnd24_small by lia. rewrite val_Dy. change (Qpower 2 0) with 1. ring. Qed.
Lemma trunc_bounds y : Qabs (inject_Z (dy_trunc y) - val y) <= 1.
Proof.
  rewrite trunc_floor. destruct (Z.leb_spec 0 (mant y)) as [H|H].
  - destruct (floor_spec y) as [A B]. rewrite inject_Z_plus in B. change (inject_Z 1) with 1 in B. apply Qabs_Qle_condition. lra.
  - destruct (floor_spec (dy_neg y)) as [A B]. rewrite inject_Z_plus in B. rewrite val_neg in A, B. change (inject_Z 1) with 1 in B.
    rewrite inject_Z_opp. apply Qabs_Qle_condition. lra.
Qed.
Lemma rep_i16 x : i16v x -> representable 24 (inject_Z x).
Proof. intros H. apply rep_int. unfold i16v in H. change (2 ^ 24)%Z with 16777216%Z. lia. Qed.
(** the product before it is cut off stays between 0 and the number *)
Lemma product_between f x : 0 <= val f <= 1 -> i16v x -> let y := f32_mul (f32_of_int x) f in
  (0 <= inject_Z x -> 0 <= val y <= inject_Z x) /\ (inject_Z x <= 0 -> inject_Z x <= val y <= 0).
Proof.
  intros F X y. unfold y, f32_mul. rewrite rnd24_rndp. pose proof (rep_i16 x X) as R.
  assert (E: val (dy_mul (f32_of_int x) f) == inject_Z x * val f) by (rewrite val_mul, (val_f32_int x X); reflexivity).
  split; intros S0.
  - assert (A: 0 <= inject_Z x * val f) by (apply Qmult_le_0_compat; lra).
    assert (B: inject_Z x * val f <= inject_Z x).
    { setoid_replace (inject_Z x) with (1 * inject_Z x) at 2 by ring. rewrite Qmult_comm. apply Qmult_le_compat_r; lra. }
    split; [apply rndp_ge|apply rndp_le]; try reflexivity; try exact R; try apply rep0; rewrite E; lra.
  - assert (A: inject_Z x * val f <= 0).
    { assert (0 <= (- inject_Z x) * val f) by (apply Qmult_le_0_compat; lra). lra. }
    assert (B: inject_Z x <= inject_Z x * val f).
    { assert (val f * (- inject_Z x) <= 1 * (- inject_Z x)) by (apply Qmult_le_compat_r; lra). lra. }
    split; [apply rndp_ge|apply rndp_le]; try reflexivity; try exact R; try apply rep0; rewrite E; lra.
Qed.
Lemma trunc_le y n : val y <= inject_Z n -> 0 <= inject_Z n -> (dy_trunc y <= n)%Z.
Proof.
  intros H P. rewrite trunc_floor. destruct (Z.leb_spec 0 (mant y)) as [M|M].
  - destruct (floor_spec y) as [A B]. rewrite Zle_Qle. lra.
  - destruct (floor_spec (dy_neg y)) as [A B]. rewrite val_neg in A, B.
    assert (V: val y < 0). { apply Qnot_le_lt. intros C. apply mant_sign in C. lia. }
    assert (0 <= dy_floor (dy_neg y))%Z by (apply floor_nonneg; rewrite val_neg; lra).
    change 0 with (inject_Z 0) in P; rewrite <- Zle_Qle in P. lia.
Qed.
Lemma trunc_ge y n : inject_Z n <= val y -> inject_Z n <= 0 -> (n <= dy_trunc y)%Z.
Proof.
  intros H P. rewrite trunc_floor. destruct (Z.leb_spec 0 (mant y)) as [M|M].
  - assert (V: 0 <= val y) by now apply mant_sign. pose proof (floor_nonneg y V). change 0 with (inject_Z 0) in P; rewrite <- Zle_Qle in P. lia.
  - destruct (floor_spec (dy_neg y)) as [A B]. rewrite val_neg in A, B.
    assert (inject_Z (dy_floor (dy_neg y)) <= inject_Z (- n)) by (rewrite inject_Z_opp; lra). rewrite <- Zle_Qle in H0. lia.
Qed.
Lemma scaled_small f x : 0 <= val f <= 1 -> i16v x -> (Z.abs (scaled f x) <= Z.abs x)%Z /\ scaled f x = dy_trunc (f32_mul (f32_of_int x) f).
Proof.
  intros F X. destruct (product_between f x F X) as [P1 P2]. unfold scaled, f_as_i16. set (y := f32_mul _ _) in *.
  assert (B: (Z.abs (dy_trunc y) <= Z.abs x)%Z /\ (-32768 <= dy_trunc y < 32768)%Z).
  { unfold i16v in X. destruct (Z.le_ge_cases 0 x) as [H|H].
    - destruct P1 as [A B]; [change 0 with (inject_Z 0); now rewrite <- Zle_Qle|].
      assert (dy_trunc y <= x)%Z by (apply trunc_le; [exact B|change 0 with (inject_Z 0); now rewrite <- Zle_Qle]).
      assert (0 <= dy_trunc y)%Z by (apply trunc_ge; [exact A|discriminate]). lia.
    - destruct P2 as [A B]; [change 0 with (inject_Z 0); now rewrite <- Zle_Qle|].
      assert (x <= dy_trunc y)%Z by (apply trunc_ge; [exact A|change 0 with (inject_Z 0); now rewrite <- Zle_Qle]).
      assert (dy_trunc y <= 0)%Z by (apply trunc_le; [exact B|discriminate]). lia. }
  destruct B as [B1 B2]. rewrite (sat_id 16) by exact B2. split; [exact B1|reflexivity].
Qed.
Lemma scaled_close f x q k : 0 <= val f <= 1 -> 0 <= q <= 1 -> i16v x -> (k <= 1000)%nat ->
  q * lo ^ Z.of_nat k <= val f <= q * hi ^ Z.of_nat k ->
  Qabs (inject_Z (scaled f x) - q * inject_Z x) <= 1 + inject_Z (Z.of_nat k + 2) / 64.
Proof.
  intros F HQ X K [L U]. destruct (scaled_small f x F X) as [_ ->]. set (y := f32_mul (f32_of_int x) f).
  pose proof (trunc_bounds y) as T. 
  assert (E: val (dy_mul (f32_of_int x) f) == inject_Z x * val f) by (rewrite val_mul, (val_f32_int x X); reflexivity).
  pose proof (rnd_rel (dy_mul (f32_of_int x) f)) as R. change (rnd24 (dy_mul (f32_of_int x) f)) with y in R. rewrite E in R. rewrite Qabs_Qmult, (Qabs_pos (val f)) in R by lra.
  assert (AX: Qabs (inject_Z x) <= 32768).
  { rewrite Qabs_inj. change 32768 with (inject_Z 32768). rewrite <- Zle_Qle. unfold i16v in X. lia. }
  pose proof (Qabs_nonneg (inject_Z x)) as AX0.
  assert (R2: Qabs (val y - inject_Z x * val f) <= 32768 * (1 # 16777216)).
  { eapply Qle_trans; [exact R|]. rewrite uu_val. apply Qmult_le_compat_r; [|discriminate].
    apply Qle_trans with (Qabs (inject_Z x) * 1); [rewrite !(Qmult_comm (Qabs (inject_Z x))); apply Qmult_le_compat_r; lra|lra]. }
  (* f against q *)
  pose proof (hi_pow k ltac:(lia)) as HI. pose proof (lo_pow k ltac:(lia)) as LO.
  rewrite (inject_Z_plus (Z.of_nat k)). change (inject_Z 2) with 2. pose proof (inj_nonneg k) as KN.
  assert (KB: inject_Z (Z.of_nat k) <= 1000) by (change 1000 with (inject_Z 1000); rewrite <- Zle_Qle; lia).
  set (m := inject_Z (Z.of_nat k)) in *. set (h := hi ^ Z.of_nat k) in *. set (l := lo ^ Z.of_nat k) in *. clearbody m h l.
  assert (D: Qabs (val f - q) <= m * (1025 # 2147483648)).
  { apply Qabs_Qle_condition.
    assert (A1: q * h <= q * (1 + m * (1025 # 2147483648))) by (rewrite !(Qmult_comm q); apply Qmult_le_compat_r; lra).
    assert (A2: q * (1 - m * (1 # 2097152)) <= q * l) by (rewrite !(Qmult_comm q); apply Qmult_le_compat_r; lra).
    assert (A3: q * (m * (1025 # 2147483648)) <= 1 * (m * (1025 # 2147483648))) by (apply Qmult_le_compat_r; lra).
    assert (A4: q * (m * (1 # 2097152)) <= 1 * (m * (1 # 2097152))) by (apply Qmult_le_compat_r; lra).
    split; lra. }
  assert (D2: Qabs (inject_Z x * val f - q * inject_Z x) <= 32768 * (m * (1025 # 2147483648))).
  { setoid_replace (inject_Z x * val f - q * inject_Z x) with (inject_Z x * (val f - q)) by ring. rewrite Qabs_Qmult.
    apply Qle_trans with (Qabs (inject_Z x) * (m * (1025 # 2147483648))).
    - rewrite !(Qmult_comm (Qabs (inject_Z x))). apply Qmult_le_compat_r; [exact D|exact AX0].
    - apply Qmult_le_compat_r; [exact AX|lra]. }
  apply Qabs_Qle_condition in T. apply Qabs_Qle_condition in R2. apply Qabs_Qle_condition in D2. apply Qabs_Qle_condition.
  unfold Qdiv. change (/ 64) with (1 # 64). lra.
Qed.

(** ** The weight of a set *)
Lemma factor_le1 v l p u f : axis_factor v l p u f -> f <= 1.
Proof.
  destruct 1; try lra.
  - apply Qle_shift_div_r; lra.
  - apply Qle_shift_div_r; lra.
Qed.
Lemma value_le1 loc sup q : region_value loc sup q -> q <= 1.
Proof.
  induction 1 as [|t l p u sup f g A R IH]; [lra|]. pose proof (factor_le1 _ _ _ _ _ A) as F. pose proof (value_nonneg _ _ _ R) as G.
  apply Qle_trans with (1 * g); [now apply Qmult_le_compat_r|lra].
Qed.
Lemma value_perm loc sup sup' q : Permutation sup sup' -> region_value loc sup q -> exists q', region_value loc sup' q' /\ q' == q.
Proof.
  intros P. revert q. induction P as [|[t [[l p] u]] s s' P IH|[t [[l p] u]] [t' [[l' p'] u']] s|s1 s2 s3 P1 IH1 P2 IH2]; intros q R.
  - exists q. split; [exact R|reflexivity].
  - inversion R as [|? ? ? ? ? f g A R' E1]; subst. destruct (IH _ R') as (g' & R2 & E). exists (f * g'). split; [now constructor|now rewrite E].
  - inversion R as [|? ? ? ? ? f g A R' E1]; subst. inversion R' as [|? ? ? ? ? f' g' A' R'' E1']; subst.
    exists (f' * (f * g')). split; [constructor; [exact A'|constructor; assumption]|ring].
  - destruct (IH1 _ R) as (q1 & R1 & E1). destruct (IH2 _ R1) as (q2 & R2 & E2). exists q2. split; [exact R2|now rewrite E2].
Qed.

(** the axes of a set, as the code gathers them *)
Lemma position_nth t tags i : position t tags = Some i -> nth_error tags i = Some t.
Proof.
  revert i. induction tags as [|x tags IH]; intros i; cbn [position]; [discriminate|]. destruct (tag_eqb x t) eqn:E.
  - intros H. injection H as <-. apply tag_eqb_iff in E. now subst.
  - destruct (position t tags) as [j|]; [|discriminate]. cbn [option_map]. intros H. injection H as <-. now apply IH.
Qed.
Lemma position_in t tags : In t tags -> exists i, position t tags = Some i /\ (i < length tags)%nat.
Proof.
  induction tags as [|x tags IH]; cbn [In position length]; [easy|]. intros H. destruct (tag_eqb x t) eqn:E.
  - exists 0%nat. split; [reflexivity|lia].
  - destruct H as [->|H]; [rewrite (proj2 (tag_eqb_iff t t) eq_refl) in E; discriminate|]. destruct (IH H) as (i & -> & L). exists (S i). split; [reflexivity|lia].
Qed.
Lemma nth_combine {A B} (l : list A) (l' : list B) i a b : nth_error l i = Some a -> nth_error l' i = Some b -> nth_error (combine l l') i = Some (a, b).
Proof. revert l l'. induction i as [|i IH]; intros [|x l] [|y l']; cbn; try discriminate; [congruence|auto]. Qed.
Definition tents (d : delta_set) : list tent := combine (combine (ds_start d) (ds_peak d)) (ds_end d).
Lemma axis_support_spec tags d t c x : axis_support tags d (t, c) = Ok x -> fst x = t /\ In x (combine tags (tents d)).
Proof.
  unfold axis_support. cbn [fst]. intros H. apply rbind_ok in H as (i & I & H). apply rbind_ok in H as (s & S0 & H). apply rbind_ok in H as (p & P & H). apply rbind_ok in H as (e & E & H).
  injection H as <-. split; [reflexivity|].
  destruct (position t tags) as [i'|] eqn:I'; [|discriminate]. injection I as ->. apply position_nth in I'.
  destruct (nth_error (ds_start d) i) eqn:S1; [|discriminate]. injection S0 as ->.
  destruct (nth_error (ds_peak d) i) eqn:P1; [|discriminate]. injection P as ->.
  destruct (nth_error (ds_end d) i) eqn:E1; [|discriminate]. injection E as ->.
  apply (nth_error_In _ i). unfold tents. apply nth_combine; [exact I'|]. apply nth_combine; [|exact E1]. now apply nth_combine.
Qed.
Lemma support_perm tags loc d sup : NoDup tags -> as_map loc -> (forall t, In t (map fst loc) <-> In t tags) ->
  rmapM (axis_support tags d) loc = Ok sup -> Permutation sup (combine tags (tents d)) /\ length sup = length tags.
Proof.
  intros N M K H. apply rmapM_Forall2 in H. pose proof (sorted_nodup _ M) as NL.
  assert (KEYS: map fst sup = map fst loc).
  { clear - H. induction H as [|[t c] x l l' H _ IH]; [reflexivity|]. cbn [map]. apply axis_support_spec in H as [-> _]. cbn [fst]. now f_equal. }
  assert (LL: length loc = length tags).
  { rewrite <- (map_length fst). apply Nat.le_antisymm; apply NoDup_incl_length; auto; intros t; apply K. }
  assert (LS: length sup = length tags) by (rewrite <- LL; symmetry; eapply Forall2_length; exact H).
  split; [|exact LS]. apply NoDup_Permutation_bis.
  - apply (NoDup_map_inv fst). now rewrite KEYS.
  - rewrite combine_length. lia.
  - intros x I. destruct (Forall2_in_r _ _ _ _ H I) as ((t & c) & _ & E). now apply axis_support_spec in E.
Qed.
Lemma weight_spec tags loc d sup : NoDup tags -> as_map loc -> (forall t, In t (map fst loc) <-> In t tags) ->
  rmapM (axis_support tags d) loc = Ok sup ->
  let f := support_scalar loc sup in 0 <= val f <= 1 /\
  exists q, set_value tags loc d q /\ 0 <= q <= 1 /\
    q * lo ^ Z.of_nat (length tags) <= val f <= q * hi ^ Z.of_nat (length tags).
Proof.
  intros N M K H f. destruct (support_perm tags loc d sup N M K H) as [P L].
  split; [unfold f, support_scalar; apply scalar_range; rewrite val_dy1; lra|].
  destruct (scalar_accuracy loc sup dy1) as (q & R & A & B); [discriminate|].
  destruct (value_perm loc _ _ q P R) as (q' & R' & E). exists q'. split; [exact R'|].
  split; [split; [eapply value_nonneg; exact R'|eapply value_le1; exact R']|].
  rewrite L in A, B. rewrite val_dy1, Qmult_1_l in A, B. rewrite E. split; assumption.
Qed.
Lemma weight_zero q k f : 0 <= q -> q * lo ^ Z.of_nat k <= val f <= q * hi ^ Z.of_nat k -> (val f == 0 <-> q == 0).
Proof.
  intros HQ [A B]. pose proof (pow_lo k). split; intros E.
  - rewrite E in A. destruct (Qlt_le_dec 0 q) as [L|L]; [|lra]. assert (0 < q * lo ^ Z.of_nat k) by (apply Qmult_lt_0_compat; lra). lra.
  - rewrite E in A, B. lra.
Qed.

(** On the numbers of a font, the weight is unique. *)
Lemma f2_equal c d : f2dot14 c -> f2dot14 d -> Qabs (val c - val d) < Qpower 2 (-23) -> val c == val d.
Proof.
  intros C D H. destruct (Qlt_le_dec (val c) (val d)) as [L|L]; [|destruct (Qlt_le_dec (val d) (val c)) as [L2|L2]; [|lra]].
  - pose proof (f2_apart c d C D L). change (Qpower 2 (-23)) with (1 # 8388608) in H. apply Qabs_Qlt_condition in H. lra.
  - pose proof (f2_apart d c D C L2). change (Qpower 2 (-23)) with (1 # 8388608) in H. apply Qabs_Qlt_condition in H. lra.
Qed.
Lemma far_ne c d : far c d -> ~ c == d.
Proof. unfold far. intros H E. assert (Z0: Qabs (c - d) == 0) by (rewrite E; setoid_replace (d - d) with 0 by ring; reflexivity). rewrite Z0 in H. apply (Qle_not_lt _ _ H). reflexivity. Qed.
Lemma factor_unique v l p u f g : (Qabs (v - val p) < Qpower 2 (-23) -> v == val p) -> axis_factor v l (val p) u f -> axis_factor v l (val p) u g -> f == g.
Proof.
  intros V A B. destruct A as [I|NI C|NI F O|NI F O1 O2|NI F O1 O2], B as [I'|NI' C'|NI' F' O'|NI' F' O1' O2'|NI' F' O1' O2']; try reflexivity; try contradiction;
    try (exfalso; apply V in C; apply (far_ne _ _ F' C)); try (exfalso; apply V in C'; apply (far_ne _ _ F C')); try lra.
  all: exfalso; unfold ignored in NI;
    assert (~ val p < l) by tauto; assert (~ u < val p) by tauto; destruct O || destruct O'; lra.
Qed.
Lemma value_unique loc sup q r : (forall t l p u, In (t, (l, p, u)) sup -> Qabs (coord t loc - val p) < Qpower 2 (-23) -> coord t loc == val p) ->
  region_value loc sup q -> region_value loc sup r -> q == r.
Proof.
  intros H R. revert r. induction R as [|t l p u sup f g A R IH]; intros r R2; inversion R2 as [|? ? ? ? ? f' g' A' R' E1]; subst; [reflexivity|].
  rewrite (factor_unique _ _ _ _ _ _ (H t l p u (or_introl eq_refl)) A A'), (IH (fun t l p u I => H t l p u (or_intror I)) g' R'). reflexivity.
Qed.

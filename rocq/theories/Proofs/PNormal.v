(** Normalizing positions on an axis. *)
From Coq Require Import ZArith List Lia Bool QArith Qabs Qpower Lqa Sorted.
Import ListNotations.
From Verif.Model Require Import MBase MFixed MFloat MFloat32 MVarModel MAvar MDesign.
From Verif.Spec Require Import SBase SFloat SAvar SDesign.
From Verif.Proofs Require Import PBase PFixed PFloat PFloat32 PScalar PRound PAvar PDesign.
Open Scope Q_scope.
Ltac Zify.zify_post_hook ::= idtac.

(** A rounded numerator over a positive number. *)
Lemma ratio_facts n w W : 0 < W -> val w == W -> 0 <= val n <= W ->
  0 <= val (f32_div n w) <= 1 /\ Qabs (val (f32_div n w) - val n / W) <= 3 * uu /\
  (0 < val n -> 0 < val (f32_div n w)) /\ (val n == W -> val (f32_div n w) == 1) /\ (val n == 0 -> val (f32_div n w) == 0).
Proof.
  intros HW Ew H. assert (M: mant w <> 0%Z) by (apply mant_ne; rewrite Ew; lra).
  assert (Q: 0 <= val n / W <= 1) by (split; [apply Qle_shift_div_l; lra|apply Qle_shift_div_r; lra]).
  rewrite f32_div_fdiv. pose proof (fdiv_rel 24 n w ltac:(reflexivity) M) as R. rewrite Ew in R. change (Qpower 2 (- (24))) with uu in R.
  rewrite (Qabs_pos (val n / W)) in R by lra.
  assert (E: Qabs (val (fdiv 24 n w) - val n / W) <= 3 * uu).
  { eapply Qle_trans; [exact R|]. setoid_replace (3 * uu) with (1 * (3 * uu)) at 2 by ring. apply Qmult_le_compat_r; [lra|discriminate]. }
  split; [|split; [exact E|split; [|split]]].
  - split; [apply fdiv_ge|apply fdiv_le]; auto using rep0, rep1; try reflexivity; rewrite Ew; lra.
  - intros P. apply Qabs_Qle_condition in R. assert (0 < val n / W) by (apply Qlt_shift_div_l; lra).
    assert (U: uu == 1 # 16777216) by reflexivity. rewrite U in R. lra.
  - intros P. assert (V: val n / val w == 1) by (rewrite Ew, P; field; lra).
    rewrite fdiv_exact; [exact V|reflexivity|exact M|]. apply (rep_ext _ 1); [now symmetry|apply rep1].
  - intros P. assert (V: val n / val w == 0) by (rewrite Ew, P; field; lra).
    rewrite fdiv_exact; [exact V|reflexivity|exact M|]. apply (rep_ext _ 0); [now symmetry|apply rep0].
Qed.
Lemma ratio_mono n n' w w' : val w == val w' -> 0 < val w -> val n <= val n' -> val (f32_div n w) <= val (f32_div n' w').
Proof.
  intros E P H. rewrite !f32_div_fdiv. apply fdiv_mono; [reflexivity|apply mant_ne; lra|apply mant_ne; lra|].
  rewrite <- E. unfold Qdiv. apply Qmult_le_compat_r; [exact H|]. apply Qinv_le_0_compat. lra.
Qed.
(** The quotient of a negated number. *)
Lemma div_neg n w : mant w <> 0%Z -> val (f32_div (dy_neg n) w) == - val (f32_div n w).
Proof.
  intros M.
  assert (D: dy_quot 24 (dy_neg n) w = dy_neg (dy_quot 24 n w)).
  { unfold dy_quot, dy_neg. cbn [mant expo]. rewrite Z.abs_opp, Z.sgn_opp. f_equal. ring. }
  unfold f32_div. rewrite D. destruct (dy_quot 24 n w) as [m e]. change (dy_neg (Dy m e)) with (Dy (- m) e).
  rewrite !rnd24_rndp, rndp_opp. apply val_neg.
Qed.

Lemma sub_range c d W : representable 24 W -> 0 <= val c - val d -> val c - val d <= W -> 0 <= val (f32_sub c d) <= W.
Proof.
  intros R A B. unfold f32_sub. rewrite rnd24_rndp.
  split; [apply rndp_ge|apply rndp_le]; auto using rep0; try reflexivity; rewrite val_sub; lra.
Qed.
Lemma sub_pos c d : val d < val c -> 0 < val (f32_sub c d).
Proof.
  intros H. unfold f32_sub. destruct (rnd_pos (dy_sub c d)) as [A _]; [rewrite val_sub; lra|]. rewrite val_sub in A.
  eapply Qlt_le_trans; [|exact A]. apply Qmult_lt_0_compat; [lra|reflexivity].
Qed.
Lemma sub_mono c c' d d' : val c - val d <= val c' - val d' -> val (f32_sub c d) <= val (f32_sub c' d').
Proof. intros H. unfold f32_sub. apply rnd_mono. rewrite !val_sub. exact H. Qed.

(** *** User coordinates *)
Section User.
Variable ax : axis.
Hypothesis P : proper_axis ax.
Let mn := inject_Z (ax_min ax).
Let mx := inject_Z (ax_max ax).
Let df := inject_Z (ax_default ax).
Lemma pa_bounds : (Z.abs (ax_min ax) <= 262144 /\ Z.abs (ax_max ax) <= 262144 /\ Z.abs (ax_default ax) <= 262144 /\
  ax_min ax <= ax_default ax /\ ax_default ax <= ax_max ax)%Z.
Proof. destruct P as (A & B & C). unfold ordinary_position in *. lia. Qed.
Lemma pa_mn : val (f32_of_int (ax_min ax)) == mn. Proof. pose proof pa_bounds. apply of_int_val. lia. Qed.
Lemma pa_mx : val (f32_of_int (ax_max ax)) == mx. Proof. pose proof pa_bounds. apply of_int_val. lia. Qed.
Lemma pa_df : val (f32_of_int (ax_default ax)) == df. Proof. pose proof pa_bounds. apply of_int_val. lia. Qed.
Lemma pa_le : mn <= df /\ df <= mx. Proof. pose proof pa_bounds. unfold mn, df, mx. rewrite <- !Zle_Qle. lia. Qed.

Definition clampd (l : dyadic) : dyadic :=
  let l1 := if dy_ltb l (f32_of_int (ax_min ax)) then f32_of_int (ax_min ax) else l in
  if dy_ltb (f32_of_int (ax_max ax)) l1 then f32_of_int (ax_max ax) else l1.
Lemma clampd_cases l : (val l <= mn /\ val (clampd l) == mn) \/ (mx <= val l /\ val (clampd l) == mx) \/
  (mn <= val l /\ val l <= mx /\ val (clampd l) == val l).
Proof.
  pose proof pa_le. unfold clampd. destruct (dy_ltb l (f32_of_int (ax_min ax))) eqn:E.
  - apply ltb_iff in E. rewrite pa_mn in E. left. split; [lra|].
    destruct (dy_ltb (f32_of_int (ax_max ax)) (f32_of_int (ax_min ax))) eqn:F; [|apply pa_mn].
    apply ltb_iff in F. rewrite pa_mn, pa_mx in F. lra.
  - apply ltb_false in E. rewrite pa_mn in E. destruct (dy_ltb (f32_of_int (ax_max ax)) l) eqn:F.
    + apply ltb_iff in F. rewrite pa_mx in F. right. left. split; [lra|apply pa_mx].
    + apply ltb_false in F. rewrite pa_mx in F. right. right. split; [exact E|]. split; [exact F|reflexivity].
Qed.
Lemma clampd_mono l l' : val l <= val l' -> val (clampd l) <= val (clampd l').
Proof. intros H. pose proof pa_le. destruct (clampd_cases l) as [C|[C|C]], (clampd_cases l') as [D|[D|D]]; lra. Qed.

Definition user_left (l : dyadic) := f32_div (dy_neg (f32_sub (f32_of_int (ax_default ax)) l)) (f32_of_int (ax_default ax - ax_min ax)).
Definition user_right (l : dyadic) := f32_div (f32_sub l (f32_of_int (ax_default ax))) (f32_of_int (ax_max ax - ax_default ax)).
Lemma user_eq l : normalize_user ax l = Ok (
  if dy_ltb (clampd l) (f32_of_int (ax_default ax)) then user_left (clampd l)
  else if dy_ltb (f32_of_int (ax_default ax)) (clampd l) then user_right (clampd l) else dy0).
Proof.
  unfold normalize_user. change (if dy_ltb (f32_of_int (ax_max ax)) _ then _ else _) with (clampd l). cbv zeta. fold (clampd l).
  pose proof pa_bounds. destruct (dy_ltb (clampd l) (f32_of_int (ax_default ax))).
  - rewrite chk_i32 by (unfold is_i32; lia). reflexivity.
  - destruct (dy_ltb (f32_of_int (ax_default ax)) (clampd l)); [|reflexivity]. rewrite chk_i32 by (unfold is_i32; lia). reflexivity.
Qed.
Definition user_val (l : dyadic) : dyadic :=
  if dy_ltb (clampd l) (f32_of_int (ax_default ax)) then user_left (clampd l)
  else if dy_ltb (f32_of_int (ax_default ax)) (clampd l) then user_right (clampd l) else dy0.

Lemma width_left : mn < df -> val (f32_of_int (ax_default ax - ax_min ax)) == df - mn /\ representable 24 (df - mn).
Proof.
  intros H. pose proof pa_bounds. assert (E: df - mn == inject_Z (ax_default ax - ax_min ax)).
  { unfold df, mn, Zminus. rewrite inject_Z_plus, inject_Z_opp. ring. }
  split; [rewrite of_int_val by lia; now symmetry|]. apply (rep_ext _ (inject_Z (ax_default ax - ax_min ax))); [now symmetry|].
  apply rep_int. change (2 ^ 24)%Z with 16777216%Z. lia.
Qed.
Lemma width_right : df < mx -> val (f32_of_int (ax_max ax - ax_default ax)) == mx - df /\ representable 24 (mx - df).
Proof.
  intros H. pose proof pa_bounds. assert (E: mx - df == inject_Z (ax_max ax - ax_default ax)).
  { unfold df, mx, Zminus. rewrite inject_Z_plus, inject_Z_opp. ring. }
  split; [rewrite of_int_val by lia; now symmetry|]. apply (rep_ext _ (inject_Z (ax_max ax - ax_default ax))); [now symmetry|].
  apply rep_int. change (2 ^ 24)%Z with 16777216%Z. lia.
Qed.

Lemma sub_near c d W : 0 <= val c - val d <= W -> Qabs (val (f32_sub c d) - (val c - val d)) <= W * uu.
Proof.
  intros H. unfold f32_sub. pose proof (rnd_rel (dy_sub c d)) as R. rewrite val_sub in R.
  rewrite (Qabs_pos (val c - val d)) in R by lra. eapply Qle_trans; [exact R|]. apply Qmult_le_compat_r; [lra|discriminate].
Qed.
Lemma ratio_near n w W z : 0 < W -> val w == W -> 0 <= val n <= W -> Qabs (val n - z) <= W * uu -> Qabs (val (f32_div n w) - z / W) <= 4 * uu.
Proof.
  intros HW Ew H Z. destruct (ratio_facts n w W HW Ew H) as (_ & E & _).
  eapply Qle_trans; [apply (Qabs_tri _ (val n / W))|]. setoid_replace (4 * uu) with (3 * uu + uu) by ring. apply Qplus_le_compat; [exact E|].
  assert (X: val n / W - z / W == (val n - z) / W) by (field; lra). rewrite X. unfold Qdiv. rewrite Qabs_Qmult, (Qabs_pos (/ W)) by (apply Qinv_le_0_compat; lra).
  apply Qle_shift_div_r; [exact HW|]. now rewrite Qmult_comm.
Qed.

(** The three shapes of the result. *)
Lemma user_cases l :
  (val (clampd l) < df /\ -(1) <= val (user_val l) < 0 /\ (val l <= mn -> val (user_val l) == -(1)) /\
     Qabs (val (user_val l) - (val (clampd l) - df) / (df - mn)) <= 4 * uu) \/
  (df < val (clampd l) /\ 0 < val (user_val l) <= 1 /\ (mx <= val l -> val (user_val l) == 1) /\
     Qabs (val (user_val l) - (val (clampd l) - df) / (mx - df)) <= 4 * uu) \/
  (val (clampd l) == df /\ val (user_val l) == 0).
Proof.
  pose proof pa_le as L. pose proof (clampd_cases l) as C. unfold user_val.
  destruct (dy_ltb (clampd l) (f32_of_int (ax_default ax))) eqn:E.
  - apply ltb_iff in E. rewrite pa_df in E. left. split; [exact E|].
    assert (D: mn < df) by lra. destruct (width_left D) as [W R].
    assert (B: 0 <= val (f32_of_int (ax_default ax)) - val (clampd l) <= df - mn) by (rewrite pa_df; lra).
    destruct (sub_range (f32_of_int (ax_default ax)) (clampd l) (df - mn) R ltac:(lra) ltac:(lra)) as [N1 N2].
    pose proof (sub_pos (f32_of_int (ax_default ax)) (clampd l) ltac:(rewrite pa_df; lra)) as N3.
    assert (M: mant (f32_of_int (ax_default ax - ax_min ax)) <> 0%Z) by (apply mant_ne; lra).
    destruct (ratio_facts _ _ (df - mn) ltac:(lra) W (conj N1 N2)) as (F1 & F2 & F3 & F4 & F5).
    unfold user_left. rewrite !div_neg by exact M. split; [specialize (F3 N3); lra|]. split.
    + intros H. rewrite F4; [reflexivity|]. assert (X: val (clampd l) == mn) by lra.
      unfold f32_sub. rewrite rnd24_rndp, rndp_exact; [rewrite val_sub, pa_df, X; reflexivity|reflexivity|].
      apply (rep_ext _ (df - mn)); [rewrite val_sub, pa_df, X; reflexivity|exact R].
    + pose proof (sub_near _ _ _ B) as Z. rewrite pa_df in Z.
      pose proof (ratio_near _ _ (df - mn) (df - val (clampd l)) ltac:(lra) W (conj N1 N2) Z) as G.
      apply Qabs_Qle_condition in G. apply Qabs_Qle_condition.
      setoid_replace ((val (clampd l) - df) / (df - mn)) with (- ((df - val (clampd l)) / (df - mn))) by (field; lra). lra.
  - apply ltb_false in E. rewrite pa_df in E. destruct (dy_ltb (f32_of_int (ax_default ax)) (clampd l)) eqn:E'.
    + apply ltb_iff in E'. rewrite pa_df in E'. right. left. split; [exact E'|].
      assert (D: df < mx) by lra. destruct (width_right D) as [W R].
      assert (B: 0 <= val (clampd l) - val (f32_of_int (ax_default ax)) <= mx - df) by (rewrite pa_df; lra).
      destruct (sub_range (clampd l) (f32_of_int (ax_default ax)) (mx - df) R ltac:(lra) ltac:(lra)) as [N1 N2].
      pose proof (sub_pos (clampd l) (f32_of_int (ax_default ax)) ltac:(rewrite pa_df; lra)) as N3.
      destruct (ratio_facts _ _ (mx - df) ltac:(lra) W (conj N1 N2)) as (F1 & F2 & F3 & F4 & F5).
      unfold user_right. split; [specialize (F3 N3); lra|]. split.
      * intros H. apply F4. assert (X: val (clampd l) == mx) by lra.
        unfold f32_sub. rewrite rnd24_rndp, rndp_exact; [rewrite val_sub, pa_df, X; reflexivity|reflexivity|].
        apply (rep_ext _ (mx - df)); [rewrite val_sub, pa_df, X; reflexivity|exact R].
      * pose proof (sub_near _ _ _ B) as Z. rewrite pa_df in Z.
        exact (ratio_near _ _ (mx - df) (val (clampd l) - df) ltac:(lra) W (conj N1 N2) Z).
    + apply ltb_false in E'. rewrite pa_df in E'. right. right. split; [lra|reflexivity].
Qed.
Lemma user_mono l l' : val l <= val l' -> val (user_val l) <= val (user_val l').
Proof.
  intros H. pose proof (clampd_mono l l' H) as C. pose proof pa_le as L.
  destruct (user_cases l) as [(A & A1 & _)|[(A & A1 & _)|(A & A1)]], (user_cases l') as [(B & B1 & _)|[(B & B1 & _)|(B & B1)]]; try lra.
  - unfold user_val. replace (dy_ltb (clampd l) (f32_of_int (ax_default ax))) with true by (symmetry; apply ltb_iff; rewrite pa_df; exact A).
    replace (dy_ltb (clampd l') (f32_of_int (ax_default ax))) with true by (symmetry; apply ltb_iff; rewrite pa_df; exact B).
    assert (D: mn < df). { pose proof (clampd_cases l). lra. }
    destruct (width_left D) as [W _]. unfold user_left. apply ratio_mono; [reflexivity|lra|]. rewrite !val_neg.
    pose proof (sub_mono (f32_of_int (ax_default ax)) (f32_of_int (ax_default ax)) (clampd l') (clampd l) ltac:(lra)). lra.
  - unfold user_val. replace (dy_ltb (clampd l) (f32_of_int (ax_default ax))) with false by (symmetry; apply ltb_false; rewrite pa_df; lra).
    replace (dy_ltb (clampd l') (f32_of_int (ax_default ax))) with false by (symmetry; apply ltb_false; rewrite pa_df; lra).
    replace (dy_ltb (f32_of_int (ax_default ax)) (clampd l)) with true by (symmetry; apply ltb_iff; rewrite pa_df; exact A).
    replace (dy_ltb (f32_of_int (ax_default ax)) (clampd l')) with true by (symmetry; apply ltb_iff; rewrite pa_df; exact B).
    assert (D: df < mx). { pose proof (clampd_cases l). lra. }
    destruct (width_right D) as [W _]. unfold user_right. apply ratio_mono; [reflexivity|lra|]. apply sub_mono. lra.
Qed.
Lemma user_normalized l : exists q, normalized ax (val l) q /\ Qabs (val (user_val l) - q) <= Qpower 2 (-22).
Proof.
  pose proof pa_le as L. pose proof (clampd_cases l) as C.
  enough (exists q, normalized ax (val l) q /\ Qabs (val (user_val l) - q) <= 4 * uu) as (q & N1 & N2).
  { exists q. split; [exact N1|]. eapply Qle_trans; [exact N2|discriminate]. }
  assert (IL: forall a b, inject_Z a < inject_Z b -> (a < b)%Z) by (intros a b; now rewrite <- Zlt_Qlt).
  assert (W1: inject_Z (ax_default ax - ax_min ax) == df - mn) by (unfold df, mn, Zminus; rewrite inject_Z_plus, inject_Z_opp; ring).
  assert (W2: inject_Z (ax_max ax - ax_default ax) == mx - df) by (unfold df, mx, Zminus; rewrite inject_Z_plus, inject_Z_opp; ring).
  destruct (user_cases l) as [(A & A1 & A2 & A3)|[(A & A1 & A2 & A3)|(A & A1)]].
  - destruct (Qlt_le_dec mn (val l)) as [H|H].
    + exists ((val l - df) / inject_Z (ax_default ax - ax_min ax)). split; [apply nz_left; [exact H|fold df; lra]|].
      assert (E: val (clampd l) == val l) by lra. rewrite W1. rewrite <- E. exact A3.
    + exists (-(1)). split; [apply nz_low; [exact H|apply IL; fold mn df; lra]|]. rewrite (A2 H). discriminate.
  - destruct (Qlt_le_dec (val l) mx) as [H|H].
    + exists ((val l - df) / inject_Z (ax_max ax - ax_default ax)). split; [apply nz_right; [fold df; lra|exact H]|].
      assert (E: val (clampd l) == val l) by lra. rewrite W2. rewrite <- E. exact A3.
    + exists 1. split; [apply nz_high; [exact H|apply IL; fold mx df; lra]|]. rewrite (A2 H). discriminate.
  - exists 0. split; [|rewrite A1; discriminate].
    destruct C as [[C1 C2]|[[C1 C2]|(C1 & C2 & C3)]].
    + apply nz_no_left; [fold df; lra|]. apply inject_Z_injective. fold mn df. lra.
    + apply nz_no_right; [fold df; lra|]. apply inject_Z_injective. fold mx df. lra.
    + apply nz_default. fold df. lra.
Qed.
End User.

(** *** Design coordinates *)
Lemma fold_dmin (es : list (dyadic * dyadic)) e : exists f, In f (e :: es) /\ fold_left dy_min (map snd es) (snd e) = snd f /\ forall g, In g (e :: es) -> val (snd f) <= val (snd g).
Proof.
  assert (G: forall l x, In (fold_left dy_min l x) (x :: l) /\ forall y, In y (x :: l) -> val (fold_left dy_min l x) <= val y).
  { induction l as [|a l IH]; intros x; cbn [fold_left].
    - split; [now left|]. intros y [->|[]]. apply Qle_refl.
    - destruct (IH (dy_min x a)) as [A B]. pose proof (B (dy_min x a) (or_introl eq_refl)) as B0. assert (M: val (dy_min x a) <= val x /\ val (dy_min x a) <= val a).
      { unfold dy_min. destruct (dy_leb x a) eqn:E; [apply leb_iff in E|apply leb_false in E]; split; lra. }
      split.
      + destruct A as [A|A]; [|right; now right]. rewrite <- A. unfold dy_min. destruct (dy_leb x a); [now left|right; now left].
      + intros y [->|[->|I]]; [lra|lra|apply B; now right]. }
  destruct (G (map snd es) (snd e)) as [A B]. change (snd e :: map snd es) with (map snd (e :: es)) in *.
  apply in_map_iff in A. destruct A as (f & E & I). exists f. split; [exact I|]. split; [now symmetry|].
  intros g J. rewrite E. apply B. now apply in_map.
Qed.
Lemma fold_dmax (es : list (dyadic * dyadic)) e : exists f, In f (e :: es) /\ fold_left dy_max (map snd es) (snd e) = snd f /\ forall g, In g (e :: es) -> val (snd g) <= val (snd f).
Proof.
  assert (G: forall l x, In (fold_left dy_max l x) (x :: l) /\ forall y, In y (x :: l) -> val y <= val (fold_left dy_max l x)).
  { induction l as [|a l IH]; intros x; cbn [fold_left].
    - split; [now left|]. intros y [->|[]]. apply Qle_refl.
    - destruct (IH (dy_max x a)) as [A B]. pose proof (B (dy_max x a) (or_introl eq_refl)) as B0. assert (M: val x <= val (dy_max x a) /\ val a <= val (dy_max x a)).
      { unfold dy_max. destruct (dy_leb x a) eqn:E; [apply leb_iff in E|apply leb_false in E]; split; lra. }
      split.
      + destruct A as [A|A]; [|right; now right]. rewrite <- A. unfold dy_max. destruct (dy_leb x a); [right; now left|now left].
      + intros y [->|[->|I]]; [lra|lra|apply B; now right]. }
  destruct (G (map snd es) (snd e)) as [A B]. change (snd e :: map snd es) with (map snd (e :: es)) in *.
  apply in_map_iff in A. destruct A as (f & E & I). exists f. split; [exact I|]. split; [now symmetry|].
  intros g J. rewrite E. apply B. now apply in_map.
Qed.

Lemma design_spec ax es lo hi : ax_map ax = Some es -> es <> [] -> least_output es lo -> greatest_output es hi -> lo < hi ->
  exists g : dyadic -> dyadic, (forall l, normalize_design ax l = Ok (g l)) /\
    (forall l, 0 <= val (g l) <= 1) /\ (forall l l', val l <= val l' -> val (g l) <= val (g l')) /\
    (forall l, val l <= lo -> val (g l) == 0) /\ (forall l, hi <= val l -> val (g l) == 1) /\
    (forall l, lo < val l -> 0 < val (g l)) /\
    (forall c l, representable 24 c -> representable 24 (val l - lo) -> representable 24 (hi - lo) -> lo <= val l -> val l <= hi ->
       (val l - lo) / (hi - lo) <= c -> val (g l) <= c) /\
    (forall l, exists q, position lo hi (val l) q /\ Qabs (val (g l) - q) <= Qpower 2 (-21)).
Proof.
  intros E NE LO HI H. destruct es as [|e es]; [congruence|].
  destruct (fold_dmin es e) as (f & If & Ef & Lf). destruct (fold_dmax es e) as (g & Ig & Eg & Lg).
  unfold normalize_design. rewrite E. set (mn := fold_left dy_min (map snd es) (snd e)) in *. set (mx := fold_left dy_max (map snd es) (snd e)) in *.
  assert (Vmn: val mn == lo).
  { destruct LO as [(x & Ix & Vx) L]. pose proof (L f If) as L1. pose proof (Lf x Ix) as L2. rewrite Ef. lra. }
  assert (Vmx: val mx == hi).
  { destruct HI as [(x & Ix & Vx) L]. pose proof (L g Ig) as L1. pose proof (Lg x Ix) as L2. rewrite Eg. lra. }
  clearbody mn mx. clear Ef Eg Lf Lg If Ig LO HI f g.
  set (c := fun l => let l1 := if dy_ltb l mn then mn else l in if dy_ltb mx l1 then mx else l1).
  assert (C: forall l, (val l <= lo /\ val (c l) == lo) \/ (hi <= val l /\ val (c l) == hi) \/ (lo < val l /\ val l < hi /\ val (c l) == val l)).
  { intros l. unfold c. destruct (dy_ltb l mn) eqn:A.
    - apply ltb_iff in A. left. split; [lra|]. destruct (dy_ltb mx mn) eqn:B; [apply ltb_iff in B; lra|exact Vmn].
    - apply ltb_false in A. destruct (dy_ltb mx l) eqn:B.
      + apply ltb_iff in B. right. left. split; [lra|exact Vmx].
      + apply ltb_false in B. destruct (Qlt_le_dec lo (val l)); [|left; split; [assumption|lra]].
        destruct (Qlt_le_dec (val l) hi); [right; right; repeat split; lra|right; left; split; lra]. }
  set (W := val (f32_sub mx mn)). assert (PW: 0 < W) by (apply sub_pos; lra).
  assert (RW: representable 24 W) by (unfold W, f32_sub; rewrite rnd24_rndp; now apply rndp_rep).
  assert (CB: forall l, lo <= val (c l) <= hi) by (intros l; destruct (C l) as [?|[?|?]]; lra).
  assert (NR: forall l, 0 <= val (f32_sub (c l) mn) <= W).
  { intros l. pose proof (CB l). split.
    - unfold f32_sub. rewrite rnd24_rndp. apply rndp_ge; [reflexivity|apply rep0|rewrite val_sub; lra].
    - apply sub_mono. lra. }
  exists (fun l => f32_div (f32_sub (c l) mn) (f32_sub mx mn)). split; [reflexivity|].
  assert (F := fun l => ratio_facts (f32_sub (c l) mn) (f32_sub mx mn) W PW ltac:(reflexivity) (NR l)).
  split; [intros l; apply (F l)|]. split.
  { intros l l' L. apply ratio_mono; [reflexivity|exact PW|]. apply sub_mono. destruct (C l) as [?|[?|?]], (C l') as [?|[?|?]]; lra. }
  split.
  { intros l L. apply (F l). assert (X: val (c l) == lo) by (destruct (C l) as [?|[?|?]]; lra).
    unfold f32_sub. rewrite rnd24_rndp, rndp_exact; [rewrite val_sub; lra|reflexivity|]. apply (rep_ext _ 0); [rewrite val_sub; lra|apply rep0]. }
  assert (TOP: forall l, hi <= val l -> val (f32_sub (c l) mn) == W).
  { intros l L. assert (X: val (c l) == hi) by (destruct (C l) as [?|[?|?]]; lra). unfold W.
    apply Qle_antisym; apply sub_mono; lra. }
  split; [intros l L; apply (F l); now apply TOP|]. split.
  { intros l L. apply (F l). apply sub_pos. destruct (C l) as [?|[?|?]]; lra. }
  split.
  { intros k l Rk R1 R2 L1 L2 Lk. assert (X: val (c l) == val l) by (destruct (C l) as [?|[?|?]]; lra).
    assert (S1: val (f32_sub (c l) mn) == val l - lo).
    { unfold f32_sub. rewrite rnd24_rndp, rndp_exact; [rewrite val_sub; lra|reflexivity|]. apply (rep_ext _ (val l - lo)); [rewrite val_sub; lra|exact R1]. }
    assert (S2: val (f32_sub mx mn) == hi - lo).
    { unfold f32_sub. rewrite rnd24_rndp, rndp_exact; [rewrite val_sub; lra|reflexivity|]. apply (rep_ext _ (hi - lo)); [rewrite val_sub; lra|exact R2]. }
    rewrite f32_div_fdiv. apply fdiv_le; [reflexivity|apply mant_ne; rewrite S2; lra|exact Rk|]. rewrite S1, S2. exact Lk. }
  intros l. destruct (C l) as [[A B]|[[A B]|(A & A' & B)]].
  - exists 0. split; [now apply pos_low|]. assert (X: val (f32_div (f32_sub (c l) mn) (f32_sub mx mn)) == 0).
    { apply (F l). unfold f32_sub. rewrite rnd24_rndp, rndp_exact; [rewrite val_sub; lra|reflexivity|]. apply (rep_ext _ 0); [rewrite val_sub; lra|apply rep0]. }
    rewrite X. discriminate.
  - exists 1. split; [now apply pos_high|]. assert (X: val (f32_div (f32_sub (c l) mn) (f32_sub mx mn)) == 1) by (apply (F l); now apply TOP).
    rewrite X. discriminate.
  - exists ((val l - lo) / (hi - lo)). split; [now apply pos_mid|].
    destruct (F l) as (_ & F2 & _).
    destruct (rnd_pos (dy_sub (c l) mn)) as [D1 D2]; [rewrite val_sub; lra|]. destruct (rnd_pos (dy_sub mx mn)) as [Y1 Y2]; [rewrite val_sub; lra|].
    rewrite val_sub in D1, D2, Y1, Y2. fold (f32_sub (c l) mn) in D1, D2. fold (f32_sub mx mn) in Y1, Y2. fold W in Y1, Y2.
    destruct (frac_close (val (c l) - val mn) (val mx - val mn) (val (f32_sub (c l) mn)) W ltac:(lra) ltac:(lra) D1 D2 Y1 Y2 (proj2 (NR l))) as [_ K].
    assert (X: (val (c l) - val mn) / (val mx - val mn) == (val l - lo) / (hi - lo)) by (rewrite B, Vmn, Vmx; reflexivity).
    rewrite X in K. eapply Qle_trans; [apply (Qabs_tri _ (val (f32_sub (c l) mn) / W))|].
    apply (Qle_trans _ (8 * uu)); [|discriminate]. assert (U: 0 < uu) by reflexivity. lra.
Qed.

(** *** The segment map *)
Lemma cnt_cons f n m : cnt f (n :: m) = ((if f n then 1 else 0) + cnt f m)%nat.
Proof. unfold cnt. cbn [filter]. now destruct (f n). Qed.
Lemma cnt_none f m : (forall n, In n m -> f n = false) -> cnt f m = 0%nat.
Proof.
  induction m as [|n m IH]; intros H; [reflexivity|]. rewrite cnt_cons, (H n (or_introl eq_refl)), IH; [reflexivity|].
  intros k K. apply H. now right.
Qed.
Lemma cnt_app f l m : cnt f (l ++ m) = (cnt f l + cnt f m)%nat.
Proof. unfold cnt. now rewrite filter_app, app_length. Qed.

Lemma output_least es : es <> [] -> exists q, least_output es q.
Proof.
  destruct es as [|e es]; [congruence|]. intros _. destruct (fold_dmin es e) as (f & I & _ & L).
  exists (val (snd f)). split; [exists f; split; [exact I|reflexivity]|exact L].
Qed.
Lemma output_greatest es : es <> [] -> exists q, greatest_output es q.
Proof.
  destruct es as [|e es]; [congruence|]. intros _. destruct (fold_dmax es e) as (f & I & _ & L).
  exists (val (snd f)). split; [exists f; split; [exact I|reflexivity]|exact L].
Qed.

Lemma segments_nodes ax es lo hi : proper_axis ax -> ax_map ax = Some es -> es <> [] -> least_output es lo -> greatest_output es hi -> lo < hi ->
  exists g : dyadic -> dyadic, (forall l, normalize_design ax l = Ok (g l)) /\
    axis_segments ax = seg_new ((minus1, minus1) :: map (fun e => (user_val ax (fst e), g (snd e))) es).
Proof.
  intros P E NE LO HI H. destruct (design_spec ax es lo hi E NE LO HI H) as (g & G & _). exists g. split; [exact G|].
  unfold axis_segments. rewrite E.
  assert (M: forall l, rmapM (fun e => a <- normalize_user ax (fst e) ;; b <- normalize_design ax (snd e) ;; Ok (a, b)) l =
    Ok (map (fun e => (user_val ax (fst e), g (snd e))) l)).
  { induction l as [|e l IH]; [reflexivity|]. cbn [rmapM map]. rewrite (user_eq ax P), G. cbn [rbind]. rewrite IH. reflexivity. }
  rewrite M. reflexivity.
Qed.

(** A map with an entry below the default and rising outputs has no node (0,0). *)
Lemma segments_abort ax es e0 : proper_axis ax -> ax_map ax = Some es ->
  (forall e f, In e es -> In f es -> val (fst e) < val (fst f) -> val (snd e) < val (snd f)) ->
  In e0 es -> val (fst e0) < inject_Z (ax_default ax) -> (ax_min ax < ax_default ax)%Z ->
  (exists e1, In e1 es /\ ~ val (snd e1) == val (snd e0)) ->
  axis_segments ax = Panic.
Proof.
  intros P E R I0 B0 D (e1 & I1 & N1).
  assert (NE: es <> []) by (intros ->; destruct I0).
  destruct (output_least es NE) as (lo & LO). destruct (output_greatest es NE) as (hi & HI).
  assert (H: lo < hi).
  { pose proof (proj2 LO _ I0). pose proof (proj2 LO _ I1). pose proof (proj2 HI _ I0). pose proof (proj2 HI _ I1).
    destruct (Qlt_le_dec lo hi); [assumption|]. exfalso. apply N1. lra. }
  destruct (design_spec ax es lo hi E NE LO HI H) as (g & G & _ & _ & _ & _ & GP & _).
  destruct (segments_nodes ax es lo hi P E NE LO HI H) as (g' & G' & ->).
  assert (EG: forall l, g' l = g l) by (intros l; pose proof (G' l) as X; rewrite G in X; now apply Ok_inj in X).
  unfold seg_new. match goal with |- (if ?c then _ else _) = _ => destruct c eqn:V; [exfalso|reflexivity] end.
  unfold seg_valid in V. apply seg_check_spec in V. destruct V as [_ (V & _)]. rewrite cnt_cons in V.
  change (is0 (minus1, minus1)) with false in V. rewrite cnt_none in V; [discriminate|].
  intros n In0. apply in_map_iff in In0. destruct In0 as (e & <- & Ie). unfold is0. cbn [fst snd].
  destruct (dy_eqb (user_val ax (fst e)) dy0) eqn:U; [|reflexivity]. apply eqb_iff in U. rewrite val_dy0 in U. cbn [andb].
  destruct (dy_eqb (g' (snd e)) dy0) eqn:U2; [exfalso|reflexivity]. apply eqb_iff in U2. rewrite val_dy0, EG in U2.
  assert (X: inject_Z (ax_default ax) <= val (fst e)).
  { pose proof (pa_le ax P) as L. destruct (user_cases ax P (fst e)) as [(A & A1 & _)|[(A & A1 & _)|(A & A1)]]; [lra|lra|].
    destruct (clampd_cases ax P (fst e)) as [[C1 C2]|[[C1 C2]|(C1 & C2 & C3)]]; [|lra|lra].
    rewrite Zlt_Qlt in D. lra. }
  assert (Y: val (snd e0) < val (snd e)) by (apply R; auto; lra).
  pose proof (proj2 LO _ I0) as Z. pose proof (GP (snd e) ltac:(lra)). lra.
Qed.

Lemma sorted_map {A B} (R : A -> A -> Prop) (Q : B -> B -> Prop) (f : A -> B) l :
  StronglySorted R l -> (forall x y, In x l -> In y l -> R x y -> Q (f x) (f y)) -> StronglySorted Q (map f l).
Proof.
  induction 1 as [|x l S1 IH F]; intros H; [constructor|]. cbn [map]. constructor.
  - apply IH. intros; apply H; auto; now right.
  - apply Forall_map. rewrite Forall_forall in *. intros y Iy. apply H; auto; [now left|now right].
Qed.
Lemma sorted_snoc {A} (R : A -> A -> Prop) l x : StronglySorted R (l ++ [x]) -> Forall (fun y => R y x) l.
Proof.
  induction l as [|a l IH]; intros H; [constructor|]. cbn [app] in H. inversion H as [|? ? H1 H2]; subst. constructor; [|now apply IH].
  rewrite Forall_forall in H2. apply H2. apply in_or_app. right. now left.
Qed.

Lemma segments_ok ax es : proper_axis ax -> ax_min ax = ax_default ax -> (ax_default ax < ax_max ax)%Z -> ax_map ax = Some es ->
  StronglySorted (fun e f => val (fst e) < val (fst f) /\ val (snd e) < val (snd f)) es ->
  Forall (fun e => inject_Z (ax_min ax) <= val (fst e) <= inject_Z (ax_max ax) /\ ordinary_output (snd e)) es ->
  (exists e, In e es /\ val (fst e) == inject_Z (ax_min ax)) -> (exists e, In e es /\ val (fst e) == inject_Z (ax_max ax)) ->
  exists m, axis_segments ax = Ok ((minus1, minus1) :: m) /\
    Forall2 (fun e n => normalize_user ax (fst e) = Ok (fst n) /\ normalize_design ax (snd e) = Ok (snd n)) es m.
Proof.
  intros P EM DM E SS O (a & Ia & Va) (z & Iz & Vz).
  assert (NE: es <> []) by (intros ->; destruct Ia).
  assert (EQ: inject_Z (ax_min ax) == inject_Z (ax_default ax)) by (rewrite EM; reflexivity).
  assert (MM: inject_Z (ax_min ax) < inject_Z (ax_max ax)) by (rewrite <- Zlt_Qlt; lia).
  rewrite Forall_forall in O.
  (* the first and the last entry *)
  assert (H1: exists r, es = a :: r).
  { destruct es as [|x r]; [congruence|]. destruct Ia as [->|Ia]; [now exists r|]. exfalso.
    inversion SS as [|? ? _ F]; subst. rewrite Forall_forall in F. destruct (F a Ia) as [F1 _]. destruct (O x (or_introl eq_refl)) as [O1 _]. lra. }
  assert (H2: exists l, es = l ++ [z]).
  { destruct (exists_last NE) as (l & x & EL). rewrite EL in *. apply in_app_or in Iz. destruct Iz as [Iz|[->|[]]]; [exfalso|now exists l].
    pose proof (sorted_snoc _ _ _ SS) as F. rewrite Forall_forall in F. destruct (F z Iz) as [F1 _].
    destruct (O x) as [O1 _]; [apply in_or_app; right; now left|]. lra. }
  destruct H1 as (r & H1). destruct H2 as (l & H2).
  assert (LO: least_output es (val (snd a))).
  { split; [exists a; split; [exact Ia|reflexivity]|]. intros e Ie. rewrite H1 in Ie, SS. destruct Ie as [->|Ie]; [apply Qle_refl|].
    inversion SS as [|? ? _ F]; subst. rewrite Forall_forall in F. destruct (F e Ie). lra. }
  assert (HI: greatest_output es (val (snd z))).
  { split; [exists z; split; [exact Iz|reflexivity]|]. intros e Ie. rewrite H2 in Ie, SS. apply in_app_or in Ie. destruct Ie as [Ie|[->|[]]]; [|apply Qle_refl].
    pose proof (sorted_snoc _ _ _ SS) as F. rewrite Forall_forall in F. destruct (F e Ie). lra. }
  assert (LH: val (snd a) < val (snd z)).
  { rewrite H1 in Iz. destruct Iz as [->|Iz]; [lra|]. rewrite H1 in SS. inversion SS as [|? ? _ F]; subst. rewrite Forall_forall in F. now destruct (F z Iz). }
  destruct (design_spec ax es _ _ E NE LO HI LH) as (g & G & G01 & GM & GL & GH & GP & GC & _).
  destruct (segments_nodes ax es _ _ P E NE LO HI LH) as (g' & G' & ->).
  assert (EG: forall l, g' l = g l) by (intros l'; pose proof (G' l') as X; rewrite G in X; now apply Ok_inj in X).
  set (m := map (fun e => (user_val ax (fst e), g' (snd e))) es).
  exists m. split.
  2:{ unfold m. clear - G' P. induction es as [|e es IH]; cbn [map]; constructor; [|exact IH]. cbn [fst snd]. split; [apply (user_eq ax P)|apply G']. }
  unfold seg_new. replace (seg_valid ((minus1, minus1) :: m)) with true; [reflexivity|]. symmetry. unfold seg_valid. apply seg_check_spec.
  assert (UR: forall e, In e es -> 0 <= val (user_val ax (fst e)) <= 1).
  { intros e Ie. destruct (O e Ie) as [[O1 _] _]. pose proof (pa_le ax P) as L.
    destruct (user_cases ax P (fst e)) as [(A & A1 & _)|[(A & A1 & _)|(A & A1)]]; [|lra|lra].
    destruct (clampd_cases ax P (fst e)) as [[C1 C2]|[[C1 C2]|(C1 & C2 & C3)]]; lra. }
  split; [split|].
  - constructor.
    + unfold m. eapply sorted_map; [exact SS|]. cbn beta. cbn [snd]. intros x y _ _ [_ L]. rewrite !EG. apply GM. lra.
    + unfold m. apply Forall_map. apply Forall_forall. intros e _. cbn [snd]. rewrite EG. change (val minus1) with (-(1)). pose proof (G01 (snd e)). lra.
  - change (val (Dy (-2) 0)) with (-(2)). constructor; [cbn [snd]; change (val minus1) with (-(1)); lra|].
    unfold m. apply Forall_map. apply Forall_forall. intros e _. cbn [snd]. rewrite EG. pose proof (G01 (snd e)). lra.
  - cbn [Nat.add]. rewrite !cnt_cons. change (is0 (minus1, minus1)) with false. change (ism1 (minus1, minus1)) with true. change (is1 (minus1, minus1)) with false.
    cbv iota. split; [|split].
    + unfold m. rewrite H1. cbn [map]. rewrite cnt_cons.
      assert (X: is0 (user_val ax (fst a), g' (snd a)) = true).
      { unfold is0. cbn [fst snd]. apply andb_true_iff. rewrite !eqb_iff, val_dy0, EG. split; [|apply GL; apply Qle_refl].
        pose proof (pa_le ax P) as L.
        destruct (user_cases ax P (fst a)) as [(A & A1 & _)|[(A & A1 & _)|(A & A1)]]; [| |exact A1];
        destruct (clampd_cases ax P (fst a)) as [[C1 C2]|[[C1 C2]|(C1 & C2 & C3)]]; lra. }
      rewrite X, cnt_none; [reflexivity|]. intros n In0. apply in_map_iff in In0. destruct In0 as (e & <- & Ie). unfold is0. cbn [fst snd].
      rewrite H1 in SS. inversion SS as [|? ? _ F]; subst es. rewrite Forall_forall in F. destruct (F e Ie) as [_ F2].
      pose proof (GP (snd e) F2). destruct (dy_eqb (g' (snd e)) dy0) eqn:Q; [|apply andb_false_r]. apply eqb_iff in Q. rewrite EG, val_dy0 in Q. lra.
    + rewrite cnt_none; [reflexivity|]. unfold m. intros n In0. apply in_map_iff in In0. destruct In0 as (e & <- & Ie). unfold ism1. cbn [fst snd].
      rewrite (near_far _ minus1); [reflexivity|]. change (val minus1) with (-(1)). pose proof (UR e Ie). rewrite Qabs_pos by lra.
      change (Qpower 2 (-23)) with (1 # 8388608). lra.
    + unfold m. rewrite H2, map_app, cnt_app. cbn [map]. rewrite cnt_cons.
      assert (X: is1 (user_val ax (fst z), g' (snd z)) = true).
      { unfold is1. cbn [fst snd]. apply andb_true_iff. rewrite EG. split; apply near_self; rewrite val_dy1; [|apply GH; apply Qle_refl].
        pose proof (pa_le ax P) as L.
        destruct (user_cases ax P (fst z)) as [(A & A1 & _)|[(A & A1 & A2 & _)|(A & A1)]]; [|apply A2; lra|];
        destruct (clampd_cases ax P (fst z)) as [[C1 C2]|[[C1 C2]|(C1 & C2 & C3)]]; rewrite Zlt_Qlt in DM; lra. }
      rewrite X. rewrite cnt_none; [reflexivity|]. intros n In0. apply in_map_iff in In0. destruct In0 as (e & <- & Ie). unfold is1. cbn [fst snd].
      rewrite (near_far (g' (snd e)) dy1); [apply andb_false_r|]. rewrite EG, val_dy1.
      assert (Ie': In e es) by (rewrite H2; apply in_or_app; now left).
      rewrite H2 in SS. pose proof (sorted_snoc _ _ _ SS) as F. rewrite Forall_forall in F. destruct (F e Ie) as [_ F2].
      destruct (O e Ie') as [_ Oe]. destruct (O a Ia) as [_ Oa]. destruct (O z Iz) as [_ Oz].
      assert (B: val (g (snd e)) <= 1 - (1 # 8388608)).
      { pose proof (proj2 LO e Ie') as L1. apply GC.
        - exists 8388607%Z, (-23)%Z. split; [reflexivity|reflexivity].
        - now apply ord_sub.
        - now apply ord_sub.
        - exact L1.
        - lra.
        - apply Qle_shift_div_r; [lra|]. destruct Oe as (ne & Be & Ee), Oa as (na & Ba & Ea), Oz as (nz & Bz & Ez). rewrite Ee, Ea, Ez in *.
          unfold Qdiv in *. change (/ 16) with (1 # 16) in *.
          assert (Z1: (ne < nz)%Z) by (rewrite Zlt_Qlt; lra). assert (Z2: (nz - na <= 8388608)%Z) by lia. assert (Z3: (ne + 1 <= nz)%Z) by lia.
          rewrite Zle_Qle in Z2, Z3. unfold Zminus in Z2. rewrite inject_Z_plus, inject_Z_opp in Z2. rewrite inject_Z_plus in Z3.
          change (inject_Z 8388608) with (8388608 # 1) in Z2. change (inject_Z 1) with 1 in Z3. lra. }
      pose proof (G01 (snd e)). rewrite Qabs_neg by lra. change (Qpower 2 (-23)) with (1 # 8388608). lra.
Qed.

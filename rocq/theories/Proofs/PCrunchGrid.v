(** Exact arithmetic on a grid, and what the dynamic program means there. *)
From Coq Require Import QArith Qabs Lqa.
From Verif.Model Require Import MBase MFixed MFloat MFloat32 MGlyph MGlyf MPath MCrunch.
From Verif.Spec Require Import SBase SFloat SGlyph SGlyf SPath SCrunch.
From Verif.Proofs Require Import PBase PFloat PFloat32 PAffine PContour PPath PCrunch.
Local Open Scope Z_scope.

(** [v] is [z] eighths *)
Definition e8 (z : Z) (v : dyadic) : Prop := (val v == z # 8)%Q.
Lemma rep8 z : Z.abs z < 2 ^ 53 -> representable 53 (z # 8).
Proof. intros H. exists z, (-3). split; [exact H|]. rewrite val_Dy. change (Qpower 2 (-3)) with (1 # 8)%Q. unfold Qeq, Qmult, inject_Z; cbn. lia. Qed.
Lemma e8_rnd z v : Z.abs z < 2 ^ 53 -> e8 z v -> e8 z (rnd53 v).
Proof.
  intros H E. unfold e8, rnd53 in *. rewrite rndp_exact; [exact E|lia|]. eapply rep_ext; [symmetry; exact E|]. now apply rep8.
Qed.
Lemma q8_plus i j : ((i # 8) + (j # 8) == (i + j) # 8)%Q.
Proof. unfold Qeq, Qplus; cbn. lia. Qed.
Lemma q8_opp i : (- (i # 8) == (- i) # 8)%Q.
Proof. unfold Qeq, Qopp; cbn. lia. Qed.
Lemma e8_sub i j x y : Z.abs (i - j) < 2 ^ 53 -> e8 i x -> e8 j y -> e8 (i - j) (f64_sub x y).
Proof.
  intros H X Y. apply e8_rnd; [exact H|]. unfold e8 in *. rewrite val_sub, X, Y. unfold Qminus. rewrite q8_opp, q8_plus. reflexivity.
Qed.
Lemma e8_add i j x y : Z.abs (i + j) < 2 ^ 53 -> e8 i x -> e8 j y -> e8 (i + j) (f64_add x y).
Proof. intros H X Y. apply e8_rnd; [exact H|]. unfold e8 in *. now rewrite val_add, X, Y, q8_plus. Qed.
Lemma e8_half i x : Z.abs i < 2 ^ 53 -> e8 (2 * i) x -> e8 i (f64_mul f_half x).
Proof.
  intros H X. apply e8_rnd; [exact H|]. unfold e8 in *. rewrite val_mul, X. unfold f_half. rewrite val_Dy.
  change (Qpower 2 (-1)) with (1 # 2)%Q. unfold Qeq, Qmult, inject_Z; cbn [Qnum Qden]. lia.
Qed.
Lemma e8_lerp i j x y : Z.abs i < 2 ^ 50 -> Z.abs j < 2 ^ 50 -> e8 (2 * i) x -> e8 (2 * j) y -> e8 (i + j) (f64_lerp x y f_half).
Proof.
  intros Hi Hj X Y. unfold f64_lerp. replace (i + j) with (2 * i + (j - i)) by lia. apply e8_add; [lia|exact X|].
  apply e8_half; [lia|]. replace (2 * (j - i)) with (2 * j - 2 * i) by lia. apply e8_sub; [lia|exact Y|exact X].
Qed.
Lemma e8_inj i j v : e8 i v -> e8 j v -> i = j.
Proof. unfold e8. intros A B. rewrite A in B. unfold Qeq in B; cbn in B. lia. Qed.
Lemma e8_close i j x y : Z.abs i < 2 ^ 52 -> Z.abs j < 2 ^ 52 -> e8 i x -> e8 j y -> f64_is_close x y = true <-> i = j.
Proof.
  intros Hi Hj X Y. unfold f64_is_close. rewrite ltb_iff, val_abs.
  pose proof (e8_sub i j x y ltac:(lia) X Y) as D. unfold e8 in D. rewrite D. unfold f_1e8. rewrite val_Dy. 
  change (Qpower 2 (-78)) with (1 # (2 ^ 78))%Q. rewrite Qabs_Qlt_condition. split.
  - intros [A B]. unfold Qlt, Qopp, Qmult, inject_Z in A, B; cbn in A, B. lia.
  - intros ->. rewrite Z.sub_diag. split; unfold Qlt; cbn; lia.
Qed.
Lemma e8_0 : e8 0 f_0. Proof. reflexivity. Qed.
Lemma e8_int z : e8 (8 * z) (dy_of_Z z).
Proof. unfold e8. rewrite val_int. unfold Qeq, inject_Z; cbn [Qnum Qden]. lia. Qed.
Lemma e8_floor z v : e8 z v -> dy_floor v = z / 8.
Proof.
  intros H. apply floor_unique; unfold e8 in H; rewrite H; unfold Qle, Qlt, inject_Z; cbn [Qnum Qden]; lia.
Qed.
Lemma e8_is_int z v : Z.abs z < 2 ^ 50 -> e8 z v -> is_int v = true <-> z mod 8 = 0.
Proof.
  intros Hz H. unfold is_int. rewrite (e8_floor z v H).
  assert (A: e8 (z - 8 * (z / 8)) (f64_sub v (dy_of_Z (z / 8)))) by (apply e8_sub; [lia|exact H|apply e8_int]).
  rewrite (e8_close (z - 8 * (z / 8)) 0); [lia|lia|lia|exact A|exact e8_0].
Qed.
Lemma whole8 z v : e8 z v -> (exists x, is_whole v x) <-> z mod 8 = 0.
Proof.
  intros H. unfold e8, is_whole in *. split.
  - intros [x E]. rewrite E in H. unfold Qeq, inject_Z in H; cbn [Qnum Qden] in H. lia.
  - intros E. exists (z / 8). rewrite H. unfold Qeq, inject_Z; cbn [Qnum Qden]. lia.
Qed.
Lemma mid8 i j k x y m : e8 i x -> e8 j y -> e8 k m -> mid_val x y m <-> 2 * k = i + j.
Proof. unfold e8, mid_val. intros -> -> ->. unfold Qeq, Qplus, Qmult; cbn [Qnum Qden]. lia. Qed.

(** points on quarter units *)
Definition q4 (p : kpoint) : Prop := exists x y, e8 (2 * x) (fst p) /\ e8 (2 * y) (snd p) /\ Z.abs x < 2 ^ 46 /\ Z.abs y < 2 ^ 46.
Lemma grid_q4 p : on_grid p -> q4 p.
Proof.
  intros [(x & X & Bx) (y & Y & By)]. exists (2 * x), (2 * y). unfold e8. rewrite X, Y. repeat split; try lia; unfold Qeq; cbn [Qnum Qden]; lia.
Qed.
Lemma kp_int_whole p : q4 p -> kp_int p = true <-> whole p.
Proof.
  intros (x & y & X & Y & Bx & By). unfold kp_int, whole. rewrite andb_true_iff, (e8_is_int (2 * x)), (e8_is_int (2 * y)) by (auto; lia).
  rewrite <- (whole8 _ _ X), <- (whole8 _ _ Y). split.
  - intros [[a A] [b B]]. eauto.
  - intros (a & b & A & B). eauto.
Qed.
Lemma close_mid a b m : q4 a -> q4 b -> q4 m -> kp_close m (kp_lerp a b f_half) = true <-> halfway a b m.
Proof.
  intros (ax & ay & AX & AY & Bax & Bay) (bx & by_ & BX & BY & Bbx & Bby) (mx & my & MX & MY & Bmx & Bmy).
  unfold kp_close, kp_lerp, halfway; cbn [fst snd]. rewrite andb_true_iff.
  rewrite (e8_close (2 * mx) (ax + bx)), (e8_close (2 * my) (ay + by_)); try lia; try assumption; try (apply e8_lerp; [lia|lia|assumption|assumption]).
  rewrite (mid8 _ _ _ _ _ _ AX BX MX), (mid8 _ _ _ _ _ _ AY BY MY). lia.
Qed.
Lemma close_mid' a b m : q4 a -> q4 b -> q4 m -> kp_close (kp_lerp a b f_half) m = true <-> halfway a b m.
Proof.
  intros (ax & ay & AX & AY & Bax & Bay) (bx & by_ & BX & BY & Bbx & Bby) (mx & my & MX & MY & Bmx & Bmy).
  unfold kp_close, kp_lerp, halfway; cbn [fst snd]. rewrite andb_true_iff.
  rewrite (e8_close (ax + bx) (2 * mx)), (e8_close (ay + by_) (2 * my)); try lia; try assumption; try (apply e8_lerp; [lia|lia|assumption|assumption]).
  rewrite (mid8 _ _ _ _ _ _ AX BX MX), (mid8 _ _ _ _ _ _ AY BY MY). lia.
Qed.
Lemma flat_line q : q4 (q_p0 q) -> q4 (q_p1 q) -> q4 (q_p2 q) -> is_line q = true <-> flat q.
Proof. intros A B C. unfold is_line, flat. now apply close_mid. Qed.
Lemma straight_flat a b : on_grid (bk_xy a) -> on_grid (bk_xy b) -> flat (straight a b).
Proof.
  intros [(ax & AX & Bax) (ay & AY & Bay)] [(bx & BX & Bbx) (by_ & BY & Bby)]. unfold flat, straight; cbn [q_p0 q_p1 q_p2].
  unfold halfway, kp_lerp; cbn [fst snd].
  assert (forall v z, (val v == z # 2)%Q -> e8 (2 * (2 * z)) v) as E. { intros v z H. unfold e8. rewrite H. unfold Qeq; cbn [Qnum Qden]. lia. }
  pose proof (E _ _ AX). pose proof (E _ _ AY). pose proof (E _ _ BX). pose proof (E _ _ BY).
  split; (eapply mid8; [eassumption|eassumption|apply e8_lerp; [| |eassumption|eassumption]; lia|lia]).
Qed.
Lemma straight_line a b : is_line (straight a b) = true.
Proof.
  assert (S: forall x, f64_is_close x x = true).
  { intros x. unfold f64_is_close. rewrite ltb_iff, val_abs. unfold f64_sub, rnd53.
    rewrite (rndp_eq 53 (dy_sub x x) f_0) by (try lia; rewrite val_sub; unfold f_0; rewrite val_Dy; cbn; ring).
    unfold f_0, f_1e8, val. cbn. reflexivity. }
  unfold is_line, kp_close. cbn [straight q_p0 q_p1 q_p2]. now rewrite !S.
Qed.

Section G.
Variable measure : dyadic -> dyadic -> quad -> dyadic.
Variable penalty : dyadic.
Variable breaks : list brk.
Hypothesis grid : Forall (fun b => on_grid (bk_xy b)) breaks.
Notation bk := (bk breaks).

Lemma bk_nth i : (i < length breaks)%nat -> nth_error breaks i = Some (bk i).
Proof. intros H. unfold MCrunch.bk. now apply List.nth_error_nth'. Qed.
Lemma bk_grid i : (i < length breaks)%nat -> on_grid (bk_xy (bk i)).
Proof. intros H. eapply Forall_forall in grid; [exact grid|]. eapply nth_error_In, bk_nth, H. Qed.
Lemma curved_q a b q : curved a b = Some q -> q_p0 q = bk_xy a /\ q_p2 q = bk_xy b /\ whole (q_p1 q).
Proof.
  unfold curved. destruct intersect as [m|]; [|discriminate]. intros E. injection E as <-. cbn.
  split; [reflexivity|]. split; [reflexivity|]. unfold whole, kp_round; cbn. eexists. eexists. split; apply whole_Z.
Qed.
Lemma tame_q4 q : tame q -> whole (q_p1 q) -> q4 (q_p1 q).
Proof.
  intros [A B] (x & y & X & Y). unfold is_whole in X, Y. rewrite X in A. rewrite Y in B.
  apply Qabs_Qle_condition in A, B. destruct A as [A1 A2], B as [B1 B2]. rewrite <- inject_Z_opp in A1, B1. rewrite <- !Zle_Qle in *.
  exists (4 * x), (4 * y). unfold e8. rewrite X, Y. repeat split; try lia; unfold Qeq, inject_Z; cbn [Qnum Qden]; lia.
Qed.
Lemma cand_points i j q : (i < j < length breaks)%nat -> cand breaks i j q -> tame q ->
  q_p0 q = bk_xy (bk i) /\ q_p2 q = bk_xy (bk j) /\ q4 (q_p0 q) /\ q4 (q_p1 q) /\ q4 (q_p2 q) /\ piece (bk i) (bk j) q.
Proof.
  intros Hij Hc Ht. pose proof (bk_grid i ltac:(lia)) as Gi. pose proof (bk_grid j ltac:(lia)) as Gj.
  destruct Hc as [[Hk ->]|Hc].
  - pose proof (straight_flat _ _ Gi Gj) as Hf. split; [reflexivity|]. split; [reflexivity|].
    split; [now apply grid_q4|]. split; [|split; [now apply grid_q4|]].
    + destruct Gi as [(ax & AX & Bax) (ay & AY & Bay)], Gj as [(bx & BX & Bbx) (by_ & BY & Bby)].
      assert (forall v z, (val v == z # 2)%Q -> e8 (2 * (2 * z)) v) as E. { intros v z H. unfold e8. rewrite H. unfold Qeq; cbn [Qnum Qden]. lia. }
      exists (ax + bx), (ay + by_). cbn [straight q_p1 kp_lerp fst snd].
      replace (2 * (ax + bx)) with (2 * ax + 2 * bx) by lia. replace (2 * (ay + by_)) with (2 * ay + 2 * by_) by lia.
      repeat split; try lia; apply e8_lerp; try lia; now apply E.
    + apply piece_line; [reflexivity|reflexivity| |exact Hf]. apply kp_int_whole; [now apply grid_q4|exact Hk].
  - destruct (curved_q _ _ _ Hc) as (E0 & E2 & W). split; [exact E0|]. split; [exact E2|].
    split; [rewrite E0; now apply grid_q4|]. split; [now apply tame_q4|]. split; [rewrite E2; now apply grid_q4|].
    now apply piece_curve.
Qed.

Lemma cost_from_app l : forall acc prev x, cost_from measure penalty acc prev (l ++ [x]) =
  cost_from measure penalty (cost_from measure penalty acc prev l) (match rev l with (_, p) :: _ => Some p | [] => prev end) [x].
Proof.
  induction l as [|[[s0 s1] q] l IH]; intros acc prev x; [reflexivity|]. cbn [app cost_from]. rewrite IH. f_equal.
  cbn [rev]. destruct (rev l) as [|[s p] r]; reflexivity.
Qed.

Lemma mroute_route i c : mroute measure penalty breaks i c -> Forall tame (map snd c) ->
  exists l, route breaks i l /\ map snd l = rev (map snd c) /\ cost measure penalty l = chain_score c /\
    (forall s q, c = (s, q) :: tl c -> exists l0 x, l = l0 ++ [x] /\ snd x = q /\ q4 (q_p0 q) /\ q4 (q_p1 q) /\ q4 (q_p2 q)).
Proof.
  induction 1 as [i q Hi Hc Ho|i j c q Hne Hm IH Hij Hc Ho]; intros Ht.
  - inversion Ht as [|? ? T _]; subst. cbn [snd] in T. destruct (cand_points 0 i q Hi Hc T) as (E0 & E2 & Q0 & Q1 & Q2 & P).
    exists [stretch_of (bk 0) (bk i) q]. split; [|split; [reflexivity|split]].
    + apply route_one; [lia|apply bk_nth; lia|apply bk_nth; lia| |exact P].
      destruct Ho as [Ho|[_ []]]. rewrite E0 in Ho. apply kp_int_whole; [rewrite <- E0; exact Q0|exact Ho].
    + unfold cost, stretch_of. cbn [cost_from chain_score]. unfold combined, pmul, err. cbn [chain_score]. reflexivity.
    + intros s q' E. injection E as _ <-. exists [], (stretch_of (bk 0) (bk i) q). auto.
  - inversion Ht as [|? ? T Ht']; subst. cbn [snd] in T. destruct (cand_points i j q Hij Hc T) as (E0 & E2 & Q0 & Q1 & Q2 & P).
    destruct (IH Ht') as (l & R & El & Ec & F). destruct c as [|[s p] c]; [congruence|].
    destruct (F s p eq_refl) as (l0 & x & -> & Ex & P0 & P1 & P2).
    exists (l0 ++ [x; stretch_of (bk i) (bk j) q]). split; [|split; [|split]].
    + eapply route_more; [exact R|lia|apply bk_nth; lia|apply bk_nth; lia|exact P|]. rewrite Ex.
      destruct Ho as [Ho|[Hl Hs]]; [left; now apply kp_int_whole|right].
      unfold smooth in Hs. apply andb_prop in Hs. destruct Hs as [Hp Hs]. apply negb_true_iff in Hp.
      split; [intros X; apply flat_line in X; try assumption; congruence|].
      split; [intros X; apply flat_line in X; try assumption; congruence|]. now apply close_mid'.
    + rewrite map_app in El |- *. cbn [map rev snd] in El |- *. rewrite <- El, <- app_assoc. reflexivity.
    + replace (l0 ++ [x; stretch_of (bk i) (bk j) q]) with ((l0 ++ [x]) ++ [stretch_of (bk i) (bk j) q]) by now rewrite <- app_assoc.
      unfold cost in *. rewrite cost_from_app, Ec, rev_app_distr. destruct x as [xs xp]. cbn [rev app]. cbn [snd] in Ex. subst xp. unfold stretch_of. cbn [cost_from]. unfold combined, pmul, err. cbn [chain_score]. reflexivity.
    + intros s' q' E. injection E as _ <-. exists (l0 ++ [x]), (stretch_of (bk i) (bk j) q). rewrite <- app_assoc. auto.
Qed.

(** polygons *)
Lemma poly_cost_head s : good measure penalty breaks s ->
  (forall i j, (1 <= i <= n breaks)%nat -> (j < i)%nat -> settled measure penalty breaks s i j) ->
  forall i ix m, climbs i ix m -> (m <= n breaks)%nat -> (n breaks < length breaks)%nat ->
  (forall k, In k ix -> (k < m)%nat -> whole (bk_xy (bk k))) ->
  i = 0%nat \/ nth i s [] <> [] -> (i < m)%nat ->
  forall acc prev, (val (chain_score (nth i s [])) <= val acc)%Q ->
  (nth m s [] <> [] /\ val (chain_score (nth m s [])) <= val (cost_from measure penalty acc prev (polygon breaks ix)))%Q.
Proof.
  intros Hg Hs. induction 1 as [i|i j r m Hij Hc IH]; intros Hm Hn Hw Hi Him acc prev Ha; [lia|].
  assert (Er: exists r', r = j :: r') by (inversion Hc; eauto). destruct Er as [r' ->].
  cbn [polygon]. fold (bk i) (bk j). unfold stretch_of. cbn [cost_from]. rewrite straight_line. cbn [orb].
  assert (J: (j <= m)%nat) by (clear - Hc; induction Hc; lia).
  assert (W: kp_int (bk_xy (bk i)) = true).
  { apply kp_int_whole; [apply grid_q4, bk_grid; lia|]. apply Hw; [now left|exact Him]. }
  destruct (Hs j i ltac:(lia) ltac:(lia) W Hi) as [Nj Lj].
  assert (L: (val (chain_score (nth j s [])) <=
     val (f64_add (f64_add acc (f64_mul penalty (Dy 1 0))) (measure (bk_s (bk i)) (bk_s (bk j)) (straight (bk i) (bk j)))))%Q).
  { eapply Qle_trans; [exact Lj|]. unfold line_cost, combined, pmul. rewrite straight_line. cbn [orb].
    apply f64_add_mono; [|apply Qle_refl]. apply f64_add_mono; [exact Ha|apply Qle_refl]. }
  destruct (Nat.eq_dec j m) as [->|Hjm].
  - assert (r' = []). { inversion Hc as [|? ? ? ? X Y]; subst; [reflexivity|]. exfalso. clear - X Y. assert (j <= m)%nat by (induction Y; lia). lia. }
    subst r'. cbn [polygon cost_from]. auto.
  - apply IH; auto; try lia. intros k Hk. apply Hw. now right.
Qed.
End G.

Section C.
Variable measure : dyadic -> dyadic -> quad -> dyadic.
Variable penalty : dyadic.
Variable breaks : list brk.
Lemma chosen b0 b1 : (2 <= length breaks)%nat -> Forall (fun b => on_grid (bk_xy b)) breaks ->
  nth_error breaks 0 = Some b0 -> nth_error breaks (length breaks - 1) = Some b1 ->
  (~ whole (bk_xy b0) /\ optimize measure penalty breaks = Ok None) \/
  (whole (bk_xy b0) /\ exists qs, optimize measure penalty breaks = Ok (Some qs) /\
    (Forall tame qs -> exists l, qs = map snd l /\ route breaks (length breaks - 1) l /\
       (forall q, q = straight b0 b1 \/ curved b0 b1 = Some q -> val (cost measure penalty l) <= val (cost measure penalty [stretch_of b0 b1 q]))%Q /\
       ((val (f64_mul (Dy 3 0) penalty) < val (cost measure penalty l))%Q ->
        (val (f64_mul (Dy 4 0) penalty) < val (cost measure penalty l))%Q ->
        forall ix, climbs 0 ix (length breaks - 1) ->
          (forall k b, In k ix -> (k < length breaks - 1)%nat -> nth_error breaks k = Some b -> whole (bk_xy b)) ->
          (val (cost measure penalty l) <= val (cost measure penalty (polygon breaks ix)))%Q))).
Proof.
  intros H2 Hg N0 N1. assert (E0: bk breaks 0 = b0) by (unfold bk; now apply nth_error_nth).
  assert (E1: bk breaks (n breaks) = b1) by (unfold bk, n; now apply nth_error_nth).
  assert (G0: q4 (bk_xy b0)). { apply grid_q4. eapply Forall_forall in Hg; [exact Hg|]. eapply nth_error_In, N0. }
  destruct (optimize_cases measure penalty breaks H2) as [[K E]|(K & s & Gs & Ne & E & Dir & Set_)]; rewrite E0 in K.
  - left. split; [|exact E]. intros X. apply kp_int_whole in X; [congruence|exact G0].
  - right. split; [now apply kp_int_whole|]. eexists. split; [exact E|]. intros T.
    assert (T': Forall tame (map snd (nth (n breaks) s []))). { apply Forall_forall. intros q Hq. eapply Forall_forall in T; [exact T|]. now apply -> in_rev. }
    destruct Gs as (G1 & G2 & G3).
    destruct (mroute_route measure penalty breaks Hg _ _ (G3 _ Ne) T') as (l & R & El & Ec & _).
    exists l. split; [now symmetry|]. split; [exact R|]. rewrite Ec. split.
    + intros q Hq. rewrite E0, E1 in Dir. eapply Qle_trans; [apply (Dir q Hq)|].
      unfold cost, stretch_of. cbn [cost_from]. unfold combined, pmul, err. rewrite E0, E1. cbn [chain_score]. apply Qle_refl.
    + intros P3 P4 ix Hc Hw. unfold cost.
      refine (proj2 (poly_cost_head measure penalty breaks Hg s (conj G1 (conj G2 G3)) (Set_ P3 P4) 0 ix (n breaks) Hc _ _ _ (or_introl eq_refl) _ f_0 None _)).
      * unfold n; lia.
      * unfold n; lia.
      * intros k Hk Hlt. apply (Hw k); [exact Hk|exact Hlt|]. apply bk_nth; unfold n in *; lia.
      * unfold n; lia.
      * rewrite G2. cbn [chain_score]. apply Qle_refl.
Qed.
End C.

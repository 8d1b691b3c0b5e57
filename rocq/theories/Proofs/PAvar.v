(** Segment maps. *)
From Coq Require Import ZArith List Lia Bool QArith Qabs Qpower Lqa Sorted.
Import ListNotations.
From Verif.Model Require Import MBase MFixed MFloat MFloat32 MVarModel MAvar.
From Verif.Spec Require Import SBase SFloat SGlyph SVarModel SAvar.
From Verif.Proofs Require Import PBase PFixed PFloat PFloat32 PScalar PRound PCodec PGlyphFmt.
Open Scope Q_scope.
Ltac Zify.zify_post_hook ::= idtac.

(** ** Numbers of a font *)
Lemma f2_rep d : f2dot14 d -> representable 24 (val d).
Proof.
  intros (p & B & E). exists p, (-14)%Z. split; [change (2 ^ 24)%Z with 16777216%Z; lia|].
  rewrite E, val_Dy. change (Qpower 2 (-14)) with (1 # 16384). field.
Qed.
Lemma f2_sub_rep c d : f2dot14 c -> f2dot14 d -> representable 24 (val c - val d).
Proof.
  intros (p & B & E) (q & C & F). exists (p - q)%Z, (-14)%Z. split; [change (2 ^ 24)%Z with 16777216%Z; lia|].
  rewrite E, F, val_Dy. unfold Zminus. rewrite inject_Z_plus, inject_Z_opp. change (Qpower 2 (-14)) with (1 # 16384). field.
Qed.
Lemma f2_sub_exact c d : f2dot14 c -> f2dot14 d -> val (f32_sub c d) == val c - val d.
Proof.
  intros C D. unfold f32_sub. rewrite rnd24_rndp, (rndp_exact 24); [apply val_sub|reflexivity|].
  apply (rep_ext _ (val c - val d)); [now rewrite val_sub|now apply f2_sub_rep].
Qed.
Lemma f2_apart c d : f2dot14 c -> f2dot14 d -> val c < val d -> val c + (1 # 16384) <= val d.
Proof.
  intros (p & B & E) (q & C & F) L. rewrite E, F in *.
  assert (p < q)%Z. { rewrite Zlt_Qlt. unfold Qdiv in L. change (/ 16384) with (1 # 16384) in L. lra. }
  assert (p + 1 <= q)%Z by lia. rewrite Zle_Qle, inject_Z_plus in H0. change (inject_Z 1) with 1 in H0.
  unfold Qdiv. change (/ 16384) with (1 # 16384). lra.
Qed.

(** ** One segment *)
Record segment (a va b vb : dyadic) : Prop := {
  sg_a : f2dot14 a; sg_va : f2dot14 va; sg_b : f2dot14 b; sg_vb : f2dot14 vb;
  sg_from : val a < val b; sg_len : val b - val a <= 1; sg_to : val va <= val vb }.

Section Segment.
Variables (a va b vb : dyadic).
Hypothesis S0 : segment a va b vb.

Let x := val vb - val va.
Let y := val b - val a.
Lemma seg_x : 0 <= x. Proof. unfold x. pose proof (sg_to _ _ _ _ S0). lra. Qed.
Lemma seg_y : 0 < y. Proof. unfold y. pose proof (sg_from _ _ _ _ S0). lra. Qed.
Lemma seg_ex : val (f32_sub vb va) == x. Proof. apply f2_sub_exact; apply S0. Qed.
Lemma seg_ey : val (f32_sub b a) == y. Proof. apply f2_sub_exact; apply S0. Qed.
Lemma seg_my : mant (f32_sub b a) <> 0%Z.
Proof. apply mant_ne. rewrite seg_ey. pose proof seg_y. lra. Qed.

Let num v := f32_mul (f32_sub vb va) (f32_sub v a).
Let inc v := f32_div (num v) (f32_sub b a).
Lemma seg_line_eq v : seg_line a va b vb v = rnd24 (dy_add va (inc v)). Proof. reflexivity. Qed.

Lemma d_mono v v' : val v <= val v' -> val (f32_sub v a) <= val (f32_sub v' a).
Proof. intros H. unfold f32_sub. apply rnd_mono. rewrite !val_sub. lra. Qed.
Lemma num_mono v v' : val v <= val v' -> val (num v) <= val (num v').
Proof.
  intros H. unfold num, f32_mul. apply rnd_mono. rewrite !val_mul, seg_ex.
  pose proof (d_mono v v' H). rewrite !(Qmult_comm x). apply Qmult_le_compat_r; [assumption|apply seg_x].
Qed.
Lemma inc_mono v v' : val v <= val v' -> val (inc v) <= val (inc v').
Proof.
  intros H. unfold inc. rewrite !f32_div_fdiv. apply fdiv_mono; [reflexivity|apply seg_my|apply seg_my|].
  rewrite seg_ey. unfold Qdiv. apply Qmult_le_compat_r; [now apply num_mono|].
  apply Qinv_le_0_compat. pose proof seg_y. lra.
Qed.
Lemma seg_line_mono v v' : val v <= val v' -> val (seg_line a va b vb v) <= val (seg_line a va b vb v').
Proof. intros H. rewrite !seg_line_eq. apply rnd_mono. rewrite !val_add. pose proof (inc_mono v v' H). lra. Qed.

Lemma num_nonneg v : val a <= val v -> 0 <= val (num v).
Proof.
  intros H. unfold num, f32_mul. rewrite rnd24_rndp. apply rndp_ge; [reflexivity|apply rep0|].
  rewrite val_mul, seg_ex. apply Qmult_le_0_compat; [apply seg_x|].
  unfold f32_sub. rewrite rnd24_rndp. apply rndp_ge; [reflexivity|apply rep0|]. rewrite val_sub. lra.
Qed.
Lemma num_upper v : val a <= val v -> val (num v) <= x * (val v - val a) * ((1 + uu) * (1 + uu)).
Proof.
  intros H. unfold num, f32_mul, f32_sub at 2.
  assert (A: 0 <= val (dy_sub v a)) by (rewrite val_sub; lra).
  destruct (rnd_pos _ A) as [L U]. rewrite val_sub in L, U.
  set (d := rnd24 (dy_sub v a)) in *.
  assert (D: 0 <= val d). { eapply Qle_trans; [|exact L]. apply Qmult_le_0_compat; [lra|discriminate]. }
  assert (P: 0 <= val (dy_mul (f32_sub vb va) d)). { rewrite val_mul, seg_ex. apply Qmult_le_0_compat; [apply seg_x|exact D]. }
  destruct (rnd_pos _ P) as [_ U']. rewrite val_mul, seg_ex in U'.
  eapply Qle_trans; [exact U'|].
  setoid_replace (x * (val v - val a) * ((1 + uu) * (1 + uu))) with (x * ((val v - val a) * (1 + uu)) * (1 + uu)) by ring.
  apply Qmult_le_compat_r; [|discriminate]. rewrite !(Qmult_comm x). apply Qmult_le_compat_r; [exact U|apply seg_x].
Qed.
Lemma inc_nonneg v : val a <= val v -> 0 <= val (inc v).
Proof.
  intros H. unfold inc. rewrite f32_div_fdiv. apply fdiv_ge; [reflexivity|apply seg_my|apply rep0|].
  rewrite seg_ey. unfold Qdiv. apply Qmult_le_0_compat; [now apply num_nonneg|]. apply Qinv_le_0_compat. pose proof seg_y. lra.
Qed.
Lemma inc_upper v : val a <= val v -> val v < val b -> near b v = false -> val (inc v) <= x.
Proof.
  intros H H' N. unfold inc. rewrite f32_div_fdiv. apply fdiv_le; [reflexivity|apply seg_my|apply f2_sub_rep; apply S0|].
  rewrite seg_ey. pose proof seg_y as Y. apply Qle_shift_div_r; [exact Y|].
  eapply Qle_trans; [apply num_upper; exact H|].
  rewrite <- Qmult_assoc, !(Qmult_comm x). apply Qmult_le_compat_r; [|apply seg_x].
  apply near_false in N. unfold far in N. rewrite Qabs_pos in N by lra.
  pose proof (sg_len _ _ _ _ S0) as Y1. fold y in Y1.
  setoid_replace (val v - val a) with (y - (val b - val v)) by (unfold y; ring).
  set (z := val b - val v) in *. clearbody z.
  assert (Z1: (1 # 8388608) - (1 # 140737488355328) <= z) by exact N.
  assert (U: (1 + uu) * (1 + uu) == 281475010265089 # 281474976710656) by reflexivity.
  rewrite U. nra.
Qed.

Lemma seg_line_range v : val a <= val v -> val v < val b -> near b v = false ->
  val va <= val (seg_line a va b vb v) <= val vb.
Proof.
  intros H H' N. rewrite seg_line_eq, rnd24_rndp.
  pose proof (inc_nonneg v H). pose proof (inc_upper v H H' N). unfold x in *.
  split; [apply rndp_ge|apply rndp_le]; try reflexivity; try (apply f2_rep; apply S0); rewrite val_add; lra.
Qed.

(** The error against the exact line. *)
Lemma seg_line_error v : -(1) <= val va -> val vb <= 1 -> val a <= val v -> val v < val b -> near b v = false ->
  Qabs (val (seg_line a va b vb v) - (val va + x * ((val v - val a) / y))) <= Qpower 2 (-20).
Proof.
  intros B1 B2 H H' N. pose proof seg_y as Y. pose proof seg_x as X.
  (* the exact increment *)
  set (q := x * ((val v - val a) / y)).
  assert (Q0: 0 <= q). { unfold q, Qdiv. apply Qmult_le_0_compat; [exact X|]. apply Qmult_le_0_compat; [lra|]. apply Qinv_le_0_compat. lra. }
  assert (Q1: q <= x).
  { unfold q. setoid_replace x with (x * 1) at 2 by ring. rewrite !(Qmult_comm x). apply Qmult_le_compat_r; [|exact X].
    apply Qle_shift_div_r; [exact Y|]. unfold y. lra. }
  assert (X2: x <= 2) by (unfold x; lra).
  (* numerator *)
  pose proof (num_upper v H) as NU.
  assert (NL: x * (val v - val a) * ((1 - uu) * (1 - uu)) <= val (num v)).
  { unfold num, f32_mul, f32_sub at 2.
    assert (A: 0 <= val (dy_sub v a)) by (rewrite val_sub; lra).
    destruct (rnd_pos _ A) as [L U]. rewrite val_sub in L, U.
    set (d := rnd24 (dy_sub v a)) in *.
    assert (D: 0 <= val d). { eapply Qle_trans; [|exact L]. apply Qmult_le_0_compat; [lra|discriminate]. }
    assert (P: 0 <= val (dy_mul (f32_sub vb va) d)). { rewrite val_mul, seg_ex. apply Qmult_le_0_compat; [exact X|exact D]. }
    destruct (rnd_pos _ P) as [U' _]. rewrite val_mul, seg_ex in U'.
    eapply Qle_trans; [|exact U'].
    setoid_replace (x * (val v - val a) * ((1 - uu) * (1 - uu))) with (x * ((val v - val a) * (1 - uu)) * (1 - uu)) by ring.
    apply Qmult_le_compat_r; [|discriminate]. rewrite !(Qmult_comm x). apply Qmult_le_compat_r; [exact L|exact X]. }
  set (n := val (num v) / y).
  assert (E: forall k, x * (val v - val a) * k / y == q * k) by (intros; unfold q; field; lra).
  assert (N1: q * ((1 - uu) * (1 - uu)) <= n).
  { unfold n. rewrite <- E. unfold Qdiv. apply Qmult_le_compat_r; [exact NL|]. apply Qinv_le_0_compat. lra. }
  assert (N2: n <= q * ((1 + uu) * (1 + uu))).
  { unfold n. rewrite <- E. unfold Qdiv. apply Qmult_le_compat_r; [exact NU|]. apply Qinv_le_0_compat. lra. }
  assert (N0: 0 <= n). { eapply Qle_trans; [|exact N1]. apply Qmult_le_0_compat; [exact Q0|discriminate]. }
  pose proof (fdiv_rel 24 (num v) (f32_sub b a) ltac:(reflexivity) seg_my) as D. rewrite <- f32_div_fdiv in D. fold (inc v) in D.
  assert (D': Qabs (val (inc v) - n) <= n * (3 * uu)).
  { assert (Q: val (num v) / val (f32_sub b a) == n) by (unfold n; now rewrite seg_ey).
    rewrite Q in D. rewrite (Qabs_pos n) in D by exact N0. exact D. }
  clear D. pose proof (seg_line_range v H H' N) as R. rewrite seg_line_eq in *.
  pose proof (rnd_rel (dy_add va (inc v))) as F. rewrite val_add in F.
  pose proof (inc_nonneg v H) as I0. pose proof (inc_upper v H H' N) as I1.
  assert (S: Qabs (val va + val (inc v)) <= 1). { apply Qabs_Qle_condition. unfold x in *. split; lra. }
  assert (F': Qabs (val (rnd24 (dy_add va (inc v))) - (val va + val (inc v))) <= uu).
  { eapply Qle_trans; [exact F|]. setoid_replace uu with (1 * uu) at 2 by ring. apply Qmult_le_compat_r; [exact S|discriminate]. }
  apply Qabs_Qle_condition in F'. apply Qabs_Qle_condition in D'.
  set (r := val (rnd24 (dy_add va (inc v)))) in *. set (t := val (inc v)) in *.
  clearbody r t n q. clear - N1 N2 N0 Q0 Q1 X2 F' D'.
  change (Qpower 2 (-20)) with (1 # 1048576).
  assert (U1: (1 + uu) * (1 + uu) == 281475010265089 # 281474976710656) by reflexivity. rewrite U1 in N2.
  assert (U2: (1 - uu) * (1 - uu) == 281474943156225 # 281474976710656) by reflexivity. rewrite U2 in N1.
  assert (U3: uu == 1 # 16777216) by reflexivity. rewrite U3 in *.
  apply Qabs_Qle_condition. split; lra.
Qed.
End Segment.

(** ** near *)
Lemma near_closer_right b v v' : near b v = true -> val v <= val v' -> val v' <= val b -> near b v' = true.
Proof.
  unfold near. rewrite !ltb_iff, !val_abs, !val_EPS. unfold f32_sub. intros H A B.
  assert (M: val (rnd24 (dy_sub b v')) <= val (rnd24 (dy_sub b v))) by (apply rnd_mono; rewrite !val_sub; lra).
  assert (P: 0 <= val (rnd24 (dy_sub b v'))) by (rewrite rnd24_rndp; apply rndp_ge; [reflexivity|apply rep0|rewrite val_sub; lra]).
  rewrite Qabs_pos in * by lra. lra.
Qed.
Lemma near_closer_left a v v' : near a v' = true -> val a <= val v -> val v <= val v' -> near a v = true.
Proof.
  unfold near. rewrite !ltb_iff, !val_abs, !val_EPS. unfold f32_sub. intros H A B.
  assert (M: val (rnd24 (dy_sub a v')) <= val (rnd24 (dy_sub a v))) by (apply rnd_mono; rewrite !val_sub; lra).
  assert (P: val (rnd24 (dy_sub a v)) <= 0) by (rewrite rnd24_rndp; apply rndp_le; [reflexivity|apply rep0|rewrite val_sub; lra]).
  rewrite Qabs_neg in * by lra. lra.
Qed.
Lemma near_not_left n a v : f2dot14 n -> f2dot14 a -> val n < val a -> val a <= val v -> near n v = false.
Proof.
  intros N A L H. apply near_far. pose proof (f2_apart n a N A L). rewrite Qabs_neg by lra.
  change (Qpower 2 (-23)) with (1 # 8388608). lra.
Qed.
Lemma near_not_right n b v : f2dot14 n -> f2dot14 b -> val b < val n -> val v < val b -> near n v = false.
Proof.
  intros N A L H. apply near_far. pose proof (f2_apart b n A N L). rewrite Qabs_pos by lra.
  change (Qpower 2 (-23)) with (1 # 8388608). lra.
Qed.

(** ** Finding the segment *)
Lemma seg_near_app l m v : seg_near (l ++ m) v = match seg_near l v with Some w => Some w | None => seg_near m v end.
Proof. induction l as [|[a va] l IH]; [reflexivity|]. cbn [app seg_near]. destruct (near a v); [reflexivity|exact IH]. Qed.
Lemma seg_near_none l v : Forall (fun n => near (fst n) v = false) l -> seg_near l v = None.
Proof. induction 1 as [|[a va] l H HF IH]; [reflexivity|]. cbn [seg_near fst] in *. now rewrite H. Qed.
Lemma seg_interp_skip l a va b vb r v : Forall (fun n => val (fst n) <= val v) l -> val a <= val v -> val v < val b ->
  forall prev, seg_interp prev (l ++ (a, va) :: (b, vb) :: r) v = Ok (seg_line a va b vb v).
Proof.
  intros F A B. induction F as [|[n vn] l H HF IH]; intros prev; cbn [app seg_interp fst] in *.
  - replace (dy_ltb v a) with false by (symmetry; now apply ltb_false).
    replace (dy_ltb v b) with true by (symmetry; now apply ltb_iff). reflexivity.
  - replace (dy_ltb v n) with false by (symmetry; now apply ltb_false). apply IH.
Qed.

Lemma split_at m v : from_increasing m ->
  (exists n, In n m /\ val (fst n) <= v) -> (exists n, In n m /\ v < val (fst n)) ->
  exists l a b r, m = l ++ a :: b :: r /\ val (fst a) <= v /\ v < val (fst b).
Proof.
  induction m as [|n m IH]; intros S0 (n1 & I1 & L1) (n2 & I2 & L2); [destruct I1|].
  inversion S0 as [|? ? S1 F]; subst. rewrite Forall_forall in F.
  assert (A: val (fst n) <= v). { destruct I1 as [<-|I1]; [exact L1|]. pose proof (F _ I1). cbn beta in *. lra. }
  assert (I2': In n2 m). { destruct I2 as [<-|I2]; [lra|exact I2]. }
  destruct m as [|k m]; [destruct I2'|].
  destruct (Qlt_le_dec v (val (fst k))) as [K|K].
  - exists [], n, k, m. auto.
  - destruct (IH S1) as (l & a & b & r & E & Ha & Hb).
    + exists k. split; [now left|exact K].
    + exists n2. auto.
    + exists (n :: l), a, b, r. rewrite E. auto.
Qed.

Lemma sorted_parts {A} (R : A -> A -> Prop) l a b r : StronglySorted R (l ++ a :: b :: r) ->
  Forall (fun n => R n a) l /\ R a b /\ Forall (R b) r.
Proof.
  induction l as [|n l IH]; cbn [app]; intros S0; inversion S0 as [|? ? S1 F]; subst.
  - inversion S1 as [|? ? S2 F2]; subst. inversion F; subst. auto.
  - destruct (IH S1) as (H1 & H2 & H3). split; [|auto]. constructor; [|exact H1].
    rewrite Forall_forall in F. apply F. apply in_or_app. right. now left.
Qed.
Lemma parts_in {A} (n : A) l a b r : In n (l ++ a :: b :: r) -> In n l \/ n = a \/ n = b \/ In n r.
Proof. rewrite in_app_iff. cbn [In]. intuition. Qed.

(** A map with all the properties. *)
Record good (m : segment_map) : Prop := {
  g_font : from_font m; g_from : from_increasing m; g_to : to_nondecreasing m;
  g_m1 : exists n, In n m /\ fixes (-(1)) n; g_0 : exists n, In n m /\ fixes 0 n; g_1 : exists n, In n m /\ fixes 1 n }.

Lemma good_located m v : good m -> -(1) < val v -> val v < 1 -> exists l a va b vb r,
  m = l ++ (a, va) :: (b, vb) :: r /\ val a <= val v /\ val v < val b /\ segment a va b vb /\
  -(1) <= val va /\ val vb <= 1 /\
  seg_value m v = Ok (if near a v then va else if near b v then vb else seg_line a va b vb v).
Proof.
  intros G V1 V2. destruct G as [Ff Fi Ft (m1 & I1 & A1 & B1) (m0 & I0 & A0 & B0) (p1 & J1 & C1 & D1)].
  destruct (split_at m (val v) Fi) as (l & [a va] & [b vb] & r & E & Ha & Hb).
  { exists m1. split; [exact I1|]. rewrite A1. lra. }
  { exists p1. split; [exact J1|]. rewrite C1. lra. }
  cbn [fst] in *. exists l, a, va, b, vb, r. split; [exact E|]. split; [exact Ha|]. split; [exact Hb|].
  unfold from_increasing in Fi. unfold to_nondecreasing in Ft. rewrite E in Fi, Ft.
  destruct (sorted_parts _ _ _ _ _ Fi) as (Fl & Fab & Fr). destruct (sorted_parts _ _ _ _ _ Ft) as (Tl & Tab & Tr).
  cbn [fst snd] in *.
  assert (FF: forall n, In n (l ++ (a, va) :: (b, vb) :: r) -> f2dot14 (fst n) /\ f2dot14 (snd n)).
  { rewrite <- E. now apply Forall_forall. }
  destruct (FF (a, va)) as [Na Nva]; [apply in_or_app; right; now left|].
  destruct (FF (b, vb)) as [Nb Nvb]; [apply in_or_app; right; right; now left|]. cbn [fst snd] in *.
  assert (side: forall n, In n m -> (val (fst n) <= val a /\ val (snd n) <= val va) \/ (val b <= val (fst n) /\ val vb <= val (snd n))).
  { intros n I. rewrite E in I. apply parts_in in I. rewrite Forall_forall in Fl, Fr, Tl, Tr.
    destruct I as [I|[->|[->|I]]].
    - left. pose proof (Fl _ I). pose proof (Tl _ I). cbn beta in *. lra.
    - left. cbn [fst snd]. lra.
    - right. cbn [fst snd]. lra.
    - right. pose proof (Fr _ I). pose proof (Tr _ I). cbn [fst snd] in *. lra. }
  pose proof (side _ I1) as S1. pose proof (side _ I0) as S2. pose proof (side _ J1) as S3.
  assert (SG: segment a va b vb).
  { split; auto. lra. }
  split; [exact SG|]. split; [lra|]. split; [lra|].
  unfold seg_value.
  replace (dy_leb v (Dy (-1) 0)) with false by (symmetry; apply leb_false; exact V1).
  replace (dy_leb dy1 v) with false by (symmetry; apply leb_false; rewrite val_dy1; exact V2).
  rewrite E, seg_near_app, (seg_near_none l).
  2:{ apply Forall_forall. intros n I. apply (near_not_left _ a); auto.
      - apply FF. apply in_or_app. now left.
      - rewrite Forall_forall in Fl. now apply Fl. }
  cbn [seg_near]. destruct (near a v); [reflexivity|]. destruct (near b v); [reflexivity|].
  rewrite (seg_near_none r).
  2:{ apply Forall_forall. intros n I. apply (near_not_right _ b); auto.
      - apply FF. apply in_or_app. right. right. now right.
      - rewrite Forall_forall in Fr. now apply Fr. }
  apply seg_interp_skip; auto. rewrite Forall_forall in Fl |- *. intros n I. pose proof (Fl _ I). cbn beta in *. lra.
Qed.

Lemma seg_low m v : val v <= -(1) -> seg_value m v = Ok (Dy (-1) 0).
Proof. intros H. unfold seg_value. replace (dy_leb v (Dy (-1) 0)) with true; [reflexivity|]. symmetry. apply leb_iff. exact H. Qed.
Lemma seg_high m v : 1 <= val v -> seg_value m v = Ok dy1.
Proof.
  intros H. unfold seg_value. replace (dy_leb v (Dy (-1) 0)) with false.
  - replace (dy_leb dy1 v) with true; [reflexivity|]. symmetry. apply leb_iff. exact H.
  - symmetry. apply leb_false. change (val (Dy (-1) 0)) with (-(1)). lra.
Qed.

(** The value lies between the targets of its segment. *)
Definition seg_result a va b vb v : dyadic := if near a v then va else if near b v then vb else seg_line a va b vb v.
Lemma result_range a va b vb v : segment a va b vb -> val a <= val v -> val v < val b ->
  val va <= val (seg_result a va b vb v) <= val vb.
Proof.
  intros SG A B. pose proof (sg_to _ _ _ _ SG). unfold seg_result. destruct (near a v); [lra|].
  destruct (near b v) eqn:N; [lra|]. now apply seg_line_range.
Qed.
Lemma result_mono a va b vb v v' : segment a va b vb -> val a <= val v -> val v <= val v' -> val v' < val b ->
  val (seg_result a va b vb v) <= val (seg_result a va b vb v').
Proof.
  intros SG A B C. pose proof (result_range a va b vb v SG A ltac:(lra)) as R. pose proof (result_range a va b vb v' SG ltac:(lra) C) as R'.
  unfold seg_result in *. destruct (near a v) eqn:N1; [lra|].
  destruct (near a v') eqn:N1'. { rewrite (near_closer_left a v v') in N1; auto. discriminate. }
  destruct (near b v) eqn:N2.
  - rewrite (near_closer_right b v v') in *; auto; lra.
  - destruct (near b v') eqn:N2'; [lra|]. now apply seg_line_mono.
Qed.

Lemma seg_total m v : good m -> exists w, seg_value m v = Ok w /\ -(1) <= val w <= 1.
Proof.
  intros G. destruct (Qlt_le_dec (-(1)) (val v)) as [V1|V1].
  2:{ exists (Dy (-1) 0). split; [now apply seg_low|]. change (val (Dy (-1) 0)) with (-(1)). lra. }
  destruct (Qlt_le_dec (val v) 1) as [V2|V2].
  2:{ exists dy1. split; [now apply seg_high|]. rewrite val_dy1. lra. }
  destruct (good_located m v G V1 V2) as (l & a & va & b & vb & r & E & A & B & SG & R1 & R2 & H).
  eexists. split; [exact H|]. pose proof (result_range a va b vb v SG A B) as R. unfold seg_result in R. lra.
Qed.

Lemma app_split {A} (l l' : list A) x x' r r' : l ++ x :: r = l' ++ x' :: r' ->
  (l = l' /\ x = x' /\ r = r') \/ (exists k, l' = l ++ x :: k /\ r = k ++ x' :: r') \/ (exists k, l = l' ++ x' :: k /\ r' = k ++ x :: r).
Proof.
  revert l'. induction l as [|y l IH]; intros [|y' l'] E; cbn [app] in E; injection E as -> E.
  - auto.
  - right. left. exists l'. auto.
  - right. right. exists l. auto.
  - destruct (IH l' E) as [(-> & -> & ->)|[(k & -> & ->)|(k & -> & ->)]].
    + auto.
    + right. left. exists k. auto.
    + right. right. exists k. auto.
Qed.

Lemma seg_mono m v v' w w' : good m -> val v <= val v' -> seg_value m v = Ok w -> seg_value m v' = Ok w' -> val w <= val w'.
Proof.
  intros G V H H'. destruct (seg_total m v G) as (x & X & RX). rewrite H in X. apply Ok_inj in X. subst x.
  destruct (seg_total m v' G) as (x & X & RX'). rewrite H' in X. apply Ok_inj in X. subst x.
  destruct (Qlt_le_dec (-(1)) (val v)) as [V1|V1].
  2:{ rewrite seg_low in H by exact V1. apply Ok_inj in H. subst w. change (val (Dy (-1) 0)) with (-(1)). lra. }
  destruct (Qlt_le_dec (val v') 1) as [V2|V2].
  2:{ rewrite seg_high in H' by exact V2. apply Ok_inj in H'. subst w'. rewrite val_dy1. lra. }
  destruct (good_located m v G V1 ltac:(lra)) as (l & a & va & b & vb & r & E & A & B & SG & R1 & R2 & K).
  destruct (good_located m v' G ltac:(lra) V2) as (l' & a' & va' & b' & vb' & r' & E' & A' & B' & SG' & R1' & R2' & K').
  fold (seg_result a va b vb v) in K. fold (seg_result a' va' b' vb' v') in K'.
  rewrite K in H. rewrite K' in H'. apply Ok_inj in H. apply Ok_inj in H'. subst w w'.
  pose proof (result_range a va b vb v SG A B) as R. pose proof (result_range a' va' b' vb' v' SG' A' B') as R'.
  pose proof (g_from _ G) as Fi. pose proof (g_to _ G) as Ft. unfold from_increasing in Fi. unfold to_nondecreasing in Ft.
  pose proof (eq_trans (eq_sym E) E') as EE. destruct (app_split _ _ _ _ _ _ EE) as [(_ & X & Y)|[(k & X & Y)|(k & X & Y)]].
  - injection X as <- <-. injection Y as <- <- _. now apply result_mono.
  - (* a' is b or later *)
    destruct k as [|k0 k]; cbn [app] in Y.
    + injection Y as <- <- _. lra.
    + injection Y as Y1 Y2. subst k0. rewrite E in Ft. destruct (sorted_parts _ _ _ _ _ Ft) as (_ & _ & T). rewrite Y2 in T.
      apply Forall_app in T. destruct T as [_ T]. inversion T as [|? ? T1 _]; subst. cbn [snd] in T1. lra.
  - (* b' is not beyond a: then v' < v *)
    exfalso. destruct k as [|k0 k]; cbn [app] in Y.
    + injection Y as Y1 Y2 _. subst b'. lra.
    + injection Y as Y1 Y2. subst k0. rewrite E' in Fi. destruct (sorted_parts _ _ _ _ _ Fi) as (_ & _ & T). rewrite Y2 in T.
      apply Forall_app in T. destruct T as [_ T]. inversion T as [|? ? T1 _]; subst. cbn [fst] in T1. lra.
Qed.

(** Every node inside is hit. *)
Lemma seg_hits m n v : good m -> In n m -> -(1) <= val (fst n) <= 1 -> val v == val (fst n) ->
  exists w, seg_value m v = Ok w /\ val w == val (snd n).
Proof.
  intros G I R V. pose proof (g_from _ G) as Fi. pose proof (g_to _ G) as Ft.
  assert (uniq: forall x y, In x m -> In y m -> val (fst x) == val (fst y) -> val (snd x) == val (snd y)).
  { clear - Fi. intros x y Ix Iy. unfold from_increasing in Fi. induction Fi as [|z m S1 IH F]; [destruct Ix|].
    rewrite Forall_forall in F. destruct Ix as [<-|Ix], Iy as [<-|Iy]; intros E.
    - reflexivity.
    - pose proof (F _ Iy). cbn beta in *. lra.
    - pose proof (F _ Ix). cbn beta in *. lra.
    - now apply IH. }
  destruct (Qlt_le_dec (-(1)) (val v)) as [V1|V1].
  2:{ exists (Dy (-1) 0). split; [now apply seg_low|]. destruct (g_m1 _ G) as (k & Ik & A & B).
      rewrite <- (uniq k n Ik I); [now rewrite B|lra]. }
  destruct (Qlt_le_dec (val v) 1) as [V2|V2].
  2:{ exists dy1. split; [now apply seg_high|]. destruct (g_1 _ G) as (k & Ik & A & B).
      rewrite <- (uniq k n Ik I); [now rewrite B|lra]. }
  destruct (good_located m v G V1 V2) as (l & a & va & b & vb & r & E & A & B & SG & R1 & R2 & H).
  unfold from_increasing in Fi. rewrite E in Fi. destruct (sorted_parts _ _ _ _ _ Fi) as (Fl & Fab & Fr). cbn [fst] in *.
  assert (En: n = (a, va)).
  { rewrite E in I. apply parts_in in I. rewrite Forall_forall in Fl, Fr. destruct I as [I|[->|[->|I]]].
    - pose proof (Fl _ I). cbn [fst] in *. lra.
    - reflexivity.
    - cbn [fst] in V. lra.
    - pose proof (Fr _ I). cbn [fst] in *. lra. }
  subst n. cbn [fst snd] in *. rewrite (near_self a v) in H by lra. exists va. split; [exact H|reflexivity].
Qed.

(** Accuracy. *)
Lemma seg_accuracy m v w : good m -> seg_value m v = Ok w ->
  (exists n, In n m /\ Qabs (val (fst n) - val v) < Qpower 2 (-23) /\ val w == val (snd n)) \/
  (exists q, mapped m (val v) q /\ Qabs (val w - q) <= Qpower 2 (-20)).
Proof.
  intros G H. destruct (Qlt_le_dec (-(1)) (val v)) as [V1|V1].
  2:{ right. rewrite seg_low in H by exact V1. apply Ok_inj in H. subst w. exists (-(1)). split; [now apply mapped_below|]. discriminate. }
  destruct (Qlt_le_dec (val v) 1) as [V2|V2].
  2:{ right. rewrite seg_high in H by exact V2. apply Ok_inj in H. subst w. exists 1. split; [now apply mapped_above|]. discriminate. }
  destruct (good_located m v G V1 V2) as (l & a & va & b & vb & r & E & A & B & SG & R1 & R2 & K).
  rewrite K in H. apply Ok_inj in H. subst w.
  destruct (near a v) eqn:N1; [|destruct (near b v) eqn:N2].
  - left. exists (a, va). split; [rewrite E; apply in_or_app; right; now left|]. split; [now apply near_true|reflexivity].
  - left. exists (b, vb). split; [rewrite E; apply in_or_app; right; right; now left|]. split; [now apply near_true|reflexivity].
  - right. eexists. split.
    + apply (mapped_between m (val v) l (a, va) (b, vb) r); auto. cbn [fst]. lra.
    + cbn [fst snd]. now apply seg_line_error.
Qed.

(** ** Validity *)
Definition cnt (f : dyadic * dyadic -> bool) (m : segment_map) : nat := length (filter f m).
Definition is0 (n : dyadic * dyadic) := dy_eqb (fst n) dy0 && dy_eqb (snd n) dy0.
Definition ism1 (n : dyadic * dyadic) := near (fst n) minus1 && near (snd n) minus1.
Definition is1 (n : dyadic * dyadic) := near (fst n) dy1 && near (snd n) dy1.
Lemma seg_check_spec m : forall z mi pl prev, seg_check m z mi pl prev = true <->
  ((StronglySorted (fun x y => val (snd x) <= val (snd y)) m /\ Forall (fun n => val prev <= val (snd n)) m) /\
  (z + cnt is0 m = 1 /\ mi + cnt ism1 m = 1 /\ pl + cnt is1 m = 1)%nat).
Proof.
  induction m as [|[f t] m IH]; intros z mi pl prev; cbn [seg_check].
  - unfold cnt. cbn [filter length]. rewrite !andb_true_iff, !Nat.eqb_eq. split.
    + intros [[A B] C]. split; [split; constructor|lia].
    + intros [_ H]. lia.
  - unfold cnt. cbn [filter length]. unfold is0 at 1, ism1 at 1, is1 at 1. cbn [fst snd].
    destruct (dy_ltb t prev) eqn:L.
    + split; [discriminate|]. intros [[_ F] _]. inversion F as [|? ? F1 _]; subst. cbn [snd] in F1. apply ltb_iff in L. lra.
    + apply ltb_false in L. rewrite IH. fold (cnt is0 m) (cnt ism1 m) (cnt is1 m).
      set (c0 := if dy_eqb f dy0 && dy_eqb t dy0 then S z else z). set (c1 := if near f minus1 && near t minus1 then S mi else mi).
      set (c2 := if near f dy1 && near t dy1 then S pl else pl).
      assert (N: (c0 + cnt is0 m = 1 /\ c1 + cnt ism1 m = 1 /\ c2 + cnt is1 m = 1)%nat <->
        (z + length (if dy_eqb f dy0 && dy_eqb t dy0 then (f, t) :: filter is0 m else filter is0 m) = 1 /\
         mi + length (if near f minus1 && near t minus1 then (f, t) :: filter ism1 m else filter ism1 m) = 1 /\
         pl + length (if near f dy1 && near t dy1 then (f, t) :: filter is1 m else filter is1 m) = 1)%nat).
      { unfold c0, c1, c2, cnt. destruct (dy_eqb f dy0 && dy_eqb t dy0), (near f minus1 && near t minus1), (near f dy1 && near t dy1); cbn [length]; lia. }
      rewrite N. apply and_iff_compat_r. split.
      * intros [A B]. split; [constructor; [exact A|exact B]|]. constructor; [exact L|].
        eapply Forall_impl; [|exact B]. cbn beta. intros; lra.
      * intros [A B]. inversion A as [|? ? A1 A2]; subst. split; [exact A1|exact A2].
Qed.

Lemma near_unit d e (c : Z) : f2dot14 d -> (-1 <= c <= 1)%Z -> val e == inject_Z c -> near d e = true <-> val d == inject_Z c.
Proof.
  intros D C E. split; intros H; [|apply near_self; now rewrite E].
  assert (F: f2dot14 e). { exists (c * 16384)%Z. split; [lia|]. rewrite E, inject_Z_mult. field. }
  apply near_true in H. change (Qpower 2 (-23)) with (1 # 8388608) in H.
  apply Qabs_Qlt_condition in H. destruct (Q_dec (val d) (val e)) as [[L|L]|L]; [| |now rewrite L, E].
  - pose proof (f2_apart _ _ D F L). lra.
  - pose proof (f2_apart _ _ F D L). lra.
Qed.

Lemma cnt_once f m c : (forall n, In n m -> f n = true <-> fixes c n) -> cnt f m = 1%nat <-> fixed_once m c.
Proof.
  intros H. unfold cnt, fixed_once. split.
  - induction m as [|n m IH]; cbn [filter]; [discriminate|].
    destruct (f n) eqn:E; cbn [length]; intros L.
    + exists [], n, m. split; [reflexivity|]. split; [apply H; [now left|exact E]|].
      cbn [app]. apply Forall_forall. intros k K F. apply H in F; [|now right].
      injection L as L. apply length_zero_iff_nil in L. assert (In k (filter f m)) by (apply filter_In; auto). rewrite L in H0. destruct H0.
    + destruct (IH (fun k K => H k (or_intror K)) L) as (l & k & r & -> & F & G).
      exists (n :: l), k, r. split; [reflexivity|]. split; [exact F|]. cbn [app]. constructor; [|exact G].
      intros X. apply H in X; [congruence|now left].
  - intros (l & n & r & -> & F & G). rewrite filter_app, app_length. cbn [filter].
    rewrite (proj2 (H n (in_or_app l (n :: r) n (or_intror (or_introl eq_refl)))) F). cbn [length].
    apply Forall_app in G. destruct G as [G1 G2]. rewrite Forall_forall in G1, G2.
    assert (Z1: filter f l = []).
    { destruct (filter f l) as [|k ks] eqn:E; [reflexivity|]. exfalso. assert (I: In k (filter f l)) by (rewrite E; now left).
      apply filter_In in I. destruct I as [I J]. apply (G1 k I). apply H; [apply in_or_app; now left|exact J]. }
    assert (Z2: filter f r = []).
    { destruct (filter f r) as [|k ks] eqn:E; [reflexivity|]. exfalso. assert (I: In k (filter f r)) by (rewrite E; now left).
      apply filter_In in I. destruct I as [I J]. apply (G2 k I). apply H; [apply in_or_app; right; now right|exact J]. }
    rewrite Z1, Z2. reflexivity.
Qed.

Lemma seg_valid_iff m : from_font m -> seg_valid m = true <->
  to_nondecreasing m /\ fixed_once m (-(1)) /\ fixed_once m 0 /\ fixed_once m 1.
Proof.
  intros F. unfold from_font in F. rewrite Forall_forall in F. unfold seg_valid. rewrite seg_check_spec. cbn [Nat.add].
  rewrite (cnt_once is0 m 0), (cnt_once ism1 m (-(1))), (cnt_once is1 m 1).
  - unfold to_nondecreasing. intuition. apply Forall_forall. intros n I. destruct (F n I) as [_ (p & B & ->)].
    change (val (Dy (-2) 0)) with (- (2)). destruct B as [B _]. rewrite Zle_Qle in B. change (inject_Z (-32768)) with (- (32768 # 1)) in B.
    unfold Qdiv. change (/ 16384) with (1 # 16384). lra.
  - intros n I. destruct (F n I) as [A B]. unfold is1, fixes. rewrite andb_true_iff, (near_unit _ dy1 1), (near_unit _ dy1 1); auto; try reflexivity; lia.
  - intros n I. destruct (F n I) as [A B]. unfold ism1, fixes. rewrite andb_true_iff, (near_unit _ minus1 (-1)), (near_unit _ minus1 (-1)); auto; try reflexivity; lia.
  - intros n I. unfold is0, fixes. rewrite andb_true_iff, !eqb_iff, val_dy0. reflexivity.
Qed.
Lemma valid_good m : from_font m -> seg_valid m = true -> from_increasing m -> good m.
Proof.
  intros F V I. apply seg_valid_iff in V; [|exact F]. destruct V as (T & A & B & C).
  assert (ex: forall c, fixed_once m c -> exists n, In n m /\ fixes c n).
  { intros c (l & n & r & -> & X & _). exists n. split; [apply in_or_app; right; now left|exact X]. }
  split; auto.
Qed.

(** ** The codec *)
Lemma as_packed d p : multiple d p -> f2dot14_as_packed d = Some p.
Proof.
  intros [B V]. unfold f2dot14_as_packed, ot_round.
  change (f32_add (f32_scale d 14) (Dy 1 (-1))) with (rnd24 (dy_add (f32_scale d 14) (Dy 1 (-1)))).
  rewrite rnd24_rndp. change f32_floor with dy_floor.
  set (x := dy_add (f32_scale d 14) (Dy 1 (-1))).
  assert (E: val x == inject_Z p + (1#2)).
  { unfold x. rewrite val_add. assert (E1: val (Dy 1 (-1)) == 1#2) by reflexivity. rewrite E1.
    assert (E2: val (f32_scale d 14) == inject_Z p); [|now rewrite E2].
    unfold f32_scale. rewrite val_Dy, p2_add. change (Qpower 2 14) with 16384.
    rewrite Qmult_assoc. change (inject_Z (mant d) * Qpower 2 (expo d)) with (val d). rewrite V. field. }
  assert (X: val (rndp 24 x) == inject_Z p + (1 # 2)).
  { rewrite rndp_exact; [exact E|reflexivity|]. exists (2 * p + 1)%Z, (-1)%Z. split; [change (2 ^ 24)%Z with 16777216%Z; lia|].
    rewrite E, val_Dy, inject_Z_plus, inject_Z_mult. change (Qpower 2 (-1)) with (1 # 2). change (inject_Z 2) with 2. change (inject_Z 1) with 1. ring. }
  rewrite (floor_unique _ p); [|rewrite X; lra|rewrite X, inject_Z_plus; change (inject_Z 1) with 1; lra].
  unfold try_i, sat_i32. change (2 ^ 31)%Z with 2147483648%Z.
  match goal with |- context [Z.max ?a ?b] => replace (Z.max a b) with p by lia end.
  change (2 ^ (16 - 1))%Z with 32768%Z.
  match goal with |- (if ?c then _ else _) = _ => replace c with true by lia end. reflexivity.
Qed.
Lemma ser_multiple d p : multiple d p -> ser_f2dot14 d = Ok (word p).
Proof. intros H. unfold ser_f2dot14. rewrite (as_packed d p H), word_i16. reflexivity. Qed.
Lemma from_packed_multiple p : (-32768 <= p <= 32767)%Z -> multiple (f2dot14_from_packed p) p.
Proof.
  intros H. split; [exact H|]. unfold f2dot14_from_packed, f32_of_int. rewrite rnd24_small by (change (2 ^ 24)%Z with 16777216%Z; lia).
  unfold f32_scale. cbn [mant expo]. rewrite val_Dy. change (Qpower 2 (0 + -14)) with (1 # 16384). field.
Qed.
Lemma reads_f2 p : (-32768 <= p <= 32767)%Z -> reads de_f2dot14 (word p) (f2dot14_from_packed p).
Proof. intros H. rewrite word_i16. unfold de_f2dot14. apply reads_map. apply reads_i16. lia. Qed.

Definition node_bytes (p : Z * Z) : list Z := word (fst p) ++ word (snd p).
Lemma node_ser n p : multiple (fst n) (fst p) -> multiple (snd n) (snd p) -> axis_value_ser n = Ok (node_bytes p).
Proof. intros A B. unfold axis_value_ser. rewrite (ser_multiple _ _ A), (ser_multiple _ _ B). reflexivity. Qed.

Lemma map_ser m ps : multiples m ps -> (Z.of_nat (length ps) < 65536)%Z ->
  ser_counted axis_value_ser m = Ok (count ps ++ concat (map node_bytes ps)).
Proof.
  intros H L. unfold ser_counted, segment_map. pose proof (Forall2_length _ _ _ H) as HL. unfold segment_map in HL.
  rewrite (rmapM_fwd _ _ (map node_bytes ps)).
  - cbn [rbind]. unfold count. rewrite word_u16, HL. unfold u16, wrap_u. rewrite Z.mod_small by (change (2 ^ 16)%Z with 65536%Z; lia). reflexivity.
  - clear - H. induction H as [|n p m ps [A B] H IH]; cbn [map]; constructor; [now apply node_ser|exact IH].
Qed.
Lemma avar_layout maps axes : Forall2 multiples maps axes -> counts_fit axes ->
  avar_ser maps = Ok (avar_bytes 1 0 0 axes).
Proof.
  intros H [L1 L2]. unfold avar_ser. set (inner := ser_counted axis_value_ser). unfold ser_counted, segment_map. pose proof (Forall2_length _ _ _ H) as HL. unfold segment_map in HL.
  rewrite (rmapM_fwd _ _ (map (fun ps => count ps ++ concat (map node_bytes ps)) axes)).
  - cbn [rbind]. unfold avar_bytes. change (count axes) with (word (Z.of_nat (length axes))). rewrite !word_u16, HL. unfold u16, wrap_u. rewrite Z.mod_small by (change (2 ^ 16)%Z with 65536%Z; lia). reflexivity.
  - clear - H L2. induction H as [|m ps maps axes A H IH]; cbn [map]; inversion L2; subst; constructor; [now apply map_ser|auto].
Qed.

Definition in_i16 (p : Z * Z) : Prop := (-32768 <= fst p <= 32767 /\ -32768 <= snd p <= 32767)%Z.
Definition unpack (p : Z * Z) : dyadic * dyadic := (f2dot14_from_packed (fst p), f2dot14_from_packed (snd p)).
Lemma node_reads p : in_i16 p -> reads axis_value_de (node_bytes p) (unpack p).
Proof.
  intros [A B]. unfold axis_value_de, node_bytes. eapply reads_bind; [now apply reads_f2|].
  rewrite <- (app_nil_r (word (snd p))). eapply reads_bind; [now apply reads_f2|]. apply reads_pret.
Qed.
Lemma counted_reads {A B} (p : parser B) (f : A -> list Z) (g : A -> B) (l : list A) : (Z.of_nat (length l) < 65536)%Z ->
  (forall a, In a l -> reads p (f a) (g a)) -> reads (de_counted16 p) (count l ++ concat (map f l)) (map g l).
Proof.
  intros L H. unfold de_counted16, count. rewrite word_u16. eapply reads_bind; [apply reads_u16; lia|].
  rewrite Nat2Z.id. rewrite <- (map_length g l). apply reads_counted2.
  clear L. induction l as [|a l IH]; cbn [map]; constructor; [apply H; now left|]. apply IH. intros; apply H; now right.
Qed.
Lemma avar_reads a b c axes : (0 <= a < 65536)%Z -> (0 <= b < 65536)%Z -> (0 <= c < 65536)%Z ->
  counts_fit axes -> Forall (Forall in_i16) axes ->
  reads avar_de (avar_bytes a b c axes) (map (map unpack) axes).
Proof.
  intros A B C [L1 L2] R. unfold avar_de, avar_bytes. rewrite !word_u16.
  eapply reads_bind; [apply reads_u16; lia|]. eapply reads_bind; [apply reads_u16; lia|]. eapply reads_bind; [apply reads_u16; lia|].
  apply (counted_reads _ (fun ps => count ps ++ concat (map node_bytes ps))); [exact L1|].
  intros ps I. rewrite Forall_forall in L2, R. apply counted_reads; [now apply L2|].
  intros p J. apply node_reads. pose proof (R _ I) as R'. rewrite Forall_forall in R'. now apply R'.
Qed.

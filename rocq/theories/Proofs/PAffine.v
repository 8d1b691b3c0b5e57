(** Composition of transforms and bounding boxes. *)
From Coq Require Import QArith Qpower Lqa Qabs Lia List ZArith Bool.
From Verif.Model Require Import MBase MFixed MFloat MTables MGlyph MGlyf.
From Verif.Spec Require Import SBase SFloat SGlyph SGlyf.
From Verif.Proofs Require Import PBase PCodec PFloat PGlyph PGlyf.
Import ListNotations.
Open Scope Z_scope.

(** [x] is [k] units of 2^-28. *)
Definition fx (k : Z) (x : dyadic) : Prop := (val x == inject_Z k * Qpower 2 (-28))%Q.
Lemma fx_rnd k x : Z.abs k < 2 ^ 53 -> fx k x -> fx k (rnd53 x).
Proof.
  intros Hk H. unfold fx, rnd53 in *. rewrite rndp_exact; [exact H|lia|]. exists k, (-28). auto.
Qed.
Lemma fx_add i j x y : fx i x -> fx j y -> Z.abs (i + j) < 2 ^ 53 -> fx (i + j) (f64_add x y).
Proof.
  intros Hi Hj H. apply fx_rnd; [exact H|]. unfold fx in *. rewrite val_add, Hi, Hj, inject_Z_plus. ring.
Qed.
Lemma fx_mul_ss i j x y : (val x == inject_Z i / 16384)%Q -> (val y == inject_Z j / 16384)%Q ->
  Z.abs (i * j) < 2 ^ 53 -> fx (i * j) (f64_mul x y).
Proof.
  intros Hi Hj H. apply fx_rnd; [exact H|]. unfold fx in *. rewrite val_mul, Hi, Hj, inject_Z_mult.
  change (Qpower 2 (-28)) with (/ 268435456)%Q. field.
Qed.
Lemma fx_mul_so i j x y : (val x == inject_Z i / 16384)%Q -> (val y == inject_Z j)%Q ->
  Z.abs (i * j * 16384) < 2 ^ 53 -> fx (i * j * 16384) (f64_mul x y).
Proof.
  intros Hi Hj H. apply fx_rnd; [exact H|]. unfold fx in *. rewrite val_mul, Hi, Hj, !inject_Z_mult.
  change (Qpower 2 (-28)) with (/ 268435456)%Q. field.
Qed.
Lemma fx_int j y : (val y == inject_Z j)%Q -> fx (j * 268435456) y.
Proof.
  intros H. unfold fx. rewrite H, inject_Z_mult. change (Qpower 2 (-28)) with (/ 268435456)%Q. field.
Qed.

Lemma abs_prod i j : Z.abs i <= 32768 -> Z.abs j <= 32768 -> Z.abs (i * j) <= 1073741824.
Proof. intros. rewrite Z.abs_mul. change 1073741824 with (32768 * 32768). apply Z.mul_le_mono_nonneg; lia. Qed.

(** [x y + z w] and [x e + z f + g] are exact. *)
Lemma lin_ss i1 i2 j1 j2 x1 x2 y1 y2 :
  (val x1 == inject_Z i1 / 16384)%Q -> (val x2 == inject_Z i2 / 16384)%Q ->
  (val y1 == inject_Z j1 / 16384)%Q -> (val y2 == inject_Z j2 / 16384)%Q ->
  in_range I16 i1 -> in_range I16 i2 -> in_range I16 j1 -> in_range I16 j2 ->
  (val (f64_add (f64_mul x1 y1) (f64_mul x2 y2)) == val x1 * val y1 + val x2 * val y2)%Q.
Proof.
  intros H1 H2 H3 H4 R1 R2 R3 R4. cbn in R1, R2, R3, R4.
  pose proof (abs_prod i1 j1 ltac:(lia) ltac:(lia)). pose proof (abs_prod i2 j2 ltac:(lia) ltac:(lia)).
  assert (E: fx (i1 * j1 + i2 * j2) (f64_add (f64_mul x1 y1) (f64_mul x2 y2))).
  { apply fx_add; [apply fx_mul_ss|apply fx_mul_ss|]; auto; change (2 ^ 53) with 9007199254740992; lia. }
  unfold fx in E. rewrite E, H1, H2, H3, H4, inject_Z_plus, !inject_Z_mult.
  change (Qpower 2 (-28)) with (/ 268435456)%Q. field.
Qed.
Lemma lin_so i1 i2 j1 j2 j3 x1 x2 y1 y2 y3 :
  (val x1 == inject_Z i1 / 16384)%Q -> (val x2 == inject_Z i2 / 16384)%Q ->
  (val y1 == inject_Z j1)%Q -> (val y2 == inject_Z j2)%Q -> (val y3 == inject_Z j3)%Q ->
  in_range I16 i1 -> in_range I16 i2 -> in_range I16 j1 -> in_range I16 j2 -> in_range I16 j3 ->
  (val (f64_add (f64_add (f64_mul x1 y1) (f64_mul x2 y2)) y3) == val x1 * val y1 + val x2 * val y2 + val y3)%Q.
Proof.
  intros H1 H2 H3 H4 H5 R1 R2 R3 R4 R5. cbn in R1, R2, R3, R4, R5.
  pose proof (abs_prod i1 j1 ltac:(lia) ltac:(lia)). pose proof (abs_prod i2 j2 ltac:(lia) ltac:(lia)).
  assert (E: fx (i1 * j1 * 16384 + i2 * j2 * 16384 + j3 * 268435456)
                (f64_add (f64_add (f64_mul x1 y1) (f64_mul x2 y2)) y3)).
  { apply fx_add; [apply fx_add; [apply fx_mul_so|apply fx_mul_so|]|apply fx_int|]; auto;
      change (2 ^ 53) with 9007199254740992; lia. }
  unfold fx in E. rewrite E, H1, H2, H3, H4, H5, !inject_Z_plus, !inject_Z_mult.
  change (Qpower 2 (-28)) with (/ 268435456)%Q. field.
Qed.

Lemma compose_exact s t : format_transform s -> format_transform t ->
  forall p q r, moves t p q -> moves s q r -> moves (aff_mul s t) p r.
Proof.
  intros ((sa & RSa & Sa) & (sb & RSb & Sb) & (sc & RSc & Sc) & (sd & RSd & Sd) & (se & RSe & Se) & (sf & RSf & Sf)).
  intros ((ta & RTa & Ta) & (tb & RTb & Tb) & (tc & RTc & Tc) & (td & RTd & Td) & (te & RTe & Te) & (tf & RTf & Tf)).
  intros p q r [M1 M2] [M3 M4]. unfold moves, aff_mul; cbn [af_a af_b af_c af_d af_e af_f].
  pose proof (lin_ss sa sc ta tb _ _ _ _ Sa Sc Ta Tb RSa RSc RTa RTb) as Ea.
  pose proof (lin_ss sb sd ta tb _ _ _ _ Sb Sd Ta Tb RSb RSd RTa RTb) as Eb.
  pose proof (lin_ss sa sc tc td _ _ _ _ Sa Sc Tc Td RSa RSc RTc RTd) as Ec.
  pose proof (lin_ss sb sd tc td _ _ _ _ Sb Sd Tc Td RSb RSd RTc RTd) as Ed.
  pose proof (lin_so sa sc te tf se _ _ _ _ _ Sa Sc Te Tf Se RSa RSc RTe RTf RSe) as Ee.
  pose proof (lin_so sb sd te tf sf _ _ _ _ _ Sb Sd Te Tf Sf RSb RSd RTe RTf RSf) as Ef.
  rewrite Ea, Eb, Ec, Ed, Ee, Ef.
  rewrite M3, M4, M1, M2. split; ring.
Qed.

(** Applying such a transform to a whole-number point is exact too. *)
Lemma apply_exact t x y : format_transform t -> in_range I16 x -> in_range I16 y ->
  moves t (inject_Z x, inject_Z y)
    (val (fst (aff_apply t (dy_of_Z x) (dy_of_Z y))), val (snd (aff_apply t (dy_of_Z x) (dy_of_Z y)))).
Proof.
  intros ((ta & RTa & Ta) & (tb & RTb & Tb) & (tc & RTc & Tc) & (td & RTd & Td) & (te & RTe & Te) & (tf & RTf & Tf)) Hx Hy.
  unfold moves, aff_apply; cbn [fst snd].
  rewrite (lin_so ta tc x y te) by (assumption || apply val_int).
  rewrite (lin_so tb td x y tf) by (assumption || apply val_int). rewrite !val_int. split; reflexivity.
Qed.

(** ** Boxes *)
Lemma val_min_l x y : (val (dy_min x y) <= val x)%Q.
Proof. unfold dy_min. destruct (dy_leb x y) eqn:E; [lra|]. apply leb_false in E. lra. Qed.
Lemma val_min_r x y : (val (dy_min x y) <= val y)%Q.
Proof. unfold dy_min. destruct (dy_leb x y) eqn:E; [now apply leb_iff in E|lra]. Qed.
Lemma val_max_l x y : (val x <= val (dy_max x y))%Q.
Proof. unfold dy_max. destruct (dy_leb x y) eqn:E; [now apply leb_iff in E|lra]. Qed.
Lemma val_max_r x y : (val y <= val (dy_max x y))%Q.
Proof. unfold dy_max. destruct (dy_leb x y) eqn:E; [lra|]. apply leb_false in E. lra. Qed.

Lemma f64_add_mono x x' y y' : (val x <= val x')%Q -> (val y <= val y')%Q -> (val (f64_add x y) <= val (f64_add x' y'))%Q.
Proof. intros. apply rndp_mono; [lia|]. rewrite !val_add. lra. Qed.

(** Between two values of the argument, a product lies between the products. *)
Lemma f64_mul_between a x0 x x1 : (val x0 <= val x)%Q -> (val x <= val x1)%Q ->
  exists xl xh, (xl = x0 \/ xl = x1) /\ (xh = x0 \/ xh = x1) /\
    (val (f64_mul a xl) <= val (f64_mul a x))%Q /\ (val (f64_mul a x) <= val (f64_mul a xh))%Q.
Proof.
  intros H0 H1. destruct (Qlt_le_dec (val a) 0) as [Ha|Ha].
  - exists x1, x0. split; [auto|]. split; [auto|].
    split; apply rndp_mono; try lia; rewrite !val_mul; nra.
  - exists x0, x1. split; [auto|]. split; [auto|].
    split; apply rndp_mono; try lia; rewrite !val_mul; nra.
Qed.

(** The value at an inner point lies between the values at two corners. *)
Lemma corner a c e x0 x x1 y0 y y1 :
  (val x0 <= val x)%Q -> (val x <= val x1)%Q -> (val y0 <= val y)%Q -> (val y <= val y1)%Q ->
  let f x y := f64_add (f64_add (f64_mul a x) (f64_mul c y)) e in
  exists xl yl xh yh, (xl = x0 \/ xl = x1) /\ (yl = y0 \/ yl = y1) /\ (xh = x0 \/ xh = x1) /\ (yh = y0 \/ yh = y1) /\
    (val (f xl yl) <= val (f x y))%Q /\ (val (f x y) <= val (f xh yh))%Q.
Proof.
  intros Hx0 Hx1 Hy0 Hy1 f.
  destruct (f64_mul_between a x0 x x1 Hx0 Hx1) as (xl & xh & A1 & A2 & A3 & A4).
  destruct (f64_mul_between c y0 y y1 Hy0 Hy1) as (yl & yh & B1 & B2 & B3 & B4).
  exists xl, yl, xh, yh. do 4 (split; [assumption|]). unfold f.
  split; apply f64_add_mono; try lra; apply f64_add_mono; assumption.
Qed.

Definition rect_has (r : rect) (p : dyadic * dyadic) : Prop :=
  (val (rc_x0 r) <= val (fst p))%Q /\ (val (fst p) <= val (rc_x1 r))%Q /\
  (val (rc_y0 r) <= val (snd p))%Q /\ (val (snd p) <= val (rc_y1 r))%Q.

Lemma has_union_l a b p : rect_has a p -> rect_has (rect_union a b) p.
Proof.
  unfold rect_has, rect_union; cbn [rc_x0 rc_x1 rc_y0 rc_y1]. intros (A & B & C & D).
  pose proof (val_min_l (rc_x0 a) (rc_x0 b)). pose proof (val_min_l (rc_y0 a) (rc_y0 b)).
  pose proof (val_max_l (rc_x1 a) (rc_x1 b)). pose proof (val_max_l (rc_y1 a) (rc_y1 b)).
  repeat split; lra.
Qed.
Lemma has_union_r a b p : rect_has b p -> rect_has (rect_union a b) p.
Proof.
  unfold rect_has, rect_union; cbn [rc_x0 rc_x1 rc_y0 rc_y1]. intros (A & B & C & D).
  pose proof (val_min_r (rc_x0 a) (rc_x0 b)). pose proof (val_min_r (rc_y0 a) (rc_y0 b)).
  pose proof (val_max_r (rc_x1 a) (rc_x1 b)). pose proof (val_max_r (rc_y1 a) (rc_y1 b)).
  repeat split; lra.
Qed.
Lemma has_points p q : rect_has (rect_points p q) p /\ rect_has (rect_points p q) q.
Proof.
  unfold rect_has, rect_points; cbn [rc_x0 rc_x1 rc_y0 rc_y1].
  repeat split; auto using val_min_l, val_min_r, val_max_l, val_max_r.
Qed.

Lemma bbox_has t r x y : rect_has r (x, y) -> rect_has (transform_rect_bbox t r) (aff_apply t x y).
Proof.
  intros (A & B & C & D); cbn [fst snd] in *. set (R := transform_rect_bbox t r).
  assert (Hc: forall cx cy, (cx = rc_x0 r \/ cx = rc_x1 r) -> (cy = rc_y0 r \/ cy = rc_y1 r) ->
    rect_has R (aff_apply t cx cy)).
  { intros cx cy [->| ->] [->| ->]; unfold R, transform_rect_bbox.
    - apply has_union_l. apply has_points.
    - apply has_union_l. apply has_points.
    - apply has_union_r. apply has_points.
    - apply has_union_r. apply has_points. }
  destruct (corner (af_a t) (af_c t) (af_e t) _ _ _ _ _ _ A B C D) as (xl & yl & xh & yh & U1 & U2 & U3 & U4 & U5 & U6).
  destruct (corner (af_b t) (af_d t) (af_f t) _ _ _ _ _ _ A B C D) as (xl' & yl' & xh' & yh' & V1 & V2 & V3 & V4 & V5 & V6).
  destruct (Hc xl yl U1 U2) as (P1 & _ & _ & _). destruct (Hc xh yh U3 U4) as (_ & P2 & _ & _).
  destruct (Hc xl' yl' V1 V2) as (_ & _ & P3 & _). destruct (Hc xh' yh' V3 V4) as (_ & _ & _ & P4).
  unfold rect_has, aff_apply in *; cbn [fst snd] in *. repeat split; lra.
Qed.

Lemma fold_union_has rs : forall r p, (rect_has r p \/ exists r', In r' rs /\ rect_has r' p) ->
  rect_has (fold_left rect_union rs r) p.
Proof.
  induction rs as [|a rs IH]; intros r p H; cbn [fold_left].
  - destruct H as [H|(r' & [] & _)]. exact H.
  - apply IH. destruct H as [H|(r' & [<-|Hi] & H)].
    + left. now apply has_union_l.
    + left. now apply has_union_r.
    + right. eauto.
Qed.

Lemma rect_box g r x y on : rect_has r (x, y) -> in_box (set_bounds_rect g r) (mk_point (f_as_i16 x) (f_as_i16 y) on).
Proof.
  intros (A & B & C & D); cbn [fst snd] in *. unfold in_box, set_bounds_rect, set_box; cbn [g_xMin g_xMax g_yMin g_yMax pt_x pt_y].
  pose proof (val_min_l (rc_x0 r) (rc_x1 r)). pose proof (val_max_r (rc_x0 r) (rc_x1 r)).
  pose proof (val_min_l (rc_y0 r) (rc_y1 r)). pose proof (val_max_r (rc_y0 r) (rc_y1 r)).
  unfold f_as_i16. repeat split; apply sat_mono, trunc_mono; lra.
Qed.

(** Simple glyphs *)
Lemma fold_min_spec l : forall x, (forall y, In y (x :: l) -> fold_left Z.min l x <= y) /\ In (fold_left Z.min l x) (x :: l).
Proof.
  induction l as [|a l IH]; intros x; cbn [fold_left].
  - split; [intros y [->|[]]; lia|now left].
  - destruct (IH (Z.min x a)) as [H1 H2]. split.
    + intros y [->|[->|H]].
      * specialize (H1 (Z.min y a) (or_introl eq_refl)). lia.
      * specialize (H1 (Z.min x y) (or_introl eq_refl)). lia.
      * apply H1. now right.
    + destruct H2 as [H2|H2]; [|right; now right]. rewrite <- H2. destruct (Z.min_spec x a) as [[_ ->]|[_ ->]]; cbn; auto.
Qed.
Lemma fold_max_spec l : forall x, (forall y, In y (x :: l) -> y <= fold_left Z.max l x) /\ In (fold_left Z.max l x) (x :: l).
Proof.
  induction l as [|a l IH]; intros x; cbn [fold_left].
  - split; [intros y [->|[]]; lia|now left].
  - destruct (IH (Z.max x a)) as [H1 H2]. split.
    + intros y [->|[->|H]].
      * specialize (H1 (Z.max y a) (or_introl eq_refl)). lia.
      * specialize (H1 (Z.max x y) (or_introl eq_refl)). lia.
      * apply H1. now right.
    + destruct H2 as [H2|H2]; [|right; now right]. rewrite <- H2. destruct (Z.max_spec x a) as [[_ ->]|[_ ->]]; cbn; auto.
Qed.
Lemma min_spec l y : In y l -> zmin_list l <= y.
Proof. destruct l; [intros []|]. intros H. exact (proj1 (fold_min_spec _ _) y H). Qed.
Lemma max_spec l y : In y l -> y <= zmax_list l.
Proof. destruct l; [intros []|]. intros H. exact (proj1 (fold_max_spec _ _) y H). Qed.
Lemma min_In l : l <> [] -> In (zmin_list l) l.
Proof. destruct l; [congruence|]. intros _. apply fold_min_spec. Qed.
Lemma max_In l : l <> [] -> In (zmax_list l) l.
Proof. destruct l; [congruence|]. intros _. apply fold_max_spec. Qed.

Lemma simple_bounds_spec g : g_comps g = [] ->
  let g' := simple_bounds g in
  g_contours g' = g_contours g /\ g_comps g' = [] /\
  (forall p, In p (concat (g_contours g)) -> in_box g' p) /\
  (concat (g_contours g) <> [] -> box_touched g' (concat (g_contours g))) /\
  (concat (g_contours g) = [] -> g_xMin g' = 0 /\ g_xMax g' = 0 /\ g_yMin g' = 0 /\ g_yMax g' = 0).
Proof.
  intros Hc. unfold simple_bounds. replace (has_components g) with false by (symmetry; now apply hc_false).
  cbv zeta. set (pts := concat (g_contours g)). unfold set_box; cbn [g_contours g_comps g_xMin g_xMax g_yMin g_yMax].
  split; [reflexivity|]. split; [exact Hc|]. split; [|split].
  - intros p Hp. unfold in_box; cbn [g_xMin g_xMax g_yMin g_yMax].
    split; split; (apply min_spec || apply max_spec); now apply in_map.
  - intros Hne. assert (Hm: forall f : point -> Z, map f pts <> []) by (intros f E; apply Hne; now apply map_eq_nil in E).
    unfold box_touched; cbn [g_xMin g_xMax g_yMin g_yMax].
    pose proof (min_In _ (Hm pt_x)) as A1. pose proof (max_In _ (Hm pt_x)) as A2.
    pose proof (min_In _ (Hm pt_y)) as A3. pose proof (max_In _ (Hm pt_y)) as A4.
    apply in_map_iff in A1 as (p1 & E1 & I1). apply in_map_iff in A2 as (p2 & E2 & I2).
    apply in_map_iff in A3 as (p3 & E3 & I3). apply in_map_iff in A4 as (p4 & E4 & I4).
    repeat split; eauto.
  - intros ->. cbn. auto.
Qed.

(** ** The whole table *)
Lemma simple_bounds_comps g : g_comps (simple_bounds g) = g_comps g /\ g_contours (simple_bounds g) = g_contours g.
Proof. unfold simple_bounds. destruct (has_components g); auto. Qed.

Lemma Forall2_nth_l {A B} (P : A -> B -> Prop) l l' : Forall2 P l l' -> forall i a, nth_error l i = Some a ->
  exists b, nth_error l' i = Some b /\ P a b.
Proof.
  induction 1; intros [|i] a; cbn; try discriminate; auto. intros [= <-]. eauto.
Qed.
Lemma Forall2_nth_r {A B} (P : A -> B -> Prop) l l' : Forall2 P l l' -> forall i b, nth_error l' i = Some b ->
  exists a, nth_error l i = Some a /\ P a b.
Proof.
  induction 1; intros [|i] b; cbn; try discriminate; auto. intros [= <-]. eauto.
Qed.

Lemma composite_bounds_keeps boxes g g' : composite_bounds boxes g = Ok g' ->
  g_comps g' = g_comps g /\ g_contours g' = g_contours g.
Proof.
  unfold composite_bounds. destruct (has_components g); [|intros H; apply Ok_inj in H; now subst].
  destruct (find _ _).
  - destruct (nth_error _ _); [|discriminate]. cbn [unwrap rbind]. intros H; apply Ok_inj in H; now subst.
  - destruct (rmapM _ _) as [[|r rs]| |]; try discriminate. cbn [rbind]. intros H; apply Ok_inj in H; now subst.
Qed.

(** The history of one glyph through the function. *)
Lemma recalc_steps gs gs' : recalc_bounds gs = Ok gs' -> exists gs1,
  flatten_components gs = Ok gs1 /\
  Forall2 (fun g1 g' => composite_bounds (map bounds_rect (map simple_bounds gs1)) (simple_bounds g1) = Ok g') gs1 gs'.
Proof.
  unfold recalc_bounds. destruct (flatten_components gs) as [gs1| |]; try discriminate. cbn [rbind].
  intros H. exists gs1. split; [reflexivity|]. apply rmapM_Forall2 in H.
  remember (map bounds_rect (map simple_bounds gs1)) as boxes. clear Heqboxes.
  remember (map simple_bounds gs1) as gs2. revert gs1 Heqgs2.
  induction H as [|g g' l l' E F IH]; intros gs1 Eq; destruct gs1; try discriminate; constructor.
  - injection Eq as -> _. exact E.
  - injection Eq as _ Eq. auto.
Qed.

Lemma metrics_bit c : contains (cp_flags c) C_METRICS = true <-> my_metrics c.
Proof. unfold my_metrics. change C_METRICS with (2 ^ 9). rewrite contains_bit by lia. reflexivity. Qed.

Lemma recalc_simple gs gs' : recalc_bounds gs = Ok gs' -> forall i g', nth_error gs' i = Some g' ->
  g_comps g' = [] -> let pts := concat (g_contours g') in
  (forall p, In p pts -> in_box g' p) /\ (pts <> [] -> box_touched g' pts) /\
  (pts = [] -> g_xMin g' = 0 /\ g_xMax g' = 0 /\ g_yMin g' = 0 /\ g_yMax g' = 0).
Proof.
  intros H i g' Hi Hc. destruct (recalc_steps _ _ H) as (gs1 & _ & F).
  destruct (Forall2_nth_r _ _ _ F _ _ Hi) as (g1 & H1 & E). cbn beta in E.
  pose proof (composite_bounds_keeps _ _ _ E) as [K1 K2].
  destruct (simple_bounds_comps g1) as [K3 K4]. rewrite K3 in K1. rewrite K4 in K2.
  assert (Hc1: g_comps g1 = []) by congruence.
  unfold composite_bounds in E.
  replace (has_components (simple_bounds g1)) with false in E by (symmetry; apply hc_false; congruence).
  apply Ok_inj in E. subst g'. destruct (simple_bounds_spec g1 Hc1) as (S1 & S2 & S3 & S4 & S5).
  cbv zeta. rewrite S1. auto.
Qed.

Lemma flattened_target gs gs1 : flatten_components gs = Ok gs1 ->
  forall i g1, nth_error gs1 i = Some g1 -> g_comps g1 <> [] ->
  forall c, In c (g_comps g1) -> exists t, target gs1 c t /\ g_comps t = [].
Proof.
  intros H i g1 Hi Hc c Hin. apply flatten_table in H.
  destruct (Forall2_nth_r _ _ _ H _ _ Hi) as (g & Hg & E).
  destruct (has_components g) eqn:Eh; [|subst g1; apply hc_false in Eh; congruence].
  destruct E as (r & E & ->). cbn in Hin. pose proof (flat_at_simple _ _ _ _ E) as Hs.
  rewrite Forall_forall in Hs. destruct (Hs c Hin) as (t & Ht & Hct).
  destruct (Forall2_nth_l _ _ _ H _ _ Ht) as (t' & Ht' & E').
  replace (has_components t) with false in E' by (symmetry; now apply hc_false). subst t'. exists t. auto.
Qed.

Lemma recalc_composite gs gs' : recalc_bounds gs = Ok gs' -> forall i g', nth_error gs' i = Some g' ->
  g_comps g' <> [] -> g_contours g' = [] -> (forall c, In c (g_comps g') -> ~ my_metrics c) ->
  (forall c, In c (g_comps g') -> exists t, target gs' c t /\ g_comps t = []) /\
  forall p, In p (concat (g_contours (decompose g' gs'))) -> in_box g' p.
Proof.
  intros H i g' Hi Hc Hct Hm. destruct (recalc_steps _ _ H) as (gs1 & Hfl & F).
  destruct (Forall2_nth_r _ _ _ F _ _ Hi) as (g1 & H1 & E). cbn beta in E.
  pose proof (composite_bounds_keeps _ _ _ E) as [K1 K2].
  destruct (simple_bounds_comps g1) as [K3 K4]. rewrite K3 in K1. rewrite K4 in K2.
  assert (Hc1: g_comps g1 <> []) by congruence.
  pose proof (flattened_target _ _ Hfl _ _ H1 Hc1) as Htg.
  (* a target keeps its contours and gets its own box *)
  assert (Htg': forall c, In c (g_comps g1) -> exists t t', target gs1 c t /\ g_comps t = [] /\ target gs' c t' /\ t' = simple_bounds t).
  { intros c Hin. destruct (Htg c Hin) as (t & Ht & Hct0).
    destruct (Forall2_nth_l _ _ _ F _ _ Ht) as (t' & Ht' & Et). cbn beta in Et.
    unfold composite_bounds in Et.
    replace (has_components (simple_bounds t)) with false in Et
      by (symmetry; apply hc_false; destruct (simple_bounds_comps t) as [-> _]; exact Hct0).
    apply Ok_inj in Et. exists t, t'. auto. }
  split.
  { intros c Hin. rewrite K1 in Hin. destruct (Htg' c Hin) as (t & t' & _ & A & B & ->).
    exists (simple_bounds t). split; [exact B|]. destruct (simple_bounds_comps t) as [-> _]. exact A. }
  unfold composite_bounds in E.
  replace (has_components (simple_bounds g1)) with true in E by (symmetry; apply hc_true; congruence).
  rewrite K3 in E.
  destruct (find (fun c => contains (cp_flags c) C_METRICS) (g_comps g1)) as [c|] eqn:Ef.
  { apply find_some in Ef as [Hin Hc']. exfalso. apply (Hm c); [congruence|]. now apply metrics_bit. }
  destruct (rmapM _ (g_comps g1)) as [rs| |] eqn:Er; try discriminate. cbn [rbind] in E.
  destruct rs as [|r rs]; [discriminate|]. apply Ok_inj in E.
  apply rmapM_Forall2 in Er.
  intros p Hp. unfold decompose in Hp; cbn [g_contours] in Hp. rewrite Hct in Hp. cbn [app] in Hp.
  rewrite K1 in Hp. apply in_concat in Hp as (ct & Hct1 & Hp).
  apply in_flat_map in Hct1 as (c & Hin & Hct2).
  destruct (Htg' c Hin) as (t & t' & T1 & T2 & T3 & T4). unfold target in T3. rewrite T3 in Hct2.
  apply in_map_iff in Hct2 as (ct0 & <- & Hct3). apply in_map_iff in Hp as (p0 & <- & Hp0).
  rewrite <- E. unfold pt_transform.
  destruct (aff_apply (cp_trans c) (dy_of_Z (pt_x p0)) (dy_of_Z (pt_y p0))) as [x y] eqn:Ea.
  apply rect_box. rewrite <- Ea.
  assert (Hr: exists rc, In rc (r :: rs) /\ rc = transform_rect_bbox (cp_trans c) (bounds_rect t')).
  { apply In_nth_error in Hin as [n Hn]. destruct (Forall2_nth_l _ _ _ Er _ _ Hn) as (rc & Hrc & Erc).
    exists rc. split; [eapply nth_error_In; exact Hrc|].
    rewrite map_map in Erc. unfold target in T1. rewrite (map_nth_error _ _ _ T1) in Erc. cbn [unwrap rbind] in Erc.
    apply Ok_inj in Erc. subst rc t'. reflexivity. }
  destruct Hr as (rc & Hrc & Erc). subst rc. apply fold_union_has.
  assert (Hb: rect_has (transform_rect_bbox (cp_trans c) (bounds_rect t'))
                (aff_apply (cp_trans c) (dy_of_Z (pt_x p0)) (dy_of_Z (pt_y p0)))).
  { apply bbox_has. subst t'. destruct (simple_bounds_spec t T2) as (S1 & _ & S3 & _).
    rewrite S1 in Hct3. destruct (S3 p0) as [[X1 X2] [Y1 Y2]]; [apply in_concat; eauto|].
    unfold rect_has, bounds_rect; cbn [rc_x0 rc_x1 rc_y0 rc_y1 fst snd].
    rewrite !val_int. rewrite <- !Zle_Qle. auto. }
  destruct Hrc as [Hrc|Hrc]; [left; rewrite Hrc; exact Hb|right; eauto].
Qed.

Lemma recalc_total gs : Forall (refs_valid gs) gs -> exists gs', recalc_bounds gs = Ok gs'.
Proof.
  intros Hv. destruct (flatten_components_full gs Hv) as (gs1 & E & _).
  unfold recalc_bounds. rewrite E. cbn [rbind].
  assert (H: forall l, (forall g, In g l -> In g gs1) -> exists l',
    rmapM (composite_bounds (map bounds_rect (map simple_bounds gs1))) (map simple_bounds l) = Ok l').
  { induction l as [|g l IH]; intros Hl; [exists []; reflexivity|].
    destruct IH as [l' El]; [intros; apply Hl; now right|].
    cbn [map rmapM]. rewrite El.
    assert (Hg: exists g', composite_bounds (map bounds_rect (map simple_bounds gs1)) (simple_bounds g) = Ok g').
    { unfold composite_bounds. destruct (has_components (simple_bounds g)) eqn:Eh; [|eauto].
      apply hc_true in Eh. destruct (simple_bounds_comps g) as [Ec _]. rewrite Ec in *.
      destruct (In_nth_error gs1 g (Hl g (or_introl eq_refl))) as [i Hi].
      assert (Ht: forall c, In c (g_comps g) -> exists b,
        nth_error (map bounds_rect (map simple_bounds gs1)) (Z.to_nat (cp_glyph c)) = Some b).
      { intros c Hc. destruct (flattened_target _ _ E _ _ Hi Eh c Hc) as (t & T & _).
        rewrite map_map. unfold target in T. rewrite (map_nth_error _ _ _ T). eauto. }
      destruct (find _ _) as [c|] eqn:Ef.
      - apply find_some in Ef as [Hin _]. destruct (Ht c Hin) as [b ->]. cbn [unwrap rbind]. eauto.
      - assert (Hr: exists rs, rmapM (fun c => b <- unwrap (nth_error (map bounds_rect (map simple_bounds gs1)) (Z.to_nat (cp_glyph c))) ;;
            Ok (transform_rect_bbox (cp_trans c) b)) (g_comps g) = Ok rs /\ length rs = length (g_comps g)).
        { clear - Ht. induction (g_comps g) as [|c cs IH]; [exists []; auto|].
          destruct IH as (rs & Er & El); [intros; apply Ht; now right|].
          destruct (Ht c (or_introl eq_refl)) as [b Eb]. cbn [rmapM]. rewrite Eb. cbn [unwrap rbind]. rewrite Er. cbn [rbind].
          eexists. split; [reflexivity|]. cbn. congruence. }
        destruct Hr as (rs & -> & Hlen). cbn [rbind]. destruct rs; [destruct (g_comps g); [congruence|discriminate]|eauto]. }
    destruct Hg as [g' ->]. cbn [rbind]. eauto. }
  destruct (H gs1 (fun g h => h)) as [l' El]. eauto.
Qed.

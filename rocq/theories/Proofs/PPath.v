(** Proofs about contours and paths. *)
From Coq Require Import QArith.
From Verif.Model Require Import MBase MFixed MFloat MGlyph MGlyf MPath.
From Verif.Spec Require Import SBase SFloat SGlyph SGlyf SPath.
From Verif.Proofs Require Import PBase PFloat PContour.
Local Open Scope Z_scope.

Lemma whole_Z z : is_whole (dy_of_Z z) z.
Proof. unfold is_whole, val, dy_of_Z. cbn. ring. Qed.
Lemma whole_i16 x z : is_whole x z -> fits16 z -> f_as_i16 x = z.
Proof.
  intros H F. unfold f_as_i16. rewrite (trunc_int _ _ H). unfold fits16, in_range in F. cbn in F.
  unfold sat. cbn. lia.
Qed.
Lemma stands_place p : stands (kpt p) (place p).
Proof. unfold stands, place, kpt; cbn [fst snd]. rewrite !(Z.mul_comm 2), !Z.quot_mul by lia. split; apply whole_Z. Qed.
Lemma stands_mid p q m : midpoint p q m -> stands (kpt m) (middle p q).
Proof. intros (_ & X & Y). unfold stands, middle, kpt; cbn [fst snd]. rewrite <- X, <- Y. split; apply whole_Z. Qed.
Lemma kp_eqb_refl p : kp_eqb p p = true.
Proof. unfold kp_eqb. rewrite andb_true_iff. split; apply eqb_iff; reflexivity. Qed.

(** ** From contour to path *)
Section To.
Variable p0 : point.
Hypothesis on0 : pt_on p0 = true.
Definition ending (sg : list point) : bez_path := match sg with a :: _ => [QuadTo (kpt a) (kpt p0)] | [] => [LineTo (kpt p0)] end.
Definition tail_els (sg l : list point) : bez_path := fst (contour_els sg l) ++ ending (snd (contour_els sg l)) ++ [ClosePath].

Lemma tail_on sg q l : pt_on q = true ->
  tail_els sg (q :: l) = match sg ++ [q] with [a] => [LineTo (kpt a)] | [a; b] => [QuadTo (kpt a) (kpt b)] | _ => [] end ++ tail_els [] l.
Proof. intros H. unfold tail_els. cbn. rewrite H. cbn. now rewrite <- app_assoc. Qed.
Lemma tail_off sg q l : pt_on q = false -> tail_els sg (q :: l) = tail_els (sg ++ [q]) l.
Proof. intros H. unfold tail_els. cbn. now rewrite H. Qed.

Lemma els_strokes c r : expansion c r -> forall q c', c = q :: c' -> exists r', r = q :: r' /\
  (pt_on q = true -> exists s, strokes (place q) (c' ++ [p0]) s /\
     Forall2 draws (segs_from (kpt p0) (kpt q) (tail_els [] r')) s) /\
  (pt_on q = false -> forall a x, stands a x -> exists s, strokes x (q :: c' ++ [p0]) s /\
     Forall2 draws (segs_from (kpt p0) a (tail_els [q] r')) s).
Proof.
  induction 1 as [|p|p q c r Hn He IH|p q m c r Hb Hm He IH]; intros q' c' E; [discriminate| | |].
  - injection E as <- <-. exists []. split; [reflexivity|]. split.
    + intros _. eexists. split; [apply strokes_line; [exact on0|apply strokes_end]|].
      cbn. rewrite kp_eqb_refl. repeat constructor; apply stands_place.
    + intros Hp a x Hs. eexists. split; [apply strokes_curve; [exact Hp|exact on0|apply strokes_end]|].
      cbn. rewrite kp_eqb_refl. repeat constructor; try apply stands_place; apply Hs.
  - injection E as <- <-. destruct (IH q c eq_refl) as (r' & -> & A & B). exists (q :: r'). split; [reflexivity|].
    destruct (pt_on q) eqn:Eq.
    + destruct (A eq_refl) as (s & S1 & S2). split.
      * intros _. eexists. split; [apply strokes_line; [exact Eq|exact S1]|].
        rewrite (tail_on _ _ _ Eq). cbn [app segs_from]. constructor; [|exact S2].
        constructor; apply stands_place.
      * intros Hp a x Hs. eexists. split; [apply strokes_curve; [exact Hp|exact Eq|exact S1]|].
        rewrite (tail_on _ _ _ Eq). cbn [app segs_from]. constructor; [|exact S2].
        constructor; try apply stands_place; exact Hs.
    + split.
      * intros Hp. destruct (B eq_refl (kpt p) (place p) (stands_place p)) as (s & S1 & S2). exists s. split; [exact S1|].
        rewrite (tail_off _ _ _ Eq). exact S2.
      * intros Hp. exfalso. apply Hn. now split.
  - injection E as <- <-. destruct Hb as [Hp Hq]. destruct (IH q c eq_refl) as (r' & -> & _ & B). exists (m :: q :: r'). split; [reflexivity|].
    split; [congruence|]. intros _ a x Hs.
    destruct (B Hq (kpt m) (middle p q) (stands_mid _ _ _ Hm)) as (s & S1 & S2).
    eexists. split; [apply strokes_implied; [now split|exact S1]|].
    rewrite (tail_on _ _ _ (proj1 Hm)). cbn [app segs_from]. rewrite (tail_off _ _ _ Hq). constructor; [|exact S2].
    constructor; try apply stands_place; try exact Hs. now apply stands_mid.
Qed.
End To.

(** nothing is left over exactly if the last point is on the curve *)
Lemma els_left d l : forall sg, l <> [] -> snd (contour_els sg l) = [] -> pt_on (last l d) = true.
Proof.
  induction l as [|p l IH]; intros sg Hne E; [congruence|]. destruct l as [|q l].
  - cbn in E |- *. destruct (pt_on p); [reflexivity|]. destruct sg; discriminate.
  - change (last (p :: q :: l) d) with (last (q :: l) d).
    destruct (pt_on p) eqn:Ep; cbn [contour_els] in E; rewrite Ep in E; cbn [snd] in E; now apply IH in E.
Qed.
Lemma to_path_eq c r p0 l : insert_explicit_oncurves c = Ok r -> r = p0 :: l -> pt_on p0 = true ->
  contour_to_path c = Ok (MoveTo (kpt p0) :: tail_els p0 [] l).
Proof.
  intros E -> On. unfold contour_to_path. rewrite E. cbn [rbind]. rewrite On. cbn [andb]. unfold tail_els.
  destruct (snd (contour_els [] l)) as [|a sg] eqn:El; cbn [ending]; [|reflexivity].
  assert (L: pt_on (last (p0 :: l) p0) = true); [|now rewrite L].
  destruct l as [|q l]; [exact On|]. change (last (p0 :: q :: l) p0) with (last (q :: l) p0).
  eapply els_left; [discriminate|exact El].
Qed.
Lemma strokes_det a l s : strokes a l s -> forall s', strokes a l s' -> s' = s.
Proof.
  induction 1 as [a|a p l s Hp _ IH|a c p l s Hc Hp _ IH|a c d l s [Hc Hd] _ IH]; intros s' H'.
  - now inversion H'.
  - inversion H' as [|? ? ? ? ? H''|? ? ? ? ? X|? ? ? ? ? [X _]]; subst; [|congruence|congruence]. f_equal. now apply IH.
  - inversion H' as [|? ? ? ? X|? ? ? ? ? ? ? H''|? ? ? ? ? [_ X]]; subst; [congruence| |congruence]. f_equal. now apply IH.
  - inversion H' as [|? ? ? ? X|? ? ? ? ? ? X|? ? ? ? ? ? H'']; subst; [congruence|congruence|]. f_equal. now apply IH.
Qed.

Lemma outline_full c path : contour_to_path c = Ok path -> forall p, hd_error c = Some p -> pt_on p = true ->
  exists s segs, outline c s /\ (forall s', outline c s' -> s' = s) /\ path_segments path = Ok segs /\ Forall2 draws segs s.
Proof.
  intros E p Hh On. destruct c as [|p' l]; [discriminate|]. injection Hh as ->.
  destruct (insert_explicit_oncurves (p :: l)) as [r| |] eqn:Ei; [|unfold contour_to_path in E; rewrite Ei in E; discriminate..].
  destruct (insert_full (p :: l)) as [_ F]. destruct (F r Ei) as [He _].
  destruct (els_strokes p On _ _ He p l eq_refl) as (r' & -> & A & _).
  rewrite (to_path_eq _ _ _ _ Ei eq_refl On) in E. apply Ok_inj in E. subst path.
  destruct (A On) as (s & S1 & S2). exists s. eexists. split; [now exists p, l|]. split; [|split; [reflexivity|exact S2]].
  intros s' (p' & l' & E' & _ & S'). injection E' as <- <-. eapply strokes_det; eauto.
Qed.
Lemma converts c : (exists path, contour_to_path c = Ok path) <-> c <> [] /\ sums_fit c.
Proof.
  destruct (insert_full c) as [I F]. rewrite <- I. split.
  - intros [path E]. unfold contour_to_path in E. destruct (insert_explicit_oncurves c) as [r| |]; [eauto|discriminate..].
  - intros [r E]. unfold contour_to_path. rewrite E. cbn [rbind]. destruct r as [|p r]; [|eauto].
    exfalso. destruct (F _ E) as [He _]. inversion He; subst. discriminate.
Qed.

(** ** From path to contour *)
Section Back.
Variable tq : kpoint -> kpoint -> kpoint -> kpoint -> list (kpoint * kpoint).

Lemma spot_place b p : spot16 p -> stands p (place (gpt b p)).
Proof.
  intros (x & y & X & Y & Fx & Fy). unfold stands, place, gpt; cbn [fst snd pt_x pt_y].
  rewrite (whole_i16 _ _ X Fx), (whole_i16 _ _ Y Fy), !(Z.mul_comm 2), !Z.quot_mul by lia. now split.
Qed.
Lemma segs_strokes l : forall start last, unbroken l -> spot16 last -> Forall plain_seg (segs_from start last l) ->
  exists s, strokes (place (gpt true last)) (concat (map (seg_points tq) (segs_from start last l))) s /\
    Forall2 draws (segs_from start last l) s.
Proof.
  induction l as [|el l IH]; intros start lst U L H; [cbn; eexists; split; constructor|].
  assert (U': unbroken l) by (intros q Hq; apply (U q); now right).
  destruct el as [p|p|c p|c d p|]; cbn [segs_from] in H |- *.
  - exfalso. apply (U p). now left.
  - inversion H as [|? ? Hab H']; subst. destruct Hab as [Ha Hb]. destruct (IH start p U' Hb H') as (s & S1 & S2).
    eexists. split; [cbn; apply strokes_line; [reflexivity|exact S1]|]. constructor; [|exact S2].
    constructor; apply spot_place; assumption.
  - inversion H as [|? ? Hab H']; subst. destruct Hab as (Ha & Hc & Hb). destruct (IH start p U' Hb H') as (s & S1 & S2).
    eexists. split; [cbn; apply strokes_curve; [reflexivity|reflexivity|exact S1]|]. constructor; [|exact S2].
    constructor; apply spot_place; assumption.
  - inversion H as [|? ? Hf H']; subst. destruct Hf.
  - destruct (kp_eqb lst start); [now apply IH|]. inversion H as [|? ? Hab H']; subst. destruct Hab as [Ha Hb].
    destruct (IH start start U' Hb H') as (s & S1 & S2).
    eexists. split; [cbn; apply strokes_line; [reflexivity|exact S1]|]. constructor; [|exact S2].
    constructor; apply spot_place; assumption.
Qed.

Lemma middle_comm p q : middle p q = middle q p.
Proof. unfold middle. f_equal; lia. Qed.
Lemma strokes_rev a l s : strokes a l s ->
  (forall q acc us, a = place q -> pt_on q = true -> strokes a acc us ->
     exists q' l', rev l ++ q :: acc = q' :: l' /\ pt_on q' = true /\ strokes (place q') l' (backwards s ++ us)) /\
  (forall c d l0 acc us, a = middle c d -> pt_on c = false -> l = d :: l0 -> pt_on d = false -> strokes a (c :: acc) us ->
     exists q' l', rev l ++ c :: acc = q' :: l' /\ pt_on q' = true /\ strokes (place q') l' (backwards s ++ us)).
Proof.
  induction 1 as [a|a p l s Hp HS [IHA _]|a c p l s Hc Hp HS [IHA _]|a c d l s [Hc Hd] HS [_ IHB]].
  - split; [|discriminate]. intros q acc us -> Hq K. exists q, acc. auto.
  - split; [|intros c d l0 acc us _ _ E Hd; injection E as <- <-; congruence].
    intros q acc us -> Hq K.
    destruct (IHA p (q :: acc) (Straight (place p) (place q) :: us) eq_refl Hp) as (q' & l' & E & On & R).
    { now apply strokes_line. }
    exists q', l'. split; [rewrite <- E; cbn; now rewrite <- app_assoc|]. split; [exact On|].
    unfold backwards in *. cbn. now rewrite <- app_assoc.
  - split.
    + intros q acc us -> Hq K.
      destruct (IHA p (c :: q :: acc) (Bent (place p) (place c) (place q) :: us) eq_refl Hp) as (q' & l' & E & On & R).
      { now apply strokes_curve. }
      exists q', l'. split; [rewrite <- E; cbn; now rewrite <- !app_assoc|]. split; [exact On|].
      unfold backwards in *. cbn. now rewrite <- app_assoc.
    + intros c1 d l0 acc us -> Hc1 E0 _ K. injection E0 as <- <-.
      destruct (IHA p (c :: c1 :: acc) (Bent (place p) (place c) (middle c1 c) :: us) eq_refl Hp) as (q' & l' & E & On & R).
      { rewrite middle_comm. apply strokes_implied; [now split|]. now rewrite middle_comm. }
      exists q', l'. split; [rewrite <- E; cbn; now rewrite <- !app_assoc|]. split; [exact On|].
      unfold backwards in *. cbn. now rewrite <- app_assoc.
  - split.
    + intros q acc us -> Hq K.
      destruct (IHB c d l (q :: acc) (Bent (middle c d) (place c) (place q) :: us) eq_refl Hc eq_refl Hd) as (q' & l' & E & On & R).
      { now apply strokes_curve. }
      exists q', l'. split; [rewrite <- E; cbn; now rewrite <- !app_assoc|]. split; [exact On|].
      unfold backwards in *. cbn. now rewrite <- app_assoc.
    + intros c1 d1 l0 acc us -> Hc1 E0 _ K. injection E0 as <- <-.
      destruct (IHB c d l (c1 :: acc) (Bent (middle c d) (place c) (middle c1 c) :: us) eq_refl Hc eq_refl Hd) as (q' & l' & E & On & R).
      { rewrite (middle_comm c1). apply strokes_implied; [now split|]. now rewrite middle_comm. }
      exists q', l'. split; [rewrite <- E; cbn; now rewrite <- !app_assoc|]. split; [exact On|].
      unfold backwards in *. cbn. now rewrite <- app_assoc.
Qed.

Lemma back_full p rest segs : unbroken rest -> path_segments (MoveTo p :: rest) = Ok segs -> spot16 p -> Forall plain_seg segs ->
  exists q l s, path_to_contour tq (MoveTo p :: rest) = Ok (q :: l) /\ pt_on q = true /\
    strokes (place q) l (backwards s) /\ Forall2 draws segs s.
Proof.
  intros U E Hp H. cbn in E. apply Ok_inj in E. subst segs.
  destruct (segs_strokes rest p p U Hp H) as (s & S1 & S2).
  destruct (strokes_rev _ _ _ S1) as [A _].
  destruct (A (gpt true p) [] [] eq_refl eq_refl (strokes_end _)) as (q & l & Er & On & R).
  exists q, l, s. split; [|split; [exact On|split; [|exact S2]]].
  - cbn. f_equal. exact Er.
  - now rewrite app_nil_r in R.
Qed.

(** ** There and back *)
Lemma gpt_kpt p b : point_ok p -> gpt b (kpt p) = mk_point (pt_x p) (pt_y p) b.
Proof. intros [X Y]. unfold gpt, kpt; cbn. f_equal; (apply whole_i16; [apply whole_Z|]); [exact X|exact Y]. Qed.
Lemma gpt_same p : point_ok p -> gpt (pt_on p) (kpt p) = p.
Proof. intros H. rewrite gpt_kpt by exact H. now destruct p. Qed.
Lemma els_points p0 l : pt_on p0 = true -> point_ok p0 -> forall sg lst, Forall point_ok (sg ++ l) ->
  (forall p q, neighbours (sg ++ l) p q -> ~ both_off p q) -> (length sg <= 1)%nat -> Forall (fun p => pt_on p = false) sg ->
  concat (map (seg_points tq) (segs_from (kpt p0) lst (tail_els p0 sg l))) = sg ++ l ++ [p0].
Proof.
  intros On Ok0. induction l as [|p l IH]; intros sg lst Ho Hn Hl Hs.
  - unfold tail_els. cbn [contour_els fst snd app]. destruct sg as [|a [|b sg]]; [| |cbn in Hl; lia].
    + cbn. rewrite kp_eqb_refl. cbn. pose proof (gpt_same p0 Ok0) as G. rewrite On in G. now rewrite G.
    + cbn. rewrite kp_eqb_refl. cbn. pose proof (gpt_same p0 Ok0) as G. rewrite On in G. rewrite G.
      inversion Hs as [|? ? Ha _]; subst. inversion Ho as [|? ? Oa _]; subst. pose proof (gpt_same a Oa) as Ga. rewrite Ha in Ga. now rewrite Ga.
  - destruct (pt_on p) eqn:Ep.
    + rewrite tail_on by exact Ep. destruct sg as [|a [|b sg]]; [| |cbn in Hl; lia]; cbn [app segs_from map concat seg_points].
      * inversion Ho as [|? ? Op Ho']; subst. pose proof (gpt_same p Op) as G. rewrite Ep in G. rewrite G.
        rewrite IH; [reflexivity|exact Ho'| |cbn; lia|constructor].
        intros x y (l1 & l2 & El). apply Hn. exists (p :: l1), l2. cbn in El |- *. now rewrite El.
      * inversion Ho as [|? ? Oa Ho']; subst. inversion Ho' as [|? ? Op Ho'']; subst.
        inversion Hs as [|? ? Ha _]; subst. pose proof (gpt_same p Op) as G. rewrite Ep in G. rewrite G.
        pose proof (gpt_same a Oa) as Ga. rewrite Ha in Ga. rewrite Ga.
        rewrite IH; [reflexivity|exact Ho''| |cbn; lia|constructor].
        intros x y (l1 & l2 & El). apply Hn. exists (a :: p :: l1), l2. cbn in El |- *. now rewrite El.
    + rewrite tail_off by exact Ep. destruct sg as [|a sg].
      * cbn [app]. rewrite IH; [reflexivity|exact Ho|exact Hn|cbn; lia|now repeat constructor].
      * exfalso. destruct sg; [|cbn in Hl; lia]. apply (Hn a p); [now exists [], l|]. inversion Hs; subst. now split.
Qed.
Lemma expansion_ok c r : expansion c r -> Forall point_ok c -> Forall point_ok r.
Proof.
  induction 1 as [|p|p q c r Hn He IH|p q m c r Hb Hm He IH]; intros H; [exact H|exact H| |].
  - inversion H; subst. constructor; auto.
  - inversion H as [|? ? Hp H']; subst. inversion H' as [|? ? Hq _]; subst. constructor; [exact Hp|]. constructor; [|auto].
    destruct Hm as (_ & X & Y), Hp as [Px Py], Hq as [Qx Qy]. unfold point_ok, in_range in *; cbn in *. rewrite X, Y.
    Z.quot_rem_to_equations. lia.
Qed.
Lemma round_trip c path p : contour_to_path c = Ok path -> hd_error c = Some p -> pt_on p = true -> Forall point_ok c ->
  exists r, expansion c r /\ path_to_contour tq path = Ok (rev (r ++ [p])).
Proof.
  intros E Hh On Hok. destruct c as [|p' l]; [discriminate|]. injection Hh as ->.
  destruct (insert_explicit_oncurves (p :: l)) as [r| |] eqn:Ei; [|unfold contour_to_path in E; rewrite Ei in E; discriminate..].
  destruct (insert_full (p :: l)) as [_ F]. destruct (F r Ei) as [He Hn].
  destruct (els_strokes p On _ _ He p l eq_refl) as (r' & -> & _).
  rewrite (to_path_eq _ _ _ _ Ei eq_refl On) in E. apply Ok_inj in E. subst path.
  exists (p :: r'). split; [exact He|].
  pose proof (expansion_ok _ _ He Hok) as Hr. inversion Hr as [|? ? Op Hr']; subst.
  unfold path_to_contour. cbn [path_segments rbind segs_from].
  rewrite (els_points p r' On Op [] (kpt p)); cbn [app]; [|exact Hr'| |cbn; lia|constructor].
  - pose proof (gpt_same p Op) as G. rewrite On in G. now rewrite G.
  - intros x y (l1 & l2 & El). apply Hn. exists (p :: l1), l2. cbn. now rewrite El.
Qed.
End Back.

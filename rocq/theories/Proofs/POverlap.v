(** Proofs about ttf-remove-overlap. *)
From Coq Require Import QArith.
From Verif.Model Require Import MBase MTag MMap MFont MFixed MFloat MTables MMetrics MGlyph MGlyf MStore MPost MCmap MCli MPath MCrunch MOverlap.
From Verif.Spec Require Import SBase SFont SFloat SGlyph SGlyf SStore SCmapTable SCli SPath SOverlap.
From Verif.Proofs Require Import PBase PFloat PContour PPath PStore PSave PCli PCrunchTool.
Local Open Scope Z_scope.

(** ** From contours to a path *)
Section To.
Variable p0 : point.
Hypothesis on0 : pt_on p0 = true.
Definition ending_sk (sg : list point) : list sk_el := match sg with a :: _ => [SkQuad (kpt a) (kpt p0)] | [] => [] end.
Definition tail_sk (sg l : list point) : list sk_el := fst (overlap_els sg l) ++ ending_sk (snd (overlap_els sg l)) ++ [SkClose].
Lemma tsk_on sg q l : pt_on q = true ->
  tail_sk sg (q :: l) = match sg ++ [q] with [a] => [SkLine (kpt a)] | [a; b] => [SkQuad (kpt a) (kpt b)] | [a; b; c] => [SkCubic (kpt a) (kpt b) (kpt c)] | _ => [] end ++ tail_sk [] l.
Proof. intros H. unfold tail_sk. cbn. rewrite H. cbn. now rewrite <- app_assoc. Qed.
Lemma tsk_off sg q l : pt_on q = false -> tail_sk sg (q :: l) = tail_sk (sg ++ [q]) l.
Proof. intros H. unfold tail_sk. cbn. now rewrite H. Qed.

Definition drawn_as (a : kpoint) (els : list sk_el) (s : list stroke) : Prop :=
  exists segs s', rounds (kpt p0) a els segs /\ Forall2 draws segs s' /\ closed_as s s'.
Lemma as_cons a el els seg s t : (forall b segs, rounds (kpt p0) b els segs -> True) -> draws seg t ->
  (forall segs, rounds (kpt p0) match el with SkLine p | SkQuad _ p => p | _ => a end els segs -> rounds (kpt p0) a (el :: els) (seg :: segs)) ->
  drawn_as match el with SkLine p | SkQuad _ p => p | _ => a end els s -> drawn_as a (el :: els) (t :: s).
Proof.
  intros _ D R (segs & s' & A & B & C). exists (seg :: segs), (t :: s'). split; [now apply R|]. split; [now constructor|].
  destruct C as [->|[x ->]]; [now left|right; now exists x].
Qed.
Lemma as_line a q els s x : stands a x -> drawn_as (kpt q) els s -> drawn_as a (SkLine (kpt q) :: els) (Straight x (place q) :: s).
Proof.
  intros Hs H. apply (as_cons a (SkLine (kpt q)) els (SegLine a (kpt q)) s); [easy| |intros; now constructor|exact H].
  constructor; [exact Hs|apply stands_place].
Qed.
Lemma as_quad a c q els s x z y : stands a x -> stands (kpt c) z -> stands (kpt q) y -> drawn_as (kpt q) els s ->
  drawn_as a (SkQuad (kpt c) (kpt q) :: els) (Bent x z y :: s).
Proof.
  intros Hs Hz Hy H. apply (as_cons a (SkQuad (kpt c) (kpt q)) els (SegQuad a (kpt c) (kpt q)) s); [easy| |intros; now constructor|exact H].
  now constructor.
Qed.

Lemma sk_strokes c r : expansion c r -> forall q c', c = q :: c' -> exists r', r = q :: r' /\
  (pt_on q = true -> exists s, strokes (place q) (c' ++ [p0]) s /\ drawn_as (kpt q) (tail_sk [] r') s) /\
  (pt_on q = false -> forall a x, stands a x -> exists s, strokes x (q :: c' ++ [p0]) s /\ drawn_as a (tail_sk [q] r') s).
Proof.
  induction 1 as [|p|p q c r Hn He IH|p q m c r Hb Hm He IH]; intros q' c' E; [discriminate| | |].
  - injection E as <- <-. exists []. split; [reflexivity|]. split.
    + intros _. eexists. split; [apply strokes_line; [exact on0|apply strokes_end]|].
      eexists. eexists. split; [apply rounds_close|]. split; [|now left]. repeat constructor; apply stands_place.
    + intros Hp a x Hs. eexists. split; [apply strokes_curve; [exact Hp|exact on0|apply strokes_end]|].
      unfold tail_sk. cbn. apply as_quad; [exact Hs|apply stands_place..|].
      exists [SegLine (kpt p0) (kpt p0)], [Straight (place p0) (place p0)]. split; [apply rounds_close|].
      split; [repeat constructor; apply stands_place|]. right. now exists (place p0).
  - injection E as <- <-. destruct (IH q c eq_refl) as (r' & -> & A & B). exists (q :: r'). split; [reflexivity|].
    destruct (pt_on q) eqn:Eq.
    + destruct (A eq_refl) as (s & S1 & S2). split.
      * intros _. eexists. split; [apply strokes_line; [exact Eq|exact S1]|].
        rewrite (tsk_on _ _ _ Eq). cbn [app]. apply as_line; [apply stands_place|exact S2].
      * intros Hp a x Hs. eexists. split; [apply strokes_curve; [exact Hp|exact Eq|exact S1]|].
        rewrite (tsk_on _ _ _ Eq). cbn [app]. apply as_quad; [exact Hs|apply stands_place..|exact S2].
    + split.
      * intros Hp. destruct (B eq_refl (kpt p) (place p) (stands_place p)) as (s & S1 & S2). exists s. split; [exact S1|].
        rewrite (tsk_off _ _ _ Eq). exact S2.
      * intros Hp. exfalso. apply Hn. now split.
  - injection E as <- <-. destruct Hb as [Hp Hq]. destruct (IH q c eq_refl) as (r' & -> & _ & B). exists (m :: q :: r'). split; [reflexivity|].
    split; [congruence|]. intros _ a x Hs.
    destruct (B Hq (kpt m) (middle p q) (stands_mid _ _ _ Hm)) as (s & S1 & S2).
    eexists. split; [apply strokes_implied; [now split|exact S1]|].
    rewrite (tsk_on _ _ _ (proj1 Hm)). cbn [app]. rewrite (tsk_off _ _ _ Hq).
    apply as_quad; [exact Hs|apply stands_place|now apply stands_mid|exact S2].
Qed.
End To.

Lemma contour_picture c r els : insert_explicit_oncurves c = Ok r -> contour_sk r = Ok els -> starts_on c ->
  exists p l segs, els = SkMove p :: l /\ rounds p p l segs /\ outlined c segs.
Proof.
  intros Ei Es (p & Hh & On). destruct c as [|p' l]; [discriminate|]. injection Hh as ->.
  destruct (insert_full (p :: l)) as [_ F]. destruct (F r Ei) as [He _].
  destruct (sk_strokes p On _ _ He p l eq_refl) as (r' & -> & A & _). cbn [contour_sk] in Es. apply Ok_inj in Es.
  destruct (A On) as (s & S1 & segs & s' & R & D & C). exists (kpt p), (tail_sk p [] r'), segs.
  split; [symmetry; exact Es|]. split; [exact R|]. exists s, s'. split; [now exists p, l|]. now split.
Qed.
Lemma glyph_pictures cs : forall cs' els, rmapM insert_explicit_oncurves cs = Ok cs' -> rmapM contour_sk cs' = Ok els -> Forall starts_on cs ->
  exists ss, pictures (concat els) ss /\ Forall2 outlined cs ss.
Proof.
  induction cs as [|c cs IH]; intros cs' els E1 E2 H; apply mapM_iff in E1; inversion E1 as [|? r ? cs1 X1 X2]; subst;
    apply mapM_iff in E2; inversion E2 as [|? e ? els1 Y1 Y2]; subst; [exists []; split; constructor|].
  inversion H as [|? ? H1 H2]; subst.
  destruct (IH cs1 els1 (proj2 (mapM_iff _ _ _) X2) (proj2 (mapM_iff _ _ _) Y2) H2) as (ss & P & F).
  destruct (contour_picture c r e X1 Y1 H1) as (p & l & segs & -> & R & D).
  exists (segs :: ss). split; [cbn [concat app]; now apply pictures_more|now constructor].
Qed.
Lemma contour_sk_total r : r <> [] -> exists els, contour_sk r = Ok els.
Proof. destruct r; [congruence|]. intros _. eexists. reflexivity. Qed.

(** ** From a path to contours *)
Lemma take_total n : forall pts, (n <= length pts)%nat -> exists ps, take_points n pts = Ok (ps, skipn n pts).
Proof.
  induction n as [|n IH]; intros pts H; [exists []; reflexivity|]. destruct pts as [|q pts]; [cbn in H; lia|]. cbn in H.
  destruct (IH pts ltac:(lia)) as (ps & E). cbn [take_points]. rewrite E. cbn. eauto.
Qed.
Lemma loop_total path : forall pts acc g, (length (concat (map sk_points path)) <= length pts)%nat ->
  exists r, skia_loop (map sk_verb path) pts acc g = Ok r.
Proof.
  induction path as [|e path IH]; intros pts acc g H; [cbn; eauto|]. cbn [map concat] in H. rewrite app_length in H.
  cbn [map skia_loop]. destruct (sk_verb e >? 4) eqn:Ev; [apply IH; lia|].
  destruct (take_total (if sk_verb e <? 2 then 1%nat else 2%nat) pts) as (ps & E).
  { destruct e; cbn in *; lia. }
  rewrite E. cbn [rbind snd fst]. apply IH. rewrite skipn_length. destruct e; cbn in *; lia.
Qed.
Lemma back_total path : exists r, skia_to_glyf path = Ok r.
Proof. apply loop_total. lia. Qed.

Lemma loop_sub s : simple_els s -> forall l acc g,
  skia_loop (map sk_verb (s ++ l)) (concat (map sk_points (s ++ l))) acc g =
  skia_loop (map sk_verb l) (concat (map sk_points l)) (acc ++ concat (map dots s)) g.
Proof.
  induction 1 as [|e s [N1 N2] _ IH]; intros l acc g; cbn [app map concat]; [now rewrite app_nil_r|].
  rewrite app_assoc, <- IH. destruct e as [p|p|c p|c p|c d p|]; cbn; try reflexivity; [exfalso; apply N2; now exists c, d, p|now elim N1].
Qed.
Lemma points_full subs tail : Forall simple_els subs -> simple_els tail ->
  skia_to_glyf (concat (map (fun s => s ++ [SkClose]) subs) ++ tail) = Ok (map (fun s => rev (concat (map dots s))) subs).
Proof.
  intros H Ht. unfold skia_to_glyf.
  assert (G: forall g, skia_loop (map sk_verb (concat (map (fun s => s ++ [SkClose]) subs) ++ tail))
    (concat (map sk_points (concat (map (fun s => s ++ [SkClose]) subs) ++ tail))) [] g = Ok (g ++ map (fun s => rev (concat (map dots s))) subs)).
  { induction H as [|s subs Hs _ IH]; intros g.
    - cbn [map concat app]. rewrite <- (app_nil_r tail), loop_sub by exact Ht. cbn. now rewrite app_nil_r.
    - cbn [map concat]. rewrite <- !app_assoc, loop_sub by exact Hs. cbn [app].
      change (map sk_verb (SkClose :: ?x)) with (5 :: map sk_verb x). change (concat (map sk_points (SkClose :: ?x))) with (concat (map sk_points x)).
      cbn [skia_loop Z.gtb Z.compare Pos.compare Pos.compare_cont]. rewrite IH, <- app_assoc. reflexivity. }
  apply (G []).
Qed.

Definition spot_at := spot_place (fun _ _ _ _ => []).
Lemma last_cons {A} (x : A) l d : last (x :: l) d = last l x.
Proof. revert x d. induction l as [|y l IH]; intros x d; [reflexivity|]. change (last (x :: y :: l) d) with (last (y :: l) d). now rewrite !IH. Qed.

Lemma rounds_back start a l segs : rounds start a l segs ->
  exists l0, l = l0 ++ [SkClose] /\ simple_els l0 /\
    (Forall plain_seg segs -> spot16 start /\ spot16 a /\
     exists s, strokes (place (gpt true a)) (concat (map dots l0)) s /\
       pt_on (last (concat (map dots l0)) (gpt true a)) = true /\
       Forall2 draws segs (s ++ [Straight (place (last (concat (map dots l0)) (gpt true a))) (place (gpt true start))])).
Proof.
  induction 1 as [a|a p l s _ (l0 & -> & Q & IH)|a c p l s _ (l0 & -> & Q & IH)].
  - exists []. split; [reflexivity|]. split; [constructor|]. intros H. inversion H as [|? ? Hx _]; subst. destruct Hx as [Ha Hs]. split; [exact Hs|]. split; [exact Ha|].
    exists []. split; [constructor|]. split; [reflexivity|]. cbn [map concat last app]. constructor; [|constructor]. apply draws_line; apply spot_at; assumption.
  - exists (SkLine p :: l0). split; [reflexivity|]. split; [constructor; [split; [discriminate|intros (? & ? & ? & X); discriminate]|exact Q]|].
    intros H. inversion H as [|? ? Hx H']; subst. destruct Hx as [Ha Hp]. destruct (IH H') as (Hs & _ & s' & S1 & S2 & S3). split; [exact Hs|]. split; [exact Ha|].
    exists (Straight (place (gpt true a)) (place (gpt true p)) :: s'). cbn [map concat dots app]. rewrite last_cons.
    split; [now apply strokes_line|]. split; [exact S2|]. cbn [app]. constructor; [|exact S3]. constructor; apply spot_at; assumption.
  - exists (SkQuad c p :: l0). split; [reflexivity|]. split; [constructor; [split; [discriminate|intros (? & ? & ? & X); discriminate]|exact Q]|].
    intros H. inversion H as [|? ? Hx H']; subst. destruct Hx as (Ha & Hc & Hp). destruct (IH H') as (Hs & _ & s' & S1 & S2 & S3). split; [exact Hs|]. split; [exact Ha|].
    exists (Bent (place (gpt true a)) (place (gpt false c)) (place (gpt true p)) :: s'). cbn [map concat dots app]. rewrite !last_cons.
    split; [now apply strokes_curve|]. split; [exact S2|]. cbn [app]. constructor; [|exact S3]. constructor; apply spot_at; assumption.
Qed.
Lemma hd_rev {A} (q : A) l : exists l', rev (q :: l) = last l q :: l'.
Proof.
  revert q. induction l as [|x l IH]; intros q; [now exists []|]. rewrite last_cons. destruct (IH x) as (l' & E).
  cbn [rev] in E |- *. rewrite E. now exists (l' ++ [q]).
Qed.
Lemma contour_back q l s qe : pt_on q = true -> qe = last l q -> pt_on qe = true -> strokes (place q) l s ->
  outline (rev (q :: l)) (backwards s ++ [Straight (place q) (place qe)]).
Proof.
  intros Hq Eq Hqe Hs. destruct (hd_rev q l) as (l' & E). rewrite <- Eq in E. exists qe, l'. split; [exact E|]. split; [exact Hqe|].
  destruct (strokes_rev _ _ _ Hs) as [A _].
  destruct (A q [qe] [Straight (place q) (place qe)] eq_refl Hq) as (q' & l2 & E2 & _ & R).
  { apply strokes_line; [exact Hqe|constructor]. }
  assert (X: rev l ++ q :: [qe] = (qe :: l') ++ [qe]) by (rewrite <- E; cbn [rev]; now rewrite <- app_assoc).
  rewrite E2 in X. cbn [app] in X. injection X as -> ->. exact R.
Qed.
Lemma pictures_back path ss : pictures path ss ->
  exists subs, path = concat (map (fun s => s ++ [SkClose]) subs) /\ Forall simple_els subs /\
    (Forall (Forall plain_seg) ss -> Forall2 (fun segs sub => redraws segs (rev (concat (map dots sub)))) ss subs).
Proof.
  induction 1 as [|p l s rest ss R _ (subs & -> & Q & F)].
  - exists []. split; [reflexivity|]. split; constructor.
  - destruct (rounds_back _ _ _ _ R) as (l0 & -> & Q0 & B). exists ((SkMove p :: l0) :: subs).
    split; [cbn [map concat app]; reflexivity|]. split.
    + constructor; [|exact Q]. constructor; [|exact Q0]. split; [discriminate|intros (? & ? & ? & X); discriminate].
    + intros H. inversion H as [|? ? H1 H2]; subst. constructor; [|now apply F].
      destruct (B H1) as (_ & _ & st & S1 & S2 & S3). cbn [map concat dots app].
      exists (st ++ [Straight (place (last (concat (map dots l0)) (gpt true p))) (place (gpt true p))]). eexists. split; [exact S3|]. split.
      * apply contour_back; [reflexivity|reflexivity|exact S2|exact S1].
      * exists [Straight (place (gpt true p)) (place (last (concat (map dots l0)) (gpt true p)))], (backwards st).
        split; [|reflexivity]. unfold backwards. now rewrite map_app, rev_app_distr.
Qed.
Lemma drawn_back path ss : pictures path ss -> Forall (Forall plain_seg) ss ->
  exists cs, skia_to_glyf path = Ok cs /\ Forall2 redraws ss cs.
Proof.
  intros P H. destruct (pictures_back path ss P) as (subs & -> & Q & F). exists (map (fun s => rev (concat (map dots s))) subs). split.
  - rewrite <- (points_full subs [] Q (Forall_nil _)). now rewrite app_nil_r.
  - specialize (F H). clear - F. induction F; constructor; assumption.
Qed.

(** ** Glyphs *)
Section Glyphs.
Variable simplify : list sk_el -> option (list sk_el).
Lemma left_alone g : g_comps g <> [] \/ g_contours g = [] -> remove_overlap simplify g = Ok g.
Proof. unfold remove_overlap. intros [H|H]; [destruct (g_comps g); [congruence|reflexivity]|rewrite H; destruct (g_comps g); reflexivity]. Qed.
Lemma sk_total cs cs' : Forall2 (fun c r => insert_explicit_oncurves c = Ok r) cs cs' -> exists els, rmapM contour_sk cs' = Ok els.
Proof.
  induction 1 as [|c r cs cs' E _ (els & IH)]; [exists []; reflexivity|].
  destruct (contour_sk_total r) as (e & Ee).
  { intros ->. destruct (insert_full c) as [_ F]. destruct (F _ E) as [He _]. inversion He; subst. discriminate. }
  exists (e :: els). cbn. rewrite Ee. cbn. now rewrite IH.
Qed.
Lemma works_iff g : (exists g', remove_overlap simplify g = Ok g') <->
  g_comps g <> [] \/ Forall (fun c => c <> [] /\ sums_fit c) (g_contours g).
Proof.
  split.
  - intros [g' E]. unfold remove_overlap in E. destruct (g_comps g); [|left; discriminate]. right.
    destruct (g_contours g) as [|c cs]; [constructor|]. unfold glyph_insert_oncurves in E.
    destruct (rmapM insert_explicit_oncurves (c :: cs)) as [cs'| |] eqn:Ei; try discriminate. apply mapM_iff in Ei. clear E.
    induction Ei as [|a b l l' H _ IH]; constructor; [|exact IH]. destruct (insert_full a) as [I _]. apply I. eauto.
  - intros [H|H]; [eexists; apply left_alone; now left|].
    unfold remove_overlap. destruct (g_comps g); [|eauto]. destruct (g_contours g) as [|c cs]; [eauto|]. unfold glyph_insert_oncurves.
    assert (exists cs', rmapM insert_explicit_oncurves (c :: cs) = Ok cs') as (cs' & Ei).
    { revert H. generalize (c :: cs). induction 1 as [|a l H _ (l' & IH)]; [exists []; reflexivity|].
      destruct (insert_full a) as [I _]. destruct (proj2 I H) as (r & Er). exists (r :: l'). cbn. rewrite Er. cbn. now rewrite IH. }
    rewrite Ei. cbn [rbind]. destruct (sk_total _ _ (proj1 (mapM_iff _ _ _) Ei)) as (els & Es). rewrite Es. cbn [rbind].
    destruct (simplify (concat els)) as [q|]; [|eauto]. destruct (back_total q) as (r & ->). cbn. eauto.
Qed.
Lemma redrawn_set g cs : redrawn g (set_contours g cs) cs.
Proof. unfold redrawn, set_contours. cbn. tauto. Qed.
Lemma glyph_result g g' : remove_overlap simplify g = Ok g' -> g_comps g = [] -> g_contours g <> [] ->
  exists path cs, redrawn g g' cs /\
    (Forall starts_on (g_contours g) -> exists ss, pictures path ss /\ Forall2 outlined (g_contours g) ss) /\
    match simplify path with
    | Some q => skia_to_glyf q = Ok cs
    | None => Forall2 expansion (g_contours g) cs
    end.
Proof.
  intros E Hc Hn. unfold remove_overlap in E. rewrite Hc in E. destruct (g_contours g) as [|c cs0] eqn:Eg; [congruence|]. clear Hn.
  unfold glyph_insert_oncurves in E. destruct (rmapM insert_explicit_oncurves (c :: cs0)) as [cs'| |] eqn:Ei; try discriminate. cbn [rbind] in E.
  destruct (rmapM contour_sk cs') as [els| |] eqn:Es; try discriminate. cbn [rbind] in E.
  assert (P: Forall starts_on (c :: cs0) -> exists ss, pictures (concat els) ss /\ Forall2 outlined (c :: cs0) ss) by (intros H; eapply glyph_pictures; eauto).
  destruct (simplify (concat els)) as [q|] eqn:Eq.
  - destruct (skia_to_glyf q) as [r| |] eqn:Er; try discriminate. cbn [rbind] in E. apply Ok_inj in E. subst g'.
    exists (concat els), r. split; [apply redrawn_set|]. split; [exact P|]. now rewrite Eq.
  - apply Ok_inj in E. subst g'. exists (concat els), cs'. split; [apply redrawn_set|]. split; [exact P|]. rewrite Eq.
    apply mapM_iff in Ei. clear - Ei. induction Ei as [|a b l l' H _ IH]; constructor; [|exact IH]. destruct (insert_full a) as [_ F]. now apply F.
Qed.

(** A simplifier that finds nothing to do. *)
Lemma sk_dots p0 l : pt_on p0 = true -> point_ok p0 -> forall sg, Forall point_ok (sg ++ l) ->
  (forall p q, neighbours (sg ++ l) p q -> ~ both_off p q) -> (length sg <= 1)%nat -> Forall (fun p => pt_on p = false) sg ->
  exists l0, tail_sk p0 sg l = l0 ++ [SkClose] /\ simple_els l0 /\
    concat (map dots l0) = sg ++ l ++ (if pt_on (last (sg ++ l) p0) then [] else [p0]).
Proof.
  intros On Ok0. induction l as [|p l IH]; intros sg Ho Hn Hl Hs.
  - unfold tail_sk. cbn [overlap_els fst snd app]. destruct sg as [|a [|b sg]]; [| |cbn in Hl; lia].
    + exists []. split; [reflexivity|]. split; [constructor|]. cbn. now rewrite On.
    + exists [SkQuad (kpt a) (kpt p0)]. split; [reflexivity|]. split; [repeat constructor; [discriminate|intros (? & ? & ? & X); discriminate]|].
      inversion Hs as [|? ? Ha _]; subst. inversion Ho as [|? ? Oa _]; subst.
      cbn. rewrite Ha. pose proof (gpt_same p0 Ok0) as G. rewrite On in G. rewrite G. pose proof (gpt_same a Oa) as Ga. rewrite Ha in Ga. now rewrite Ga.
  - destruct (pt_on p) eqn:Ep.
    + rewrite tsk_on by exact Ep. destruct sg as [|a [|b sg]]; [| |cbn in Hl; lia]; cbn [app].
      * inversion Ho as [|? ? Op Ho']; subst. pose proof (gpt_same p Op) as G. rewrite Ep in G.
        destruct (IH []) as (l0 & -> & Q & D); [exact Ho'| |cbn; lia|constructor|].
        { intros x y (l1 & l2 & El). apply Hn. exists (p :: l1), l2. cbn in El |- *. now rewrite El. }
        exists (SkLine (kpt p) :: l0). split; [reflexivity|]. split; [constructor; [split; [discriminate|intros (? & ? & ? & X); discriminate]|exact Q]|].
        cbn [map concat dots app]. cbn [app] in D. rewrite G, D, last_cons. f_equal. f_equal.
        destruct l as [|p1 l1]; [cbn; now rewrite On, Ep|]. now rewrite !last_cons.
      * inversion Ho as [|? ? Oa Ho']; subst. inversion Ho' as [|? ? Op Ho'']; subst.
        inversion Hs as [|? ? Ha _]; subst. pose proof (gpt_same p Op) as G. rewrite Ep in G. pose proof (gpt_same a Oa) as Ga. rewrite Ha in Ga.
        destruct (IH []) as (l0 & -> & Q & D); [exact Ho''| |cbn; lia|constructor|].
        { intros x y (l1 & l2 & El). apply Hn. exists (a :: p :: l1), l2. cbn in El |- *. now rewrite El. }
        exists (SkQuad (kpt a) (kpt p) :: l0). split; [reflexivity|]. split; [constructor; [split; [discriminate|intros (? & ? & ? & X); discriminate]|exact Q]|].
        cbn [map concat dots app]. cbn [app] in D. rewrite Ga, G, D, !last_cons. f_equal. f_equal. f_equal.
        destruct l as [|p1 l1]; [cbn; now rewrite On, Ep|]. now rewrite !last_cons.
    + rewrite tsk_off by exact Ep. destruct sg as [|a sg].
      * cbn [app]. destruct (IH [p]) as (l0 & E & Q & D); [exact Ho|exact Hn|cbn; lia|now repeat constructor|]. exists l0. split; [exact E|]. split; [exact Q|exact D].
      * exfalso. destruct sg; [|cbn in Hl; lia]. apply (Hn a p); [now exists [], l|]. inversion Hs; subst. now split.
Qed.
Lemma last_expansion c r : expansion c r -> forall q c', c = q :: c' -> exists r', r = q :: r' /\ last r' q = last c' q.
Proof.
  induction 1 as [|p|p q c r _ _ IH|p q m c r _ _ _ IH]; intros q' c' E; [discriminate| | |]; injection E as <- <-.
  - now exists [].
  - destruct (IH q c eq_refl) as (r' & -> & L). exists (q :: r'). split; [reflexivity|]. now rewrite !last_cons.
  - destruct (IH q c eq_refl) as (r' & -> & L). exists (m :: q :: r'). split; [reflexivity|]. now rewrite !last_cons.
Qed.
Lemma contour_same c r els : insert_explicit_oncurves c = Ok r -> contour_sk r = Ok els -> starts_on c -> Forall point_ok c ->
  exists l0, els = l0 ++ [SkClose] /\ simple_els l0 /\ comes_back c (rev (concat (map dots l0))).
Proof.
  intros Ei Es (p & Hh & On) Hok. destruct c as [|p' l]; [discriminate|]. injection Hh as ->.
  destruct (insert_full (p :: l)) as [_ F]. destruct (F r Ei) as [He Hn].
  destruct (last_expansion _ _ He p l eq_refl) as (r' & -> & L). cbn [contour_sk] in Es. apply Ok_inj in Es.
  pose proof (expansion_ok _ _ He Hok) as Hr. inversion Hr as [|? ? Op Hr']; subst.
  destruct (sk_dots p r' On Op []) as (l0 & E & Q & D); [exact Hr'| |cbn; lia|constructor|].
  { intros x y (l1 & l2 & El). apply Hn. exists (p :: l1), l2. cbn in El |- *. now rewrite El. }
  exists (SkMove (kpt p) :: l0). split; [cbn [app]; rewrite <- E; reflexivity|]. split.
  - constructor; [split; [discriminate|intros (? & ? & ? & X); discriminate]|exact Q].
  - exists p, (p :: r'). split; [exact He|]. split; [reflexivity|]. cbn [map concat dots app]. rewrite D. cbn [app].
    pose proof (gpt_same p Op) as G. rewrite On in G. rewrite G, L, last_cons. reflexivity.
Qed.
Lemma nothing_to_do g g' : (forall path, simplify path = Some path) -> remove_overlap simplify g = Ok g' -> g_comps g = [] ->
  Forall starts_on (g_contours g) -> Forall (Forall point_ok) (g_contours g) -> Forall2 comes_back (g_contours g) (g_contours g').
Proof.
  intros Hid E Hc Hon Hok. unfold remove_overlap in E. rewrite Hc in E. destruct (g_contours g) as [|c cs0] eqn:Eg.
  { apply Ok_inj in E. subst g'. rewrite Eg. constructor. }
  unfold glyph_insert_oncurves in E. destruct (rmapM insert_explicit_oncurves (c :: cs0)) as [cs'| |] eqn:Ei; try discriminate. cbn [rbind] in E.
  destruct (rmapM contour_sk cs') as [els| |] eqn:Es; try discriminate. cbn [rbind] in E. rewrite Hid in E.
  assert (X: exists subs, concat els = concat (map (fun s => s ++ [SkClose]) subs) /\ Forall simple_els subs /\
             Forall2 comes_back (c :: cs0) (map (fun s => rev (concat (map dots s))) subs)).
  { clear E Hid Eg. apply mapM_iff in Ei. apply mapM_iff in Es. revert els Es Hon Hok.
    induction Ei as [|a b l l' H _ IH]; intros els Es Hon Hok; inversion Es as [|? e ? els1 Y1 Y2]; subst; [exists []; repeat split; constructor|].
    inversion Hon; subst. inversion Hok; subst. destruct (IH els1) as (subs & E1 & Q1 & F1); [assumption..|].
    destruct (contour_same a b e H Y1) as (l0 & -> & Q0 & B); [assumption..|].
    exists (l0 :: subs). split; [cbn [map concat]; now rewrite E1|]. split; constructor; assumption. }
  destruct X as (subs & Ec & Q & B). rewrite Ec in E.
  pose proof (points_full subs [] Q (Forall_nil _)) as P. rewrite app_nil_r in P. rewrite P in E. cbn [rbind] in E.
  apply Ok_inj in E. subst g'. exact B.
Qed.
End Glyphs.

(** ** The tool *)
Section Tool.
Context {T : Type} (K0 : codecs T).
Variable hash : cmapping -> Z.
Variable simplify : list sk_el -> option (list sk_el).
Lemma overlap_result file out : Forall is_byte file -> remove_overlaps K0 hash simplify file = Ok out ->
  Z.of_nat (length out) < 2 ^ 32 -> Forall is_byte out ->
  exists v m m' w gs gs1 gs' gl lo is32 h, holds file v m /\ holds out v m' /\ length w = 4%nat /\
    glyf_is m gs /\ Forall2 (fun g g' => remove_overlap simplify g = Ok g') gs gs1 /\ recalc_bounds gs1 = Ok gs' /\
    compile_glyf gs' = Ok (gl, lo, is32) /\ head_is m h /\
    bytes_of m' TAG_glyf = Some gl /\ bytes_of m' TAG_loca = Some lo /\
    bytes_of m' TAG_head = Some (with_adjustment w (ser_head_tbl (set_loc_format h (if is32 : bool then 1 else 0)))) /\
    (forall t, ~ In t [TAG_glyf; TAG_loca; TAG_head; TAG_hhea] -> bytes_of m' t = bytes_of m t) /\
    match bytes_of m TAG_hmtx with
    | None => bytes_of m' TAG_hhea = bytes_of m TAG_hhea
    | Some _ => exists ms n hh, hmtx_is m ms /\ number_of_hmetrics ms = Ok n /\ hhea_is m hh /\
        bytes_of m' TAG_hhea = Some (ser_hhea (set_hmetrics hh n))
    end.
Proof.
  intros HB E Hs HBo. destruct (cli_inv K0 hash _ _ _ HB E) as (v & m & s & s' & s'' & H & Sm & G & C & F & Ee & Ew).
  apply bind_ok in Ee as (gs & s1 & E1 & Ee).
  destruct (get_table_fresh K0 hash all closed_all m _ _ _ _ _ (F _ closed_all) G E1) as (_ & G1 & S1 & R1).
  destruct (get_table_fresh K0 hash metrics closed_metrics m _ _ _ _ _ (F _ closed_metrics) G E1) as (F1 & _).
  destruct (R1 I) as (l & Rl & Sl). destruct l as [| | | | |x| |]; try discriminate. injection Sl as ->. cbn [right] in Rl.
  apply bind_ok in Ee as (gs1 & s2 & E2 & Ee). apply slift_inv in E2 as [E2 ->].
  apply bind_ok in Ee as (gs' & s3 & E3 & Ee). apply slift_inv in E3 as [E3 ->]. unfold smodify in Ee. injection Ee as <-.
  destruct (glyf_saved K0 hash v m s1 gs' file out s'' HB H G1 F1 (same_raw _ _ _ C S1) Ew Hs HBo) as (m' & w & gl & lo & is32 & h & X1 & X2 & X3 & X4 & X5).
  apply mapM_iff in E2. exists v, m, m', w, gs, gs1, gs', gl, lo, is32, h. tauto.
Qed.
End Tool.

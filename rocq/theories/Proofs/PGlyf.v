(** Flattening, composition of transforms, statistics, contour ends. *)
From Coq Require Import List ZArith Lia Bool.
From Verif.Model Require Import MBase MFixed MFloat MTables MGlyph MGlyf.
From Verif.Spec Require Import SBase SGlyph SGlyf.
From Verif.Proofs Require Import PBase PCodec PGlyph.
Import ListNotations.
Open Scope Z_scope.

(** ** Flattening *)
Lemma hc_true g : has_components g = true <-> g_comps g <> [].
Proof. unfold has_components. destruct (g_comps g); cbn; split; congruence. Qed.
Lemma hc_false g : has_components g = false <-> g_comps g = [].
Proof. unfold has_components. destruct (g_comps g); cbn; split; congruence. Qed.

(** The inner loop, as a function of its own. *)
Fixpoint flat_loop (room : nat) (gs : list glyph) (cs : list component) : res (list component) :=
  match cs with
  | [] => Ok []
  | c :: cs' =>
      cg <- unwrap (nth_error gs (Z.to_nat (cp_glyph c))) ;;
      here <-
        (if has_components cg then
           flat <- flat_components_at room gs (g_comps cg) ;;
           Ok (map (fun f => set_trans f (aff_mul (cp_trans c) (cp_trans f))) flat)
         else Ok [c]) ;;
      rest <- flat_loop room gs cs' ;;
      Ok (here ++ rest)
  end.
Lemma flat_at_S room gs cs : flat_components_at (S room) gs cs = flat_loop room gs cs.
Proof. induction cs as [|c cs IH]; [reflexivity|]. cbn [flat_loop]. rewrite <- IH. reflexivity. Qed.

Lemma flat_at_nested gs n cs : nested gs n cs -> forall room, (n <= room)%nat ->
  exists r, flat_components_at room gs cs = Ok r /\ flat gs cs r.
Proof.
  induction 1 as [n|n c cs g Ht Hn IHn Hc IHc]; intros room Hr.
  - destruct room; exists []; split; try reflexivity; constructor.
  - destruct room as [|room]; [lia|]. destruct (IHc (S room) Hr) as (r & E & F).
    destruct (IHn room ltac:(lia)) as (fs & E' & F').
    rewrite flat_at_S in *. cbn [flat_loop]. unfold target in Ht. rewrite Ht. cbn [unwrap rbind].
    destruct (has_components g) eqn:Eh.
    + rewrite E', E. cbn [rbind]. eexists. split; [reflexivity|].
      eapply flat_deep; eauto. now apply hc_true.
    + rewrite E. cbn [rbind]. eexists. split; [reflexivity|]. eapply flat_simple; eauto. now apply hc_false.
Qed.

Lemma flat_fun gs cs r : flat gs cs r -> forall r', flat gs cs r' -> r = r'.
Proof.
  induction 1 as [|c cs g r Ht Hc F IH|c cs g fs r Ht Hc F1 IH1 F2 IH2]; intros r' H'; inversion H'; subst; auto.
  - f_equal; auto.
  - unfold target in *. congruence.
  - unfold target in *. congruence.
  - assert (g = g0) by (unfold target in *; congruence). subst g0. f_equal; auto. f_equal; auto.
Qed.

(** With all references valid the flattening always ends with simple targets. *)
Lemma flat_at_total gs : Forall (refs_valid gs) gs -> forall room cs,
  Forall (fun c => exists t, target gs c t) cs ->
  exists r, flat_components_at room gs cs = Ok r /\
    Forall (fun c => exists t, target gs c t /\ g_comps t = []) r.
Proof.
  intros Hv. induction room as [|room IH]; intros cs Hc.
  - exists []. split; [reflexivity|constructor].
  - rewrite flat_at_S. induction Hc as [|c cs (t & Ht) Hc IHc].
    + exists []. split; [reflexivity|constructor].
    + destruct IHc as (r & E & F). cbn [flat_loop]. unfold target in Ht. rewrite Ht, E. cbn [unwrap rbind].
      destruct (has_components t) eqn:Eh.
      * destruct (IH (g_comps t)) as (fs & E' & F').
        { apply nth_error_In in Ht. rewrite Forall_forall in Hv. exact (Hv _ Ht). }
        rewrite E'. cbn [rbind]. eexists. split; [reflexivity|]. apply Forall_app. split; [|exact F].
        apply Forall_map. exact F'.
      * cbn [rbind]. eexists. split; [reflexivity|]. constructor; [|exact F].
        exists t. split; [exact Ht|]. now apply hc_false.
Qed.
Lemma flat_at_simple gs : forall room cs r, flat_components_at room gs cs = Ok r ->
  Forall (fun c => exists t, target gs c t /\ g_comps t = []) r.
Proof.
  induction room as [|room IH]; intros cs r H.
  - cbn in H. apply Ok_inj in H. subst. constructor.
  - rewrite flat_at_S in H. revert r H. induction cs as [|c cs IHc]; intros r H; cbn [flat_loop] in H.
    + apply Ok_inj in H. subst. constructor.
    + destruct (nth_error gs (Z.to_nat (cp_glyph c))) as [t|] eqn:Et; [|discriminate]. cbn [unwrap rbind] in H.
      destruct (has_components t) eqn:Eh.
      * destruct (flat_components_at room gs (g_comps t)) as [fs| |] eqn:Ef; try discriminate. cbn [rbind] in H.
        destruct (flat_loop room gs cs) as [r1| |] eqn:El; try discriminate. cbn [rbind] in H.
        apply Ok_inj in H. subst r. apply Forall_app. split; [|eauto].
        apply Forall_map. exact (IH _ _ Ef).
      * cbn [rbind] in H.
        destruct (flat_loop room gs cs) as [r1| |] eqn:El; try discriminate. cbn [rbind] in H.
        apply Ok_inj in H. subst r. cbn [app]. constructor; [|eauto].
        exists t. split; [exact Et|]. now apply hc_false.
Qed.

Lemma rmapM_Forall2 {A B} (f : A -> res B) l l' : rmapM f l = Ok l' <-> Forall2 (fun x y => f x = Ok y) l l'.
Proof. split; [apply rmapM_inv|apply rmapM_fwd]. Qed.
Lemma Forall2_impl {A B} (P Q : A -> B -> Prop) : (forall a b, P a b -> Q a b) -> forall l l', Forall2 P l l' -> Forall2 Q l l'.
Proof. intros H. induction 1; constructor; auto. Qed.

(** A glyph flattened: only its components change. *)
Definition flattened (gs : list glyph) (g g' : glyph) : Prop :=
  exists r, flat_components gs g = Ok r /\ g' = set_comps g r.
Lemma flatten_table gs gs' : flatten_components gs = Ok gs' <->
  Forall2 (fun g g' => if has_components g then flattened gs g g' else g' = g) gs gs'.
Proof.
  unfold flatten_components. rewrite rmapM_Forall2.
  split; apply Forall2_impl; intros g g' H; destruct (has_components g).
  - destruct (flat_components gs g) as [r| |] eqn:Ef; try discriminate. cbn [rbind] in H.
    apply Ok_inj in H. exists r. auto.
  - apply Ok_inj in H. auto.
  - destruct H as (r & E & ->). rewrite E. reflexivity.
  - now subst.
Qed.

Lemma flatten_components_full gs : Forall (refs_valid gs) gs ->
  exists gs', flatten_components gs = Ok gs' /\
    Forall2 (fun g g' =>
      g_contours g' = g_contours g /\ g_instr g' = g_instr g /\ g_overlap g' = g_overlap g /\
      Forall (fun c => exists t, target gs c t /\ g_comps t = []) (g_comps g') /\
      (nested gs 65 (g_comps g) -> flat gs (g_comps g) (g_comps g'))) gs gs'.
Proof.
  intros Hv.
  assert (H: exists gs', Forall2 (fun g g' => if has_components g then flattened gs g g' else g' = g) gs gs').
  { assert (Hin: Forall (refs_valid gs) gs) by exact Hv. revert Hin.
    enough (H: forall l, Forall (refs_valid gs) l ->
      exists gs', Forall2 (fun g g' => if has_components g then flattened gs g g' else g' = g) l gs') by exact (H gs).
    clear - Hv. induction l as [|g l IH]; intros Hin; [exists []; constructor|].
    inversion Hin as [|? ? Hg Hin']; subst. destruct (IH Hin') as [gs' F].
    destruct (has_components g) eqn:Eh.
    - destruct (flat_at_total gs Hv 65 (g_comps g) Hg) as (r & E & _).
      exists (set_comps g r :: gs'). constructor; [rewrite Eh; exists r; auto|exact F].
    - exists (g :: gs'). constructor; [now rewrite Eh|exact F]. }
  destruct H as [gs' F]. exists gs'. split; [now apply flatten_table|].
  revert F. apply Forall2_impl. cbn beta. intros g g' H. destruct (has_components g) eqn:Eh.
  - destruct H as (r & E & ->). cbn. repeat split; auto.
    + exact (flat_at_simple _ _ _ _ E).
    + intros Hn. destruct (flat_at_nested gs 65 _ Hn 65 (le_n _)) as (r' & E' & F').
      unfold flat_components in E. rewrite E in E'. apply Ok_inj in E'. subst. exact F'.
  - subst g'. apply hc_false in Eh. rewrite Eh. repeat split; auto. constructor.
Qed.

Definition twice (n : Z) : glyph :=
  mk_glyph 0 0 0 0 [] [] [mk_comp n (mk_affine dy1 dy0 dy0 dy1 dy0 dy0) None 0;
                          mk_comp n (mk_affine dy1 dy0 dy0 dy1 dy0 dy0) None 0] false.
Lemma visits_self room : visits room [twice 0] (g_comps (twice 0)) = 2 ^ (Z.of_nat room + 1) - 2.
Proof.
  induction room as [|room IH]; [reflexivity|].
  change (visits (S room) [twice 0] (g_comps (twice 0)))
    with (1 + visits room [twice 0] (g_comps (twice 0)) + (1 + visits room [twice 0] (g_comps (twice 0)) + 0)).
  rewrite IH.
  replace (Z.of_nat (S room) + 1) with (1 + (Z.of_nat room + 1)) by lia.
  rewrite (Z.pow_add_r 2 1) by lia. lia.
Qed.

(** ** Statistics *)
Fixpoint values_loop (k : nat) (gs : list glyph) (depth : Z) (cs : list component) (acc : Z * Z * Z) : res (Z * Z * Z) :=
  match cs with
  | [] => Ok acc
  | c :: cs' =>
      let '(np, nc, md) := acc in
      match nth_error gs (Z.to_nat (cp_glyph c)) with
      | None => values_loop k gs depth cs' acc
      | Some bg =>
          if has_components bg then
            d <- chk_u 16 (depth + 1) ;;
            ' (np2, nc2, md2) <- composite_values k gs (g_comps bg) d ;;
            np' <- chk_u 16 (np + np2) ;;
            nc' <- chk_u 16 (nc + nc2) ;;
            values_loop k gs depth cs' (np', nc', Z.max md md2)
          else
            np' <- chk_u 16 (np + u16 (num_points bg)) ;;
            nc' <- chk_u 16 (nc + u16 (num_contours bg)) ;;
            values_loop k gs depth cs' (np', nc', md)
      end
  end.
Lemma rbind_ext {A B} (e : res A) (f g : A -> res B) : (forall x, f x = g x) -> rbind e f = rbind e g.
Proof. intros H. destruct e; cbn; auto. Qed.
Lemma values_S k gs cs d : composite_values (S k) gs cs d = values_loop k gs d cs (0, 0, d).
Proof.
  cbn [composite_values]. generalize (0, 0, d). induction cs as [|c cs IH]; intros acc; [reflexivity|].
  cbn [values_loop]. destruct acc as [[np nc] md]. destruct (nth_error gs _) as [bg|]; [|apply IH].
  destruct (has_components bg).
  - apply rbind_ext. intros d'. apply rbind_ext. intros [[? ?] ?]. do 2 (apply rbind_ext; intros ?). apply IH.
  - do 2 (apply rbind_ext; intros ?). apply IH.
Qed.

Lemma ok3 (a b c a' b' c' : Z) : a = a' -> b = b' -> c = c' -> Ok (a, b, c) = Ok (a', b', c').
Proof. congruence. Qed.
Lemma chk_u16_ok z : 0 <= z <= 65535 -> chk_u 16 z = Ok z.
Proof. intros H. unfold chk_u. change (2 ^ 16) with 65536. now if_true. Qed.

Lemma counted_bounds gs cs d np nc md : counted gs cs d np nc md -> 0 <= np /\ 0 <= nc /\ d <= md.
Proof. induction 1; lia. Qed.

Lemma counted_values gs cs d np nc md : counted gs cs d np nc md ->
  forall n k, nested gs n cs -> (n <= k)%nat -> 0 <= d -> forall a b m,
  0 <= a -> 0 <= b -> d <= m -> a + np <= 65535 -> b + nc <= 65535 -> md <= 65535 ->
  match k with
  | O => cs = []
  | S k' => values_loop k' gs d cs (a, b, m) = Ok (a + np, b + nc, Z.max m md)
  end.
Proof.
  induction 1 as [d|c cs g d np nc md Ht Hc Hcs IH|c cs g d np nc md np' nc' md' Ht Hc Hd IHd Hcs IH];
    intros n k Hn Hk H0 a b m Ha Hb Hm Hp Hq Hr.
  - destruct k; [reflexivity|]. cbn [values_loop]. apply ok3; lia.
  - inversion Hn as [|n' c0 cs0 g0 Ht0 Hn0 Hcs0]; subst. destruct k as [|k]; [lia|].
    destruct (counted_bounds _ _ _ _ _ _ Hcs) as (B1 & B2 & B3).
    cbn [values_loop]. unfold target in Ht. rewrite Ht. replace (has_components g) with false by (symmetry; now apply hc_false).
    unfold num_points, num_contours. rewrite !u16_id by lia. rewrite !chk_u16_ok by lia. cbn [rbind].
    rewrite ?chk_u16_ok by lia. cbn [rbind].
    rewrite (IH (S n') (S k) Hcs0 Hk H0) by lia. apply ok3; lia.
  - inversion Hn as [|n' c0 cs0 g0 Ht0 Hn0 Hcs0]; subst. destruct k as [|k]; [lia|].
    assert (g0 = g) by (unfold target in *; congruence). subst g0.
    destruct (counted_bounds _ _ _ _ _ _ Hcs) as (B1 & B2 & B3).
    destruct (counted_bounds _ _ _ _ _ _ Hd) as (B4 & B5 & B6).
    cbn [values_loop]. unfold target in Ht. rewrite Ht. replace (has_components g) with true by (symmetry; now apply hc_true).
    rewrite ?chk_u16_ok by lia. cbn [rbind].
    specialize (IHd n' k Hn0 ltac:(lia) ltac:(lia) 0 0 (d + 1) ltac:(lia) ltac:(lia) ltac:(lia) ltac:(lia) ltac:(lia) ltac:(lia)).
    destruct k as [|k]; [congruence|].
    rewrite values_S, IHd. cbn [rbind]. rewrite !chk_u16_ok by lia. cbn [rbind]. rewrite ?chk_u16_ok by lia. cbn [rbind].
    rewrite (IH (S n') (S (S k)) Hcs0 Hk H0) by lia. apply ok3; lia.
Qed.

Lemma counted_ok gs g n np nc md fuel : g_comps g <> [] -> nested gs n (g_comps g) -> (n <= fuel)%nat ->
  counted gs (g_comps g) 1 np nc md -> np <= 65535 -> nc <= 65535 -> md <= 65535 ->
  composite_values fuel gs (g_comps g) 1 = Ok (np, nc, md).
Proof.
  intros Hg Hn Hf Hc H1 H2 H3.
  pose proof (counted_values _ _ _ _ _ _ Hc n fuel Hn Hf ltac:(lia) 0 0 1 ltac:(lia) ltac:(lia) ltac:(lia) ltac:(lia) ltac:(lia) ltac:(lia)) as H.
  destruct fuel as [|k]; [congruence|]. rewrite values_S, H. destruct (counted_bounds _ _ _ _ _ _ Hc) as (B1 & B2 & B3).
  apply ok3; lia.
Qed.
Lemma counted_exists gs n cs : nested gs n cs -> forall d, exists np nc md, counted gs cs d np nc md.
Proof.
  induction 1 as [n|n c cs g Ht Hn IHn Hc IHc]; intros d.
  - exists 0, 0, d. constructor.
  - destruct (IHc d) as (np & nc & md & H1). destruct (g_comps g) eqn:Eg.
    + do 3 eexists. eapply counted_simple; eauto.
    + destruct (IHn (d + 1)) as (np' & nc' & md' & H2). do 3 eexists. eapply counted_deep; eauto; rewrite Eg; [discriminate|exact H2].
Qed.

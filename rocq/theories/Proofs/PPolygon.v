(** Proofs about what fontcrunch does to polygons. *)
From Coq Require Import QArith Sorted.
From Verif.Model Require Import MBase MFixed MFloat MFloat32 MGlyph MGlyf MPath MCrunch.
From Verif.Spec Require Import SBase SFloat SGlyph SGlyf SPath SCrunch SCorner.
From Verif.Proofs Require Import PBase PFloat PPath PCorner.
Local Open Scope Z_scope.

Definition all_on (c : list point) : Prop := Forall (fun p => pt_on p = true) c.
Lemma nth_on c i : all_on c -> (i < length c)%nat -> pt_on (nth i c pt0) = true.
Proof. intros H L. unfold all_on in H. rewrite Forall_forall in H. apply H. now apply nth_In. Qed.
Lemma insert_on c n : all_on c -> (n < length c)%nat -> insert_loop n c = Ok c.
Proof.
  intros H. induction n as [|n IH]; intros L; cbn [insert_loop]; [reflexivity|].
  cbv zeta. rewrite (nth_on c n H) by lia. cbn [negb andb rbind]. apply IH. lia.
Qed.
Lemma remove_on k : forall i c, all_on c -> remove_loop k i c = Ok c.
Proof.
  induction k as [|k IH]; intros i c H; cbn [remove_loop]; [reflexivity|]. destruct (i <? length c)%nat eqn:L; [|reflexivity].
  apply Nat.ltb_lt in L. cbv zeta.
  rewrite (nth_on c (if (i =? 0)%nat then (length c - 1)%nat else (i - 1)%nat) H) by (destruct (i =? 0)%nat; lia).
  rewrite orb_true_r. cbn [orb]. now apply IH.
Qed.
Lemma els_on l : all_on l -> contour_els [] l = (map (fun p => LineTo (kpt p)) l, []).
Proof. induction 1 as [|p l H _ IH]; [reflexivity|]. cbn [contour_els app]. rewrite H, IH. reflexivity. Qed.
Lemma last_on c d : c <> [] -> all_on c -> pt_on (last c d) = true.
Proof. intros N H. destruct (exists_last N) as (l & a & ->). rewrite last_last. unfold all_on in H. rewrite Forall_forall in H. apply H, in_app_iff. right. now left. Qed.
Lemma polygon_path p0 l : all_on (p0 :: l) ->
  contour_to_path (p0 :: l) = Ok (MoveTo (kpt p0) :: map (fun p => LineTo (kpt p)) (l ++ [p0]) ++ [ClosePath]).
Proof.
  intros H. unfold contour_to_path, insert_explicit_oncurves. rewrite insert_on by (assumption || (cbn; lia)). cbn [rbind]. 
  rewrite els_on by (now inversion H). cbn [fst snd]. rewrite last_on by (discriminate || assumption). inversion H as [|? ? H1 _]; subst. rewrite H1. cbn [andb].
  rewrite map_app, <- app_assoc. reflexivity.
Qed.
(** lines from each point to the next *)
Fixpoint lines (a : kpoint) (l : list kpoint) : list path_seg := match l with [] => [] | b :: l' => SegLine a b :: lines b l' end.
Lemma segs_lines start l : forall a, segs_from start a (map LineTo l ++ [LineTo start; ClosePath]) = lines a (l ++ [start]).
Proof.
  induction l as [|b l IH]; intros a; cbn [map app segs_from lines].
  - rewrite kp_eqb_refl. reflexivity.
  - now rewrite IH.
Qed.
Lemma segs_open start l : forall a, segs_from start a (map LineTo l) = lines a l.
Proof. induction l as [|b l IH]; intros a; cbn; [reflexivity|now rewrite IH]. Qed.
Lemma lines_length l : forall a, length (lines a l) = length l.
Proof. induction l as [|b l IH]; intros a; cbn; [reflexivity|now rewrite IH]. Qed.
Lemma lines_nth d l : forall a i, (i < length l)%nat -> nth_error (lines a l) i = Some (SegLine (nth i (a :: l) d) (nth i l d)).
Proof. induction l as [|b l IH]; intros a [|i] H; cbn in *; try lia; [reflexivity|]. rewrite IH by lia. reflexivity. Qed.
Lemma spot_kpt p : point_ok p -> spot16 (kpt p).
Proof. intros [A B]. exists (pt_x p), (pt_y p). repeat split; try apply whole_Z; unfold fits16; apply A || apply B. Qed.
Lemma lines_plain l : forall a, spot16 a -> Forall spot16 l -> Forall plain_seg (lines a l).
Proof. induction l as [|b l IH]; intros a A H; cbn; [constructor|]. inversion H; subst. constructor; [split; assumption|now apply IH]. Qed.

Section H.
Variable hypot : dyadic -> dyadic -> dyadic.
Variable fit : list quad -> res (option (list quad)).
Lemma segment_all segs cs : segment_sp hypot segs = Ok cs -> (forall i, (i < length segs)%nat -> In i cs) -> cs = seq 0 (length segs).
Proof.
  unfold segment_sp. cbv zeta. destruct (turn_loop _ _ _) as [t| |]; try discriminate. cbn [rbind].
  set (m := match segs with [] => _ | _ => _ end). destruct m as [a| |]; try discriminate. cbn [rbind]. set (f := fun i => _). intros [= <-] H.
  assert (G: forall i, In i (seq 0 (length segs)) -> f i = true).
  { intros i Hi. apply in_seq in Hi. specialize (H i ltac:(lia)). now apply filter_In in H. }
  clear H. revert G. generalize (seq 0 (length segs)). intros l G. induction l as [|i l IH]; [reflexivity|]. cbn [filter]. rewrite (G i (or_introl eq_refl)), IH; [reflexivity|].
  intros j Hj. apply G. now right.
Qed.
Lemma windows_lines a l (d : kpoint) : forall m k, (k + m = length l)%nat -> (0 < m)%nat ->
  windows fit (lines a l) (seq k m) = Ok (Some (map LineTo (firstn (m - 1) (skipn k l)))).
Proof.
  induction m as [|m IH]; intros k E H; [lia|]. destruct m as [|m].
  - reflexivity.
  - change (windows fit (lines a l) (seq k (S (S m)))) with (rbind (run_els fit (lines a l) k (S k)) (fun o =>
      match o with None => Ok None | Some els => rbind (windows fit (lines a l) (seq (S k) (S m))) (fun r => Ok (option_map (app els) r)) end)).
    rewrite (IH (S k)) by lia.
    assert (X: run_els fit (lines a l) k (S k) = Ok (Some [LineTo (nth k l d)])).
    { unfold run_els. rewrite (lines_nth d l a k) by lia. rewrite lines_length.
      assert (M: ((k + 1) mod length l = S k)%nat) by (rewrite Nat.mod_small by lia; lia). rewrite M, Nat.eqb_refl. reflexivity. }
    rewrite X. cbn [rbind option_map]. f_equal. f_equal.
    rewrite (PCorner.nth_skipn l k (nth k l d)) by (apply List.nth_error_nth'; lia).
    replace (S (S m) - 1)%nat with (S m) by lia. replace (S m - 1)%nat with m by lia. cbn [firstn map app]. reflexivity.
Qed.

Hypothesis HY : sound_hypot hypot.
Lemma polygon_reversed tq c : c <> [] -> all_on c -> Forall point_ok c ->
  (forall i, (i < length c)%nat -> kink 45 (side c (before (length c) i)) (side c i)) ->
  crunch_outline hypot fit tq c = Ok (rev c).
Proof.
  intros N On Hok K. destruct c as [|p0 l]; [congruence|]. clear N. unfold crunch_outline.
  rewrite (polygon_path p0 l On). cbn [rbind].
  set (path := MoveTo _ :: _). set (ks := map kpt l). set (k0 := kpt p0).
  assert (Ep: path = MoveTo k0 :: map LineTo ks ++ [LineTo k0; ClosePath]).
  { unfold path, ks, k0. rewrite !map_app, map_map, <- app_assoc. reflexivity. }
  set (segs := lines k0 (ks ++ [k0])).
  assert (Es: path_segments path = Ok segs) by (rewrite Ep; cbn [path_segments segs_from]; now rewrite segs_lines).
  assert (Ls: length segs = length (p0 :: l)) by (unfold segs, ks; rewrite lines_length, app_length, map_length; cbn; lia).
  inversion Hok as [|? ? Ok0 Okl]; subst.
  assert (P: Forall plain_seg segs).
  { unfold segs. apply lines_plain; [now apply spot_kpt|]. apply Forall_app. split; [|constructor; [now apply spot_kpt|constructor]].
    unfold ks. clear - Okl. induction Okl; cbn; constructor; [now apply spot_kpt|assumption]. }
  destruct (corners_spec hypot HY segs P) as (cs & Ec & _ & _ & C & _).
  assert (Sg: forall i, (i < length (p0 :: l))%nat -> exists s, nth_error segs i = Some s /\ arrives s (side (p0 :: l) i) /\ sets_off s (side (p0 :: l) i)).
  { intros i Hi. unfold segs. rewrite (lines_nth k0) by (unfold ks; rewrite app_length, map_length; cbn in *; lia). eexists. split; [reflexivity|].
    assert (W: way (nth i (k0 :: ks ++ [k0]) k0) (nth i (ks ++ [k0]) k0) (side (p0 :: l) i)); [|split; exact W].
    assert (A: nth i (k0 :: ks ++ [k0]) k0 = kpt (nth i (p0 :: l) pt0)).
    { change (k0 :: ks ++ [k0]) with (map kpt (p0 :: l) ++ [k0]). rewrite app_nth1 by (rewrite map_length; exact Hi).
      rewrite (nth_indep _ k0 (kpt pt0)) by (rewrite map_length; exact Hi). apply map_nth. }
    assert (B: nth i (ks ++ [k0]) k0 = kpt (nth ((i + 1) mod length (p0 :: l)) (p0 :: l) pt0)).
    { destruct (Nat.eq_dec (i + 1) (length (p0 :: l))) as [E|E].
      - rewrite E, Nat.mod_same by (cbn; lia). cbn [nth]. assert (Ei: i = length ks) by (unfold ks; rewrite map_length; cbn in E; lia). subst i.
        rewrite app_nth2 by lia. now rewrite Nat.sub_diag.
      - rewrite Nat.mod_small by lia. replace (i + 1)%nat with (S i) by lia. cbn [nth]. assert (i < length l)%nat by (cbn in *; lia).
        unfold ks. rewrite app_nth1 by (rewrite map_length; assumption). rewrite (nth_indep _ k0 (kpt pt0)) by (rewrite map_length; assumption). apply map_nth. }
    rewrite A, B. unfold side. eexists. eexists. eexists. eexists. split; [apply whole_Z|]. split; [apply whole_Z|]. split; [apply whole_Z|]. split; [apply whole_Z|]. reflexivity. }
  assert (E: cs = seq 0 (length segs)).
  { apply (segment_all segs cs Ec). intros i Hi. rewrite Ls in Hi.
    assert (Hb: (before (length (p0 :: l)) i < length (p0 :: l))%nat) by (destruct i; cbn in *; lia).
    destruct (Sg _ Hb) as (s & S1 & S2 & _). destruct (Sg _ Hi) as (s' & S3 & _ & S4). 
    eapply (C i s s'); [rewrite Ls; exact S1|exact S3|exact S2|exact S4|now apply K]. }
  unfold crunch_contour. rewrite Es. cbn [rbind]. rewrite Ec. cbn [rbind]. rewrite Ep. cbn [hd_error unwrap rbind]. rewrite E.
  assert (Lk: length (ks ++ [k0]) = S (length l)) by (unfold ks; rewrite app_length, map_length; cbn; lia).
  unfold segs at 1. rewrite (windows_lines k0 (ks ++ [k0]) k0 (length segs) 0) by (rewrite Ls, ?Lk; cbn; lia).
  cbn [rbind skipn]. rewrite Ls. replace (length (p0 :: l) - 1)%nat with (length ks) by (unfold ks; rewrite map_length; cbn; lia).
  rewrite firstn_app, Nat.sub_diag, firstn_O, app_nil_r, firstn_all.
  assert (Ef: path_to_contour tq (MoveTo k0 :: map LineTo ks) = Ok (rev (p0 :: l))).
  { unfold path_to_contour. cbn [path_segments segs_from rbind]. rewrite segs_open. f_equal. f_equal. 
    assert (O0: pt_on p0 = true) by (now inversion On). assert (Ol: all_on l) by (now inversion On).
    cbn [app]. f_equal; [unfold k0; rewrite <- O0 at 1; now apply gpt_same|].
    unfold ks. clear - Okl Ol. generalize k0. induction l as [|p l IH]; intros a; [reflexivity|]. cbn [map lines seg_points concat app].
    inversion Okl; inversion Ol; subst. rewrite IH by assumption. f_equal. rewrite <- H5 at 1. now apply gpt_same. }
  rewrite Ef. cbn [rbind]. unfold remove_implied_oncurves. apply remove_on. unfold all_on in *. apply Forall_rev. exact On.
Qed.
End H.

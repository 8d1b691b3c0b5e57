(** Outlines of instances. *)
From Coq Require Import List ZArith Bool QArith Qabs Qminmax Lqa Lia Permutation.
Import ListNotations.
From Verif.Model Require Import MBase MFixed MFloat MFloat32 MTag MMap MGlyph MTables MGvar MAvar MVarModel MInst.
From Verif.Spec Require Import SBase SFloat SVarModel SAvar SInst.
From Verif.Spec Require SIup.
From Verif.Proofs Require Import PBase PMap PFixed PFloat PFloat32 PScalar PVarSort PGlyf PAvar PInst PInstScale.
Open Scope Z_scope.
Ltac Zify.zify_post_hook ::= idtac.

Definition coordinate (sel : Z * Z -> Z) : Prop := sel = fst \/ sel = snd.
(** the deltas of point [i], added up *)
Definition total_at (sel : Z * Z -> Z) (sets : list delta_set) (i : nat) : Z :=
  fold_right (fun d s => sel (nth i (ds_deltas d) (0, 0)%Z) + s) 0 sets.
Lemma chk_i16_iff x y : chk_i 16 x = Ok y <-> x = y /\ -32768 <= x <= 32767.
Proof.
  unfold chk_i. change (- 2 ^ (16 - 1)) with (-32768). change (2 ^ (16 - 1)) with 32768.
  destruct ((-32768 <=? x) && (x <? 32768)) eqn:E; split; try discriminate.
  - intros H. injection H as ->. lia.
  - intros [-> _]. reflexivity.
  - lia.
Qed.
Lemma sel_default sel : coordinate sel -> sel (0, 0)%Z = 0.
Proof. now intros [->| ->]. Qed.

(** ** Adding delta sets *)
Lemma add_list_spec a b l : length a = length b -> rmapM add_delta (combine a b) = Ok l ->
  length l = length a /\ forall sel i, coordinate sel -> sel (nth i l (0, 0)%Z) = sel (nth i a (0, 0)%Z) + sel (nth i b (0, 0)%Z).
Proof.
  revert b l. induction a as [|[x y] a IH]; intros [|[x' y'] b] l L; try discriminate L; cbn [combine rmapM].
  - intros H. injection H as <-. split; [reflexivity|]. intros sel i [->| ->]; now destruct i.
  - intros H. apply rbind_ok in H as (p & P & H). apply rbind_ok in H as (l' & H & E). injection E as <-.
    unfold add_delta in P. cbn [fst snd] in P. apply rbind_ok in P as (u & U & P). apply rbind_ok in P as (w & W & P). injection P as <-.
    apply chk_i16_iff in U as [<- _]. apply chk_i16_iff in W as [<- _]. injection L as L. destruct (IH b l' L H) as [L1 E].
    split; [cbn [length]; now rewrite L1|]. intros sel [|i] C; cbn [nth]; [destruct C as [->| ->]; reflexivity|now apply E].
Qed.
Lemma add_list_ok a b : length a = length b ->
  (forall i, Z.abs (fst (nth i a (0, 0)%Z) + fst (nth i b (0, 0)%Z)) <= 32767 /\ Z.abs (snd (nth i a (0, 0)%Z) + snd (nth i b (0, 0)%Z)) <= 32767) ->
  exists l, rmapM add_delta (combine a b) = Ok l.
Proof.
  revert b. induction a as [|[x y] a IH]; intros [|[x' y'] b] L H; try discriminate L; cbn [combine rmapM]; [eauto|].
  injection L as L. destruct (IH b L (fun i => H (S i))) as (l & E). specialize (H 0%nat). cbn [nth fst snd] in H.
  unfold add_delta at 1. cbn [fst snd]. rewrite (proj2 (chk_i16_iff (x + x') _)) by (split; [reflexivity|lia]).
  rewrite (proj2 (chk_i16_iff (y + y') _)) by (split; [reflexivity|lia]). cbn [rbind]. rewrite E. cbn. eauto.
Qed.
Lemma combine_spec a b c : combine_sets a b = Ok c -> length (ds_deltas b) = length (ds_deltas a) /\
  length (ds_deltas c) = length (ds_deltas a) /\
  forall sel i, coordinate sel -> sel (nth i (ds_deltas c) (0, 0)%Z) = sel (nth i (ds_deltas a) (0, 0)%Z) + sel (nth i (ds_deltas b) (0, 0)%Z).
Proof.
  unfold combine_sets. destruct (Nat.eqb_spec (length (ds_deltas a)) (length (ds_deltas b))) as [L|]; [|discriminate].
  intros H. apply rbind_ok in H as (ds & D & H). injection H as <-. cbn [ds_deltas]. destruct (add_list_spec _ _ _ L D). auto.
Qed.

(** ** Merging when no axis is left *)
Section Merge.
Context (pinned : location) (tags : list tag) (ALL : forall t, In t tags -> has_key t pinned = true).
Lemma tent_none ix ts d k : incl ts tags -> tent_key pinned ix ts d = Ok k -> k = [].
Proof.
  revert ix. induction ts as [|t ts IH]; intros ix I; cbn [tent_key]; [intros H; now injection H|].
  intros H. apply rbind_ok in H as (p & _ & H). rewrite ALL in H by (apply I; now left). eapply IH; [|exact H]. intros x X. apply I. now right.
Qed.
Lemma tent_ok ix ts d : incl ts tags -> (ix + length ts <= length (ds_peak d))%nat -> tent_key pinned ix ts d = Ok [].
Proof.
  revert ix. induction ts as [|t ts IH]; intros ix I L; cbn [tent_key length] in *; [reflexivity|].
  destruct (nth_error (ds_peak d) ix) eqn:E; [|apply nth_error_None in E; lia]. cbn [unwrap rbind]. rewrite ALL by (apply I; now left).
  apply IH; [intros x X; apply I; now right|lia].
Qed.
Lemma merge_from sets o m : merge pinned tags sets [([], o)] = Ok m ->
  exists d, m = [([], d)] /\ length (ds_deltas d) = length (ds_deltas o) /\
    forall sel i, coordinate sel -> sel (nth i (ds_deltas d) (0, 0)%Z) = sel (nth i (ds_deltas o) (0, 0)%Z) + total_at sel sets i.
Proof.
  revert o. induction sets as [|s sets IH]; intros o; cbn [merge].
  - intros H. injection H as <-. exists o. repeat split. intros sel i _. cbn. lia.
  - intros H. apply rbind_ok in H as (k & K & H). apply tent_none in K as ->; [|intros x X; exact X].
    change (bm_get lex_ltb [] [([], o)]) with (Some o) in H. cbv iota in H. apply rbind_ok in H as (d & D & H).
    change (bm_insert lex_ltb [] d [([], o)]) with [([] : list Z, d)] in H. destruct (IH d H) as (d' & -> & L & E).
    apply combine_spec in D as (L1 & L2 & E1). exists d'. split; [reflexivity|]. split; [congruence|]. intros sel i C. rewrite (E sel i C), (E1 sel i C). cbn [total_at fold_right]. unfold total_at. lia.
Qed.
Lemma merge_spec sets m : merge pinned tags sets [] = Ok m ->
  (sets = [] /\ m = []) \/
  (sets <> [] /\ exists d, m = [([], d)] /\ forall sel i, coordinate sel -> sel (nth i (ds_deltas d) (0, 0)%Z) = total_at sel sets i).
Proof.
  destruct sets as [|s sets]; cbn [merge]; [intros H; injection H as <-; now left|].
  intros H. apply rbind_ok in H as (k & K & H). apply tent_none in K as ->; [|intros x X; exact X]. cbn [bm_get rbind] in H.
  change (bm_insert lex_ltb [] s []) with [([] : list Z, s)] in H. apply merge_from in H as (d & -> & L & E). right. split; [discriminate|].
  exists d. split; [reflexivity|]. intros sel i C. now rewrite E.
Qed.
Lemma merge_from_ok n sets o : length (ds_deltas o) = n ->
  Forall (fun d => length (ds_deltas d) = n /\ (length tags <= length (ds_peak d))%nat) sets ->
  (forall i, Z.abs (fst (nth i (ds_deltas o) (0, 0)%Z)) + reach fst sets i <= 32767 /\ Z.abs (snd (nth i (ds_deltas o) (0, 0)%Z)) + reach snd sets i <= 32767) ->
  exists d, merge pinned tags sets [([], o)] = Ok [([], d)] /\ length (ds_deltas d) = n.
Proof.
  intros L F. revert o L. induction F as [|s sets [S1 S2] F IH]; intros o L R; cbn [merge]; [exists o; auto|].
  rewrite tent_ok by (try exact S2; intros x X; exact X). cbn [rbind]. change (bm_get lex_ltb [] [([], o)]) with (Some o). cbv iota.
  assert (E: exists d, combine_sets o s = Ok d).
  { unfold combine_sets. rewrite (proj2 (Nat.eqb_eq _ _)) by congruence. destruct (add_list_ok (ds_deltas o) (ds_deltas s)) as (l & ->); [congruence| |cbn; eauto].
    intros i. destruct (R i) as [R1 R2]. cbn [reach fold_right] in R1, R2. fold (reach fst sets i) in R1. fold (reach snd sets i) in R2.
    assert (P: forall sel, 0 <= reach sel sets i) by (intros sel; clear; induction sets as [|d l IH]; cbn; [lia|fold (reach sel l i); lia]).
    pose proof (P fst). pose proof (P snd). lia. }
  destruct E as (d & E). rewrite E. cbn [rbind]. change (bm_insert lex_ltb [] d [([], o)]) with [([] : list Z, d)].
  apply combine_spec in E as (L1 & L2 & E). apply IH; [congruence|]. intros i. rewrite (E fst i (or_introl eq_refl)), (E snd i (or_intror eq_refl)).
  destruct (R i) as [R1 R2]. cbn [reach fold_right] in R1, R2. fold (reach fst sets i) in R1. fold (reach snd sets i) in R2. lia.
Qed.
Lemma merge_ok n sets : sets <> [] -> Forall (fun d => length (ds_deltas d) = n /\ (length tags <= length (ds_peak d))%nat) sets ->
  (forall i, reach fst sets i <= 32767 /\ reach snd sets i <= 32767) ->
  exists d, merge pinned tags sets [] = Ok [([], d)] /\ length (ds_deltas d) = n.
Proof.
  intros NE F R. destruct sets as [|s sets]; [contradiction|]. inversion F as [|? ? [S1 S2] F']; subst. cbn [merge].
  rewrite tent_ok by (try exact S2; intros x X; exact X). cbn [bm_get rbind]. change (bm_insert lex_ltb [] s []) with [([] : list Z, s)].
  now apply merge_from_ok.
Qed.
End Merge.

(** ** Moving points *)
Lemma move_points_spec ps ds qs r : move_points ps ds = Ok (qs, r) ->
  length qs = length ps /\ (length ps <= length ds)%nat /\ r = skipn (length ps) ds /\
  forall i p, nth_error ps i = Some p -> nth_error qs i = Some (mk_point (pt_x p + fst (nth i ds (0, 0)%Z)) (pt_y p + snd (nth i ds (0, 0)%Z)) (pt_on p)).
Proof.
  revert ds qs r. induction ps as [|p ps IH]; intros ds qs r; cbn [move_points].
  - intros H. injection H as <- <-. repeat split; [cbn; lia|]. intros [|i]; discriminate.
  - destruct ds as [|d ds]; [discriminate|]. intros H. apply rbind_ok in H as (x & X & H). apply rbind_ok in H as (y & Y & H).
    apply rbind_ok in H as ((qs' & r') & M & H). injection H as <- <-. apply IH in M as (L & N & -> & E).
    apply chk_i16_iff in X as [<- _]. apply chk_i16_iff in Y as [<- _]. cbn [length skipn]. repeat split; try lia.
    intros [|i] p' H; [injection H as <-; reflexivity|]. cbn [nth nth_error] in *. now apply E.
Qed.
Lemma move_points_ok ps ds : (length ps <= length ds)%nat ->
  (forall i p, nth_error ps i = Some p -> Z.abs (pt_x p + fst (nth i ds (0, 0)%Z)) <= 32767 /\ Z.abs (pt_y p + snd (nth i ds (0, 0)%Z)) <= 32767) ->
  exists qs, move_points ps ds = Ok (qs, skipn (length ps) ds).
Proof.
  revert ds. induction ps as [|p ps IH]; intros ds L H; cbn [move_points length skipn]; [eauto|]. destruct ds as [|d ds]; [cbn in L; lia|].
  destruct (IH ds) as (qs & E); [cbn in L; lia|intros i q; apply (H (S i))|]. specialize (H 0%nat p eq_refl). cbn [nth] in H.
  rewrite (proj2 (chk_i16_iff (pt_x p + fst d) _)) by (split; [reflexivity|lia]).
  rewrite (proj2 (chk_i16_iff (pt_y p + snd d) _)) by (split; [reflexivity|lia]). cbn [rbind]. rewrite E. cbn. eauto.
Qed.
Lemma nth_skipn {A} (l : list A) n i x : nth i (skipn n l) x = nth (n + i) l x.
Proof. revert l. induction n as [|n IH]; intros l; [reflexivity|]. destruct l as [|y l]; [destruct i; reflexivity|]. cbn [skipn]. apply IH. Qed.
Lemma move_contours_spec cs ds cs' : move_contours cs ds = Ok cs' ->
  Forall2 (fun c c' => length c = length c') cs cs' /\ (length (concat cs) <= length ds)%nat /\
  forall i p, nth_error (concat cs) i = Some p ->
    nth_error (concat cs') i = Some (mk_point (pt_x p + fst (nth i ds (0, 0)%Z)) (pt_y p + snd (nth i ds (0, 0)%Z)) (pt_on p)).
Proof.
  revert ds cs'. induction cs as [|c cs IH]; intros ds cs'; cbn [move_contours].
  - intros H. injection H as <-. repeat split; [constructor|cbn; lia|]. intros [|i]; discriminate.
  - intros H. apply rbind_ok in H as ((c' & r) & M & H). apply rbind_ok in H as (cs2 & H & E). injection E as <-.
    apply move_points_spec in M as (L & N & -> & E). apply IH in H as (F & N2 & E2). rewrite skipn_length in N2.
    repeat split; [now constructor|cbn [concat]; rewrite app_length; lia|].
    intros i p. cbn [concat]. destruct (Nat.lt_ge_cases i (length c)) as [I|I].
    + rewrite !nth_error_app1 by lia. apply E.
    + rewrite !nth_error_app2 by lia. rewrite L. intros H. apply E2 in H. rewrite !nth_skipn in H. replace (length c + (i - length c))%nat with i in H by lia. exact H.
Qed.
Lemma move_contours_ok cs ds : (length (concat cs) <= length ds)%nat ->
  (forall i p, nth_error (concat cs) i = Some p -> Z.abs (pt_x p + fst (nth i ds (0, 0)%Z)) <= 32767 /\ Z.abs (pt_y p + snd (nth i ds (0, 0)%Z)) <= 32767) ->
  exists cs', move_contours cs ds = Ok cs'.
Proof.
  revert ds. induction cs as [|c cs IH]; intros ds L H; cbn [move_contours]; [eauto|]. cbn [concat] in L, H. rewrite app_length in L.
  destruct (move_points_ok c ds) as (qs & E); [lia|intros i p N; apply H; rewrite nth_error_app1; [exact N|apply nth_error_Some; congruence]|].
  rewrite E. cbn [rbind]. destruct (IH (skipn (length c) ds)) as (cs' & E'); [rewrite skipn_length; lia| |rewrite E'; cbn; eauto].
  intros i p N. rewrite !nth_skipn. apply H. rewrite nth_error_app2 by lia. now replace (length c + i - length c)%nat with i by lia.
Qed.

(** ** Pinning the delta sets of a glyph *)
Section Pin.
Context (tags : list tag) (loc : location) (ND : NoDup tags) (MAP : as_map loc) (KEYS : forall t, In t (map fst loc) <-> In t tags).
Local Notation k := (length tags).
Definition err : Q := (1 + inject_Z (Z.of_nat k + 2) / 64)%Q.
Definition one_pinned (d : delta_set) (q : Q) (r : list delta_set) : Prop :=
  set_value tags loc d q /\ (0 <= q <= 1)%Q /\
  ((q == 0)%Q /\ r = [] \/
   ~ (q == 0)%Q /\ exists d', r = [d'] /\ ds_peak d' = ds_peak d /\ length (ds_deltas d') = length (ds_deltas d) /\
     (Forall SIup.i16_pair (ds_deltas d) -> forall sel i, coordinate sel ->
       ((k <= 1000)%nat -> Qabs (inject_Z (sel (nth i (ds_deltas d') (0, 0)%Z)) - q * inject_Z (sel (nth i (ds_deltas d) (0, 0)%Z))) <= err)%Q /\
       Z.abs (sel (nth i (ds_deltas d') (0, 0)%Z)) <= Z.abs (sel (nth i (ds_deltas d) (0, 0)%Z)))).
Lemma scale_nth f d sel i : coordinate sel -> (0 <= val f <= 1)%Q -> sel (nth i (ds_deltas (scale_deltas f d)) (0, 0)%Z) = scaled f (sel (nth i (ds_deltas d) (0, 0)%Z)).
Proof.
  intros C F. cbn [scale_deltas ds_deltas]. 
  assert (Z0: scaled f 0 = 0) by (destruct (scaled_small f 0 F) as [H _]; [unfold i16v; lia|lia]).
  destruct (Nat.lt_ge_cases i (length (ds_deltas d))) as [L|L].
  - set (h := fun p : Z * Z => (scaled f (fst p), scaled f (snd p))).
    change (map _ (ds_deltas d)) with (map h (ds_deltas d)). rewrite (nth_indep _ (0, 0)%Z (h (0, 0)%Z)) by now rewrite map_length. rewrite map_nth.
    destruct C as [->| ->]; reflexivity.
  - rewrite !nth_overflow by (rewrite ?map_length; lia). rewrite sel_default by exact C. now symmetry.
Qed.
Lemma pin_set_spec d r : pin_set loc tags d = Ok r -> exists q, one_pinned d q r.
Proof.
  unfold pin_set. intros H. apply rbind_ok in H as (sup & S0 & H).
  destruct (weight_spec tags loc d sup ND MAP KEYS S0) as (F & q & V & HQ & B). exists q. split; [exact V|]. split; [exact HQ|].
  pose proof (weight_zero q k _ (proj1 HQ) B) as Z0. set (f := support_scalar loc sup) in *. 
  destruct (dy_eqb f dy0) eqn:E; injection H as <-.
  - left. split; [|reflexivity]. apply Z0. apply eqb_iff in E. now rewrite E, val_dy0.
  - right. split; [intros C; apply Z0 in C; rewrite (proj2 (eqb_iff f dy0)) in E; [discriminate|now rewrite val_dy0]|].
    exists (scale_deltas f d). split; [reflexivity|]. split; [reflexivity|]. split; [cbn; apply map_length|].
    intros T sel i C. rewrite (scale_nth f d sel i C F). set (x := sel _).
    assert (X: i16v x).
    { unfold x, i16v. destruct (nth_in_or_default i (ds_deltas d) (0, 0)%Z) as [I|E0]; [|rewrite E0, (sel_default sel C); lia].
      rewrite Forall_forall in T. specialize (T _ I). unfold SIup.i16_pair in T. change (2 ^ 15) with 32768 in T. destruct C as [->| ->]; lia. }
    split; [intros K; apply scaled_close; auto|now apply scaled_small].
Qed.
Lemma support_ok d : length (ds_start d) = k -> length (ds_peak d) = k -> length (ds_end d) = k -> exists sup, rmapM (axis_support tags d) loc = Ok sup.
Proof.
  intros A B C. assert (F: forall kv, In kv loc -> In (fst kv) tags) by (intros kv I; apply KEYS; now apply in_map).
  revert F. generalize loc. induction loc0 as [|[t c] l IH]; intros F; cbn [rmapM]; [eauto|].
  destruct (IH (fun kv I => F kv (or_intror I))) as (sup & E). destruct (position_in t tags (F (t, c) (or_introl eq_refl))) as (i & P & L).
  unfold axis_support at 1. cbn [fst]. rewrite P. cbn [unwrap rbind].
  destruct (nth_error (ds_start d) i) eqn:E1; [|apply nth_error_None in E1; lia]. destruct (nth_error (ds_peak d) i) eqn:E2; [|apply nth_error_None in E2; lia].
  destruct (nth_error (ds_end d) i) eqn:E3; [|apply nth_error_None in E3; lia]. cbn [unwrap rbind]. rewrite E. cbn. eauto.
Qed.
Lemma pin_sets_spec sets r : pin_sets loc tags sets = Ok r -> exists rs ws, r = concat rs /\ Forall2 (fun d qr => one_pinned d (fst qr) (snd qr)) sets (combine ws rs) /\ length ws = length sets /\ length rs = length sets.
Proof.
  unfold pin_sets, rmap. intros H. apply rbind_ok in H as (rs & R & H). injection H as <-. exists rs. apply rmapM_Forall2 in R.
  clear - R ND MAP KEYS. assert (E: exists ws, Forall2 (fun d qr => one_pinned d (fst qr) (snd qr)) sets (combine ws rs) /\ length ws = length sets /\ length rs = length sets).
  { induction R as [|d r sets rs H _ (ws & F & L1 & L2)]; [exists []; repeat split; constructor|].
    apply pin_set_spec in H as (q & H). exists (q :: ws). cbn. repeat split; [constructor; assumption|lia|lia]. }
  destruct E as (ws & E). exists ws. tauto.
Qed.
Lemma pin_sets_ok sets : Forall (fun d => length (ds_start d) = k /\ length (ds_peak d) = k /\ length (ds_end d) = k) sets -> exists r, pin_sets loc tags sets = Ok r.
Proof.
  intros F. assert (E: exists rs, rmapM (pin_set loc tags) sets = Ok rs).
  { induction F as [|d sets (A & B & C) F (rs & IH)]; cbn [rmapM]; [eauto|]. unfold pin_set at 1. destruct (support_ok d A B C) as (sup & ->). cbn [rbind].
    destruct (dy_eqb _ _); cbn [rbind]; rewrite IH; cbn; eauto. }
  destruct E as (rs & E). unfold pin_sets, rmap. rewrite E. cbn. eauto.
Qed.
(** what the sets that are left add up to *)
Lemma shift_spec sets rs ws : Forall2 (fun d qr => one_pinned d (fst qr) (snd qr)) sets (combine ws rs) -> length ws = length sets -> length rs = length sets ->
  Forall2 (set_value tags loc) sets ws /\ (concat rs <> [] <-> exists d q, In d sets /\ In (d, q) (combine sets ws) /\ set_value tags loc d q /\ ~ (q == 0)%Q) /\
  (Forall (fun d => Forall SIup.i16_pair (ds_deltas d)) sets -> forall sel i, coordinate sel ->
    ((k <= 1000)%nat -> Qabs (inject_Z (total_at sel (concat rs) i) - SInst.shift sel sets ws i) <= inject_Z (Z.of_nat (applying ws)) * err)%Q /\
    reach sel (concat rs) i <= reach sel sets i).
Proof.
  revert rs ws. induction sets as [|d sets IH]; intros [|r rs] [|q ws] F L1 L2; try discriminate L1; try discriminate L2.
  - split; [constructor|]. split; [cbn; split; [congruence|intros (d & q & [] & _)]|]. intros _ sel i C. unfold SInst.shift, applying, total_at. cbn. split; [|lia]. intros _. rewrite Qmult_0_l. discriminate.
  - cbn [combine] in F. inversion F as [|? ? ? ? P F']; subst. cbn [fst snd] in P. injection L1 as L1. injection L2 as L2.
    destruct (IH rs ws F' L1 L2) as (FV & NE & REST). destruct P as (V & HQ & P). split; [now constructor|]. split.
    + cbn [concat]. split.
      * intros H. destruct P as [[Z0 ->]|[NZ _]]; [|exists d, q; split; [now left|]; split; [now left|auto]].
        apply NE in H as (d' & q' & I & J & H). exists d', q'. split; [now right|]. split; [now right|exact H].
      * intros (d' & q' & I & J & V' & NZ'). destruct J as [J|J].
        -- apply (f_equal snd) in J as J2. apply (f_equal fst) in J. cbn [fst snd] in J, J2. subst d' q'. destruct P as [[Z0 _]|[_ (d' & -> & _)]]; [contradiction|discriminate].
        -- intros H. apply app_eq_nil in H as [_ H]. revert H. apply NE. exists d', q'. split; [eapply in_combine_l; exact J|auto].
    + intros T sel i C. inversion T as [|? ? T1 T2]; subst. destruct (REST T2 sel i C) as [A B]. cbn [concat].
      unfold SInst.shift. cbn [combine fold_right fst snd]. fold (SInst.shift sel sets ws i). unfold applying. cbn [filter].
      destruct P as [[Z0 ->]|[NZ (d' & -> & _ & _ & P)]].
      * rewrite (proj2 (Qeq_bool_iff q 0) Z0). cbn [negb app]. fold (applying ws). split.
        -- intros K. setoid_rewrite Z0. rewrite Qmult_0_l, Qplus_0_l. exact (A K).
        -- cbn [reach fold_right]. fold (reach sel sets i). lia.
      * destruct (P T1 sel i C) as [P1 P2]. destruct (Qeq_bool q 0) eqn:E; [apply Qeq_bool_iff in E; contradiction|]. cbn [negb length app]. fold (applying ws).
        split; [|cbn [reach fold_right]; fold (reach sel sets i); fold (reach sel (concat rs) i); lia].
        intros K. specialize (A K). specialize (P1 K). cbn [total_at fold_right]. fold (total_at sel (concat rs) i). rewrite Nat2Z.inj_succ. unfold Z.succ. rewrite !inject_Z_plus. change (inject_Z 1) with 1%Q.
        set (u := inject_Z (sel (nth i (ds_deltas d') (0, 0)%Z))) in *. set (w := (q * inject_Z (sel (nth i (ds_deltas d) (0, 0)%Z)))%Q) in *.
        set (U := inject_Z (total_at sel (concat rs) i)) in *. set (W := SInst.shift sel sets ws i) in *. set (n := inject_Z (Z.of_nat (applying ws))) in *.
        setoid_replace (u + U - (w + W))%Q with ((u - w) + (U - W))%Q by ring. eapply Qle_trans; [apply Qabs_triangle|].
        setoid_replace ((n + 1) * err)%Q with (err + n * err)%Q by ring. apply Qplus_le_compat; assumption.
Qed.

(** ** One glyph *)
Lemma all_keys t : In t tags -> has_key t loc = true.
Proof. intros I. apply has_key_in; [exact MAP|now apply KEYS]. Qed.
Context (l : limits) (PINS : pins l = loc) (RANGES : ranges l = []).
(** without axes, the sets are used as they are *)
Lemma no_axes sets : loc = [] -> Forall2 (fun d qr => one_pinned d (fst qr) (snd qr)) sets (combine (map (fun _ => 1%Q) sets) (map (fun d => [d]) sets)).
Proof.
  intros E. assert (T: tags = []).
  { destruct tags as [|t ts]; [reflexivity|]. exfalso. assert (H: In t (map fst loc)) by (apply KEYS; now left). now rewrite E in H. }
  induction sets as [|d sets IH]; cbn [map combine]; constructor; [|exact IH]. cbn [fst snd]. split; [unfold set_value; rewrite T; constructor|]. split; [lra|].
  right. split; [discriminate|]. exists d. repeat split. { intros _. rewrite Qmult_1_l. setoid_replace (inject_Z (sel (nth i (ds_deltas d) (0, 0)%Z)) - inject_Z (sel (nth i (ds_deltas d) (0, 0)%Z)))%Q with 0%Q by ring. unfold err. rewrite T. discriminate. } lia.
Qed.
Lemma concat_single {A} (l0 : list A) : concat (map (fun x => [x]) l0) = l0.
Proof. induction l0 as [|x l0 IH]; cbn; [reflexivity|now f_equal]. Qed.
Lemma pinned_spec sets r : (if is_nil loc then Ok sets else pin_sets loc tags sets) = Ok r ->
  exists rs ws, r = concat rs /\ Forall2 (fun d qr => one_pinned d (fst qr) (snd qr)) sets (combine ws rs) /\ length ws = length sets /\ length rs = length sets.
Proof.
  destruct (is_nil loc) eqn:E; [|apply pin_sets_spec]. assert (E0: loc = []) by (revert E; generalize loc; now intros [|x l0]).
  intros H. injection H as <-. exists (map (fun d => [d]) sets), (map (fun _ => 1%Q) sets). rewrite concat_single, !map_length. repeat split. now apply no_axes.
Qed.
Lemma gvar_data_spec sets others ds : gvar_data sets tags l = Ok (others, ds) ->
  exists r, (if is_nil loc then Ok sets else pin_sets loc tags sets) = Ok r /\ others = [] /\
    (ds = [] /\ r = [] \/ r <> [] /\ forall sel i, coordinate sel -> sel (nth i ds (0, 0)%Z) = total_at sel r i).
Proof.
  unfold gvar_data. rewrite PINS, RANGES. cbn [is_nil]. intros H. apply rbind_ok in H as (r & R & H). cbn [rbind] in H. apply rbind_ok in H as (m & M & H).
  exists r. split; [exact R|]. destruct (merge_spec loc tags all_keys r m M) as [[-> ->]|(NE & d & -> & E)].
  - cbn in H. injection H as <- <-. auto.
  - assert (E1: (others, ds) = ([], ds_deltas d)) by (injection H as <- <-; reflexivity). injection E1 as -> ->. split; [reflexivity|]. right. auto.
Qed.
Lemma glyph_spec g v g' v' : typed v -> (k <= 1000)%nat -> instantiate_glyph tags l g v = Ok (g', v') -> v' = None /\ instance_of tags loc g v g'.
Proof.
  intros T K. unfold instantiate_glyph. destruct v as [sets|]; [|intros H; injection H as <- <-; split; reflexivity].
  intros H. apply rbind_ok in H as ((others & ds) & D & H). apply rbind_ok in H as (cs & C & H). injection H as <- <-.
  apply gvar_data_spec in D as (r & R & -> & D). split; [reflexivity|].
  destruct (pinned_spec sets r R) as (rs & ws & -> & F & L1 & L2). destruct (shift_spec sets rs ws F L1 L2) as (FV & NE & ACC).
  exists ws. split; [exact FV|]. cbv zeta. fold err. apply move_contours_spec in C as (CL & LEN & MV).
  assert (TOT: forall sel i, coordinate sel -> concat (g_contours g) = [] \/ sel (nth i ds (0, 0)%Z) = total_at sel (concat rs) i).
  { intros sel i C. destruct D as [[-> _]|[_ D]]; [left|right; auto]. destruct (concat (g_contours g)); [reflexivity|cbn in LEN; lia]. }
  split; [reflexivity|]. split; [exact CL|]. intros i p p' P P'. cbn [with_contours g_contours] in P'. rewrite (MV i p P) in P'. injection P' as <-. cbn [pt_on pt_x pt_y].
  split; [reflexivity|].
  assert (B: forall sel, coordinate sel -> forall z, (Qabs (inject_Z (z + sel (nth i ds (0, 0)%Z)) - (inject_Z z + SInst.shift sel sets ws i)) <= inject_Z (Z.of_nat (applying ws)) * err)%Q).
  { intros sel C z. destruct (TOT sel i C) as [E|E]; [rewrite E in P; destruct i; discriminate|]. rewrite E. destruct (ACC T sel i C) as [A _]. specialize (A K). rewrite inject_Z_plus.
    setoid_replace (inject_Z z + inject_Z (total_at sel (concat rs) i) - (inject_Z z + SInst.shift sel sets ws i))%Q with (inject_Z (total_at sel (concat rs) i) - SInst.shift sel sets ws i)%Q by ring. exact A. }
  split; apply B; [now left|now right].
Qed.
(** when it succeeds *)
Context (F2 : Forall (fun kv => f2dot14 (snd kv)) loc).
Lemma coord_f2 t : exists c, f2dot14 c /\ (coord t loc == val c)%Q.
Proof.
  unfold coord, loc_get. destruct (bm_get lex_ltb t loc) as [c|] eqn:E.
  - exists c. split; [|reflexivity]. rewrite Forall_forall in F2. apply (F2 (t, c)). now apply in_get.
  - exists (f2dot14_from_packed 0). split; [exists 0; split; [lia|reflexivity]|reflexivity].
Qed.
Lemma tent_peak d l0 p u t : Forall f2dot14 (ds_peak d) -> In (t, (l0, p, u)) (combine tags (tents d)) -> f2dot14 p.
Proof.
  intros F I. apply in_combine_r in I. unfold tents in I. apply in_combine_l in I. apply in_combine_r in I. rewrite Forall_forall in F. auto.
Qed.
Lemma set_value_unique d q r : Forall f2dot14 (ds_peak d) -> set_value tags loc d q -> set_value tags loc d r -> (q == r)%Q.
Proof.
  intros F. apply value_unique. intros t l0 p u I H. destruct (coord_f2 t) as (c & C & E). rewrite E in H |- *.
  apply f2_equal; [exact C| |exact H]. eapply tent_peak; [exact F|exact I].
Qed.
Lemma reach_nonneg sel sets i : 0 <= reach sel sets i.
Proof. induction sets as [|d sets IH]; cbn; [lia|fold (reach sel sets i); lia]. Qed.
Lemma total_reach sel sets i : Z.abs (total_at sel sets i) <= reach sel sets i.
Proof. induction sets as [|d sets IH]; cbn; [lia|fold (reach sel sets i); fold (total_at sel sets i); lia]. Qed.
Lemma pinned_shapes n sets rs ws : Forall (set_shape k n) sets -> Forall2 (fun d qr => one_pinned d (fst qr) (snd qr)) sets (combine ws rs) -> length ws = length rs ->
  Forall (fun d => length (ds_deltas d) = n /\ (k <= length (ds_peak d))%nat) (concat rs).
Proof.
  intros S0. revert rs ws. induction S0 as [|d sets (A & _ & _ & B & _) _ IH]; intros [|r rs] [|q ws] F L; try discriminate L; cbn [concat]; try constructor; cbn [combine] in F; [inversion F|].
  inversion F as [|? ? ? ? P F']; subst. cbn [fst snd] in P. injection L as L. apply Forall_app. split; [|exact (IH rs ws F' L)].
  destruct P as (_ & _ & [[_ ->]|(_ & d' & -> & E1 & E2 & _)]); constructor; [|constructor]. rewrite E1, E2. lia.
Qed.
Lemma glyph_iff g v : typed v -> roomy k g v ->
  ((exists x, instantiate_glyph tags l g v = Ok x) <-> forall sets, v = Some sets -> concat (g_contours g) <> [] -> reached tags loc sets).
Proof.
  intros T R. unfold instantiate_glyph. destruct v as [sets|]; [|split; [discriminate|eauto]]. cbn [typed roomy] in T, R. split.
  - intros (x & H) sets' E NE. injection E as <-. apply rbind_ok in H as ((others & ds) & D & H). apply rbind_ok in H as (cs & C & H).
    apply gvar_data_spec in D as (r & E & _ & D). apply move_contours_spec in C as (_ & LEN & _).
    destruct D as [[-> _]|[NR _]]; [destruct (concat (g_contours g)); [contradiction|cbn in LEN; lia]|].
    destruct (pinned_spec sets r E) as (rs & ws & -> & F & L1 & L2). destruct (shift_spec sets rs ws F L1 L2) as (_ & NN & _).
    apply NN in NR as (d & q & I & _ & V & NZ). exists d, q. auto.
  - intros H. specialize (H sets eq_refl). destruct R as (n & LN & SH & RO & RP).
    assert (E: exists r, (if is_nil loc then Ok sets else pin_sets loc tags sets) = Ok r).
    { destruct (is_nil loc); [eauto|]. apply pin_sets_ok. eapply Forall_impl; [|exact SH]. intros d (A & B & C & _). auto. }
    destruct E as (r & E). destruct (pinned_spec sets r E) as (rs & ws & -> & F & L1 & L2). destruct (shift_spec sets rs ws F L1 L2) as (FV & NN & ACC).
    assert (RS: forall sel i, coordinate sel -> reach sel (concat rs) i <= reach sel sets i) by (intros sel i C; apply ACC; assumption).
    unfold gvar_data. rewrite PINS, RANGES. cbn [is_nil]. rewrite E. cbn [rbind].
    destruct (concat rs) as [|d0 r0] eqn:ER.
    + cbn [merge rbind bm_get bm_remove map is_nil].
      assert (NC: concat (g_contours g) = []).
      { destruct (concat (g_contours g)) eqn:EC; [reflexivity|]. exfalso. destruct H as (d & q & I & V & NZ); [discriminate|].
        apply NN; [|reflexivity].
        destruct (Forall2_in_l _ _ _ _ FV I) as (q' & I' & V'). exists d.
        assert (P: exists q', In (d, q') (combine sets ws) /\ set_value tags loc d q').
        { clear - FV I. induction FV as [|a b sets ws H F IH]; [destruct I|]. destruct I as [->|I]; [exists b; split; [now left|exact H]|]. destruct (IH I) as (q' & J & K). exists q'. split; [now right|exact K]. }
        destruct P as (q2 & J & V2). exists q2. split; [exact I|]. split; [exact J|]. split; [exact V2|]. intros Z2. apply NZ.
        rewrite <- Z2. apply (set_value_unique d); [|exact V|exact V2]. rewrite Forall_forall in SH. apply (SH d I). }
      destruct (move_contours_ok (g_contours g) []) as (cs & ->); [rewrite NC; cbn; lia|rewrite NC; intros [|i]; discriminate|]. cbn [rbind]. eauto.
    + destruct (merge_ok loc tags all_keys n (d0 :: r0)) as (d & M & LD); [discriminate|rewrite <- ER; eapply pinned_shapes; [exact SH|exact F|congruence]|intros i; destruct (RO i); split; [eapply Z.le_trans; [apply (RS fst); now left|assumption]|eapply Z.le_trans; [apply (RS snd); now right|assumption]]|].
      rewrite M. cbn [rbind]. change (bm_get lex_ltb [] [([], d)]) with (Some d). cbv iota. change (map snd (bm_remove lex_ltb [] [([], d)])) with (@nil delta_set).
      assert (TT: forall sel i, coordinate sel -> sel (nth i (ds_deltas d) (0, 0)%Z) = total_at sel (d0 :: r0) i).
      { destruct (merge_spec loc tags all_keys _ _ M) as [[X _]|(_ & d' & X & Y)]; [discriminate|]. injection X as <-. exact Y. }
      destruct (move_contours_ok (g_contours g) (ds_deltas d)) as (cs & ->); [lia| |cbn [rbind]; eauto].
      intros i p P. rewrite (TT fst i (or_introl eq_refl)), (TT snd i (or_intror eq_refl)). destruct (RP i p P).
      pose proof (total_reach fst (d0 :: r0) i). pose proof (total_reach snd (d0 :: r0) i). pose proof (RS fst i (or_introl eq_refl)). pose proof (RS snd i (or_intror eq_refl)). lia.
Qed.
End Pin.

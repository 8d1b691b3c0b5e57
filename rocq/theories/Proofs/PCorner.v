(** Proofs about the corners of a contour, and how it is put together again. *)
From Coq Require Import QArith Sorted.
From Verif.Model Require Import MBase MFixed MFloat MFloat32 MGlyph MGlyf MPath MCrunch.
From Verif.Spec Require Import SBase SFloat SGlyf SPath SCrunch SCorner.
From Verif.Proofs Require Import PBase PFloat PTurn PSharp.
From Verif.Proofs Require PCrunchGrid.
Local Open Scope Z_scope.

Lemma split2 {A} (l : list A) i j a b : (i < j)%nat -> nth_error l i = Some a -> nth_error l j = Some b ->
  exists l1 l2 l3, l = l1 ++ a :: l2 ++ b :: l3 /\ length l1 = i /\ (length l2 = j - i - 1)%nat.
Proof.
  intros H Ha Hb. apply nth_error_split in Hb as (x & l3 & -> & Lx).
  rewrite nth_error_app1 in Ha by lia. apply nth_error_split in Ha as (l1 & l2 & -> & L1).
  exists l1, l2, l3. rewrite <- app_assoc. split; [reflexivity|]. split; [exact L1|]. rewrite app_length in Lx. cbn in Lx. lia.
Qed.
Lemma combine_nth_error {A B} (l : list A) : forall (l' : list B) i, 
  nth_error (combine l l') i = match nth_error l i, nth_error l' i with Some a, Some b => Some (a, b) | _, _ => None end.
Proof.
  induction l as [|a l IH]; intros [|b l'] [|i]; cbn; try reflexivity; [destruct (nth_error l i); reflexivity|]. apply IH.
Qed.
Lemma seq_nth_error n : forall k i, (i < n)%nat -> nth_error (seq k n) i = Some (k + i)%nat.
Proof. induction n as [|n IH]; intros k [|i] H; cbn; try lia; [f_equal; lia|]. rewrite IH by lia. f_equal. lia. Qed.
Lemma numbered_nth {A} (l : list A) i a : nth_error l i = Some a -> nth_error (combine (seq 0 (length l)) l) i = Some (i, a).
Proof.
  intros H. assert (i < length l)%nat by (apply nth_error_Some; congruence). rewrite combine_nth_error, seq_nth_error, H by assumption. reflexivity.
Qed.
Lemma numbered_in {A} (l : list A) i a : In (i, a) (combine (seq 0 (length l)) l) -> nth_error l i = Some a.
Proof.
  intros H. apply In_nth_error in H as (k & H). rewrite combine_nth_error in H.
  destruct (nth_error l k) eqn:E; [|destruct (nth_error (seq 0 (length l)) k); discriminate].
  assert (k < length l)%nat by (apply nth_error_Some; congruence). rewrite seq_nth_error in H by assumption. injection H as <- <-. exact E.
Qed.
Lemma twice_nth {A} (l : list A) i a : (i < 2 * length l)%nat -> nth_error l (i mod length l) = Some a ->
  nth_error (combine (seq 0 (length l)) l ++ combine (seq 0 (length l)) l) i = Some ((i mod length l)%nat, a).
Proof.
  intros Hi H. set (n := length l) in *. assert (Ln: length (combine (seq 0 n) l) = n) by (rewrite combine_length, seq_length; apply Nat.min_id).
  destruct (Nat.lt_ge_cases i n) as [L|L].
  - rewrite Nat.mod_small in * by exact L. rewrite nth_error_app1 by lia. now apply numbered_nth.
  - rewrite nth_error_app2 by lia. rewrite Ln. assert (E: (i mod n = i - n)%nat).
    { symmetry. apply (Nat.mod_unique i n 1); lia. }
    rewrite E in *. now apply numbered_nth.
Qed.
Lemma headings segs : Forall plain_seg segs -> exists hs, Forall2 heading segs hs.
Proof.
  induction 1 as [|s l P _ (hs & IH)]; [exists []; constructor|]. destruct (chord_ok s P) as (d & v & _ & H & _). exists (v :: hs). now constructor.
Qed.
Lemma Forall2_number segs hs : Forall2 heading segs hs -> forall k,
  Forall2 (fun p q : nat * _ => fst p = fst q /\ heading (snd p) (snd q)) (combine (seq k (length segs)) segs) (combine (seq k (length hs)) hs).
Proof. induction 1; intros k; cbn; constructor; [split; [reflexivity|assumption]|]. apply IHForall2. Qed.

Section H.
Variable hypot : dyadic -> dyadic -> dyadic.
Hypothesis HY : sound_hypot hypot.

(** [i] is found by the loop over angles *)
Lemma angle_spec l : forall k prev, plain_seg prev -> Forall plain_seg l ->
  exists r, angle_loop hypot prev (combine (seq k (length l)) l) = Ok r /\
    (forall i, In i r -> exists j s0 s v w, i = (k + j)%nat /\ nth_error (prev :: l) j = Some s0 /\ nth_error l j = Some s /\
        arrives s0 v /\ sets_off s w /\ kink 55 v w) /\
    (forall j s0 s v w, nth_error (prev :: l) j = Some s0 -> nth_error l j = Some s -> arrives s0 v -> sets_off s w -> kink 45 v w -> In (k + j)%nat r).
Proof.
  induction l as [|s l IH]; intros k prev Pp P.
  - exists []. split; [reflexivity|]. split; [easy|]. intros [|j] s0 s; cbn; discriminate.
  - inversion P as [|? ? Ps Pl]; subst. destruct (leaving_ok prev Pp) as (d0 & v & E0 & A & Sv & V). destruct (entering_ok s Ps) as (d1 & w & E1 & B & Sw & W).
    destruct (IH (S k) s Ps Pl) as (r & E & R1 & R2). destruct (sharp_spec hypot HY d0 d1 v w Sv Sw V W) as [K1 K2].
    cbn [length seq combine angle_loop]. rewrite E0, E1. cbn [rbind]. rewrite E. cbn [rbind]. eexists. split; [reflexivity|]. split.
    + intros i Hi. assert (D: (i = k /\ sharp hypot d0 d1 = true) \/ In i r).
      { destruct (sharp hypot d0 d1); [destruct Hi as [<-|Hi]; auto|auto]. }
      destruct D as [[-> D]|D].
      * exists 0%nat, prev, s, v, w. repeat split; auto.
      * destruct (R1 i D) as (j & s0 & s1 & v' & w' & -> & X & Y & X1 & X2 & X3). exists (S j), s0, s1, v', w'. repeat split; auto. lia.
    + intros [|j] s0 s1 v' w' X Y X1 X2 X3.
      * cbn in X, Y. injection X as <-. injection Y as <-. rewrite (arrives_fun _ _ _ X1 A), (sets_off_fun _ _ _ X2 B) in X3. rewrite (K1 X3). rewrite Nat.add_0_r. now left.
      * cbn [nth_error] in X, Y. replace (k + S j)%nat with (S k + j)%nat by lia.
        assert (In (S k + j)%nat r) by (apply (R2 j s0 s1 v' w'); assumption). destruct (sharp hypot d0 d1); [now right|assumption].
Qed.

Lemma before_nth (segs : list path_seg) s0 i : (i < length segs)%nat -> nth_error segs (before (length segs) i) = nth_error (last segs s0 :: segs) i.
Proof.
  intros H. destruct i as [|i]; cbn [before nth_error].
  - destruct segs as [|a l] using rev_ind; [cbn in H; lia|]. rewrite last_last, app_length. cbn [length]. rewrite nth_error_app2 by lia.
    now replace (length l + 1 - 1 - length l)%nat with 0%nat by lia.
  - reflexivity.
Qed.
Lemma last_plain segs s0 : Forall plain_seg (s0 :: segs) -> plain_seg (last (s0 :: segs) s0).
Proof. intros P. rewrite Forall_forall in P. apply P. destruct (@exists_last _ (s0 :: segs)) as (l & a & ->); [discriminate|]. rewrite last_last. apply in_app_iff. right. now left. Qed.
Lemma existsb_in i l : existsb (Nat.eqb i) l = true <-> In i l.
Proof. rewrite existsb_exists. split; [intros (x & H & E); apply Nat.eqb_eq in E as <-; exact H|intros H; exists i; split; [exact H|apply Nat.eqb_refl]]. Qed.
Lemma sorted_filter {A} (R : A -> A -> Prop) f l : StronglySorted R l -> StronglySorted R (filter f l).
Proof.
  induction 1 as [|a l H IH F]; cbn; [constructor|]. destruct (f a); [|exact IH]. constructor; [exact IH|].
  rewrite Forall_forall in *. intros x Hx. apply filter_In in Hx as [Hx _]. now apply F.
Qed.
Lemma sorted_seq n : forall k, StronglySorted lt (seq k n).
Proof. induction n as [|n IH]; intros k; cbn; constructor; [apply IH|]. apply Forall_forall. intros x Hx. apply in_seq in Hx. lia. Qed.

Theorem corners_spec segs : Forall plain_seg segs ->
  exists corners, segment_sp hypot segs = Ok corners /\
    StronglySorted lt corners /\ Forall (fun i => i < length segs)%nat corners /\
    (forall i s s' v w, nth_error segs (before (length segs) i) = Some s -> nth_error segs i = Some s' ->
       arrives s v -> sets_off s' w -> kink 45 v w -> In i corners) /\
    (forall i j s s' v w, (i < j < 2 * length segs)%nat -> (forall k, i < k <= j -> ~ In (k mod length segs) corners)%nat ->
       nth_error segs (i mod length segs) = Some s -> nth_error segs (j mod length segs) = Some s' ->
       heading s v -> heading s' w -> ~ opposed v w) /\
    (forall i, In i corners ->
       (exists s s' v w, nth_error segs (before (length segs) i) = Some s /\ nth_error segs i = Some s' /\
          arrives s v /\ sets_off s' w /\ kink 55 v w) \/
       (exists j s s' v w, nth_error segs j = Some s /\ nth_error segs i = Some s' /\ heading s v /\ heading s' w /\ opposed v w)).
Proof.
  intros P. destruct (headings segs P) as (hs & Hh). pose proof (Forall2_length _ _ _ Hh) as Lh. set (n := length segs) in *.
  set (L := combine (seq 0 n) segs). set (V := combine (seq 0 n) hs).
  assert (PL: Forall (fun p => plain_seg (snd p)) (L ++ L)).
  { assert (Q: Forall (fun p : nat * path_seg => plain_seg (snd p)) L).
    { apply Forall_forall. intros [i s] Hi. apply in_combine_r in Hi. rewrite Forall_forall in P. now apply P. }
    apply Forall_app; split; exact Q. }
  assert (HV: Forall2 (fun p q : nat * _ => fst p = fst q /\ heading (snd p) (snd q)) (L ++ L) (V ++ V)).
  { apply Forall2_app; (pose proof (Forall2_number segs hs Hh 0) as X; rewrite <- Lh in X; exact X). }
  assert (Et: turn_loop f_0 f_0 (L ++ L) = Ok (turns 0 0 (V ++ V))) by (apply turn_turns; try assumption; try reflexivity).
  assert (Ea: exists a, match segs with [] => Ok [] | s0 :: _ => angle_loop hypot (last segs s0) L end = Ok a /\
     (forall i, In i a -> exists s s' v w, nth_error segs (before n i) = Some s /\ nth_error segs i = Some s' /\ arrives s v /\ sets_off s' w /\ kink 55 v w) /\
     (forall i s s' v w, nth_error segs (before n i) = Some s -> nth_error segs i = Some s' -> arrives s v -> sets_off s' w -> kink 45 v w -> In i a)).
  { assert (D: segs = [] \/ exists s0 t, segs = s0 :: t) by (clear; destruct segs; eauto). destruct D as [Es|(s0 & t & Es)].
    { exists []. assert (Em: forall f : path_seg -> res (list nat), match segs with [] => Ok [] | s0 :: _ => f s0 end = Ok []) by (intros; now rewrite Es).
      split; [exact (Em (fun s => angle_loop hypot (last segs s) L))|]. split; [easy|]. intros i s s' v w _ X. rewrite Es in X. destruct i; discriminate. }
    assert (Em: forall f : path_seg -> res (list nat), match segs with [] => Ok [] | s0 :: _ => f s0 end = f s0) by (intros; now rewrite Es).
    rewrite (Em (fun s => angle_loop hypot (last segs s) L)).
    assert (Pl: plain_seg (last segs s0)) by (rewrite Es in *; now apply last_plain).
    destruct (angle_spec segs 0 (last segs s0) Pl P) as (a & E & A1 & A2).
    exists a. split; [exact E|]. split.
    - intros i Hi. destruct (A1 i Hi) as (j & s1 & s & v & w & -> & X & Y & X1 & X2 & X3). exists s1, s, v, w. cbn [Nat.add].
      rewrite (before_nth segs s0) by (apply nth_error_Some; congruence). auto.
    - intros i s s' v w X Y X1 X2 X3. apply (A2 i s s' v w); auto. rewrite <- (before_nth segs s0) by (apply nth_error_Some; congruence). exact X. }
  destruct Ea as (a & Ea & A1 & A2).
  unfold segment_sp. fold n. fold L. cbv zeta. rewrite Et. cbn [rbind]. rewrite Ea. cbn [rbind]. eexists. split; [reflexivity|].
  set (C := filter _ _). assert (HC: forall i, In i C <-> (i < n)%nat /\ (In i (turns 0 0 (V ++ V)) \/ In i a)).
  { intros i. unfold C. rewrite filter_In, in_seq, existsb_in, in_app_iff. split; intros [X Y]; (split; [lia|exact Y]). }
  assert (Hv: forall i s v, nth_error segs i = Some s -> heading s v -> nth_error hs i = Some v).
  { clear - Hh. induction Hh; intros [|i] s v; cbn; try discriminate; [intros [= <-] H1; f_equal; eapply heading_fun; eassumption|apply IHHh]. }
  assert (Hs: forall i v, nth_error hs i = Some v -> exists s, nth_error segs i = Some s /\ heading s v).
  { clear - Hh. induction Hh; intros [|i] v; cbn; try discriminate; [intros [= <-]; eauto|apply IHHh]. }
  split; [apply sorted_filter, sorted_seq|]. split; [apply Forall_forall; intros i Hi; now apply HC in Hi|].
  split; [intros i s s' v w X Y X1 X2 X3; apply HC; split; [apply nth_error_Some; congruence|]; right; now apply (A2 i s s' v w)|]. split.
  - intros i j s s' v w Hij Hk Hi Hj H1 H2 N.
    assert (E: nth_error (V ++ V) i = Some ((i mod n)%nat, v)).
    { unfold V. rewrite Lh. apply twice_nth; [lia|]. rewrite <- Lh. now apply (Hv _ s). }
    assert (E': nth_error (V ++ V) j = Some ((j mod n)%nat, w)).
    { unfold V. rewrite Lh. apply twice_nth; [lia|]. rewrite <- Lh. now apply (Hv _ s'). }
    destruct (split2 _ i j _ _ (proj1 Hij) E E') as (l1 & l2 & l3 & El & Ll1 & Ll2).
    assert (B: 0 <= fst v * fst w /\ 0 <= snd v * snd w).
    { apply (turns_run l1 0 0 (i mod n)%nat v l2 (j mod n)%nat w l3). rewrite <- El. intros k Hin Hc.
      assert (X: exists p, (i < p <= j)%nat /\ k = (p mod n)%nat).
      { apply in_app_iff in Hin as [Hin|[<-|[]]]; [|exists j; split; [lia|reflexivity]].
        apply in_map_iff in Hin as ([k' u] & <- & Hin). cbn [fst]. apply In_nth_error in Hin as (q & Hq). exists (i + 1 + q)%nat.
        assert (q < length l2)%nat by (apply nth_error_Some; congruence). split; [lia|].
        assert (Hn: nth_error (V ++ V) (i + 1 + q) = Some (k', u)).
        { rewrite El, nth_error_app2 by lia. replace (i + 1 + q - length l1)%nat with (S q) by lia. cbn [nth_error]. rewrite nth_error_app1 by assumption. exact Hq. }
        assert (Hn2: exists x, nth_error hs ((i + 1 + q) mod n) = Some x).
        { destruct (nth_error hs ((i + 1 + q) mod n)) eqn:En; [eauto|]. apply nth_error_None in En. pose proof (Nat.mod_upper_bound (i + 1 + q) n). lia. }
        destruct Hn2 as (x & Hx). unfold V in Hn. rewrite Lh in Hn, Hx. rewrite (twice_nth hs (i + 1 + q) x) in Hn by (lia || assumption).
        injection Hn as <- _. now rewrite Lh. }
      destruct X as (p & Hp & ->). apply (Hk p Hp). apply HC. split; [apply Nat.mod_upper_bound; lia|]. now left. }
    destruct N as [N|N]; lia.
  - intros i Hi. apply HC in Hi as [Hi [H|H]]; [right|left; now apply A1].
    destruct (turns_only _ _ _ _ H) as (w & Hw & [X|[X|(j & v & X & Y)]]); try lia.
    assert (U: forall i v, In (i, v) (V ++ V) -> nth_error hs i = Some v).
    { intros i0 v0 H0. apply in_app_iff in H0. unfold V in H0. rewrite Lh in H0. destruct H0; now apply numbered_in. }
    destruct (Hs _ _ (U _ _ Hw)) as (s' & S1 & S2). destruct (Hs _ _ (U _ _ X)) as (s & S3 & S4). exists j, s, s', v, w. auto.
Qed.
End H.

(** ** Putting the contour together *)
Section F.
Variable fit : list quad -> res (option (list quad)).
Lemma seg_quads l : forall qs, rmapM seg_quad l = Ok qs <-> Forall2 as_quad l qs.
Proof.
  assert (S1: forall s q, seg_quad s = Ok q <-> as_quad s q).
  { intros [a b|a c b|a c d b] q; cbn; [|split; [intros [= <-]; reflexivity|intros ->; reflexivity]|split; easy].
    split; [intros [= <-]; auto|]. destruct q as [p0 p1 p2]. cbn. intros (-> & -> & ->). reflexivity. }
  induction l as [|s l IH]; intros qs; cbn.
  - split; [intros [= <-]; constructor|intros H; inversion H; reflexivity].
  - split.
    + intros H. destruct (seg_quad s) as [q| |] eqn:E; try discriminate. cbn in H. destruct (rmapM seg_quad l) as [r| |] eqn:Er; try discriminate. cbn in H. injection H as <-.
      constructor; [now apply S1|now apply IH].
    + intros H. inversion H as [|? q ? r H1 H2]; subst. rewrite (proj2 (S1 _ _) H1). cbn. rewrite (proj2 (IH _) H2). reflexivity.
Qed.
Lemma nth_skipn {A} (l : list A) : forall i a, nth_error l i = Some a -> skipn i l = a :: skipn (S i) l.
Proof. induction l as [|x l IH]; intros [|i] a; cbn; try discriminate; [now intros [= ->]|]. apply IH. Qed.
Lemma quarters_q4 p : on_quarters p -> PCrunchGrid.q4 p.
Proof.
  intros [(x & X & Bx) (y & Y & By)]. exists x, y. unfold PCrunchGrid.e8. rewrite X, Y.
  repeat split; try lia; unfold Qeq; cbn [Qnum Qden]; lia.
Qed.
Lemma emit_drawn q : drawn_as q (emit q).
Proof.
  unfold drawn_as, emit. split; [destruct (is_line q); auto|]. intros A B C.
  rewrite <- (PCrunchGrid.flat_line q) by (now apply quarters_q4). destruct (is_line q); split; try discriminate; reflexivity.
Qed.
Lemma emitted qs : Forall2 drawn_as qs (map emit qs).
Proof. induction qs; constructor; [apply emit_drawn|assumption]. Qed.
Lemma run_spec segs a b : (a < b < length segs)%nat -> Forall plain_seg segs -> forall r, run_els fit segs a b = Ok r ->
  let run := firstn (b - a) (skipn a segs) in
  match r with
  | Some els => redrawn fit run els
  | None => ~ single_line run /\ fitted fit run None
  end.
Proof.
  intros H P r E. cbn zeta. unfold run_els in E. set (run := firstn (b - a) (skipn a segs)) in *.
  destruct (nth_error segs a) as [s|] eqn:Es; [|apply nth_error_None in Es; lia].
  pose proof (nth_skipn _ _ _ Es) as Ek.
  assert (M: ((a + 1) mod length segs = a + 1)%nat) by (apply Nat.mod_small; lia). rewrite M in E.
  assert (Hr: (b = a + 1)%nat -> run = [s]).
  { intros ->. unfold run. rewrite Ek. replace (a + 1 - a)%nat with 1%nat by lia. reflexivity. }
  assert (Hr2: (b <> a + 1)%nat -> forall x, run <> [x]).
  { intros N x Ex. assert (Lr: length run = (b - a)%nat) by (unfold run; rewrite firstn_length, skipn_length; lia). rewrite Ex in Lr. cbn in Lr. lia. }
  assert (Gen: ~ single_line run -> rbind (rmapM seg_quad run) (fun qs => rbind (fit qs) (fun o => Ok (option_map (map emit) o))) = Ok r ->
    match r with Some els => redrawn fit run els | None => ~ single_line run /\ fitted fit run None end).
  { intros N G. destruct (rmapM seg_quad run) as [qs| |] eqn:Eq; try discriminate. cbn [rbind] in G. destruct (fit qs) as [o| |] eqn:Ef; try discriminate. cbn [rbind] in G. injection G as <-.
    apply seg_quads in Eq. destruct o as [q2|]; cbn [option_map].
    - right. split; [exact N|]. exists q2. split; [exists qs; split; assumption|apply emitted].
    - split; [exact N|]. exists qs. split; assumption. }
  destruct (b =? a + 1)%nat eqn:Eb; cbn [negb orb] in E.
  - apply Nat.eqb_eq in Eb. specialize (Hr Eb). destruct s as [p q|p c q|p c d q].
    + injection E as <-. left. exists p, q. split; [exact Hr|reflexivity].
    + apply Gen; [|exact E]. rewrite Hr. intros (x & y & X). discriminate.
    + exfalso. rewrite Forall_forall in P. apply nth_error_In in Es. apply (P _ Es).
  - apply Nat.eqb_neq in Eb. apply Gen; [|exact E]. intros (x & y & X). now apply (Hr2 Eb) in X.
Qed.
Lemma windows_spec segs : Forall plain_seg segs -> forall cs, StronglySorted lt cs -> Forall (fun i => i < length segs)%nat cs ->
  forall r, windows fit segs cs = Ok r ->
  match r with
  | Some els => exists parts, els = concat parts /\ Forall2 (redrawn fit) (runs segs cs) parts
  | None => exists run, In run (runs segs cs) /\ ~ single_line run /\ fitted fit run None
  end.
Proof.
  intros P. induction cs as [|a [|b cs] IH]; intros St B r E; [injection E as <-; exists []; split; [reflexivity|constructor]..|].
  inversion St as [|? ? St1 St2]; subst. inversion St2 as [|? ? Hab _]; subst. inversion B as [|? ? B1 B2]; subst. inversion B2 as [|? ? B3 B4]; subst.
  change (windows fit segs (a :: b :: cs)) with (rbind (run_els fit segs a b) (fun o =>
    match o with None => Ok None | Some els => rbind (windows fit segs (b :: cs)) (fun r => Ok (option_map (app els) r)) end)) in E.
  change (runs segs (a :: b :: cs)) with (firstn (b - a) (skipn a segs) :: runs segs (b :: cs)).
  destruct (run_els fit segs a b) as [o| |] eqn:Er; try discriminate. cbn [rbind] in E.
  pose proof (run_spec segs a b (conj Hab B3) P o Er) as R. cbn zeta in R. destruct o as [els|].
  - destruct (windows fit segs (b :: cs)) as [r'| |] eqn:Ew; try discriminate. cbn [rbind] in E. injection E as <-.
    specialize (IH St1 B2 _ eq_refl). destruct r' as [els'|]; cbn [option_map].
    + destruct IH as (parts & -> & F). exists (els :: parts). split; [reflexivity|now constructor].
    + destruct IH as (run & I & N & F). exists run. split; [now right|]. split; assumption.
  - injection E as <-. exists (firstn (b - a) (skipn a segs)). split; [now left|exact R].
Qed.
(** The runs hold what is from the first corner up to the last. *)
Lemma runs_concat {A} (l : list A) : forall cs a, StronglySorted lt (a :: cs) -> Forall (fun i => i < length l)%nat (a :: cs) ->
  concat (runs l (a :: cs)) = firstn (last (a :: cs) O - a) (skipn a l).
Proof.
  induction cs as [|b cs IH]; intros a St B.
  - cbn. now rewrite Nat.sub_diag.
  - inversion St as [|? ? St1 St2]; subst. inversion St2 as [|? ? Hab _]; subst. inversion B as [|? ? B1 B2]; subst.
    change (runs l (a :: b :: cs)) with (firstn (b - a) (skipn a l) :: runs l (b :: cs)). cbn [concat]. rewrite (IH b St1 B2).
    change (last (a :: b :: cs) 0%nat) with (last (b :: cs) 0%nat). set (z := last (b :: cs) 0%nat).
    assert (Hz: (b <= z)%nat).
    { unfold z. clear - St1. revert b St1. induction cs as [|c cs IH]; intros b St; [cbn; lia|].
      inversion St as [|? ? St1 St2]; subst. inversion St2; subst. change (last (b :: c :: cs) 0%nat) with (last (c :: cs) 0%nat). specialize (IH c St1). lia. }
    assert (E: skipn b l = skipn (b - a) (skipn a l)) by (rewrite skipn_skipn; f_equal; lia).
    rewrite E. replace (z - a)%nat with ((b - a) + (z - b))%nat by lia. 
    clear. generalize (skipn a l) (b - a)%nat (z - b)%nat. intros m x y. revert m. induction x as [|x IH]; intros [|e m]; cbn; try reflexivity; [now destruct y|]. now rewrite IH.
Qed.
End F.

Section G.
Variable hypot : dyadic -> dyadic -> dyadic.
Variable fit : list quad -> res (option (list quad)).
Lemma segment_sorted segs corners : segment_sp hypot segs = Ok corners -> StronglySorted lt corners /\ Forall (fun i => i < length segs)%nat corners.
Proof.
  unfold segment_sp. cbv zeta. destruct (turn_loop _ _ _) as [t| |]; try discriminate. cbn [rbind].
  set (m := match segs with [] => _ | _ => _ end). destruct m as [a| |]; try discriminate. cbn [rbind]. intros [= <-].
  split; [apply sorted_filter, sorted_seq|]. apply Forall_forall. intros i Hi. apply filter_In in Hi as [Hi _]. apply in_seq in Hi. lia.
Qed.
Theorem contour_spec path path' segs : path_segments path = Ok segs -> Forall plain_seg segs -> crunch_contour hypot fit path = Ok path' ->
  exists corners, segment_sp hypot segs = Ok corners /\
   ((path' = path /\ exists run, In run (runs segs corners) /\ ~ single_line run /\ fitted fit run None) \/
    (exists el parts, hd_error path = Some el /\ path' = el :: concat parts /\ Forall2 (redrawn fit) (runs segs corners) parts)).
Proof.
  intros Es P E. unfold crunch_contour in E. rewrite Es in E. cbn [rbind] in E.
  destruct (segment_sp hypot segs) as [cs| |] eqn:Ec; try discriminate. cbn [rbind] in E.
  destruct (hd_error path) as [el|] eqn:Eh; [|discriminate]. cbn [unwrap rbind] in E.
  destruct (windows fit segs cs) as [o| |] eqn:Ew; try discriminate. cbn [rbind] in E. injection E as <-.
  destruct (segment_sorted _ _ Ec) as [St B].
  exists cs. split; [reflexivity|]. pose proof (windows_spec fit segs P cs St B o Ew) as W. destruct o as [els|].
  - right. destruct W as (parts & -> & F). exists el, parts. auto.
  - left. auto.
Qed.
End G.

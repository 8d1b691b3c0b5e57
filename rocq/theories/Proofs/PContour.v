(** On-curve insertion and removal. *)
From Coq Require Import List ZArith Lia Bool.
From Verif.Model Require Import MBase MFixed MFloat MTables MGlyph MGlyf.
From Verif.Spec Require Import SBase SGlyph SGlyf.
From Verif.Proofs Require Import PBase PCodec PGlyph.
Import ListNotations.
Open Scope Z_scope.

Lemma mid16_ok a b : fits16 (a + b) -> mid16 a b = Ok (Z.quot (a + b) 2).
Proof. unfold fits16, mid16, chk_i; cbn [in_range]. intros H. change (2 ^ (16 - 1)) with 32768. now if_true. Qed.
Lemma mid16_inv a b m : mid16 a b = Ok m -> fits16 (a + b) /\ m = Z.quot (a + b) 2.
Proof.
  unfold mid16, chk_i, fits16; cbn [in_range]. change (2 ^ (16 - 1)) with 32768.
  destruct (_ && _) eqn:E; cbn [rbind]; [|discriminate]. intros H; apply Ok_inj in H. split; [lia|congruence].
Qed.
Lemma mid16_cases a b : (fits16 (a + b) /\ mid16 a b = Ok (Z.quot (a + b) 2)) \/ (~ fits16 (a + b) /\ mid16 a b = Panic).
Proof.
  unfold mid16, chk_i, fits16; cbn [in_range]. change (2 ^ (16 - 1)) with 32768.
  destruct (_ && _) eqn:E; cbn [rbind]; [left|right]; split; auto; lia.
Qed.

Lemma exp_head q c r : expansion (q :: c) r -> exists r', r = q :: r'.
Proof. inversion 1; eauto. Qed.

Lemma expansion_fun c : forall r r', expansion c r -> expansion c r' -> r = r'.
Proof.
  induction c as [|p c IH]; intros r r' H H'.
  - inversion H; inversion H'; auto.
  - inversion H; subst; inversion H'; subst; try tauto; auto.
    + f_equal. eapply IH; eauto.
    + replace m0 with m; [do 2 f_equal; eapply IH; eauto|].
      destruct m, m0. unfold midpoint in *. cbn in *. intuition congruence.
Qed.

Lemma neighbours_cons a c p q : neighbours (a :: c) p q <->
  (exists c', c = q :: c' /\ p = a) \/ neighbours c p q.
Proof.
  split.
  - intros (l1 & l2 & E). destruct l1; cbn in E; injection E as <- E.
    + left; eauto.
    + right; exists l1, l2; auto.
  - intros [(c' & -> & ->)|(l1 & l2 & ->)]; [exists [], c'|exists (a :: l1), l2]; auto.
Qed.

Lemma nth_mid {A} (l1 l2 : list A) x d : nth (length l1) (l1 ++ x :: l2) d = x.
Proof. rewrite app_nth2, Nat.sub_diag; auto. Qed.
Lemma insert_at_mid {A} (l1 l2 : list A) x : insert_at (length l1) x (l1 ++ l2) = l1 ++ x :: l2.
Proof. unfold insert_at. now rewrite firstn_app_exact, skipn_app_exact by reflexivity. Qed.

Lemma insert_loop_spec pre : forall q suf0 r,
  expansion (q :: suf0) r ->
  (sums_fit (pre ++ [q]) ->
   exists out, insert_loop (length pre) (pre ++ r) = Ok out /\ expansion (pre ++ q :: suf0) out) /\
  (~ sums_fit (pre ++ [q]) -> insert_loop (length pre) (pre ++ r) = Panic).
Proof.
  induction pre as [|p pre IH] using rev_ind; intros q suf0 r He.
  - split; [intros _; exists r; auto|]. intros N; exfalso; apply N. intros a b (l1 & l2 & E) _.
    destruct l1 as [|? [|]]; discriminate.
  - destruct (exp_head _ _ _ He) as [r' ->]. rewrite app_length. cbn [length]. rewrite Nat.add_1_r. cbn [insert_loop].
    replace (nth (length pre) ((pre ++ [p]) ++ q :: r') pt0) with p
      by (rewrite <- app_assoc; cbn [app]; now rewrite nth_mid).
    replace (nth (S (length pre)) ((pre ++ [p]) ++ q :: r') pt0) with q
      by (replace (S (length pre)) with (length (pre ++ [p])) by (rewrite app_length; cbn; lia); now rewrite nth_mid).
    assert (Hlast: neighbours ((pre ++ [p]) ++ [q]) p q) by (exists pre, []; now rewrite <- app_assoc).
    assert (Hpre: forall x y, neighbours (pre ++ [p]) x y -> neighbours ((pre ++ [p]) ++ [q]) x y).
    { intros x y (l1 & l2 & E). exists l1, (l2 ++ [q]). rewrite E, <- app_assoc. reflexivity. }
    assert (Hall: forall x y, neighbours ((pre ++ [p]) ++ [q]) x y -> neighbours (pre ++ [p]) x y \/ (x = p /\ y = q)).
    { intros x y (l1 & l2 & E). destruct l2 as [|z l2 _] using rev_ind.
      - right. replace (l1 ++ [x; y]) with ((l1 ++ [x]) ++ [y]) in E by (rewrite <- app_assoc; reflexivity).
        apply app_inj_tail in E as [E <-]. apply app_inj_tail in E as [_ <-]. auto.
      - left. exists l1, l2. change (l1 ++ x :: y :: l2 ++ [z]) with (l1 ++ (x :: y :: l2) ++ [z]) in E.
        rewrite app_assoc in E. apply app_inj_tail in E as [E _]. exact E. }
    assert (Ea: (pre ++ [p]) ++ [q] = pre ++ [p; q]) by (rewrite <- app_assoc; reflexivity).
    rewrite Ea in *.
    destruct (negb (pt_on p) && negb (pt_on q)) eqn:Eo.
    + assert (Ho: both_off p q) by (split; [destruct (pt_on p)|destruct (pt_on q)]; cbn in Eo; try discriminate; auto; now rewrite andb_false_r in Eo).
      destruct (mid16_cases (pt_x p) (pt_x q)) as [[Hx ->]|[Hx ->]].
      2:{ cbn [rbind]. split; [|reflexivity]. intros F. destruct (F _ _ Hlast Ho). tauto. }
      destruct (mid16_cases (pt_y p) (pt_y q)) as [[Hy ->]|[Hy ->]].
      2:{ cbn [rbind]. split; [|reflexivity]. intros F. destruct (F _ _ Hlast Ho). tauto. }
      cbn [rbind].
      replace (S (length pre)) with (length (pre ++ [p])) by (rewrite app_length; cbn; lia).
      rewrite insert_at_mid. rewrite <- !app_assoc. cbn [app].
      set (m := mk_point _ _ true).
      destruct (IH p (q :: suf0) (p :: m :: q :: r')) as [I1 I2].
      { apply exp_mid; auto. repeat split. }
      split.
      * intros F. destruct I1 as (out & E1 & E2); [intros x y Hn; apply F; auto|].
        exists out. auto.
      * intros N. apply I2. intros F. apply N. intros x y Hn Hxy.
        destruct (Hall x y Hn) as [H|[-> ->]]; auto.
    + assert (Ho: ~ both_off p q) by (intros [A B]; rewrite A, B in Eo; discriminate).
      cbn [rbind]. rewrite <- !app_assoc. cbn [app].
      destruct (IH p (q :: suf0) (p :: q :: r')) as [I1 I2]; [apply exp_keep; auto|].
      split.
      * intros F. destruct I1 as (out & E1 & E2); [intros x y Hn; apply F; auto|].
        exists out. auto.
      * intros N. apply I2. intros F. apply N. intros x y Hn Hxy.
        destruct (Hall x y Hn) as [H|[-> ->]]; [auto|tauto].
Qed.

Lemma insert_cases c :
  (c <> [] /\ sums_fit c /\ exists r, insert_explicit_oncurves c = Ok r /\ expansion c r) \/
  ((c = [] \/ ~ sums_fit c) /\ insert_explicit_oncurves c = Panic).
Proof.
  destruct c as [|p c _] using rev_ind; [right; auto|].
  assert (E: insert_explicit_oncurves (c ++ [p]) = insert_loop (length c) (c ++ [p])).
  { unfold insert_explicit_oncurves. destruct (c ++ [p]) eqn:E; [now apply app_eq_nil in E as []|].
    rewrite <- E, app_length. cbn [length]. now replace (length c + 1 - 1)%nat with (length c) by lia. }
  rewrite E. destruct (insert_loop_spec c p [] [p] (exp_one p)) as [H1 H2].
  assert (D: sums_fit (c ++ [p]) \/ ~ sums_fit (c ++ [p])).
  { clear. generalize (c ++ [p]). clear. intros c.
    induction c as [|a c IH]; [left; intros x y (l1 & l2 & E); destruct l1; discriminate|].
    destruct IH as [IH|IH]; [|right; intros F; apply IH; intros x y Hn; apply F, neighbours_cons; auto].
    destruct c as [|b c].
    - left. intros x y (l1 & l2 & E). destruct l1 as [|? [|]]; discriminate.
    - assert (D: both_off a b -> (fits16 (pt_x a + pt_x b) /\ fits16 (pt_y a + pt_y b)) \/ ~ (fits16 (pt_x a + pt_x b) /\ fits16 (pt_y a + pt_y b)))
        by (intros _; unfold fits16; cbn [in_range]; lia).
      assert (Do: both_off a b \/ ~ both_off a b) by (unfold both_off; destruct (pt_on a), (pt_on b); intuition congruence).
      destruct Do as [Do|Do].
      + destruct (D Do) as [Df|Df].
        * left. intros x y Hn Hxy. apply neighbours_cons in Hn as [(c' & E & ->)|Hn]; [injection E as -> ->; auto|auto].
        * right. intros F. apply Df, F; auto. exists [], c; auto.
      + left. intros x y Hn Hxy. apply neighbours_cons in Hn as [(c' & E & ->)|Hn]; [injection E as -> ->; tauto|auto]. }
  destruct D as [D|D].
  - left. split; [intros N; now apply app_eq_nil in N as []|]. split; [exact D|]. exact (H1 D).
  - right. split; [auto|]. exact (H2 D).
Qed.

Lemma expansion_no_pair c : forall r, expansion c r -> forall p q, neighbours r p q -> ~ both_off p q.
Proof.
  intros r He. induction He as [|p0|p0 q0 c r Hno He IH|p0 q0 m c r Hb Hm He IH]; intros p q Hn.
  - destruct Hn as (l1 & l2 & E); destruct l1; discriminate.
  - destruct Hn as (l1 & l2 & E); destruct l1 as [|? [|]]; discriminate.
  - apply neighbours_cons in Hn as [(c' & E & ->)|Hn]; [|eauto].
    destruct (exp_head _ _ _ He) as [r' ->]. injection E as <- _. exact Hno.
  - destruct Hm as (Hm & _). apply neighbours_cons in Hn as [(c' & E & ->)|Hn].
    + injection E as -> _. intros [_ H]. congruence.
    + apply neighbours_cons in Hn as [(c' & E & ->)|Hn]; [|eauto]. intros [H _]. congruence.
Qed.

Lemma insert_full c :
  ((exists r, insert_explicit_oncurves c = Ok r) <-> c <> [] /\ sums_fit c) /\
  forall r, insert_explicit_oncurves c = Ok r ->
    expansion c r /\ forall p q, neighbours r p q -> ~ both_off p q.
Proof.
  destruct (insert_cases c) as [(Hne & Hf & r & E & He)|[Hn E]].
  - split; [split; [auto|intros _; eauto]|]. intros r' E'. rewrite E in E'. apply Ok_inj in E'. subst r'.
    split; [exact He|]. eapply expansion_no_pair; eauto.
  - split; [split; [intros [r H]; congruence|intros [H1 H2]; tauto]|]. intros r H; congruence.
Qed.

(** ** Removal *)
Lemma prev_split (l1 l2 : list point) p :
  nth_error (l1 ++ p :: l2) ((length l1 + length (l1 ++ p :: l2) - 1) mod length (l1 ++ p :: l2)) = Some (last (l2 ++ l1) p).
Proof.
  rewrite app_length. cbn [length]. destruct l1 as [|x l1 _] using rev_ind.
  - cbn [length app Nat.add]. rewrite app_nil_r. rewrite Nat.mod_small by lia.
    replace (S (length l2) - 1)%nat with (length l2) by lia.
    destruct l2 as [|y l2 _] using rev_ind; [reflexivity|].
    rewrite last_last, app_length. cbn [length]. rewrite Nat.add_1_r. cbn [nth_error].
    rewrite nth_error_app2, Nat.sub_diag by lia. reflexivity.
  - rewrite app_assoc, last_last. rewrite app_length. cbn [length].
    replace (length l1 + 1 + (length l1 + 1 + S (length l2)) - 1)%nat
      with (length l1 + 1 * (length l1 + 1 + S (length l2)))%nat by lia.
    rewrite Nat.mod_add by lia. rewrite Nat.mod_small by lia. rewrite <- app_assoc.
    rewrite nth_error_app2, Nat.sub_diag by lia. reflexivity.
Qed.
Lemma next_split (l1 l2 : list point) p :
  nth_error (l1 ++ p :: l2) ((length l1 + 1) mod length (l1 ++ p :: l2)) = Some (hd p (l2 ++ l1)).
Proof.
  rewrite app_length. cbn [length]. destruct l2 as [|y l2].
  - cbn [length app]. rewrite Nat.mod_same by lia. destruct l1; reflexivity.
  - cbn [length app hd]. rewrite Nat.mod_small by lia. rewrite nth_error_app2 by lia.
    replace (length l1 + 1 - length l1)%nat with 1%nat by lia. reflexivity.
Qed.
Lemma implied_split l1 p l2 : implied (l1 ++ p :: l2) (length l1) <->
  both_off (last (l2 ++ l1) p) (hd p (l2 ++ l1)) /\ midpoint (last (l2 ++ l1) p) (hd p (l2 ++ l1)) p.
Proof.
  unfold implied. rewrite prev_split, next_split.
  rewrite nth_error_app2, Nat.sub_diag by lia. cbn [nth_error]. split.
  - intros (t & a & b & E1 & E2 & E3 & H). injection E1 as <-. injection E2 as <-. injection E3 as <-. exact H.
  - intros H. exists p, (last (l2 ++ l1) p), (hd p (l2 ++ l1)). tauto.
Qed.
Lemma implied_at c i : implied c i -> exists l1 p l2, c = l1 ++ p :: l2 /\ length l1 = i.
Proof.
  intros (t & _ & _ & E & _). destruct (nth_error_split _ _ E) as (l1 & l2 & -> & <-). eauto 6.
Qed.

Lemma last_In_ne {A} (l : list A) d : l <> [] -> forall d', last l d = last l d'.
Proof. induction l as [|a [|b l] IH]; [congruence|auto|]. intros _ d'. cbn. apply IH. discriminate. Qed.
Lemma last_app_ne {A} (l l' : list A) d : l' <> [] -> last (l ++ l') d = last l' d.
Proof.
  destruct l' as [|x l' _] using rev_ind; [congruence|]. intros _. now rewrite app_assoc, !last_last.
Qed.
Lemma hd_app_ne {A} (l l' : list A) d : l <> [] -> hd d (l ++ l') = hd d l.
Proof. destruct l; [congruence|auto]. Qed.

(** Dropping an implied point makes no earlier point implied. *)
Lemma drop_keeps l1 p l2 j : implied (l1 ++ p :: l2) (length l1) -> (j < length l1)%nat ->
  ~ implied (l1 ++ p :: l2) j -> ~ implied (l1 ++ l2) j.
Proof.
  intros Hi Hj Hn Hn'. apply implied_split in Hi as [Hb Hm].
  apply implied_at in Hn' as Ha. destruct Ha as (a1 & q & a2 & E & La).
  assert (Ep: exists b, l1 = a1 ++ q :: b /\ a2 = b ++ l2).
  { assert (Hf: firstn (length l1) (l1 ++ l2) = firstn (length l1) (a1 ++ q :: a2)) by now rewrite E.
    rewrite firstn_app_exact in Hf by reflexivity. rewrite firstn_app in Hf.
    rewrite firstn_all2 in Hf by lia. destruct (length l1 - length a1)%nat eqn:Ed; [lia|]. cbn [firstn] in Hf.
    exists (firstn n a2). split; [exact Hf|]. rewrite Hf in E. rewrite <- app_assoc in E. apply app_inv_head in E.
    cbn [app] in E. injection E as E. auto. }
  destruct Ep as (b & -> & ->). clear E. subst j.
  rewrite <- app_assoc in Hn'. cbn [app] in Hn'. apply implied_split in Hn' as [Hb' Hm'].
  destruct b as [|x b _] using rev_ind.
  - (* q precedes p, so it is off the curve *)
    replace (last (l2 ++ a1 ++ [q]) p) with q in Hb by (now rewrite app_assoc, last_last).
    destruct Hb as [Hb _], Hm' as [Hm' _]. congruence.
  - apply Hn. replace ((a1 ++ q :: b ++ [x]) ++ p :: l2) with (a1 ++ q :: (b ++ [x] ++ p :: l2))
      by (rewrite <- !app_assoc; cbn [app]; now rewrite <- !app_assoc).
    apply implied_split.
    replace (hd q ((b ++ [x] ++ p :: l2) ++ a1)) with (hd q (((b ++ [x]) ++ l2) ++ a1))
      by (destruct b; reflexivity).
    destruct a1 as [|y a1 _] using rev_ind.
    + (* q is the first point *)
      destruct l2 as [|z l2 _] using rev_ind.
      * exfalso. destruct Hb as [_ Hb]. cbn in Hb. destruct Hm' as [Hm' _]. congruence.
      * rewrite app_nil_r in *.
        replace (last (b ++ [x] ++ p :: l2 ++ [z]) q) with z
          by (rewrite !app_comm_cons, !app_assoc, last_last; reflexivity).
        replace (last ((b ++ [x]) ++ l2 ++ [z]) q) with z in * by (rewrite !app_assoc, last_last; reflexivity).
        rewrite app_nil_r. auto.
    + replace (last ((b ++ [x] ++ p :: l2) ++ a1 ++ [y]) q) with y by (rewrite app_assoc, last_last; reflexivity).
      replace (last (((b ++ [x]) ++ l2) ++ a1 ++ [y]) q) with y in * by (rewrite app_assoc, last_last; reflexivity).
      auto.
Qed.

Lemma nth_error_nth' {A} (l : list A) n d x : nth_error l n = Some x -> nth n l d = x.
Proof. revert n. induction l; intros [|n]; cbn; try discriminate; auto. congruence. Qed.

Lemma remove_loop_spec k : forall i c, (length c <= i + k)%nat ->
  (forall j, (j < i)%nat -> ~ implied c j) ->
  (off_sums_fit c -> exists r, remove_loop k i c = Ok r) /\
  (forall r, remove_loop k i c = Ok r -> drops c r /\ forall j, ~ implied r j).
Proof.
  induction k as [|k IH]; intros i c Hk Hi; cbn [remove_loop].
  - split; [eauto|]. intros r H; apply Ok_inj in H; subst r. split; [constructor|].
    intros j Hj. apply implied_at in Hj as Hl. destruct Hl as (l1 & p & l2 & -> & <-).
    rewrite app_length in Hk. cbn in Hk. eapply Hi; [|exact Hj]. lia.
  - destruct (i <? length c)%nat eqn:El.
    2:{ split; [eauto|]. intros r H; apply Ok_inj in H; subst r. split; [constructor|].
        intros j Hj. apply implied_at in Hj as Hl. destruct Hl as (l1 & p & l2 & -> & <-).
        apply Nat.ltb_ge in El. rewrite app_length in El. cbn [length] in El. apply (Hi (length l1)); [|exact Hj]. lia. }
    assert (Hx: exists l1 p l2, c = l1 ++ p :: l2 /\ length l1 = i).
    { destruct (nth_error c i) as [p|] eqn:E; [|apply nth_error_None in E; lia].
      destruct (nth_error_split _ _ E) as (l1 & l2 & -> & <-). eauto. }
    destruct Hx as (l1 & p & l2 & -> & <-).
    rewrite nth_mid. rewrite (nth_error_nth' _ _ _ _ (next_split l1 l2 p)).
    replace (nth (if (length l1 =? 0)%nat then _ else _) _ _) with (last (l2 ++ l1) p).
    2:{ symmetry. apply nth_error_nth'. rewrite <- prev_split. f_equal.
        assert (0 < length (l1 ++ p :: l2))%nat by (rewrite app_length; cbn; lia).
        destruct (length l1 =? 0)%nat eqn:E0.
        - rewrite Nat.mod_small; lia.
        - replace (length l1 + length (l1 ++ p :: l2) - 1)%nat with (length l1 - 1 + 1 * length (l1 ++ p :: l2))%nat by lia.
          rewrite Nat.mod_add, Nat.mod_small by (rewrite ?app_length in *; cbn [length]; lia). reflexivity. }
    set (prev := last (l2 ++ l1) p). set (next := hd p (l2 ++ l1)).
    assert (Skip: ~ implied (l1 ++ p :: l2) (length l1) ->
      (off_sums_fit (l1 ++ p :: l2) -> exists r, remove_loop k (S (length l1)) (l1 ++ p :: l2) = Ok r) /\
      (forall r, remove_loop k (S (length l1)) (l1 ++ p :: l2) = Ok r ->
         drops (l1 ++ p :: l2) r /\ forall j, ~ implied r j)).
    { intros N. apply IH; [lia|]. intros j Hj. destruct (Nat.eq_dec j (length l1)) as [->|Hne]; [exact N|apply Hi; lia]. }
    destruct (negb (pt_on p) || pt_on prev || pt_on next) eqn:Eo.
    { apply Skip. intros H. apply implied_split in H as [[B1 B2] [B3 _]]. fold prev next in B1, B2.
      rewrite B1, B2, B3 in Eo. discriminate. }
    apply orb_false_iff in Eo as [Eo E3]. apply orb_false_iff in Eo as [E1 E2]. apply negb_false_iff in E1.
    assert (Hin: In prev (l1 ++ p :: l2) /\ In next (l1 ++ p :: l2)).
    { split.
      - pose proof (prev_split l1 l2 p) as H. apply nth_error_In in H. exact H.
      - pose proof (next_split l1 l2 p) as H. apply nth_error_In in H. exact H. }
    destruct (mid16_cases (pt_x prev) (pt_x next)) as [[Fx ->]|[Fx ->]].
    2:{ cbn [rbind]. split; [intros F; destruct (F prev next); (tauto || now split)|discriminate]. }
    cbn [rbind]. destruct (negb (pt_x p =? Z.quot (pt_x prev + pt_x next) 2)) eqn:Ex.
    { apply Skip. intros H. apply implied_split in H as [_ (_ & B & _)]. fold prev next in B. lia. }
    destruct (mid16_cases (pt_y prev) (pt_y next)) as [[Fy ->]|[Fy ->]].
    2:{ cbn [rbind]. split; [intros F; destruct (F prev next); (tauto || now split)|discriminate]. }
    cbn [rbind]. destruct (negb (pt_y p =? Z.quot (pt_y prev + pt_y next) 2)) eqn:Ey.
    { apply Skip. intros H. apply implied_split in H as [_ (_ & _ & B)]. fold prev next in B. lia. }
    assert (Himp: implied (l1 ++ p :: l2) (length l1)).
    { apply implied_split. fold prev next. repeat split; auto; lia. }
    assert (Er: remove_at (length l1) (l1 ++ p :: l2) = l1 ++ l2).
    { unfold remove_at. rewrite firstn_app_exact by reflexivity. f_equal.
      replace (l1 ++ p :: l2) with ((l1 ++ [p]) ++ l2) by now rewrite <- app_assoc.
      replace (S (length l1)) with (length (l1 ++ [p])) by (rewrite app_length; cbn; lia).
      now rewrite skipn_app_exact. }
    rewrite Er. destruct (IH (length l1) (l1 ++ l2)) as [I1 I2].
    { rewrite app_length in *. cbn [length] in *. lia. }
    { intros j Hj. apply drop_keeps with (p := p); auto. }
    split.
    + intros F. apply I1. intros x y Hx Hy. apply (F x y); rewrite in_app_iff in *; cbn [In]; tauto.
    + intros r H. destruct (I2 r H) as [D N]. split; [|exact N].
      econstructor; [|exact D]. exists l1, p, l2. auto.
Qed.

Lemma remove_full c :
  (off_sums_fit c -> exists r, remove_implied_oncurves c = Ok r) /\
  (forall r, remove_implied_oncurves c = Ok r -> drops c r /\ forall i, ~ implied r i).
Proof. apply remove_loop_spec; lia. Qed.

(** ** Insertion followed by removal *)
Inductive pexp : list point -> list point -> Prop :=
| pexp_nil : pexp [] []
| pexp_one p : pexp [p] [p]
| pexp_keep p q c r : pexp (q :: c) r -> pexp (p :: q :: c) (p :: r)
| pexp_mid p q m c r : both_off p q -> midpoint p q m -> pexp (q :: c) r -> pexp (p :: q :: c) (p :: m :: r).

Lemma exp_pexp c r : expansion c r -> pexp c r.
Proof.
  induction 1; [apply pexp_nil|apply pexp_one|apply pexp_keep; auto|apply pexp_mid; auto].
Qed.
Lemma pexp_head p c r : pexp (p :: c) r -> exists r', r = p :: r'.
Proof. inversion 1; eauto. Qed.
Lemma pexp_hd c r d : pexp c r -> hd d r = hd d c.
Proof. inversion 1; auto. Qed.
Lemma pexp_last c r d : pexp c r -> last r d = last c d.
Proof.
  induction 1; auto.
  - destruct (pexp_head _ _ _ H) as [r' ->]. cbn [last] in *. exact IHpexp.
  - destruct (pexp_head _ _ _ H1) as [r' ->]. cbn [last] in *. exact IHpexp.
Qed.
Lemma pexp_in c r : pexp c r -> forall p, In p r -> pt_on p = false -> In p c.
Proof.
  induction 1; cbn [In]; intros x Hx Ho; auto.
  - destruct Hx as [->|Hx]; [auto|right; apply IHpexp; auto].
  - destruct Hx as [->|[->|Hx]]; [auto| |right; apply IHpexp; auto]. destruct H0 as [H0 _]. congruence.
Qed.
Lemma pexp_app a1 : forall x y a2 l1 l2, pexp (a1 ++ [x]) l1 -> pexp (y :: a2) l2 ->
  pexp (a1 ++ x :: y :: a2) (l1 ++ l2).
Proof.
  induction a1 as [|a a1 IH]; intros x y a2 l1 l2 H1 H2; cbn [app] in *.
  - inversion H1; subst. now apply pexp_keep.
  - destruct a1 as [|b a1]; cbn [app] in *; inversion H1; subst; cbn [app].
    + apply pexp_keep. apply (IH x y a2 r l2); auto.
    + apply pexp_mid; [assumption|assumption|apply (IH x y a2 r l2); auto].
    + apply pexp_keep. apply (IH x y a2 r l2); auto.
    + apply pexp_mid; [assumption|assumption|apply (IH x y a2 r l2); auto].
Qed.
Lemma pexp_split c r : pexp c r -> forall l1 p l2, r = l1 ++ p :: l2 ->
  (exists a1 a2, c = a1 ++ p :: a2 /\ pexp (a1 ++ [p]) (l1 ++ [p]) /\ pexp (p :: a2) (p :: l2)) \/
  (exists a1 x y a2, c = a1 ++ x :: y :: a2 /\ pexp (a1 ++ [x]) l1 /\ pexp (y :: a2) l2 /\
     both_off x y /\ midpoint x y p).
Proof.
  induction 1 as [|p0|p0 q0 c r H IH|p0 q0 m c r Hb Hm H IH]; intros l1 p l2 E.
  - destruct l1; discriminate.
  - destruct l1 as [|? [|]]; try discriminate. injection E as <- <-. left. exists [], []. repeat constructor.
  - destruct l1 as [|z l1]; cbn [app] in E; injection E as <- E.
    + subst. left. exists [], (q0 :: c). repeat constructor; auto.
    + destruct (IH _ _ _ E) as [(a1 & a2 & Ec & H1 & H2)|(a1 & x & y & a2 & Ec & H1 & H2 & H3 & H4)].
      * left. exists (p0 :: a1), a2. rewrite Ec. split; [reflexivity|]. split; [|exact H2].
        destruct a1 as [|a a1]; cbn [app] in *; apply pexp_keep; auto.
      * right. exists (p0 :: a1), x, y, a2. rewrite Ec. split; [reflexivity|]. split; [|auto].
        destruct a1 as [|a a1]; cbn [app] in *; apply pexp_keep; auto.
  - destruct l1 as [|z [|z' l1]]; cbn [app] in E.
    + injection E as <- <-. left. exists [], (q0 :: c). split; [reflexivity|]. split; [constructor|].
      apply pexp_mid; auto.
    + injection E as <- <- <-. right. exists [], p0, q0, c. repeat split; auto; try constructor; apply Hb || apply Hm.
    + injection E as <- <- E.
      destruct (IH _ _ _ E) as [(a1 & a2 & Ec & H1 & H2)|(a1 & x & y & a2 & Ec & H1 & H2 & H3 & H4)].
      * left. exists (p0 :: a1), a2. rewrite Ec. split; [reflexivity|]. split; [|exact H2].
        destruct a1 as [|a a1]; cbn [app] in *; injection Ec as <- _; apply pexp_mid; auto.
      * right. exists (p0 :: a1), x, y, a2. rewrite Ec. split; [reflexivity|]. split; [|auto].
        destruct a1 as [|a a1]; cbn [app] in *; injection Ec as <- _; apply pexp_mid; auto.
Qed.

Lemma pexp_single c p : pexp c [p] -> c = [p].
Proof.
  inversion 1; subst; auto. match goal with H : pexp (_ :: _) [] |- _ => inversion H end.
Qed.

Lemma pexp_drop c r r1 : (forall i, ~ implied c i) -> pexp c r -> drop_implied r r1 -> pexp c r1.
Proof.
  intros Hn Hp (l1 & p & l2 & -> & -> & Hi). apply implied_split in Hi as [Hb Hm].
  destruct (pexp_split _ _ Hp _ _ _ eq_refl) as [(a1 & a2 & -> & H1 & H2)|(a1 & x & y & a2 & -> & H1 & H2 & _)].
  2:{ now apply pexp_app. }
  exfalso. apply (Hn (length a1)). apply implied_split.
  assert (E1: last (a2 ++ a1) p = last (l2 ++ l1) p).
  { destruct l1 as [|x l1 _] using rev_ind.
    - cbn [app] in H1. apply pexp_single in H1. destruct a1 as [|? [|]]; try discriminate.
      rewrite !app_nil_r. pose proof (pexp_last _ _ p H2) as H. destruct l2, a2; cbn [last] in *; congruence.
    - rewrite app_assoc, last_last. rewrite app_assoc, last_last in Hb. destruct Hb as [Hb _].
      rewrite <- app_assoc in H1. cbn [app] in H1.
      destruct (pexp_split _ _ H1 l1 x [p] eq_refl) as [(b1 & b2 & E & _ & H3)|(b1 & x' & y & b2 & _ & _ & _ & _ & M)].
      + inversion H3; subst.
        * match goal with H : pexp (_ :: _) [p] |- _ => apply pexp_single in H; injection H as -> -> end.
          replace (b1 ++ [x; p]) with ((b1 ++ [x]) ++ [p]) in E by (rewrite <- app_assoc; reflexivity).
          apply app_inj_tail in E as [-> _]. now rewrite app_assoc, last_last.
        * match goal with H : pexp (_ :: _) [] |- _ => inversion H end.
      + destruct M as [M _]. congruence. }
  assert (E2: hd p (a2 ++ a1) = hd p (l2 ++ l1)).
  { destruct l2 as [|x l2].
    - apply pexp_single in H2. destruct a2; [|discriminate]. cbn [app].
      pose proof (pexp_hd _ _ p H1) as H. destruct l1, a1; cbn in *; congruence.
    - cbn [app hd] in *. inversion H2; subst.
      + match goal with H : pexp (_ :: _) (x :: _) |- _ => destruct (pexp_head _ _ _ H) as [? E]; injection E as -> _ end.
        reflexivity.
      + destruct Hb as [_ Hb]. match goal with H : midpoint p _ x |- _ => destruct H as [M _] end. congruence. }
  rewrite E1, E2. auto.
Qed.
Lemma pexp_drops c r r1 : (forall i, ~ implied c i) -> pexp c r -> drops r r1 -> pexp c r1.
Proof. intros Hn Hp Hd. induction Hd; auto. apply IHHd. eapply pexp_drop; eauto. Qed.

Lemma pexp_eq c r : pexp c r ->
  r = c \/ exists l1 x m y l2, r = l1 ++ x :: m :: y :: l2 /\ both_off x y /\ midpoint x y m.
Proof.
  induction 1; auto.
  - destruct IHpexp as [->|(l1 & x & m & y & l2 & -> & H1)]; [auto|]. right. exists (p :: l1), x, m, y, l2. auto.
  - right. destruct (pexp_head _ _ _ H1) as [r' ->]. exists [], p, m, q, r'. auto.
Qed.

Lemma insert_remove c r r' : (forall i, ~ implied c i) ->
  insert_explicit_oncurves c = Ok r -> remove_implied_oncurves r = Ok r' -> r' = c.
Proof.
  intros Hn E1 E2. destruct (insert_full c) as [_ H]. destruct (H r E1) as [He _].
  destruct (remove_full r) as [_ H2]. destruct (H2 r' E2) as [Hd Hi].
  pose proof (pexp_drops _ _ _ Hn (exp_pexp _ _ He) Hd) as Hp.
  destruct (pexp_eq _ _ Hp) as [->|(l1 & x & m & y & l2 & -> & Hb & Hm)]; [reflexivity|].
  exfalso. apply (Hi (length (l1 ++ [x]))).
  replace (l1 ++ x :: m :: y :: l2) with ((l1 ++ [x]) ++ m :: y :: l2) by now rewrite <- app_assoc.
  apply implied_split. rewrite app_assoc, last_last. cbn [app hd]. auto.
Qed.
Lemma insert_remove_full c : c <> [] -> (forall i, ~ implied c i) -> off_sums_fit c ->
  exists r, insert_explicit_oncurves c = Ok r /\ remove_implied_oncurves r = Ok c.
Proof.
  intros Hne Hn Hf.
  assert (Hs: sums_fit c).
  { intros p q (l1 & l2 & ->) Hb. apply (Hf p q); auto; rewrite in_app_iff; cbn; auto. }
  destruct (insert_full c) as [[_ H] H']. destruct (H (conj Hne Hs)) as [r E]. exists r. split; [exact E|].
  destruct (H' r E) as [He _]. pose proof (pexp_in _ _ (exp_pexp _ _ He)) as Hin.
  destruct (remove_full r) as [Hr _]. destruct Hr as [r' E'].
  { intros p q Hp Hq Hb. apply (Hf p q); auto; apply Hin; auto; apply Hb. }
  rewrite E'. f_equal. eapply insert_remove; eauto.
Qed.

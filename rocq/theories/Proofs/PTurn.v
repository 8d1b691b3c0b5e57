(** Proofs about where fontcrunch sees corners. *)
From Coq Require Import QArith Qabs Lqa.
From Verif.Model Require Import MBase MFixed MFloat MGlyph MGlyf MPath MCrunch.
From Verif.Spec Require Import SBase SFloat SGlyf SPath SCrunch SCorner.
From Verif.Proofs Require Import PBase PFloat PFloat32 PRound PCrunchGrid PBreaks.
Local Open Scope Z_scope.

(** ** Whole numbers *)
Definition iw (z : Z) (x : dyadic) : Prop := (val x == inject_Z z)%Q.
Lemma iw_rnd z x : Z.abs z < 2 ^ 53 -> iw z x -> iw z (rnd53 x).
Proof.
  intros B H. unfold iw in *. change (rnd53 x) with (rndp 53 x). rewrite <- H. apply rndp_exact; [lia|].
  eapply rep_ext; [symmetry; exact H|]. now apply rep_int.
Qed.
Lemma iw_sub i j x y : Z.abs (i - j) < 2 ^ 53 -> iw i x -> iw j y -> iw (i - j) (f64_sub x y).
Proof.
  intros B X Y. apply iw_rnd; [exact B|]. unfold iw in *. rewrite val_sub, X, Y. unfold Qminus. rewrite <- inject_Z_opp, <- inject_Z_plus. reflexivity.
Qed.
Lemma iw_mul i j x y : Z.abs (i * j) < 2 ^ 53 -> iw i x -> iw j y -> iw (i * j) (f64_mul x y).
Proof. intros B X Y. apply iw_rnd; [exact B|]. unfold iw in *. rewrite val_mul, X, Y, <- inject_Z_mult. reflexivity. Qed.
Lemma iw_0 : iw 0 f_0. Proof. reflexivity. Qed.
Lemma iw_neg i x : iw i x -> dy_ltb x f_0 = (i <? 0).
Proof.
  intros X. pose proof iw_0 as Z0. unfold iw in *. destruct (i <? 0) eqn:E.
  - apply ltb_iff. rewrite X, Z0. rewrite <- Zlt_Qlt. lia.
  - apply ltb_false. rewrite X, Z0. rewrite <- Zle_Qle. lia.
Qed.
Lemma iw_e8 i x : iw i x -> e8 (8 * i) x.
Proof. intros X. unfold e8, iw in *. rewrite X. unfold Qeq, inject_Z. cbn. lia. Qed.
Lemma iw_close0 i x : Z.abs i < 2 ^ 40 -> iw i x -> f64_is_close x f_0 = (i =? 0).
Proof.
  intros B X. pose proof (e8_close (8 * i) 0 x f_0 ltac:(lia) ltac:(lia) (iw_e8 _ _ X) e8_0) as H.
  destruct (i =? 0) eqn:E; [apply H; lia|]. destruct (f64_is_close x f_0); [|reflexivity]. exfalso. pose proof (proj1 H eq_refl). lia.
Qed.
Lemma iw_inj i j x : iw i x -> iw j x -> i = j.
Proof. intros X Y. unfold iw in *. rewrite X in Y. exact (proj1 (inject_Z_injective i j) Y). Qed.

Definition small (v : Z * Z) : Prop := Z.abs (fst v) < 2 ^ 17 /\ Z.abs (snd v) < 2 ^ 17.
Definition isv (d : kpoint) (v : Z * Z) : Prop := iw (fst v) (fst d) /\ iw (snd v) (snd d).
Lemma spot_way a b : spot16 a -> spot16 b -> exists v, way a b v /\ small v /\ isv (kp_sub b a) v.
Proof.
  intros (ax & ay & A1 & A2 & A3 & A4) (bx & bj & B1 & B2 & B3 & B4).
  exists (bx - ax, bj - ay). unfold fits16, in_range in *. cbn in A3, A4, B3, B4. split; [exists ax, ay, bx, bj; repeat split; assumption|].
  split; [split; cbn [fst snd]; lia|]. split; unfold kp_sub; cbn [fst snd]; apply iw_sub; try lia; assumption.
Qed.
Lemma way_fun a b v w : way a b v -> way a b w -> v = w.
Proof.
  intros (ax & ay & bx & bj & A1 & A2 & A3 & A4 & ->) (ax' & ay' & bx' & bj' & B1 & B2 & B3 & B4 & ->).
  rewrite (iw_inj _ _ _ A1 B1), (iw_inj _ _ _ A2 B2), (iw_inj _ _ _ A3 B3), (iw_inj _ _ _ A4 B4). reflexivity.
Qed.
Lemma heading_fun s v w : heading s v -> heading s w -> v = w.
Proof. destruct s; cbn; try apply way_fun. tauto. Qed.
Lemma sets_off_fun s v w : sets_off s v -> sets_off s w -> v = w.
Proof. destruct s; cbn; try apply way_fun. tauto. Qed.
Lemma arrives_fun s v w : arrives s v -> arrives s w -> v = w.
Proof. destruct s; cbn; try apply way_fun. tauto. Qed.

Lemma chord_ok s : plain_seg s -> exists d v, chord s = Ok d /\ heading s v /\ small v /\ isv d v.
Proof.
  destruct s; cbn; [intros [A B]|intros (A & C & B)|tauto]; destruct (spot_way _ _ A B) as (v & X & Y & Z0); eauto 10.
Qed.
Lemma leaving_ok s : plain_seg s -> exists d v, leaving s = Ok d /\ arrives s v /\ small v /\ isv d v.
Proof.
  destruct s; cbn; [intros [A B]|intros (A & C & B)|tauto].
  - destruct (spot_way _ _ A B) as (v & X & Y & Z0); eauto 10.
  - destruct (spot_way _ _ C B) as (v & X & Y & Z0); eauto 10.
Qed.
Lemma entering_ok s : plain_seg s -> exists d v, entering s = Ok d /\ sets_off s v /\ small v /\ isv d v.
Proof.
  destruct s; cbn; [intros [A B]|intros (A & C & B)|tauto].
  - destruct (spot_way _ _ A B) as (v & X & Y & Z0); eauto 10.
  - destruct (spot_way _ _ A C) as (v & X & Y & Z0); eauto 10.
Qed.

(** ** Turning back *)
Fixpoint turns (X Y : Z) (l : list (nat * (Z * Z))) : list nat :=
  match l with
  | [] => []
  | (i, (dx, dy)) :: l' =>
      if (X * dx <? 0) || (Y * dy <? 0) then i :: turns dx dy l'
      else turns (if X =? 0 then dx else X) (if Y =? 0 then dy else Y) l'
  end.
Lemma turn_turns l : forall X Y x y vs, Z.abs X < 2 ^ 17 -> Z.abs Y < 2 ^ 17 -> iw X x -> iw Y y ->
  Forall (fun p => plain_seg (snd p)) l -> Forall2 (fun p q => fst p = fst q /\ heading (snd p) (snd q)) l vs ->
  turn_loop x y l = Ok (turns X Y vs).
Proof.
  induction l as [|[i s] l IH]; intros X Y x y vs BX BY WX WY P H; inversion H as [|? [j [dx dy]] ? vs' [H1 H2] H3]; subst; [reflexivity|].
  inversion P as [|? ? P1 P2]; subst. cbn [fst snd] in *. subst j. cbn [turn_loop turns].
  destruct (chord_ok s P1) as (d & v & -> & Hv & [S1 S2] & [W1 W2]). rewrite (heading_fun _ _ _ Hv H2) in *. cbn [fst snd] in *.
  cbn [rbind].
  assert (E1: dy_ltb (f64_mul x (fst d)) f_0 = (X * dx <? 0)) by (apply iw_neg; apply iw_mul; [nia|assumption|assumption]).
  assert (E2: dy_ltb (f64_mul y (snd d)) f_0 = (Y * dy <? 0)) by (apply iw_neg; apply iw_mul; [nia|assumption|assumption]).
  rewrite E1, E2. destruct ((X * dx <? 0) || (Y * dy <? 0)).
  - rewrite (IH dx dy (fst d) (snd d) vs'); auto.
  - rewrite (iw_close0 X x), (iw_close0 Y y) by (try lia; assumption).
    apply IH; auto; try (destruct (X =? 0); assumption); destruct (Y =? 0); assumption.
Qed.

Lemma turns_on l2 : forall X Y j w l3, (forall k, In k (map fst l2 ++ [j]) -> ~ In k (turns X Y (l2 ++ (j, w) :: l3))) ->
  (X <> 0 -> 0 <= X * fst w) /\ (Y <> 0 -> 0 <= Y * snd w).
Proof.
  induction l2 as [|[i [dx dy]] l2 IH]; intros X Y j [wx wy] l3 H; cbn [app turns] in H.
  - destruct ((X * wx <? 0) || (Y * wy <? 0)) eqn:E; cbn [fst snd]; [|lia].
    exfalso. apply (H j); cbn; auto.
  - destruct ((X * dx <? 0) || (Y * dy <? 0)) eqn:E.
    + exfalso. apply (H i); cbn; auto.
    + assert (H': forall k, In k (map fst l2 ++ [j]) -> ~ In k (turns (if X =? 0 then dx else X) (if Y =? 0 then dy else Y) (l2 ++ (j, (wx, wy)) :: l3)))
        by (intros k Hk; apply H; right; exact Hk).
      destruct (IH _ _ _ _ _ H') as [A B]. split; intros N; [destruct (X =? 0) eqn:E0; [lia|]|destruct (Y =? 0) eqn:E0; [lia|]]; auto.
Qed.
Lemma turns_run l1 : forall X Y i v l2 j w l3,
  (forall k, In k (map fst l2 ++ [j]) -> ~ In k (turns X Y (l1 ++ (i, v) :: l2 ++ (j, w) :: l3))) ->
  0 <= fst v * fst w /\ 0 <= snd v * snd w.
Proof.
  induction l1 as [|[i0 [dx dy]] l1 IH]; intros X Y i v l2 j w l3 H.
  - destruct v as [dx dy]. cbn [app turns] in H. cbn [fst snd].
    destruct ((X * dx <? 0) || (Y * dy <? 0)) eqn:E.
    + destruct (turns_on l2 dx dy j w l3) as [A B].
      { intros k Hk N. apply (H k Hk). now right. }
      destruct (Z.eq_dec dx 0), (Z.eq_dec dy 0); nia.
    + destruct (turns_on l2 _ _ j w l3 H) as [A B].
      destruct (X =? 0) eqn:E0, (Y =? 0) eqn:E1; destruct (Z.eq_dec dx 0), (Z.eq_dec dy 0); try (split; nia).
  - cbn [app turns] in H. destruct ((X * dx <? 0) || (Y * dy <? 0)).
    + apply (IH dx dy i v l2 j w l3). intros k Hk N. apply (H k Hk). now right.
    + exact (IH _ _ i v l2 j w l3 H).
Qed.
Lemma turns_only l : forall X Y k, In k (turns X Y l) ->
  exists w, In (k, w) l /\ (X * fst w < 0 \/ Y * snd w < 0 \/ exists j v, In (j, v) l /\ opposed v w).
Proof.
  induction l as [|[i [dx dy]] l IH]; intros X Y k H; cbn [turns] in H; [easy|].
  destruct ((X * dx <? 0) || (Y * dy <? 0)) eqn:E.
  - destruct H as [<-|H].
    + exists (dx, dy). split; [now left|]. cbn [fst snd]. apply orb_true_iff in E as [E|E]; lia.
    + destruct (IH _ _ _ H) as (w & Hw & [A|[A|(j & v & A & B)]]); exists w; (split; [now right|]); right; right.
      * exists i, (dx, dy). split; [now left|now left].
      * exists i, (dx, dy). split; [now left|now right].
      * exists j, v. split; [now right|exact B].
  - destruct (IH _ _ _ H) as (w & Hw & [A|[A|(j & v & A & B)]]); exists w; (split; [now right|]).
    + destruct (X =? 0) eqn:E0; [|now left]. right; right. exists i, (dx, dy). split; [now left|now left].
    + destruct (Y =? 0) eqn:E0; [|now (right; left)]. right; right. exists i, (dx, dy). split; [now left|now right].
    + right; right. exists j, v. split; [now right|exact B].
Qed.

(** Proofs about fontcrunch: the dynamic program. *)
From Coq Require Import QArith Qabs Lqa.
From Verif.Model Require Import MBase MFixed MFloat MFloat32 MGlyph MGlyf MPath MCrunch.
From Verif.Spec Require Import SBase SFloat SGlyph SGlyf SPath SCrunch.
From Verif.Proofs Require Import PBase PFloat PAffine PContour PPath.
Local Open Scope Z_scope.

Lemma set_nth_length {A} i (x : A) l : length (set_nth i x l) = length l.
Proof. revert i; induction l as [|a l IH]; intros [|i]; cbn; auto. Qed.
Lemma set_nth_same {A} (d : A) i x l : (i < length l)%nat -> nth i (set_nth i x l) d = x.
Proof. revert i; induction l as [|a l IH]; intros [|i] H; cbn in *; try lia; auto. apply IH; lia. Qed.
Lemma set_nth_other {A} (d : A) i j x l : i <> j -> nth j (set_nth i x l) d = nth j l d.
Proof. revert i j; induction l as [|a l IH]; intros [|i] [|j] H; cbn; auto; try lia. Qed.

Lemma nonempty_match {A B} (l : list A) (x y : B) : l <> [] -> match l with [] => x | _ :: _ => y end = y.
Proof. destruct l; congruence. Qed.

Section O.
Variable measure : dyadic -> dyadic -> quad -> dyadic.
Variable penalty : dyadic.
Variable breaks : list brk.
Notation bk := (bk breaks).
Notation try_quad := (try_quad measure penalty breaks).
Notation try_line_quad := (try_line_quad measure penalty breaks).
Definition err (i j : nat) (q : quad) : dyadic := measure (bk_s (bk i)) (bk_s (bk j)) q.

Definition cand (i j : nat) (q : quad) : Prop :=
  kp_int (bk_xy (bk i)) = true /\ q = straight (bk i) (bk j) \/ curved (bk i) (bk j) = Some q.
Definition okj (c : chain) (q : quad) : Prop :=
  kp_int (q_p0 q) = true \/ is_line q = false /\ match c with (_, p) :: _ => smooth p q = true | [] => False end.
(** chains as the program builds them *)
Inductive mroute : nat -> chain -> Prop :=
| mr_one i q : (0 < i < length breaks)%nat -> cand 0 i q -> okj [] q ->
    mroute i [(combined [] (err 0 i q) q penalty, q)]
| mr_more i j c q : c <> [] -> mroute i c -> (i < j < length breaks)%nat -> cand i j q -> okj c q ->
    mroute j ((combined c (err i j q) q penalty, q) :: c).

Definition good (s : list chain) : Prop :=
  length s = length breaks /\ nth 0 s [] = [] /\ forall i, nth i s [] <> [] -> mroute i (nth i s []).
Definition better (s s' : list chain) : Prop :=
  forall i, nth i s [] <> [] -> nth i s' [] <> [] /\ (val (chain_score (nth i s' [])) <= val (chain_score (nth i s [])))%Q.
Lemma better_refl s : better s s.
Proof. intros i H. split; [exact H|apply Qle_refl]. Qed.
Lemma better_trans a b c : better a b -> better b c -> better a c.
Proof. intros H1 H2 i H. destruct (H1 i H) as [A B]. destruct (H2 i A) as [A' B']. split; [exact A'|lra]. Qed.

Lemma try_quad_spec i j q s : good s -> (i < j < length breaks)%nat -> cand i j q -> okj (nth i s []) q ->
  good (try_quad i j q s) /\ better s (try_quad i j q s) /\
  (forall k, k <> j -> nth k (try_quad i j q s) [] = nth k s []) /\
  (i = 0%nat \/ nth i s [] <> [] ->
     nth j (try_quad i j q s) [] <> [] /\
     (val (chain_score (nth j (try_quad i j q s) [])) <= val (combined (nth i s []) (err i j q) q penalty))%Q).
Proof.
  intros (Hl & H0 & Hr) Hij Hc Ho. unfold MCrunch.try_quad.
  set (ps := nth i s []) in *.
  destruct (negb (i =? 0)%nat && match ps with [] => true | _ => false end) eqn:Eg.
  { split; [now split|]. split; [apply better_refl|]. split; [reflexivity|].
    apply andb_prop in Eg. destruct Eg as [E1 E2]. destruct ps; [|discriminate].
    intros [->|H]; [discriminate|congruence]. }
  set (sc := combined ps (measure (bk_s (bk i)) (bk_s (bk j)) q) q penalty).
  assert (M: mroute j ((sc, q) :: ps)).
  { destruct (Nat.eq_dec i 0) as [->|Hi].
    - assert (ps = []) as Ep by exact H0. unfold sc. rewrite Ep in *. apply mr_one; [lia|exact Hc|exact Ho].
    - assert (ps <> []). { intros E. rewrite E in Eg. destruct (Nat.eqb_spec i 0); [lia|discriminate]. }
      apply (mr_more i); [assumption|now apply Hr|exact Hij|exact Hc|exact Ho]. }
  assert (N: good (set_nth j ((sc, q) :: ps) s)).
  { split; [now rewrite set_nth_length|]. split.
    - rewrite set_nth_other by lia. exact H0.
    - intros k Hk. destruct (Nat.eq_dec k j) as [->|Hkj].
      + rewrite set_nth_same by lia. exact M.
      + rewrite set_nth_other in * by auto. now apply Hr. }
  assert (T: nth j (set_nth j ((sc, q) :: ps) s) [] = (sc, q) :: ps) by (apply set_nth_same; lia).
  destruct (nth j s []) as [|[best qb] cb] eqn:Ej.
  - split; [exact N|]. split; [|split].
    + intros k Hk. destruct (Nat.eq_dec k j) as [->|Hkj]; [congruence|]. rewrite set_nth_other by auto. split; [exact Hk|apply Qle_refl].
    + intros k Hk. now rewrite set_nth_other by auto.
    + intros _. rewrite T. split; [discriminate|apply Qle_refl].
  - destruct (dy_ltb sc best) eqn:Eb.
    + split; [exact N|]. split; [|split].
      * intros k Hk. destruct (Nat.eq_dec k j) as [->|Hkj].
        -- rewrite T, Ej. split; [discriminate|]. cbn. apply ltb_iff in Eb. lra.
        -- rewrite set_nth_other by auto. split; [exact Hk|apply Qle_refl].
      * intros k Hk. now rewrite set_nth_other by auto.
      * intros _. rewrite T. split; [discriminate|apply Qle_refl].
    + split; [now split|]. split; [apply better_refl|]. split; [reflexivity|].
      intros _. rewrite Ej. split; [discriminate|]. cbn. change (val best <= val sc)%Q.
      apply Qnot_lt_le. intros L. apply ltb_iff in L. congruence.
Qed.

Lemma straight_p0 a b : q_p0 (straight a b) = bk_xy a. Proof. reflexivity. Qed.
Lemma curved_p0 a b q : curved a b = Some q -> q_p0 q = bk_xy a.
Proof. unfold curved. destruct intersect; [|discriminate]. intros E. injection E as <-. reflexivity. Qed.
Lemma ok_okj c q : ok_for_half c q = true -> okj c q.
Proof.
  unfold ok_for_half, okj. destruct (kp_int (q_p0 q)); [now left|]. destruct (is_line q); [discriminate|].
  intros H. right. split; [reflexivity|]. destruct c as [|[s p] c]; [discriminate|exact H].
Qed.

Lemma try_line_spec i j s : good s -> (i < j < length breaks)%nat ->
  good (try_line_quad i j s) /\ better s (try_line_quad i j s) /\
  (forall k, k <> j -> nth k (try_line_quad i j s) [] = nth k s []) /\
  (i = 0%nat \/ nth i s [] <> [] -> forall q,
     kp_int (bk_xy (bk i)) = true /\ q = straight (bk i) (bk j) \/ curved (bk i) (bk j) = Some q /\ ok_for_half (nth i s []) q = true ->
     nth j (try_line_quad i j s) [] <> [] /\
     (val (chain_score (nth j (try_line_quad i j s) [])) <= val (combined (nth i s []) (err i j q) q penalty))%Q).
Proof.
  intros Hg Hij. unfold MCrunch.try_line_quad.
  set (s1 := if kp_int (bk_xy (bk i)) then try_quad i j (straight (bk i) (bk j)) s else s).
  assert (A: good s1 /\ better s s1 /\ (forall k, k <> j -> nth k s1 [] = nth k s []) /\
     (i = 0%nat \/ nth i s [] <> [] -> kp_int (bk_xy (bk i)) = true ->
     nth j s1 [] <> [] /\
     (val (chain_score (nth j s1 [])) <= val (combined (nth i s []) (err i j (straight (bk i) (bk j))) (straight (bk i) (bk j)) penalty))%Q)).
  { unfold s1. destruct (kp_int (bk_xy (bk i))) eqn:Ei.
    - destruct (try_quad_spec i j (straight (bk i) (bk j)) s Hg Hij) as (G & B & F & C).
      + now left.
      + left. exact Ei.
      + auto.
    - split; [exact Hg|]. split; [apply better_refl|]. split; [reflexivity|discriminate]. }
  destruct A as (G1 & B1 & F1 & C1). assert (Fi: nth i s1 [] = nth i s []) by (apply F1; lia).
  destruct (curved (bk i) (bk j)) as [qc|] eqn:Ec.
  2:{ split; [exact G1|]. split; [exact B1|]. split; [exact F1|]. intros Hi q [[Hk ->]|[X _]]; [now apply C1|discriminate]. }
  destruct (ok_for_half (nth i s1 []) qc) eqn:Eo.
  2:{ split; [exact G1|]. split; [exact B1|]. split; [exact F1|]. intros Hi q [[Hk ->]|[X Y]]; [now apply C1|].
      injection X as <-. rewrite Fi in Eo. congruence. }
  destruct (try_quad_spec i j qc s1 G1 Hij) as (G2 & B2 & F2 & C2); [now right|now apply ok_okj|].
  split; [exact G2|]. split; [eapply better_trans; eauto|]. split; [intros k Hk; rewrite F2, F1 by auto; reflexivity|].
  intros Hi q [[Hk ->]|[X Y]].
  - destruct (C1 Hi Hk) as [N L]. destruct (B2 j N) as [N' L']. split; [exact N'|lra].
  - injection X as <-. rewrite Fi in C2. now apply C2.
Qed.

Lemma fold_good {A} (f : list chain -> A -> list chain) l :
  (forall x s, In x l -> good s -> good (f s x) /\ better s (f s x)) ->
  forall s, good s -> good (fold_left f l s) /\ better s (fold_left f l s).
Proof.
  induction l as [|x l IH]; intros H s Hg; [split; [exact Hg|apply better_refl]|]. cbn.
  destruct (H x s (or_introl eq_refl) Hg) as [G B].
  destruct (IH (fun y t Hy => H y t (or_intror Hy)) _ G) as [G' B']. split; [exact G'|eapply better_trans; eauto].
Qed.

Lemma split_good n s : (n < length breaks)%nat -> good s ->
  good (split_once measure penalty breaks n s) /\ better s (split_once measure penalty breaks n s).
Proof.
  intros Hn. apply fold_good. intros i t Hi Ht. apply in_seq in Hi.
  destruct (try_line_spec 0 i t Ht ltac:(lia)) as (G1 & B1 & _). destruct (try_line_spec i n _ G1 ltac:(lia)) as (G2 & B2 & _).
  split; [exact G2|eapply better_trans; eauto].
Qed.

(** the exhaustive phase *)
Definition inner (i : nat) (js : list nat) (s : list chain) : list chain := fold_left (fun s j => try_line_quad j i s) js s.
Definition line_cost (c : chain) (i j : nat) : dyadic :=
  combined c (err i j (straight (bk i) (bk j))) (straight (bk i) (bk j)) penalty.
Definition settled (s : list chain) (i j : nat) : Prop :=
  kp_int (bk_xy (bk j)) = true -> j = 0%nat \/ nth j s [] <> [] ->
  nth i s [] <> [] /\ (val (chain_score (nth i s [])) <= val (line_cost (nth j s []) j i))%Q.

Lemma inner_spec i js : forall s, good s -> (i < length breaks)%nat -> (forall j, In j js -> (j < i)%nat) ->
  good (inner i js s) /\ better s (inner i js s) /\ (forall k, k <> i -> nth k (inner i js s) [] = nth k s []) /\
  (forall j, In j js -> settled (inner i js s) i j).
Proof.
  induction js as [|j js IH]; intros s Hg Hi Hj.
  - split; [exact Hg|]. split; [apply better_refl|]. split; [reflexivity|intros ? []].
  - cbn. destruct (try_line_spec j i s Hg) as (G1 & B1 & F1 & C1). { pose proof (Hj j (or_introl eq_refl)). lia. }
    destruct (IH _ G1 Hi (fun k Hk => Hj k (or_intror Hk))) as (G2 & B2 & F2 & C2). fold (inner i js (try_line_quad j i s)).
    split; [exact G2|]. split; [eapply better_trans; eauto|]. split; [intros k Hk; rewrite F2, F1 by auto; reflexivity|].
    intros k [<-|Hk]; [|now apply C2]. assert (j <> i) by (pose proof (Hj j (or_introl eq_refl)); lia).
    unfold settled. rewrite F2, F1 by auto. intros Hw Hn.
    destruct (C1 Hn (straight (bk j) (bk i))) as [N L]; [now left|].
    destruct (B2 i N) as [N' L']. split; [exact N'|]. unfold line_cost. lra.
Qed.
Lemma all_spec m : forall a s, good s -> (a + m <= length breaks)%nat -> (1 <= a)%nat ->
  let s' := fold_left (fun s i => inner i (rev (seq 0 i)) s) (seq a m) s in
  good s' /\ better s s' /\ (forall k, (k < a)%nat -> nth k s' [] = nth k s []) /\
  (forall i j, (a <= i < a + m)%nat -> (j < i)%nat -> settled s' i j).
Proof.
  induction m as [|m IH]; intros a s Hg Hl Ha; cbn [seq fold_left].
  - split; [exact Hg|]. split; [apply better_refl|]. split; [reflexivity|]. intros; lia.
  - destruct (inner_spec a (rev (seq 0 a)) s Hg) as (G1 & B1 & F1 & C1); [lia|intros j Hj; apply in_rev, in_seq in Hj; lia|].
    destruct (IH (S a) _ G1) as (G2 & B2 & F2 & C2); [lia|lia|].
    split; [exact G2|]. split; [eapply better_trans; eauto|]. split; [intros k Hk; rewrite F2, F1 by lia; reflexivity|].
    intros i j Hi Hj. destruct (Nat.eq_dec i a) as [->|Hne]; [|apply C2; lia].
    unfold settled. rewrite !F2 by lia. apply C1. rewrite <- in_rev, in_seq. lia.
Qed.

Lemma start_good : (2 <= length breaks)%nat -> good (map (fun _ => []) breaks).
Proof.
  intros H. split; [apply map_length|]. split.
  - destruct breaks; reflexivity.
  - intros i Hi. exfalso. apply Hi. clear. revert i. induction breaks as [|b l IH]; intros [|i]; cbn; auto.
Qed.

Definition n := (length breaks - 1)%nat.
(** the outcome *)
Lemma optimize_cases : (2 <= length breaks)%nat ->
  (kp_int (bk_xy (bk 0)) = false /\ optimize measure penalty breaks = Ok None) \/
  (kp_int (bk_xy (bk 0)) = true /\ exists s, good s /\ nth n s [] <> [] /\
     optimize measure penalty breaks = Ok (Some (rev (map snd (nth n s [])))) /\
     (forall q, q = straight (bk 0) (bk n) \/ curved (bk 0) (bk n) = Some q ->
        (val (chain_score (nth n s [])) <= val (combined [] (err 0 n q) q penalty))%Q) /\
     ((val (f64_mul (Dy 3 0) penalty) < val (chain_score (nth n s [])))%Q ->
      (val (f64_mul (Dy 4 0) penalty) < val (chain_score (nth n s [])))%Q ->
      forall i j, (1 <= i <= n)%nat -> (j < i)%nat -> settled s i j)).
Proof.
  intros H2. pose proof (start_good H2) as G0. set (s0 := map (fun _ => []) breaks) in *.
  assert (Hn: (0 < n < length breaks)%nat) by (unfold n; lia).
  assert (Z0: nth 0 s0 [] = []) by apply G0. assert (Zn: nth n s0 [] = []).
  { unfold s0. clear. generalize n. induction breaks as [|b l IH]; intros [|i]; cbn; auto. }
  destruct (try_line_spec 0 n s0 G0 Hn) as (G1 & B1 & F1 & C1).
  assert (Eopt: optimize measure penalty breaks =
    let s1 := try_line_quad 0 n s0 in
      match nth n s1 [] with
      | [] => Ok None
      | (sc1, _) :: _ =>
          let s2 := if dy_ltb (f64_mul (Dy 3 0) penalty) sc1 then
                      let s2 := split_once measure penalty breaks n s1 in
                      if dy_ltb (f64_mul (Dy 4 0) penalty) (chain_score (nth n s2 [])) then try_all measure penalty breaks n s2 else s2
                    else s1 in
          Ok (Some (rev (map snd (nth n s2 []))))
      end).
  { unfold optimize. apply nonempty_match. intros E. rewrite E in H2. cbn in H2. lia. }
  destruct (kp_int (bk_xy (bk 0))) eqn:E0.
  2:{ left. split; [reflexivity|]. rewrite Eopt. cbn zeta.
      replace (try_line_quad 0 n s0) with s0; [now rewrite Zn|].
      unfold MCrunch.try_line_quad. rewrite E0. destruct (curved (bk 0) (bk n)) as [q|] eqn:Ec; [|reflexivity].
      unfold ok_for_half. rewrite (curved_p0 _ _ _ Ec), E0, Z0. now destruct (is_line q). }
  right. split; [reflexivity|]. set (s1 := try_line_quad 0 n s0) in *.
  assert (D1: forall q, q = straight (bk 0) (bk n) \/ curved (bk 0) (bk n) = Some q -> nth n s1 [] <> [] /\
        (val (chain_score (nth n s1 [])) <= val (combined [] (err 0 n q) q penalty))%Q).
  { intros q Hq. rewrite Z0 in C1. apply C1; [now left|]. destruct Hq as [->|Hq]; [now left|]. right. split; [exact Hq|].
    unfold ok_for_half. now rewrite (curved_p0 _ _ _ Hq), E0. }
  destruct (D1 _ (or_introl eq_refl)) as [N1 _].
  destruct (nth n s1 []) as [|[sc1 q1] c1] eqn:En1; [congruence|]. cbn zeta in Eopt. rewrite En1 in Eopt.
  destruct (dy_ltb (f64_mul (Dy 3 0) penalty) sc1) eqn:E3.
  2:{ exists s1. rewrite En1. cbn [chain_score]. split; [exact G1|]. split; [discriminate|]. split; [rewrite <- En1; rewrite Eopt; now rewrite En1|].
      split; [intros q Hq; apply (D1 q Hq)|]. intros L _. apply ltb_iff in L. congruence. }
  destruct (split_good n s1 ltac:(lia) G1) as [G2 B2]. set (s2 := split_once measure penalty breaks n s1) in *.
  destruct (B2 n) as [N2 L2]; [congruence|]. rewrite En1 in L2. cbn [chain_score] in L2, D1.
  destruct (dy_ltb (f64_mul (Dy 4 0) penalty) (chain_score (nth n s2 []))) eqn:E4.
  2:{ exists s2. split; [exact G2|]. split; [exact N2|]. split; [exact Eopt|].
      split; [intros q Hq; destruct (D1 q Hq) as [_ D]; lra|]. intros _ L. apply ltb_iff in L. congruence. }
  destruct (all_spec n 1 s2 G2) as (G3 & B3 & F3 & C3); [lia|lia|].
  fold (try_all measure penalty breaks n s2) in G3, B3, F3, C3.
  exists (try_all measure penalty breaks n s2).
  destruct (B3 n N2) as [N3 L3]. split; [exact G3|]. split; [exact N3|]. split; [exact Eopt|].
  split; [intros q Hq; destruct (D1 q Hq) as [_ D]; eapply Qle_trans; [exact L3|]; eapply Qle_trans; [exact L2|exact D]|]. intros _ _ i j Hi Hj. apply C3; lia.
Qed.
End O.

(** The optimizer drops only deltas that inference gives back *)
From Coq Require Import List ZArith QArith Lia Lqa Bool Arith.
From Coq Require Import ZifyBool ZifyNat ZifyN.
Import ListNotations.
From Verif.Model Require Import MBase MFixed MFloat MFloat32 MPacked MGlyph MGlyf MIup.
From Verif.Spec Require Import SBase SFloat SIup.
From Verif.Proofs Require Import PBase PFloat PFloat32 PIup PIupContour.
Open Scope Z_scope.
Ltac Zify.zify_post_hook ::= idtac.

(** ** Within one half means equal *)
Lemma val_half : (val half == 1 # 2)%Q.
Proof. reflexivity. Qed.
Lemma sq_ge u : - 2 ^ 15 <= u < 2 ^ 15 -> u <> 0 -> (1 <= val (f32_mul (f32_of_int u) (f32_of_int u)))%Q.
Proof.
  intros H N. unfold f32_mul. rewrite rnd24_rndp.
  assert (E: (val (rndp 24 (Dy 1 0)) == 1)%Q) by reflexivity. rewrite <- E.
  apply rndp_mono; [lia|]. rewrite val_mul, val_f32_int by lia.
  change (val (Dy 1 0)) with (inject_Z 1). rewrite <- inject_Z_mult. rewrite <- Zle_Qle. nia.
Qed.
Lemma sq_nonneg u : - 2 ^ 15 <= u < 2 ^ 15 -> (0 <= val (f32_mul (f32_of_int u) (f32_of_int u)))%Q.
Proof.
  intros H. destruct (Z.eq_dec u 0) as [->|N]; [vm_compute; discriminate|].
  apply Qle_trans with 1%Q; [lra|]. now apply sq_ge.
Qed.
Lemma val_f32_add x y : (val (f32_add x y) == val (rndp 24 (dy_add x y)))%Q.
Proof. reflexivity. Qed.
Lemma close_iff u v : - 2 ^ 15 <= u < 2 ^ 15 -> - 2 ^ 15 <= v < 2 ^ 15 ->
  dy_leb (f32_add (f32_mul (f32_of_int u) (f32_of_int u)) (f32_mul (f32_of_int v) (f32_of_int v))) half = true <-> u = 0 /\ v = 0.
Proof.
  intros Hu Hv. rewrite leb_iff, val_half, val_f32_add. split.
  - intros H. assert (G: ~ (1 <= val (f32_mul (f32_of_int u) (f32_of_int u)) + val (f32_mul (f32_of_int v) (f32_of_int v)))%Q).
    { intros G. assert (E: (val (rndp 24 (Dy 1 0)) == 1)%Q) by reflexivity.
      assert (Q: (val (rndp 24 (Dy 1 0)) <= val (rndp 24 (dy_add (f32_mul (f32_of_int u) (f32_of_int u)) (f32_mul (f32_of_int v) (f32_of_int v)))))%Q).
      { apply rndp_mono; [lia|]. rewrite val_add. change (val (Dy 1 0)) with (inject_Z 1). exact G. }
      rewrite E in Q. lra. }
    pose proof (sq_nonneg u Hu). pose proof (sq_nonneg v Hv).
    split; destruct (Z.eq_dec u 0) as [U|U]; destruct (Z.eq_dec v 0) as [W|W]; auto; exfalso; apply G;
      try (pose proof (sq_ge u Hu U)); try (pose proof (sq_ge v Hv W)); lra.
  - intros [-> ->]. vm_compute. discriminate.
Qed.
Lemma all_close_true ds is : length ds = length is -> all_close half ds is = Ok true -> ds = is.
Proof.
  revert is. induction ds as [|[x y] ds IH]; intros [|[p q] is] L H; try discriminate; [reflexivity|].
  cbn [all_close] in H.
  destruct (chk_i 16 (x - p)) as [u| |] eqn:A; try discriminate. cbn [rbind] in H.
  destruct (chk_i 16 (y - q)) as [v| |] eqn:B; try discriminate. cbn [rbind] in H.
  apply chk_i16_inv in A, B. destruct A as [-> A]. destruct B as [-> B].
  destruct (dy_leb _ half) eqn:D; [|discriminate]. apply (proj1 (close_iff _ _ A B)) in D.
  cbn in L. rewrite (IH is) by (auto; lia). f_equal. f_equal; lia.
Qed.
Lemma small_i16 p : small_pair p -> i16_pair p.
Proof. unfold small_pair, i16_pair. lia. Qed.
Lemma all_close_runs ds is : Forall small_pair ds -> Forall small_pair is -> exists b, all_close half ds is = Ok b.
Proof.
  intros F. revert is. induction F as [|[x y] ds Hx F IH]; intros is G; [now exists true|].
  destruct G as [|[p q] is Hp G]; [now exists true|]. cbn [all_close].
  unfold small_pair in Hx, Hp. cbn [fst snd] in *.
  rewrite chk_i16_ok by lia. cbn [rbind]. rewrite chk_i16_ok by lia. cbn [rbind].
  destruct (dy_leb _ half); [apply IH; assumption|now exists false].
Qed.

(** ** Contours as periodic functions *)
Definition cy {A} (d : A) (l : list A) (t : Z) : A := nth (Z.to_nat (t mod Z.of_nat (length l))) l d.
Definition Cy (l : list (Z * Z)) (t : Z) : Z * Z := cy (0, 0) l t.
Definition cgood (ds cs : list (Z * Z)) (p q : Z) : Prop :=
  fits2b (Cy cs p) (Cy ds p) (Cy cs q) (Cy ds q) = true /\
  forall t, p < t < q -> Cy ds t = infer2 (Cy cs p) (Cy ds p) (Cy cs q) (Cy ds q) (Cy cs t).
Definition okstep (ds cs : list (Z * Z)) (p q : Z) : Prop := p = q - 1 \/ cgood ds cs p q.

Lemma cy_small {A} d (l : list A) t : 0 <= t < Z.of_nat (length l) -> cy d l t = nth (Z.to_nat t) l d.
Proof. intros H. unfold cy. now rewrite Z.mod_small by assumption. Qed.
Lemma cy_mod {A} d (l : list A) t n : n = Z.of_nat (length l) -> cy d l (t mod n) = cy d l t.
Proof. intros ->. unfold cy. now rewrite Zmod_mod. Qed.
Lemma cy_In {A} d (l : list A) t : l <> [] -> In (cy d l t) l.
Proof.
  intros H. unfold cy. apply nth_In. assert (0 < length l)%nat by (destruct l; [easy|cbn; lia]).
  pose proof (Z.mod_pos_bound t (Z.of_nat (length l)) ltac:(lia)). lia.
Qed.
Lemma cy_double {A} d (l : list A) t : cy d (l ++ l) t = cy d l t.
Proof.
  destruct l as [|x l']; [reflexivity|]. set (l := x :: l').
  assert (0 < length l)%nat by (cbn; lia). unfold cy. rewrite app_length.
  set (n := length l) in *. assert (E: Z.of_nat (n + n) = 2 * Z.of_nat n) by lia. rewrite E.
  pose proof (Z.mod_pos_bound t (2 * Z.of_nat n) ltac:(lia)) as B.
  assert (M: t mod Z.of_nat n = (t mod (2 * Z.of_nat n)) mod Z.of_nat n).
  { rewrite (Z.div_mod t (2 * Z.of_nat n)) at 1 by lia.
    replace (2 * Z.of_nat n * (t / (2 * Z.of_nat n)) + t mod (2 * Z.of_nat n)) with
      (t mod (2 * Z.of_nat n) + (2 * (t / (2 * Z.of_nat n))) * Z.of_nat n) by ring.
    apply Z_mod_plus_full. }
  rewrite M. set (u := t mod (2 * Z.of_nat n)) in *.
  destruct (Z.lt_ge_cases u (Z.of_nat n)).
  - rewrite app_nth1 by (fold n; lia). now rewrite (Z.mod_small u) by lia.
  - rewrite app_nth2 by (fold n; lia). fold n. f_equal.
    assert (u mod Z.of_nat n = u - Z.of_nat n) by (symmetry; apply (Z.mod_unique_pos _ _ 1); lia). lia.
Qed.
Lemma cgood_double ds cs p q : cgood (ds ++ ds) (cs ++ cs) p q <-> cgood ds cs p q.
Proof.
  unfold cgood, Cy. rewrite !cy_double. split; intros [H G]; (split; [assumption|]); intros t Ht; specialize (G t Ht);
    rewrite !cy_double in *; assumption.
Qed.
(** rotation *)
Lemma i16_small n : 0 <= n < 32768 -> i16 n = n.
Proof. intros H. unfold i16. apply wrap_i_id; lia. Qed.
Lemma i16_len n : 0 <= n <= 32768 -> Z.abs (i16 n) = n.
Proof. intros H. destruct (Z.eq_dec n 32768) as [->|]; [reflexivity|]. rewrite i16_small; lia. Qed.
Lemma rem_euclid_eq i n : 0 < n <= 32768 -> rem_euclid i (i16 n) = Ok (i mod n).
Proof.
  intros H. unfold rem_euclid. rewrite i16_len by lia. destruct (Z.eqb_spec (i16 n) 0) as [E|E]; [|reflexivity].
  apply (f_equal Z.abs) in E. rewrite i16_len in E; lia.
Qed.
Lemma cy_rot {A} (d : A) l p t : (p <= length l)%nat -> (0 < length l)%nat ->
  cy d (skipn p l ++ firstn p l) t = cy d l (t + Z.of_nat p).
Proof.
  intros HP H0.
  assert (L: length (skipn p l ++ firstn p l) = length l) by (rewrite app_length, skipn_length, firstn_length; lia).
  unfold cy. rewrite L. remember (Z.of_nat (length l)) as n eqn:En.
  rewrite <- (Zplus_mod_idemp_l t (Z.of_nat p) n).
  pose proof (Z.mod_pos_bound t n ltac:(lia)) as BT. remember (t mod n) as u eqn:Eu. clear Eu t.
  transitivity (nth (Z.to_nat ((u + Z.of_nat p) mod n)) (firstn p l ++ skipn p l) d); [|now rewrite firstn_skipn].
  destruct (Z.lt_ge_cases (u + Z.of_nat p) n) as [U|U].
  - rewrite (Z.mod_small (u + Z.of_nat p)) by lia. rewrite app_nth1 by (rewrite skipn_length; lia). rewrite app_nth2 by (rewrite firstn_length; lia).
    f_equal. rewrite firstn_length. lia.
  - assert (E2: (u + Z.of_nat p) mod n = u + Z.of_nat p - n) by (symmetry; apply (Z.mod_unique_pos _ _ 1); lia).
    rewrite E2. rewrite app_nth2 by (rewrite skipn_length; lia). rewrite app_nth1 by (rewrite firstn_length; lia).
    f_equal. rewrite skipn_length. lia.
Qed.
Lemma cy_cong {A} (d : A) l t u : (t - u) mod Z.of_nat (length l) = 0 -> cy d l t = cy d l u.
Proof.
  intros H. unfold cy. f_equal. f_equal. remember (Z.of_nat (length l)) as n. clear Heqn.
  replace t with ((t - u) + u) by lia. rewrite <- Zplus_mod_idemp_l, H. reflexivity.
Qed.
Lemma rotate_list_eq {A} (d : A) l k : (0 < length l)%nat -> Z.of_nat (length l) < 32768 ->
  exists r, rotate_list l k = Ok r /\ length r = length l /\ forall t, cy d r t = cy d l (t - k).
Proof.
  intros H0 H. unfold rotate_list. rewrite rem_euclid_eq by lia. cbn [rbind]. rewrite i16_small by lia.
  pose proof (Z.mod_pos_bound k (Z.of_nat (length l)) ltac:(lia)) as B.
  pose proof (Z.div_mod k (Z.of_nat (length l)) ltac:(lia)) as DM.
  remember (k mod Z.of_nat (length l)) as r eqn:Er. clear Er. set (z := k / Z.of_nat (length l)) in *. clearbody z.
  destruct (Z.eqb_spec r 0) as [E|E].
  - exists l. split; [reflexivity|]. split; [reflexivity|]. intros t. apply cy_cong.
    replace (t - (t - k)) with (z * Z.of_nat (length l)) by lia. apply Z_mod_mult.
  - rewrite chk_i16_ok by lia. cbn [rbind].
    destruct (Z.ltb_spec (Z.of_nat (length l) - r) 0); [lia|].
    unfold slice.
    replace ((Z.to_nat (Z.of_nat (length l) - r) <=? length l)%nat && (length l <=? length l)%nat) with true by lia.
    replace ((0 <=? Z.to_nat (Z.of_nat (length l) - r))%nat && (Z.to_nat (Z.of_nat (length l) - r) <=? length l)%nat) with true by lia.
    cbn [rbind]. remember (Z.to_nat (Z.of_nat (length l) - r)) as p eqn:Ep. rewrite Nat.sub_0_r. cbn [skipn].
    rewrite (firstn_all2 (skipn p l)) by (rewrite skipn_length; lia).
    eexists. split; [reflexivity|]. split; [rewrite app_length, skipn_length, firstn_length; lia|].
    intros t. rewrite cy_rot by lia. apply cy_cong.
    replace (t + Z.of_nat p - (t - k)) with ((z + 1) * Z.of_nat (length l)) by lia. apply Z_mod_mult.
Qed.

(** ** Paths round the contour *)
Inductive cpath (R : Z -> Z -> Prop) : Z -> Z -> list Z -> Prop :=
| cp_end a : cpath R a a [a]
| cp_step a c b l : c < a -> R c a -> cpath R c b l -> cpath R a b (a :: l).
Lemma cpath_range R a b l : cpath R a b l -> b <= a /\ forall x, In x l -> b <= x <= a.
Proof.
  induction 1 as [a|a c b l H1 H2 H3 [IH1 IH2]].
  - split; [lia|]. intros x [->|[]]; lia.
  - split; [lia|]. intros x [->|Hx]; [lia|]. specialize (IH2 x Hx). lia.
Qed.
Lemma cpath_ends R a b l : cpath R a b l -> In a l /\ In b l.
Proof. induction 1 as [a|a c b l H1 H2 H3 [IH1 IH2]]; split; try (now left); now right. Qed.
Lemma cpath_gap R a b l t : cpath R a b l -> b <= t <= a -> In t l \/
  exists p q, In p l /\ In q l /\ p < t < q /\ R p q /\ forall k, p < k < q -> ~ In k l.
Proof.
  induction 1 as [a|a c b l H1 H2 H3 IH]; intros Ht.
  - left. left. lia.
  - destruct (Z.eq_dec t a) as [->|Na]; [left; now left|].
    destruct (Z.lt_ge_cases c t) as [C|C].
    + right. exists c, a. pose proof (cpath_range _ _ _ _ H3) as [_ RG]. pose proof (cpath_ends _ _ _ _ H3) as [E _].
      split; [now right|]. split; [now left|]. split; [lia|]. split; [assumption|].
      intros k Hk [->|Hin]; [lia|]. specialize (RG k Hin). lia.
    + destruct IH as [IH|(p & q & P1 & P2 & P3 & P4 & P5)]; [lia|left; now right|].
      right. exists p, q. split; [now right|]. split; [now right|]. split; [assumption|]. split; [assumption|].
      intros k Hk [->|Hin]; [|exact (P5 k Hk Hin)].
      pose proof (cpath_range _ _ _ _ H3) as [_ RG]. pose proof (RG q P2). lia.
Qed.
Lemma cpath_impl (R S : Z -> Z -> Prop) a b l : (forall p q, R p q -> S p q) -> cpath R a b l -> cpath S a b l.
Proof. intros H. induction 1; econstructor; eauto. Qed.
Lemma cpath_shift (R S : Z -> Z -> Prop) a b l d : (forall p q, R p q -> S (p + d) (q + d)) -> cpath R a b l ->
  cpath S (a + d) (b + d) (map (fun x => x + d) l).
Proof. intros H. induction 1 as [a|a c b l H1 H2 H3 IH]; cbn [map]; [constructor|]. apply cp_step with (c + d); auto. lia. Qed.

Lemma representative a N t : 0 < N -> 0 <= t < N -> exists t', a - N < t' <= a /\ t' mod N = t.
Proof.
  intros HN Ht. exists (a - (a - t) mod N). pose proof (Z.mod_pos_bound (a - t) N HN) as B. split; [lia|].
  rewrite Zminus_mod_idemp_r. replace (a - (a - t)) with t by lia. apply Z.mod_small. lia.
Qed.
Lemma same_in_period s k a N : 0 < N -> a - N < k < a -> a - N <= s <= a -> s mod N = k mod N -> s = k.
Proof.
  intros HN Hk Hs E.
  assert (D: (s - k) mod N = 0) by (rewrite Zminus_mod, E, Z.sub_diag; apply Zmod_0_l).
  apply Z.mod_divide in D; [|lia]. destruct D as (z & D).
  assert (z < 1) by (apply Z.nle_gt; intro; assert (1 * N <= z * N) by (apply Z.mul_le_mono_nonneg_r; lia); lia).
  assert (-1 < z) by (apply Z.nle_gt; intro; assert (z * N <= -1 * N) by (apply Z.mul_le_mono_nonneg_r; lia); lia).
  assert (z = 0) by lia. subst z. lia.
Qed.
Definition zn (N z : Z) : nat := Z.to_nat (z mod N).
Lemma zn_lt n z : (0 < n)%nat -> (zn (Z.of_nat n) z < n)%nat /\ Z.of_nat (zn (Z.of_nat n) z) = z mod Z.of_nat n.
Proof. intros H. unfold zn. pose proof (Z.mod_pos_bound z (Z.of_nat n) ltac:(lia)). lia. Qed.

Lemma path_neighbours R dl n a l t : (0 < n)%nat -> length dl = n -> cpath R a (a - Z.of_nat n) l ->
  (forall t, (t < n)%nat -> tb dl t = true <-> exists s, In s l /\ s mod Z.of_nat n = Z.of_nat t) ->
  (t < n)%nat -> tb dl t = false ->
  exists p q t', p < t' < q /\ t' mod Z.of_nat n = Z.of_nat t /\ R p q /\
    tb dl (zn (Z.of_nat n) p) = true /\ tb dl (zn (Z.of_nat n) q) = true /\
    neighbours dl t (zn (Z.of_nat n) p) (zn (Z.of_nat n) q).
Proof.
  intros H0 Hdl Hpath HtbT Ht T.
  destruct (representative a (Z.of_nat n) (Z.of_nat t) ltac:(lia) ltac:(lia)) as (t' & B & Et).
  destruct (cpath_gap _ _ _ _ t' Hpath) as [I|(p & q & Ip & Iq & Hpq & HR & G)]; [lia| |].
  { exfalso. assert (tb dl t = true) by (apply HtbT; [assumption|]; exists t'; auto). congruence. }
  exists p, q, t'. split; [assumption|]. split; [assumption|]. split; [assumption|].
  destruct (cpath_range _ _ _ _ Hpath) as [_ RG]. pose proof (RG p Ip) as Rp. pose proof (RG q Iq) as Rq.
  assert (Tz: forall z, In z l -> tb dl (zn (Z.of_nat n) z) = true).
  { intros z Hz. destruct (zn_lt n z H0) as [Z1 Z2]. apply HtbT; [assumption|]. exists z. split; [assumption|]. now symmetry. }
  split; [now apply Tz|]. split; [now apply Tz|].
  assert (Stp: forall k, step n t k = zn (Z.of_nat n) (t' + k)).
  { intros k. unfold step, zn. f_equal. rewrite <- Et. apply Zplus_mod_idemp_l. }
  exists (t' - p), (q - t'). rewrite Hdl.
  split; [clear -Rp Rq Hpq; lia|]. split; [clear -Rp Rq Hpq; lia|].
  split; [rewrite Stp; f_equal; clear; lia|].
  split; [rewrite Stp; f_equal; clear; lia|].
  rewrite !touched_tb. split; [now apply Tz|]. split; [now apply Tz|].
  intros k Hk. rewrite touched_tb, Stp. intros TK.
  destruct (zn_lt n (t' + k) H0) as [Z1 Z2].
  apply HtbT in TK; [|assumption]. destruct TK as (s & Is & Es). rewrite Z2 in Es.
  pose proof (RG s Is) as Rs.
  assert (KR: p < t' + k < q) by (clear -Hk; lia).
  assert (s = t' + k) by (apply (same_in_period s (t' + k) a (Z.of_nat n)); [clear -H0; lia|clear -KR Rp Rq; lia|assumption|assumption]).
  subst s. exact (G (t' + k) KR Is).
Qed.

Section Lossless.
Variables (ds cs : list (Z * Z)) (dl : list (option (Z * Z))) (a : Z) (l : list Z).
Let n := length ds.
Hypothesis Hcs : length cs = n.
Hypothesis Hdl : length dl = n.
Hypothesis H0 : (0 < n)%nat.
Hypothesis Hds : Forall i16_pair ds.
Hypothesis Hpath : cpath (okstep ds cs) a (a - Z.of_nat n) l.
Hypothesis Hkeep : forall t, (t < n)%nat ->
  nth t dl None = None \/ nth t dl None = Some (nth t ds (0, 0)).
Hypothesis Hmem : forall t, (t < n)%nat -> nth t dl None <> None <-> exists s, In s l /\ s mod Z.of_nat n = Z.of_nat t.

Lemma path_lossless : iup_contour (given dl) cs = Ok ds.
Proof.
  assert (Hd: forall d, In (Some d) dl -> i16_pair d).
  { intros d Hin. apply (In_nth _ _ None) in Hin. destruct Hin as (t & Ht & E). rewrite Hdl in Ht.
    destruct (Hkeep t Ht) as [K|K]; rewrite E in K; [discriminate|]. injection K as ->.
    rewrite Forall_forall in Hds. apply Hds, nth_In. exact Ht. }
  assert (HtbT: forall t, (t < n)%nat -> tb dl t = true <-> exists s, In s l /\ s mod Z.of_nat n = Z.of_nat t).
  { intros t Ht. rewrite <- (Hmem t Ht). unfold tb. destruct (nth t dl None); split; intros; try easy. }
  assert (Hdat: forall t, tb dl t = true -> dat dl t = nth t ds (0, 0)).
  { intros t Ht. pose proof (tb_lt dl t Ht) as L. rewrite Hdl in L. unfold tb, dat in *. destruct (Hkeep t L) as [K|K]; rewrite K in *; [discriminate|reflexivity]. }
  assert (HD: forall t, Cy ds t = nth (zn (Z.of_nat n) t) ds (0, 0)) by reflexivity.
  assert (HC: forall t, Cy cs t = cat cs (zn (Z.of_nat n) t)) by (intros t; unfold Cy, cy, cat, zn; now rewrite Hcs).
  assert (NE: idx dl <> []).
  { destruct (cpath_ends _ _ _ _ Hpath) as [A _]. destruct (zn_lt n a H0) as [Z1 Z2].
    apply (idx_touched dl (zn (Z.of_nat n) a)). apply touched_tb. apply HtbT; [assumption|]. exists a. split; [assumption|]. now symmetry. }
  rewrite iup_contour_eq by (auto; congruence). rewrite Hdl.
  enough (K: forall t, (t < n)%nat -> safeb dl cs t = true /\ V dl cs t = nth t ds (0, 0)).
  { replace (forallb (safeb dl cs) (seq 0 n)) with true.
    - f_equal. apply (nth_ext _ _ (V dl cs 0) (0, 0)); [now rewrite map_length, seq_length|].
      rewrite map_length, seq_length. intros t Ht. rewrite map_nth, seq_nth by assumption. now apply K.
    - symmetry. apply forallb_forall. intros t Ht. apply in_seq in Ht. apply K. apply Ht. }
  intros t Ht. destruct (tb dl t) eqn:T.
  { split; [now apply safe_touched|]. rewrite V_touched by assumption. now apply Hdat. }
  destruct (path_neighbours _ dl n a l t H0 Hdl Hpath HtbT Ht T) as (p & q & t' & Hpq & Et & R & Tp & Tq & NB).
  assert (Ht': (t < length dl)%nat) by (rewrite Hdl; exact Ht).
  destruct (neighbours_prv dl t _ _ Ht' NB) as [EP EQ].
  unfold safeb, V. rewrite T, EP, EQ. cbn [orb].
  destruct R as [R|[R1 R2]]; [exfalso; clear -R Hpq; lia|].
  rewrite (Hdat _ Tp), (Hdat _ Tq).
  rewrite !HC, !HD in R1. split; [exact R1|].
  specialize (R2 t' Hpq). rewrite !HC, !HD in R2.
  assert (Zt: zn (Z.of_nat n) t' = t) by (unfold zn; rewrite Et; apply Nat2Z.id). rewrite Zt in R2. symmetry. exact R2.
Qed.
End Lossless.

(** ** One step of the search *)
Lemma infer1_small x1 d1 x2 d2 x : Z.abs x1 <= 16383 -> Z.abs x2 <= 16383 -> Z.abs d1 <= 16383 -> Z.abs d2 <= 16383 ->
  Z.abs (infer1 x1 d1 x2 d2 x) <= 16383 /\ fitsb x1 d1 x2 d2 = true.
Proof.
  intros. assert (F: fitsb x1 d1 x2 d2 = true) by (apply fitsb_iff; unfold fits; lia). split; [|assumption].
  unfold infer1, infer_up. destruct (Z.eqb_spec x1 x2); [destruct (d1 =? d2); lia|].
  destruct (x1 >? x2) eqn:G.
  - destruct (Z.leb_spec x x2); [lia|]. destruct (Z.leb_spec x1 x); [lia|].
    pose proof (slope_range x2 d2 x1 d1 x ltac:(lia) ltac:(lia) ltac:(lia)). lia.
  - destruct (Z.leb_spec x x1); [lia|]. destruct (Z.leb_spec x2 x); [lia|].
    pose proof (slope_range x1 d1 x2 d2 x ltac:(lia) ltac:(lia) ltac:(lia)). lia.
Qed.
Section Between.
Variables (ds cs : list (Z * Z)).
Let n := length ds.
Hypothesis Hcs : length cs = n.
Hypothesis H0 : (0 < n)%nat.
Hypothesis Hn : Z.of_nat n <= 32768.
Hypothesis Hds : Forall i16_pair ds.

Lemma cyc_slice (l : list (Z * Z)) i' j' : length l = n -> (i' < n)%nat -> (j' < n)%nat ->
  (if (j' <? S i')%nat then a <- slice l (S i') (length l) ;; b <- slice l 0 j' ;; Ok (a ++ b) else slice l (S i') j') =
  Ok (map (Cy l) (map (fun k => Z.of_nat i' + 1 + Z.of_nat k) (seq 0 (if (j' <? S i')%nat then n - S i' + j' else j' - S i')))).
Proof using H0.
  clear Hcs Hn Hds. intros L Hi Hj.
  assert (E: forall a k, (a + k <= n)%nat -> map (fun i => nth i l (0, 0)) (seq a k) = map (Cy l) (map (fun k => Z.of_nat a + Z.of_nat k) (seq 0 k))).
  { intros a k Hk. apply (nth_ext _ _ (nth 0 l (0,0)) (Cy l (Z.of_nat a + Z.of_nat 0))); [now rewrite !map_length, !seq_length|].
    rewrite map_length, seq_length. intros t Ht. rewrite (map_nth (fun i => nth i l (0, 0))), seq_nth by lia.
    rewrite map_map, (map_nth (fun k => Cy l (Z.of_nat a + Z.of_nat k))), seq_nth by lia.
    unfold Cy. rewrite cy_small by lia. f_equal. lia. }
  destruct (Nat.ltb_spec j' (S i')).
  - rewrite (slice_nth l (0, 0)) by lia. cbn [rbind]. rewrite (slice_nth l (0, 0)) by lia. cbn [rbind]. f_equal.
    rewrite L, Nat.sub_0_r. rewrite (E (S i')), (E 0%nat) by lia. rewrite seq_app, !map_app. f_equal.
    + apply (f_equal (map (Cy l))). apply map_ext. intros; lia.
    + cbn [Nat.add]. rewrite <- (Nat.add_0_r (n - S i')) at 1.
      rewrite !map_map.
      assert (Q: forall m s, map (fun x => Cy l (Z.of_nat 0 + Z.of_nat x)) (seq s m) =
        map (fun x => Cy l (Z.of_nat i' + 1 + Z.of_nat x)) (seq (n - S i' + s) m)).
      { induction m as [|m IH]; intros s; [reflexivity|]. cbn [seq map]. f_equal.
        - unfold Cy, cy. rewrite L. f_equal. f_equal.
          replace (Z.of_nat i' + 1 + Z.of_nat (n - S i' + s)) with (Z.of_nat s + 1 * Z.of_nat n) by lia.
          rewrite Z_mod_plus_full. f_equal. 
        - rewrite IH. f_equal. f_equal. lia. }
      apply Q.
  - rewrite (slice_nth l (0, 0)) by lia. f_equal. rewrite (E (S i')) by lia. apply (f_equal (map (Cy l))). apply map_ext. intros; lia.
Qed.

Lemma can_iup_eq i j : -1 <= i -> 2 <= j - i <= Z.of_nat n -> j - i < 2 ^ 15 ->
  can_iup_between ds cs i j half =
  if fits2b (Cy cs i) (Cy ds i) (Cy cs j) (Cy ds j)
  then all_close half (map (fun k => Cy ds (i + 1 + Z.of_nat k)) (seq 0 (Z.to_nat (j - i - 1))))
    (map (fun k => infer2 (Cy cs i) (Cy ds i) (Cy cs j) (Cy ds j) (Cy cs (i + 1 + Z.of_nat k))) (seq 0 (Z.to_nat (j - i - 1))))
  else Panic.
Proof using H0 Hcs Hds Hn.
  intros Hi Hj Hb. unfold can_iup_between. rewrite chk_i16_ok by lia. cbn [rbind].
  destruct (Z.ltb_spec (j - i) 2); [lia|].
  assert (HN: 0 < Z.of_nat n <= 32768) by (clear -H0 Hn; lia).
  fold n. rewrite !(rem_euclid_eq _ _ HN). cbn [rbind].
  set (N := Z.of_nat n) in *.
  pose proof (Z.mod_pos_bound i N ltac:(lia)) as Bi. pose proof (Z.mod_pos_bound j N ltac:(lia)) as Bj.
  set (i' := Z.to_nat (i mod N)) in *. set (j' := Z.to_nat (j mod N)) in *.
  pose proof (cyc_slice cs i' j' Hcs ltac:(lia) ltac:(lia)) as S1.
  pose proof (cyc_slice ds i' j' eq_refl ltac:(lia) ltac:(lia)) as S2.
  assert (M: (if (j' <? S i')%nat then n - S i' + j' else j' - S i')%nat = Z.to_nat (j - i - 1)).
  { assert (Q: j mod N = if i mod N <? j mod N then i mod N + (j - i) else i mod N + (j - i) - N).
    { pose proof (Z.div_mod i N ltac:(lia)) as Di. pose proof (Z.div_mod j N ltac:(lia)) as Dj.
      assert (j / N = i / N \/ j / N = i / N + 1) as [Q|Q] by nia; rewrite Q in Dj; destruct (Z.ltb_spec (i mod N) (j mod N)); nia. }
    unfold i', j' in *. destruct (Nat.ltb_spec (Z.to_nat (j mod N)) (S (Z.to_nat (i mod N)))); destruct (Z.ltb_spec (i mod N) (j mod N)); lia. }
  rewrite M in S1. rewrite M in S2. clear M.
  change pt with (Z * Z)%type.
  rewrite S1. cbn [rbind]. rewrite S2. cbn [rbind]. clear S1 S2.
  assert (CX: forall l, length l = n -> forall k, Cy l (Z.of_nat i' + 1 + Z.of_nat k) = Cy l (i + 1 + Z.of_nat k)).
  { intros l L k. unfold Cy, cy. rewrite L. fold N. f_equal. f_equal. unfold i'. rewrite Z2Nat.id by lia.
    rewrite <- !Z.add_assoc. apply Zplus_mod_idemp_l. }
  assert (AT: forall (l : list (Z * Z)) t, length l = n -> at_ l (Z.to_nat (t mod N)) = Ok (Cy l t)).
  { intros l t L. pose proof (Z.mod_pos_bound t N ltac:(lia)). rewrite (at_nth l (0, 0)) by lia. unfold Cy, cy. now rewrite L. }
  unfold i', j'. rewrite (AT cs i Hcs). cbn [rbind]. rewrite (AT ds i eq_refl). cbn [rbind]. rewrite (AT cs j Hcs). cbn [rbind]. rewrite (AT ds j eq_refl). cbn [rbind].
  assert (ND: ds <> []) by (intros E; unfold n in H0; rewrite E in H0; cbn in H0; lia).
  rewrite iup_segment_eq by (rewrite Forall_forall in Hds; apply Hds, cy_In, ND).
  destruct (fits2b _ _ _ _); [|reflexivity]. cbn [rbind].
  match goal with |- (if ?b then _ else _) = _ => replace b with true end; [|symmetry; apply Nat.eqb_eq; now rewrite !map_length].
  rewrite !map_map. fold i'. apply (f_equal2 (all_close half)); apply map_ext; intros k; [now rewrite (CX ds eq_refl)|now rewrite (CX cs Hcs)].
Qed.
Lemma can_iup_good i j : -1 <= i -> 2 <= j - i <= Z.of_nat n -> j - i < 2 ^ 15 ->
  can_iup_between ds cs i j half = Ok true -> cgood ds cs i j.
Proof using H0 Hcs Hds Hn.
  intros Hi Hj Hb H. rewrite can_iup_eq in H by assumption.
  destruct (fits2b _ _ _ _) eqn:F; [|discriminate]. split; [assumption|].
  apply all_close_true in H; [|now rewrite !map_length].
  intros t Ht. 
  assert (E := f_equal (fun l => nth (Z.to_nat (t - i - 1)) l (0, 0)) H). cbn beta in E.
  rewrite (nth_indep _ _ (Cy ds (i + 1 + Z.of_nat 0))) in E by (rewrite map_length, seq_length; lia).
  rewrite (nth_indep (map (fun k => infer2 _ _ _ _ _) _) _ (infer2 (Cy cs i) (Cy ds i) (Cy cs j) (Cy ds j) (Cy cs (i + 1 + Z.of_nat 0)))) in E
    by (rewrite map_length, seq_length; lia).
  rewrite (map_nth (fun k => Cy ds (i + 1 + Z.of_nat k))) in E.
  rewrite (map_nth (fun k => infer2 (Cy cs i) (Cy ds i) (Cy cs j) (Cy ds j) (Cy cs (i + 1 + Z.of_nat k)))) in E.
  rewrite seq_nth in E by lia. replace (i + 1 + Z.of_nat (0 + Z.to_nat (t - i - 1))) with t in E by lia. exact E.
Qed.
Lemma can_iup_runs i j : Forall small_pair ds -> Forall small_pair cs -> -1 <= i -> 2 <= j - i <= Z.of_nat n -> j - i < 2 ^ 15 ->
  exists b, can_iup_between ds cs i j half = Ok b.
Proof using H0 Hcs Hds Hn.
  intros Fd Fc Hi Hj Hb. rewrite can_iup_eq by assumption.
  assert (ND: ds <> []) by (intros E; unfold n in H0; rewrite E in H0; cbn in H0; lia).
  assert (NC: cs <> []) by (intros E; rewrite E in Hcs; cbn in Hcs; lia).
  rewrite Forall_forall in Fd, Fc.
  assert (SD: forall t, small_pair (Cy ds t)) by (intros t; apply Fd, cy_In, ND).
  assert (SC: forall t, small_pair (Cy cs t)) by (intros t; apply Fc, cy_In, NC).
  assert (I2: forall k, small_pair (infer2 (Cy cs i) (Cy ds i) (Cy cs j) (Cy ds j) (Cy cs k)) /\
    fits2b (Cy cs i) (Cy ds i) (Cy cs j) (Cy ds j) = true).
  { intros k. destruct (SD i), (SD j), (SC i), (SC j). unfold infer2, fits2b, small_pair. cbn [fst snd].
    match goal with |- (Z.abs (infer1 ?a ?b ?c ?d ?x) <= _ /\ Z.abs (infer1 ?a' ?b' ?c' ?d' ?x') <= _) /\ _ =>
      destruct (infer1_small a b c d x) as [A1 A2]; auto; destruct (infer1_small a' b' c' d' x') as [A3 A4]; auto end.
    rewrite A2, A4. auto. }
  destruct (I2 0) as [_ ->]. apply all_close_runs; apply Forall_forall; intros x Hx; apply in_map_iff in Hx; destruct Hx as (k & <- & _).
  - apply SD.
  - apply I2.
Qed.
End Between.

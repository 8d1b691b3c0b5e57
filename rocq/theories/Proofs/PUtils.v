From Verif.Proofs Require Import PBase.
From Verif.Model Require Import MUtils.

Lemma int_list_loop l : forall acc, (forall f, In f l -> 0 <= f < 32) ->
  exists n, int_list_to_num_loop l acc = Ok n /\
  forall k, 0 <= k -> Z.testbit n k = (Z.testbit acc k || existsb (Z.eqb k) l).
Proof.
  induction l as [|f l IH]; intros acc H; cbn [int_list_to_num_loop existsb].
  - exists acc. split; [reflexivity|]. intros; now rewrite orb_false_r.
  - assert (0 <= f < 32) by (apply H; now left).
    destruct (Z.ltb_spec f 32); [|lia].
    destruct (IH (Z.lor acc (Z.shiftl 1 f))) as (n & Hn & Hk); [intros; apply H; now right|].
    exists n. split; [exact Hn|]. intros k Hk0. rewrite Hk by exact Hk0.
    rewrite Z.lor_spec, Z.shiftl_spec by exact Hk0.
    assert (Z.testbit 1 (k - f) = (k =? f)).
    { destruct (Z.eqb_spec k f) as [->|Hn0].
      - now rewrite Z.sub_diag.
      - destruct (Z.ltb_spec k f); [apply Z.testbit_neg_r; lia|].
        change 1 with (2 ^ 0). apply Z.pow2_bits_false. lia. }
    rewrite H2. now rewrite orb_assoc.
Qed.

Lemma existsb_eqb_In k l : existsb (Z.eqb k) l = true <-> In k l.
Proof.
  rewrite existsb_exists. split.
  - intros (x & Hx & E). apply Z.eqb_eq in E. now subst.
  - intros H. exists k. split; [exact H|apply Z.eqb_refl].
Qed.

Lemma int_list_to_num_spec l : (forall f, In f l -> 0 <= f < 32) ->
  exists n, int_list_to_num l = Ok n /\ forall k, 0 <= k -> (Z.testbit n k = true <-> In k l).
Proof.
  intros H. destruct (int_list_loop l 0 H) as (n & Hn & Hk). exists n. split; [exact Hn|].
  intros k Hk0. rewrite Hk, Z.bits_0 by exact Hk0. cbn [orb]. apply existsb_eqb_In.
Qed.

Lemma int_list_to_num_panics l : (forall f, In f l -> 0 <= f < 256) ->
  (exists f, In f l /\ 32 <= f) -> int_list_to_num l = Panic.
Proof.
  intros Hr Hx. unfold int_list_to_num. generalize 0 at 1. revert Hr Hx.
  induction l as [|f l IH]; intros Hr (g & Hg & H32) acc; [destruct Hg|].
  cbn [int_list_to_num_loop]. destruct (Z.ltb_spec f 32); [|reflexivity].
  apply IH; [intros; apply Hr; now right|]. destruct Hg as [->|Hg]; [lia|]. now exists g.
Qed.

(** Adding a fresh power of two sets exactly one new bit. *)
Lemma testbit_add_fresh acc e k : 0 <= e -> 0 <= k -> Z.testbit acc e = false ->
  Z.testbit (acc + 2 ^ e) k = (Z.testbit acc k || (k =? e)).
Proof.
  intros He Hk Hf.
  assert (E: acc + 2 ^ e = Z.lor acc (2 ^ e)).
  { symmetry. rewrite <- Z.lxor_lor, Z.add_nocarry_lxor; try reflexivity;
      apply Z.bits_inj'; intros n Hn; rewrite Z.land_spec, Z.bits_0;
      (destruct (Z.eq_dec n e) as [->|Hne]; [now rewrite Hf|
       rewrite (Z.pow2_bits_false e n) by lia; apply andb_false_r]). }
  rewrite E, Z.lor_spec. f_equal. destruct (Z.eqb_spec k e) as [->|Hne].
  - now apply Z.pow2_bits_true.
  - apply Z.pow2_bits_false. lia.
Qed.

Lemma bits_bound n b : 0 <= b -> 0 <= n -> (forall k, b <= k -> Z.testbit n k = false) -> n < 2 ^ b.
Proof.
  intros Hb Hn H. destruct (Z.lt_ge_cases n (2 ^ b)) as [?|Hge]; [assumption|exfalso].
  assert (0 < n) by (pose proof (Z.pow_pos_nonneg 2 b); lia).
  pose proof (Z.bit_log2 n H0) as Hl. rewrite H in Hl; [discriminate|].
  apply Z.log2_le_pow2; assumption.
Qed.

Lemma filtered_sum_spec low high l : 0 <= low -> high - low < 32 -> NoDup l ->
  forall acc, 0 <= acc < 2 ^ 32 ->
  (forall x, In x l -> low <= x <= high -> Z.testbit acc (x - low) = false) ->
  exists n, filtered_sum l low high acc = Ok n /\ 0 <= n < 2 ^ 32 /\
  forall k, 0 <= k ->
    Z.testbit n k = (Z.testbit acc k || existsb (fun x => (low <=? x) && (x <=? high) && (k =? x - low)) l).
Proof.
  intros Hlow Hh Hnd. induction Hnd as [|x l Hx Hnd IH]; intros acc Hacc Hfresh; cbn [filtered_sum existsb].
  - exists acc. repeat split; try lia. intros; now rewrite orb_false_r.
  - destruct (Z.leb_spec low x), (Z.leb_spec x high); cbn [andb].
    2-4: destruct (IH acc Hacc) as (n & Hn & Hr & Hk);
      [intros; apply Hfresh; [now right|assumption]
      |exists n; split; [exact Hn|]; split; [exact Hr|]; exact Hk].
    assert (Hp: 0 <= 2 ^ (x - low) < 2 ^ 32).
    { split; [apply Z.pow_nonneg; lia|]. apply Z.pow_lt_mono_r; lia. }
    assert (Hb: Z.testbit acc (x - low) = false) by (apply Hfresh; [now left|lia]).
    assert (Hlt: acc + 2 ^ (x - low) < 2 ^ 32).
    { apply bits_bound; [lia|lia|]. intros k Hk. rewrite testbit_add_fresh by (lia || assumption).
      rewrite (Z.bits_above_log2 acc k).
      - destruct (Z.eqb_spec k (x - low)); [lia|reflexivity].
      - lia.
      - destruct (Z.eq_dec acc 0) as [->|]; [cbn; lia|].
        apply Z.log2_lt_pow2; [lia|]. eapply Z.lt_le_trans; [apply Hacc|]. apply Z.pow_le_mono_r; lia. }
    unfold chk_u.
    rewrite (proj2 (Z.leb_le 0 (2 ^ (x - low)))), (proj2 (Z.ltb_lt _ _)) by lia. cbn [andb rbind].
    rewrite (proj2 (Z.leb_le 0 (acc + 2 ^ (x - low)))), (proj2 (Z.ltb_lt _ _)) by lia. cbn [andb rbind].
    destruct (IH (acc + 2 ^ (x - low))) as (n & Hn & Hr & Hk); [lia| |].
    { intros y Hy Hyr. rewrite testbit_add_fresh by (lia || assumption).
      rewrite Hfresh by (try (now right); assumption). cbn [orb].
      apply Z.eqb_neq. intros E. apply Hx. replace x with y by lia. exact Hy. }
    exists n. split; [exact Hn|]. split; [exact Hr|]. intros k Hk0. rewrite Hk by exact Hk0.
    rewrite testbit_add_fresh by (lia || assumption). now rewrite orb_assoc.
Qed.

Lemma filtered_bitset_spec low high l : 0 <= low -> high - low < 32 -> NoDup l ->
  exists n, filtered_bitset_to_num l low high = Ok n /\ 0 <= n < 2 ^ 32 /\
  forall k, 0 <= k -> (Z.testbit n k = true <-> (In (low + k) l /\ low + k <= high)).
Proof.
  intros Hlow Hh Hnd.
  destruct (filtered_sum_spec low high l Hlow Hh Hnd 0) as (n & Hn & Hr & Hk).
  - lia.
  - intros. apply Z.bits_0.
  - exists n. split; [exact Hn|]. split; [exact Hr|]. intros k Hk0. rewrite Hk, Z.bits_0 by exact Hk0.
    cbn [orb]. rewrite existsb_exists. split.
    + intros (x & Hx & E). replace (low + k) with x by lia. split; [exact Hx|lia].
    + intros [Hi Hle]. exists (low + k). split; [exact Hi|]. lia.
Qed.

Lemma is_all_the_same_spec {A} (eqb : A -> A -> bool) (l : list A) :
  (forall a b, eqb a b = true <-> a = b) ->
  is_all_the_same eqb l = true <-> (forall x y, In x l -> In y l -> x = y).
Proof.
  intros He. destruct l as [|a l]; cbn [is_all_the_same].
  - split; [intros _ x y []|reflexivity].
  - rewrite forallb_forall. split.
    + intros H x y Hx Hy.
      assert (forall z, In z (a :: l) -> a = z).
      { intros z [->|Hz]; [reflexivity|]. apply He. now apply H. }
      now rewrite <- (H0 x Hx), <- (H0 y Hy).
    + intros H x Hx. apply He. apply H; [now left|now right].
Qed.

From Verif.Proofs Require Import PBase.
From Verif.Model Require Import MFixed.

Lemma rnd24_small m e : Z.abs m < 2 ^ 24 -> rnd24 (Dy m e) = Dy m e.
Proof.
  intros H. unfold rnd24; cbn [mant expo].
  assert (Z.log2 (Z.abs m) < 24).
  { destruct (Z.eq_dec m 0) as [->|]; [cbn; lia|]. apply Z.log2_lt_pow2; lia. }
  destruct (Z.leb_spec (Z.log2 (Z.abs m) - 23) 0); [reflexivity|lia].
Qed.

Lemma ot_round_int n : Z.abs (2 * n + 1) < 2 ^ 24 -> ot_round (Dy n 0) = n.
Proof.
  intros H. unfold ot_round, f32_add. cbn [expo mant].
  change (Z.min 0 (-1)) with (-1). change (0 - -1) with 1. change (-1 - -1) with 0.
  change (2 ^ 1) with 2. change (2 ^ 0) with 1.
  replace (n * 2 + 1 * 1) with (2 * n + 1) by lia.
  rewrite rnd24_small by exact H. unfold f32_floor. cbn [expo mant].
  change (0 <=? -1) with false. change (2 ^ - -1) with 2. cbn iota.
  unfold sat_i32. lia.
Qed.

Lemma f2dot14_packed_id p : -32768 <= p < 32768 ->
  f2dot14_as_packed (f2dot14_from_packed p) = Some p.
Proof.
  intros H. unfold f2dot14_from_packed, f32_of_int. rewrite rnd24_small by lia.
  unfold f2dot14_as_packed, f32_scale. cbn [mant expo].
  replace (0 + -14 + 14) with 0 by lia. rewrite ot_round_int by lia.
  unfold try_i. change (2 ^ (16 - 1)) with 32768.
  replace (- (32768) <=? p) with true by lia. replace (p <? 32768) with true by lia. reflexivity.
Qed.

Lemma fixed_packed_id p : - 2 ^ 23 <= p <= 2 ^ 23 -> fixed_as_packed (fixed_from_packed p) = p.
Proof.
  intros H. unfold fixed_from_packed, f32_of_int. rewrite rnd24_small by lia.
  unfold fixed_as_packed, f32_scale. cbn [mant expo].
  replace (0 + -16 + 16) with 0 by lia.
  destruct (Z.eq_dec p (2 ^ 23)) as [->|Hne]; [vm_compute; reflexivity|].
  apply ot_round_int. lia.
Qed.

(** Rounding error of [rnd24]: relative 2^-24, and exactness on representable values. *)
Lemma rne_shift_err m k : 0 < k -> 2 * Z.abs (rne_shift m k * 2 ^ k - m) <= 2 ^ k.
Proof.
  intros Hk. unfold rne_shift; cbv zeta.
  pose proof (Z.pow_pos_nonneg 2 k ltac:(lia) ltac:(lia)) as Hp.
  pose proof (Z.div_mod m (2 ^ k) ltac:(lia)) as Hd.
  pose proof (Z.mod_pos_bound m (2 ^ k) Hp) as Hm.
  set (P := 2 ^ k) in *. set (q := m / P) in *. set (r := m mod P) in *.
  clearbody P q r.
  destruct (Z.ltb_spec (2 * r) P); [nia|]. destruct (Z.ltb_spec P (2 * r)); [nia|].
  destruct (Z.even q); nia.
Qed.

Lemma rne_shift_exact m k : 0 < k -> (2 ^ k | m) -> rne_shift m k * 2 ^ k = m.
Proof.
  intros Hk [c ->]. unfold rne_shift; cbv zeta.
  pose proof (Z.pow_pos_nonneg 2 k ltac:(lia) ltac:(lia)) as Hp.
  rewrite Z.div_mul, Z.mod_mul by lia.
  destruct (Z.ltb_spec (2 * 0) (2 ^ k)); lia.
Qed.

(** Value of a dyadic scaled to an integer: [mant * 2^(expo + s)] for [expo + s >= 0]. *)
Definition dyv (x : dyadic) (s : Z) : Z := mant x * 2 ^ (expo x + s).

Lemma rnd24_dyv x s : 0 <= expo x + s ->
  2 ^ 24 * Z.abs (dyv (rnd24 x) s - dyv x s) <= Z.abs (dyv x s).
Proof.
  intros Hs. unfold rnd24. destruct (Z.leb_spec (Z.log2 (Z.abs (mant x)) - 23) 0).
  - rewrite Z.sub_diag. cbn. lia.
  - set (k := Z.log2 (Z.abs (mant x)) - 23) in *.
    unfold dyv; cbn [mant expo].
    replace (expo x + k + s) with (k + (expo x + s)) by lia.
    rewrite Z.pow_add_r by lia.
    pose proof (rne_shift_err (mant x) k ltac:(lia)) as He.
    assert (Hl: 2 ^ k * 2 ^ 23 <= Z.abs (mant x)).
    { rewrite <- Z.pow_add_r by lia. replace (k + 23) with (Z.log2 (Z.abs (mant x))) by lia.
      apply Z.log2_spec. destruct (Z.eq_dec (mant x) 0) as [E|]; [|lia].
      unfold k in H. rewrite E in H. cbn in H. lia. }
    pose proof (Z.pow_pos_nonneg 2 (expo x + s) ltac:(lia) Hs) as Hq.
    set (Q := 2 ^ (expo x + s)) in *. clearbody Q.
    replace (rne_shift (mant x) k * (2 ^ k * Q) - mant x * Q)
      with ((rne_shift (mant x) k * 2 ^ k - mant x) * Q) by ring.
    rewrite !Z.abs_mul. rewrite (Z.abs_eq Q) by lia.
    rewrite Z.mul_assoc. apply Z.mul_le_mono_nonneg_r; [lia|].
    change (2 ^ 24) with (2 * 2 ^ 23). nia.
Qed.

Lemma f32_floor_dyv x s : 0 <= s -> 0 <= expo x + s -> f32_floor x = dyv x s / 2 ^ s.
Proof.
  intros Hs He. unfold f32_floor, dyv.
  destruct (Z.leb_spec 0 (expo x)).
  - rewrite Z.pow_add_r, Z.mul_assoc, Z.div_mul by (lia || (apply Z.pow_nonzero; lia)). reflexivity.
  - assert (E: 2 ^ s = 2 ^ (- expo x) * 2 ^ (expo x + s)).
    { rewrite <- Z.pow_add_r by lia. f_equal. lia. }
    rewrite E. rewrite Z.div_mul_cancel_r; [reflexivity| |]; apply Z.pow_nonzero; lia.
Qed.

(** [f32_add x 0.5], scaled. *)
Lemma f32_add_half x s : 1 <= s -> 0 <= expo x + s ->
  exists z, f32_add x (Dy 1 (-1)) = rnd24 z /\ 0 <= expo z + s /\
            dyv z s = dyv x s + 2 ^ (s - 1).
Proof.
  intros Hs He. unfold f32_add. cbn [mant expo].
  eexists. split; [reflexivity|]. cbn [expo]. split; [lia|].
  unfold dyv; cbn [mant expo].
  set (e := Z.min (expo x) (-1)).
  rewrite Z.mul_add_distr_r, <- !Z.mul_assoc, <- !Z.pow_add_r by lia.
  replace (expo x - e + (e + s)) with (expo x + s) by lia.
  replace (-1 - e + (e + s)) with (s - 1) by lia. lia.
Qed.

Lemma rnd24_expo x : expo x <= expo (rnd24 x).
Proof.
  unfold rnd24. destruct (Z.leb_spec (Z.log2 (Z.abs (mant x)) - 23) 0); cbn [expo]; lia.
Qed.

(** The packed value is a nearest one up to the binary32 rounding of the sum
    (all quantities scaled by 2^s). *)
Lemma ot_round_near x s : 1 <= s -> 0 <= expo x + s ->
  let X := dyv x s in
  let U := 2 ^ s in
  let p := f32_floor (f32_add x (Dy 1 (-1))) in
  2 ^ 25 * p * U <= 2 ^ 25 * X + 2 ^ 24 * U + 2 * Z.abs X + U /\
  2 ^ 25 * X + 2 ^ 24 * U - (2 * Z.abs X + U) < 2 ^ 25 * (p + 1) * U.
Proof.
  intros Hs He X U p.
  destruct (f32_add_half x s Hs He) as (z & Hz & Hez & Hdz).
  unfold p. rewrite Hz.
  rewrite (f32_floor_dyv _ s) by (pose proof (rnd24_expo z); lia).
  pose proof (rnd24_dyv z s Hez) as Hr. rewrite Hdz in Hr. fold X in Hr. fold U.
  assert (HU: U = 2 * 2 ^ (s - 1)).
  { unfold U. rewrite <- Z.pow_succ_r by lia. f_equal; lia. }
  pose proof (Z.pow_pos_nonneg 2 (s - 1) ltac:(lia) ltac:(lia)) as Hh.
  pose proof (Z.div_mod (dyv (rnd24 z) s) U ltac:(lia)) as Hd.
  pose proof (Z.mod_pos_bound (dyv (rnd24 z) s) U ltac:(lia)) as Hm.
  clearbody U X. clear p.
  set (h := 2 ^ (s - 1)) in *. set (W := dyv (rnd24 z) s) in *. set (q := W / U) in *.
  set (t := W mod U) in *. clearbody h W q t.
  change (2 ^ 24) with 16777216 in *. change (2 ^ 25) with 33554432.
  rewrite HU in Hd, Hm |- *. clear - Hd Hm Hr Hh.
  split; nia.
Qed.

Lemma f2dot14_reject_high x s : 1 <= s -> 0 <= expo x + s ->
  2 * 2 ^ s <= dyv x s -> f2dot14_as_packed x = None.
Proof.
  intros Hs He Hx. unfold f2dot14_as_packed, ot_round.
  set (x' := f32_scale x 14).
  assert (He': 0 <= expo x' + s) by (unfold x', f32_scale; cbn [expo]; lia).
  assert (HX: dyv x' s = 16384 * dyv x s).
  { unfold x', f32_scale, dyv; cbn [mant expo]. replace (expo x + 14 + s) with (14 + (expo x + s)) by lia.
    rewrite Z.pow_add_r by lia. change (2 ^ 14) with 16384. ring. }
  pose proof (ot_round_near x' s Hs He') as [_ Hn]. cbv zeta in Hn.
  set (p := f32_floor (f32_add x' (Dy 1 (-1)))) in *.
  pose proof (Z.pow_pos_nonneg 2 s ltac:(lia) ltac:(lia)) as HU.
  rewrite HX in Hn. set (U := 2 ^ s) in *. set (X := dyv x s) in *. clearbody U X p.
  assert (32768 <= p).
  { change (2 ^ 25) with 33554432 in Hn. change (2 ^ 24) with 16777216 in Hn. nia. }
  unfold try_i, sat_i32. change (2 ^ (16 - 1)) with 32768. change (2 ^ 31) with 2147483648.
  match goal with |- (if ?c then _ else _) = _ => replace c with false by lia end. reflexivity.
Qed.

Lemma f2dot14_reject_low x s : 1 <= s -> 0 <= expo x + s ->
  16384 * dyv x s < - 32769 * 2 ^ s -> f2dot14_as_packed x = None.
Proof.
  intros Hs He Hx. unfold f2dot14_as_packed, ot_round.
  set (x' := f32_scale x 14).
  assert (He': 0 <= expo x' + s) by (unfold x', f32_scale; cbn [expo]; lia).
  assert (HX: dyv x' s = 16384 * dyv x s).
  { unfold x', f32_scale, dyv; cbn [mant expo]. replace (expo x + 14 + s) with (14 + (expo x + s)) by lia.
    rewrite Z.pow_add_r by lia. change (2 ^ 14) with 16384. ring. }
  pose proof (ot_round_near x' s Hs He') as [Hn _]. cbv zeta in Hn.
  set (p := f32_floor (f32_add x' (Dy 1 (-1)))) in *.
  pose proof (Z.pow_pos_nonneg 2 s ltac:(lia) ltac:(lia)) as HU.
  rewrite HX in Hn. set (U := 2 ^ s) in *. set (X := dyv x s) in *. clearbody U X p.
  assert (p < -32768).
  { change (2 ^ 25) with 33554432 in Hn. change (2 ^ 24) with 16777216 in Hn. nia. }
  unfold try_i, sat_i32. change (2 ^ (16 - 1)) with 32768. change (2 ^ 31) with 2147483648.
  match goal with |- (if ?c then _ else _) = _ => replace c with false by lia end. reflexivity.
Qed.

Lemma reads_f2dot14_packed p bs : -32768 <= p < 32768 ->
  ser_f2dot14 (f2dot14_from_packed p) = Ok bs -> reads de_f2dot14 bs (f2dot14_from_packed p).
Proof.
  intros Hp. unfold ser_f2dot14. rewrite f2dot14_packed_id by exact Hp.
  intros Hs; apply Ok_inj in Hs; subst bs. unfold de_f2dot14.
  apply reads_map. now apply reads_i16.
Qed.


(** ** Exact characterisation of the Fixed values that survive *)

Definition fixed_rt (p : Z) : Z := fixed_as_packed (fixed_from_packed p).

(** [p] is an even multiple form: [p = m * 2^e], [e >= 1], [m] of 24 bits. *)
Definition even_f32 (p : Z) : Prop := exists m e, 1 <= e /\ Z.abs m < 2 ^ 24 /\ p = m * 2 ^ e.

Lemma even_f32_div p k : even_f32 p -> p <> 0 -> 0 < k -> k <= Z.log2 (Z.abs p) - 23 -> (2 ^ k | p).
Proof.
  intros (m & e & He & Hm & ->) Hne Hk Hkl.
  assert (Hm0: m <> 0) by nia.
  rewrite Z.abs_mul, (Z.abs_eq (2 ^ e)) in Hkl by (apply Z.pow_nonneg; lia).
  rewrite Z.log2_mul_pow2 in Hkl by lia.
  assert (Z.log2 (Z.abs m) < 24) by (apply Z.log2_lt_pow2; lia).
  exists (m * 2 ^ (e - k)). rewrite <- Z.mul_assoc, <- Z.pow_add_r by lia. do 2 f_equal. lia.
Qed.

(** Rounding [p + 1/2] for an integer [p] with at most an exact integer tail. *)
Lemma add_half_exact x p : 0 <= expo x -> mant x * 2 ^ expo x = p ->
  f32_add x (Dy 1 (-1)) = rnd24 (Dy (2 * p + 1) (-1)).
Proof.
  intros He Hv. unfold f32_add; cbn [mant expo].
  replace (Z.min (expo x) (-1)) with (-1) by lia. f_equal. f_equal.
  replace (expo x - -1) with (1 + expo x) by lia. rewrite Z.pow_add_r by lia.
  change (-1 - -1) with 0. change (2 ^ 0) with 1. change (2 ^ 1) with 2. nia.
Qed.

Lemma even_f32_even p : even_f32 p -> Z.even p = true.
Proof.
  intros (m & e & He & _ & ->). rewrite Z.even_mul. rewrite Z.even_pow by lia.
  apply orb_true_r.
Qed.

Lemma log2_half p k : p <> 0 -> Z.log2 (Z.abs (2 * p + 1)) - 23 = k -> k - 1 <= Z.log2 (Z.abs p) - 23.
Proof.
  intros Hp Hk.
  assert (Z.log2 (Z.abs (2 * p + 1)) <= Z.log2 (2 * Z.abs p)).
  { destruct (Z.lt_ge_cases p 0).
    - apply Z.log2_le_mono. lia.
    - replace (Z.abs (2 * p + 1)) with (2 * Z.abs p + 1) by lia.
      rewrite Z.log2_succ_double, Z.log2_double by lia. lia. }
  rewrite Z.log2_double in H by lia. lia.
Qed.

Lemma floor_half_even p : even_f32 p -> f32_floor (rnd24 (Dy (2 * p + 1) (-1))) = p.
Proof.
  intros Hev. unfold rnd24; cbn [mant expo].
  destruct (Z.leb_spec (Z.log2 (Z.abs (2 * p + 1)) - 23) 0).
  - unfold f32_floor; cbn [mant expo]. change (0 <=? -1) with false. change (2 ^ - -1) with 2. cbn iota. lia.
  - set (k := Z.log2 (Z.abs (2 * p + 1)) - 23) in *.
    assert (Hp0: p <> 0).
    { intros ->. vm_compute in H. discriminate. }
    pose proof (log2_half p k Hp0 eq_refl) as Hk.
    unfold f32_floor; cbn [mant expo].
    destruct (Z.leb_spec 0 (-1 + k)); [|lia].
    replace (-1 + k) with (k - 1) by lia.
    destruct (Z.eq_dec k 1) as [->|Hk1].
    + unfold rne_shift. change (2 ^ 1) with 2. change (1 - 1) with 0. change (2 ^ 0) with 1.
      replace ((2 * p + 1) / 2) with p by lia. replace ((2 * p + 1) mod 2) with 1 by lia.
      cbv zeta. change (2 * 1 <? 2) with false. change (2 <? 2 * 1) with false. cbn iota.
      rewrite even_f32_even by exact Hev. lia.
    + destruct (even_f32_div p (k - 1) Hev Hp0 ltac:(lia) Hk) as [c Hc].
      assert (E: 2 * p + 1 = 1 + c * 2 ^ k).
      { replace k with (1 + (k - 1)) by lia. rewrite Z.pow_add_r by lia. change (2 ^ 1) with 2. lia. }
      assert (H4: 4 <= 2 ^ k). { change 4 with (2 ^ 2). apply Z.pow_le_mono_r; lia. }
      unfold rne_shift; cbv zeta. rewrite E, Z.div_add, Z.mod_add by lia.
      rewrite Z.div_small, Z.mod_small by lia.
      destruct (Z.ltb_spec (2 * 1) (2 ^ k)); lia.
Qed.

Lemma f32_of_int_even p : even_f32 p ->
  0 <= expo (f32_of_int p) /\ mant (f32_of_int p) * 2 ^ expo (f32_of_int p) = p.
Proof.
  intros Hev. unfold f32_of_int, rnd24; cbn [mant expo].
  destruct (Z.leb_spec (Z.log2 (Z.abs p) - 23) 0); cbn [mant expo].
  - change (2 ^ 0) with 1. lia.
  - split; [lia|]. rewrite Z.add_0_l. apply rne_shift_exact; [lia|].
    apply even_f32_div; [exact Hev| |lia|lia].
    intros ->. cbn in H. lia.
Qed.

Lemma fixed_rt_even p : even_f32 p -> - 2 ^ 31 <= p < 2 ^ 31 -> fixed_rt p = p.
Proof.
  intros Hev Hr. unfold fixed_rt, fixed_as_packed, fixed_from_packed, ot_round.
  destruct (f32_of_int_even p Hev) as [He Hm].
  rewrite (add_half_exact _ p).
  - rewrite floor_half_even by exact Hev. unfold sat_i32. lia.
  - unfold f32_scale; cbn [expo]. lia.
  - unfold f32_scale; cbn [expo mant]. replace (expo (f32_of_int p) + -16 + 16) with (expo (f32_of_int p)) by lia.
    exact Hm.
Qed.

(** The rounded integer of an odd-tailed or wide [p] is itself an even form. *)
Lemma rnd24_even_form p : 0 < Z.log2 (Z.abs p) - 23 ->
  exists q, even_f32 q /\ 0 <= expo (f32_of_int p) /\ mant (f32_of_int p) * 2 ^ expo (f32_of_int p) = q /\
            Z.abs q <= 2 ^ (Z.log2 (Z.abs p) + 1).
Proof.
  intros Hk. unfold f32_of_int, rnd24; cbn [mant expo].
  destruct (Z.leb_spec (Z.log2 (Z.abs p) - 23) 0); [lia|]. cbn [mant expo]. rewrite Z.add_0_l.
  set (k := Z.log2 (Z.abs p) - 23) in *. set (q := rne_shift p k).
  assert (Hq: Z.abs q <= 2 ^ 24).
  { pose proof (rne_shift_err p k Hk) as He. fold q in He.
    assert (Hub: Z.abs p < 2 ^ k * 2 ^ 24).
    { rewrite <- Z.pow_add_r by lia. replace (k + 24) with (Z.succ (Z.log2 (Z.abs p))) by (unfold k; lia).
      apply Z.log2_spec. destruct (Z.eq_dec p 0) as [E|]; [unfold k in Hk; rewrite E in Hk; cbn in Hk; lia|lia]. }
    pose proof (Z.pow_pos_nonneg 2 k ltac:(lia) ltac:(lia)) as Hkp. set (K := 2 ^ k) in *. clearbody K q.
    change (2 ^ 24) with 16777216 in *. nia. }
  exists (q * 2 ^ k). split; [|split; [lia|split; [reflexivity|]]].
  - destruct (Z.eq_dec (Z.abs q) (2 ^ 24)) as [E|].
    + exists (q / 2), (k + 1). split; [lia|]. split; [change (2 ^ 24) with 16777216 in *; lia|].
      rewrite Z.pow_add_r by lia. change (2 ^ 1) with 2. change (2 ^ 24) with 16777216 in *.
      assert (Hh: q = 2 * (q / 2)) by lia. rewrite Hh at 1. ring.
    + exists q, k. split; [lia|]. split; [lia|reflexivity].
  - rewrite Z.abs_mul, (Z.abs_eq (2 ^ k)) by (apply Z.pow_nonneg; lia).
    replace (Z.log2 (Z.abs p) + 1) with (24 + k) by (unfold k; lia).
    rewrite Z.pow_add_r by lia. apply Z.mul_le_mono_nonneg_r; [apply Z.pow_nonneg; lia|exact Hq].
Qed.

Lemma fixed_rt_iff p : - 2 ^ 31 <= p < 2 ^ 31 ->
  fixed_rt p = p <-> (Z.abs p <= 2 ^ 23 \/ even_f32 p \/ p = 2 ^ 31 - 1).
Proof.
  intros Hr. split.
  - intros Heq. destruct (Z.leb_spec (Z.abs p) (2 ^ 23)) as [?|Hbig]; [now left|].
    right. destruct (Z.eq_dec p (2 ^ 31 - 1)) as [?|Hmax]; [now right|left].
    assert (Hl23: 23 <= Z.log2 (Z.abs p)) by (apply Z.log2_le_pow2; lia).
    destruct (Z.eq_dec (Z.log2 (Z.abs p)) 23) as [Hl|Hl].
    + (* 24-bit: representable; must be even *)
      destruct (Z.even p) eqn:Ev.
      * apply Z.even_spec in Ev. destruct Ev as [c Hc]. exists c, 1. split; [lia|].
        assert (Z.abs p < 2 ^ 24).
        { replace 24 with (Z.succ (Z.log2 (Z.abs p))) by lia. apply Z.log2_spec; lia. }
        split; [lia|]. change (2 ^ 1) with 2. lia.
      * exfalso.
        assert (Habs: Z.abs p < 2 ^ 24).
        { replace 24 with (Z.succ (Z.log2 (Z.abs p))) by lia. apply Z.log2_spec; lia. }
        revert Heq. unfold fixed_rt, fixed_as_packed, fixed_from_packed, ot_round, f32_of_int.
        rewrite rnd24_small by exact Habs.
        rewrite (add_half_exact _ p); [|unfold f32_scale; cbn [expo]; lia
          |unfold f32_scale; cbn [mant expo]; change (2 ^ (0 + -16 + 16)) with 1; lia].
        unfold rnd24; cbn [mant expo].
        assert (Hk: Z.log2 (Z.abs (2 * p + 1)) = 24).
        { apply Z.log2_unique'  with (c := Z.abs (2 * p + 1) - 2 ^ 24); change (2 ^ 23) with 8388608 in *; change (2 ^ 24) with 16777216 in *; lia. }
        rewrite Hk. change (24 - 23) with 1. change (1 <=? 0) with false. cbn iota.
        unfold rne_shift; cbv zeta. change (2 ^ 1) with 2.
        replace ((2 * p + 1) / 2) with p by lia. replace ((2 * p + 1) mod 2) with 1 by lia.
        change (2 * 1 <? 2) with false. change (2 <? 2 * 1) with false. cbn iota. rewrite Ev.
        unfold f32_floor; cbn [mant expo]. change (0 <=? -1 + 1) with true. cbn iota.
        change (2 ^ (-1 + 1)) with 1. unfold sat_i32. change (2 ^ 31) with 2147483648 in *.
        change (2 ^ 24) with 16777216 in *. lia.
    + (* wider: result is the rounded value *)
      destruct (rnd24_even_form p ltac:(lia)) as (q & Hq & He & Hm & Hub).
      assert (Hres: fixed_rt p = sat_i32 q).
      { unfold fixed_rt, fixed_as_packed, fixed_from_packed, ot_round.
        rewrite (add_half_exact _ q).
        - now rewrite floor_half_even by exact Hq.
        - unfold f32_scale; cbn [expo]. lia.
        - unfold f32_scale; cbn [expo mant]. replace (expo (f32_of_int p) + -16 + 16) with (expo (f32_of_int p)) by lia.
          exact Hm. }
      rewrite Hres in Heq. unfold sat_i32 in Heq. change (2 ^ 31) with 2147483648 in *.
      destruct (Z.eq_dec q p) as [<-|Hqp]; [exact Hq|].
      assert (Hp: p = -2147483648) by lia. exists (- 2 ^ 22), 9. vm_compute. repeat split; congruence.
  - intros [H|[H|H]].
    + apply fixed_packed_id. lia.
    + now apply fixed_rt_even.
    + subst p. vm_compute. reflexivity.
Qed.

(** Whole-number Fixed values are exact. *)
Lemma fixed_integral k : -32768 <= k < 32768 -> fixed_rt (k * 65536) = k * 65536.
Proof.
  intros H. apply fixed_rt_even; [|change (2 ^ 31) with 2147483648; lia].
  exists k, 16. split; [lia|]. split; [change (2 ^ 24) with 16777216; lia|reflexivity].
Qed.

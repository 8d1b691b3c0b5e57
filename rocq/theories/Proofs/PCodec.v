(** Bridges between the proof-level [reads] and the specification [reads_back]. *)
From Verif.Proofs Require Import PBase.
From Verif.Spec Require Import SBase.

Lemma reads_reads_back {A} (p : parser A) bs a : reads p bs a -> reads_back p bs a.
Proof. intros H pre post stk. now apply reads_at. Qed.

Lemma rd_split r bs post : bs <> [] -> rest r = bs ++ post ->
  exists pre, r = mkrd (pre ++ bs ++ post) (length pre) (rd_stack r).
Proof.
  intros Hne Hr. exists (firstn (rd_ptr r) (rd_input r)).
  destruct r as [inp ptr stk]; unfold rest in Hr; cbn in *.
  assert (Hlen: (ptr < length inp)%nat).
  { destruct (Nat.lt_ge_cases ptr (length inp)) as [?|Hge]; [assumption|].
    rewrite skipn_all2 in Hr by lia. destruct bs; [congruence|discriminate]. }
  f_equal.
  - rewrite <- Hr. symmetry. apply firstn_skipn.
  - rewrite firstn_length. lia.
Qed.

Lemma reads_back_reads {A} (p : parser A) bs a : bs <> [] -> reads_back p bs a -> reads p bs a.
Proof.
  intros Hne H r post Hr. destruct (rd_split r bs post Hne Hr) as [pre E]. rewrite E.
  rewrite H. reflexivity.
Qed.

Lemma in_range_prim_ok t v : in_range t v <-> prim_ok t v.
Proof. destruct t; unfold in_range, prim_ok; cbn; lia. Qed.

Lemma digits_value_eq bs : digits_value bs = be_value bs.
Proof.
  induction bs as [|b bs IH]; [reflexivity|]. cbn [digits_value]. now rewrite be_value_cons, IH.
Qed.

Lemma is_byte_byte l : Forall is_byte l <-> Forall byte l.
Proof. split; apply Forall_impl; unfold is_byte, byte; lia. Qed.

Lemma width_eq t : width t = prim_width t.
Proof. destruct t; reflexivity. Qed.

Lemma big_endian_be_bytes n v : big_endian (be_bytes n v) v.
Proof.
  split; [apply is_byte_byte, be_bytes_byte|]. rewrite digits_value_eq, be_value_bytes, be_bytes_length.
  exists (v / 256 ^ Z.of_nat n). pose proof (pow256_pos n).
  rewrite (Z.div_mod v (256 ^ Z.of_nat n)) at 1 by lia. ring.
Qed.

Lemma prim_roundtrip t v : in_range t v ->
  length (ser_prim t v) = width t /\ big_endian (ser_prim t v) v /\
  reads_back (de_prim t) (ser_prim t v) v.
Proof.
  intros H. rewrite width_eq, ser_prim_length. split; [reflexivity|]. split.
  - apply big_endian_be_bytes.
  - apply reads_reads_back, reads_prim, in_range_prim_ok, H.
Qed.

Lemma prim_bytes_roundtrip t pre bs post stk : length bs = width t -> Forall is_byte bs ->
  exists v, in_range t v /\ ser_prim t v = bs /\
    de_prim t (mkrd (pre ++ bs ++ post) (length pre) stk)
    = Ok (v, mkrd (pre ++ bs ++ post) (length pre + width t) stk).
Proof.
  intros Hl Hb. rewrite is_byte_byte in Hb. rewrite width_eq in *.
  set (u := be_value bs).
  set (v := if prim_signed t then wrap_i (8 * Z.of_nat (prim_width t)) u else u).
  pose proof (prim_width_pos t) as Hw.
  pose proof (be_value_range bs Hb) as Hu. rewrite Hl, pow256_2 in Hu. fold u in Hu.
  assert (Hok: prim_ok t v).
  { unfold prim_ok, v. destruct (prim_signed t); [|exact Hu]. apply wrap_i_spec. lia. }
  assert (Hs: ser_prim t v = bs).
  { unfold ser_prim. rewrite <- Hl. rewrite <- (be_bytes_value bs Hb) at 2. apply be_bytes_cong.
    fold u. rewrite Hl, pow256_2. unfold v. destruct (prim_signed t); [|reflexivity].
    apply wrap_i_spec. lia. }
  exists v. split; [now apply in_range_prim_ok|]. split; [exact Hs|].
  pose proof (reads_reads_back _ _ _ (reads_prim t v Hok) pre post stk) as H.
  rewrite Hs in H. rewrite H. now rewrite Hl.
Qed.

Lemma prim_short t r : (length (rd_input r) < rd_ptr r + width t)%nat -> de_prim t r = Err.
Proof.
  intros H. unfold de_prim, consume, consume_or_peek. rewrite width_eq in H.
  destruct (Nat.ltb_spec (length (rd_input r)) (rd_ptr r + prim_width t)); [reflexivity|lia].
Qed.

Lemma u24_roundtrip v : 0 <= v < 2 ^ 24 ->
  exists bs, ser_u24 v = Ok bs /\ length bs = 3%nat /\ big_endian bs v /\ reads_back de_u24 bs v.
Proof.
  intros H. assert (E: ser_u24 v = Ok (be_bytes 3 v)).
  { unfold ser_u24. destruct (Z.gtb_spec v (2 ^ 24 - 1)); [lia|reflexivity]. }
  exists (be_bytes 3 v). split; [exact E|]. split; [apply be_bytes_length|].
  split; [apply big_endian_be_bytes|]. apply reads_reads_back, reads_u24; [lia|exact E].
Qed.

Lemma u24_reject v : 2 ^ 24 <= v -> ser_u24 v = Err.
Proof. intros H. unfold ser_u24. destruct (Z.gtb_spec v (2 ^ 24 - 1)); [reflexivity|lia]. Qed.

Lemma u24_bytes_roundtrip pre a b c post stk : is_byte a -> is_byte b -> is_byte c ->
  exists v, de_u24 (mkrd (pre ++ [a; b; c] ++ post) (length pre) stk)
            = Ok (v, mkrd (pre ++ [a; b; c] ++ post) (length pre + 3) stk)
            /\ 0 <= v < 2 ^ 24 /\ ser_u24 v = Ok [a; b; c].
Proof.
  intros Ha Hb Hc. assert (HF: Forall byte [a; b; c]) by (apply is_byte_byte; repeat constructor; apply Ha || apply Hb || apply Hc).
  set (v := be_value [a; b; c]).
  pose proof (be_value_range _ HF) as Hr. fold v in Hr. change (256 ^ Z.of_nat (length [a; b; c])) with (2 ^ 24) in Hr.
  exists v. destruct (u24_roundtrip v Hr) as (bs & Hs & _ & _ & Hrb).
  assert (bs = [a; b; c]).
  { unfold ser_u24 in Hs. destruct (v >? 2 ^ 24 - 1); [discriminate|]. apply Ok_inj in Hs. subst bs.
    exact (be_bytes_value _ HF). }
  subst bs. split; [apply Hrb|]. split; [exact Hr|exact Hs].
Qed.

(** Counted arrays: for every length, what is read back is the prefix whose
    length is the original length modulo 2^16. *)
Lemma counted16_exact {A} (ser : A -> res (list Z)) (p : parser A) l bs :
  (forall a b, In a l -> ser a = Ok b -> b <> [] /\ reads_back p b a) ->
  ser_counted ser l = Ok bs ->
  let n := Z.to_nat (Z.of_nat (length l) mod 65536) in
  from_bytes (de_counted16 p) bs = Ok (firstn n l).
Proof.
  intros Hp. unfold ser_counted. destruct (rmapM ser l) as [bss| |] eqn:E; cbn [rbind]; try discriminate.
  intros Hs; apply Ok_inj in Hs; subst bs. cbv zeta. apply rmapM_inv in E.
  set (n := Z.of_nat (length l) mod 65536).
  assert (Hn: 0 <= n < 65536) by (unfold n; lia).
  assert (Hle: (Z.to_nat n <= length l)%nat) by (unfold n; lia).
  assert (HR: reads (de_counted16 p) (ser_u16 n ++ concat (firstn (Z.to_nat n) bss)) (firstn (Z.to_nat n) l)).
  { unfold de_counted16. eapply reads_bind; [apply reads_u16; exact Hn|].
    assert (HF: Forall2 (fun a b => reads p b a) (firstn (Z.to_nat n) l) (firstn (Z.to_nat n) bss)).
    { clear - Hp E. generalize (Z.to_nat n). intros m. revert m.
      induction E as [|x y l ys Hxy HE IH]; intros [|m]; cbn [firstn]; constructor.
      - destruct (Hp x y) as [Hne Hrb]; [now left|exact Hxy|]. now apply reads_back_reads.
      - apply IH. intros a b Ha. apply Hp. now right. }
    pose proof (reads_counted2 p _ _ HF) as HC.
    rewrite firstn_length_le in HC by exact Hle. exact HC. }
  assert (Eq: ser_u16 (u16 (Z.of_nat (length l))) ++ concat bss
              = (ser_u16 n ++ concat (firstn (Z.to_nat n) bss)) ++ concat (skipn (Z.to_nat n) bss)).
  { rewrite <- app_assoc, <- concat_app, firstn_skipn. reflexivity. }
  rewrite Eq. now apply reads_from_bytes.
Qed.

Lemma counted16_roundtrip {A} (ser : A -> res (list Z)) (p : parser A) l bs :
  (forall a b, In a l -> ser a = Ok b -> b <> [] /\ reads_back p b a) ->
  Z.of_nat (length l) < 65536 ->
  ser_counted ser l = Ok bs -> reads_back (de_counted16 p) bs l.
Proof.
  intros Hp Hl Hs. apply reads_reads_back. eapply reads_counted16; [|lia|exact Hs].
  intros a b Ha Hb. destruct (Hp a b Ha Hb). now apply reads_back_reads.
Qed.

Lemma counted32_roundtrip {A} (ser : A -> res (list Z)) (p : parser A) l bs :
  (forall a b, In a l -> ser a = Ok b -> b <> [] /\ reads_back p b a) ->
  Z.of_nat (length l) < 2 ^ 32 ->
  ser_counted32 ser l = Ok bs -> reads_back (de_counted32 p) bs l.
Proof.
  intros Hp Hl Hs. apply reads_reads_back. eapply reads_counted32; [|exact Hl|exact Hs].
  intros a b Ha Hb. destruct (Hp a b Ha Hb). now apply reads_back_reads.
Qed.

Lemma counted16_refuted :
  exists l bs, ser_counted (fun v => Ok (ser_u8 v)) l = Ok bs /\
    Forall (in_range U8) l /\ from_bytes (de_counted16 de_u8) bs = Ok [] /\ l <> [].
Proof.
  set (l := repeat 7 (Z.to_nat 65536)).
  assert (HM: rmapM (fun v => Ok (ser_u8 v)) l = Ok (map ser_u8 l)) by (apply rmapM_Ok; auto).
  assert (Hl: length l = Z.to_nat 65536) by (apply repeat_length).
  eexists l, _. unfold ser_counted. rewrite HM. cbn [rbind]. split; [reflexivity|]. split.
  - apply Forall_forall. intros x Hx. apply repeat_spec in Hx. subst. cbn. lia.
  - split.
    + pose proof (counted16_exact (fun v => Ok (ser_u8 v)) de_u8 l
        (ser_u16 (u16 (Z.of_nat (length l))) ++ concat (map ser_u8 l))) as H.
      rewrite H.
      * rewrite Hl, Z2Nat.id by lia. change (65536 mod 65536) with 0. reflexivity.
      * intros a b Ha Hb. apply repeat_spec in Ha. subst a. apply Ok_inj in Hb. subst b.
        split; [discriminate|]. apply reads_reads_back, reads_u8. lia.
      * unfold ser_counted. rewrite HM. reflexivity.
    + intros E. rewrite E in Hl. cbn [length] in Hl. lia.
Qed.

(** Property theorems: primitive codecs, reader, arrays, tags, fixed point, bit sets. *)
From Verif.Model Require Import MBase MReader MTag MUtils MFixed.
From Verif.Spec Require Import SBase SReader.
From Verif.Proofs Require PBase PCodec PReader PTag PUtils PFixed.

(** ** C01 *)
Theorem C01_prim_write_read : forall t v, in_range t v ->
  length (ser_prim t v) = width t /\ big_endian (ser_prim t v) v /\
  reads_back (de_prim t) (ser_prim t v) v.
Proof. exact PCodec.prim_roundtrip. Qed.
Print Assumptions C01_prim_write_read.

Theorem C01_prim_read_write : forall t pre bs post stk,
  length bs = width t -> Forall is_byte bs ->
  exists v, in_range t v /\ ser_prim t v = bs /\
    de_prim t (mkrd (pre ++ bs ++ post) (length pre) stk)
    = Ok (v, mkrd (pre ++ bs ++ post) (length pre + width t) stk).
Proof. exact PCodec.prim_bytes_roundtrip. Qed.
Print Assumptions C01_prim_read_write.

Theorem C01_u24_write_read : forall v, 0 <= v < 2 ^ 24 ->
  exists bs, ser_u24 v = Ok bs /\ length bs = 3%nat /\ big_endian bs v /\ reads_back de_u24 bs v.
Proof. exact PCodec.u24_roundtrip. Qed.
Print Assumptions C01_u24_write_read.

Theorem C01_u24_rejects : forall v, 2 ^ 24 <= v -> ser_u24 v = Err.
Proof. exact PCodec.u24_reject. Qed.
Print Assumptions C01_u24_rejects.

Theorem C01_u24_read_write : forall pre a b c post stk, is_byte a -> is_byte b -> is_byte c ->
  exists v, de_u24 (mkrd (pre ++ [a; b; c] ++ post) (length pre) stk)
            = Ok (v, mkrd (pre ++ [a; b; c] ++ post) (length pre + 3) stk)
            /\ 0 <= v < 2 ^ 24 /\ ser_u24 v = Ok [a; b; c].
Proof. exact PCodec.u24_bytes_roundtrip. Qed.
Print Assumptions C01_u24_read_write.

Example C01_ex : in_range I16 (-2) /\ ser_prim I16 (-2) = [0xFF; 0xFE]
  /\ from_bytes (de_prim I16) [0xFF; 0xFE; 3] = Ok (-2).
Proof. vm_compute. intuition congruence. Qed.

(** ** C02 *)
Theorem C02_reader_is_bounds_checked_cursor : forall buf ops,
  cursor_trace buf 0 [0%nat] ops (rrun (rd_new buf) ops).
Proof. exact (fun buf ops => PReader.rrun_trace buf ops 0%nat [0%nat]). Qed.
Print Assumptions C02_reader_is_bounds_checked_cursor.

Theorem C02_short_read_fails : forall t r,
  (length (rd_input r) < rd_ptr r + width t)%nat -> de_prim t r = Err.
Proof. exact PCodec.prim_short. Qed.
Print Assumptions C02_short_read_fails.

Example C02_ex : rrun (rd_new [1; 2; 3]) [OpRead 2; OpPush; OpRead 2; OpPeek 1; OpFollow 1; OpFollow 2; OpPop; OpFollow 1; OpRead 2]
  = [OutBytes [1; 2]; OutUnit; OutErr; OutBytes [3]; OutUnit; OutErr; OutUnit; OutUnit; OutBytes [2; 3]].
Proof. reflexivity. Qed.

(** ** C03 *)
Theorem C03_counted16 : forall A (ser : A -> res (list Z)) (p : parser A) l bs,
  (forall a b, In a l -> ser a = Ok b -> b <> [] /\ reads_back p b a) ->
  Z.of_nat (length l) < 65536 ->
  ser_counted ser l = Ok bs -> reads_back (de_counted16 p) bs l.
Proof. exact @PCodec.counted16_roundtrip. Qed.
Print Assumptions C03_counted16.

Theorem C03_counted32 : forall A (ser : A -> res (list Z)) (p : parser A) l bs,
  (forall a b, In a l -> ser a = Ok b -> b <> [] /\ reads_back p b a) ->
  Z.of_nat (length l) < 2 ^ 32 ->
  ser_counted32 ser l = Ok bs -> reads_back (de_counted32 p) bs l.
Proof. exact @PCodec.counted32_roundtrip. Qed.
Print Assumptions C03_counted32.

(** Arrays too long for the count are silently cut to their length modulo 65536. *)
Theorem C03_counted16_any_length : forall A (ser : A -> res (list Z)) (p : parser A) l bs,
  (forall a b, In a l -> ser a = Ok b -> b <> [] /\ reads_back p b a) ->
  ser_counted ser l = Ok bs ->
  from_bytes (de_counted16 p) bs = Ok (firstn (Z.to_nat (Z.of_nat (length l) mod 65536)) l).
Proof. exact @PCodec.counted16_exact. Qed.
Print Assumptions C03_counted16_any_length.

Theorem C03_long_array_refuted :
  exists l bs, ser_counted (fun v => Ok (ser_u8 v)) l = Ok bs /\
    Forall (in_range U8) l /\ from_bytes (de_counted16 de_u8) bs = Ok [] /\ l <> [].
Proof. exact PCodec.counted16_refuted. Qed.
Print Assumptions C03_long_array_refuted.

Example C03_ex : ser_counted (fun v => Ok (ser_u16 v)) [10; 11] = Ok [0; 2; 0; 10; 0; 11]
  /\ from_bytes (de_counted16 de_u16) [0; 2; 0; 10; 0; 11; 9] = Ok [10; 11].
Proof. split; reflexivity. Qed.

(** ** C04 *)
Theorem C04_tag_accepts : forall src t,
  tag_from_raw src = TagOk t <->
  (1 <= length src <= 4)%nat /\ Forall (fun b => 0x20 <= b <= 0x7E) src /\
  t = src ++ repeat 0x20 (4 - length src).
Proof. exact PTag.tag_from_raw_ok. Qed.
Print Assumptions C04_tag_accepts.

Theorem C04_tag_bad_length : forall src n,
  tag_from_raw src = TagErr (InvalidLength n) <->
  n = length src /\ (length src = 0 \/ 4 < length src)%nat.
Proof. exact PTag.tag_from_raw_len. Qed.
Print Assumptions C04_tag_bad_length.

Theorem C04_tag_bad_byte : forall src p b,
  tag_from_raw src = TagErr (InvalidByte p b) ->
  nth_error src p = Some b /\ ~ (0x20 <= b <= 0x7E) /\
  forall k c, (k < p)%nat -> nth_error src k = Some c -> 0x20 <= c <= 0x7E.
Proof. exact PTag.tag_from_raw_byte. Qed.
Print Assumptions C04_tag_bad_byte.

Theorem C04_tag_write_read : forall src t, tag_from_raw src = TagOk t ->
  ser_tag t = t /\ length t = 4%nat /\ reads_back de_tag (ser_tag t) t.
Proof.
  exact (fun src t H =>
    let V := PTag.valid_tag_from_raw src t H in
    conj (PTag.ser_tag_id t (PTag.valid_tag_bytes t V))
      (conj (proj1 V) (PCodec.reads_reads_back _ _ _ (PTag.reads_tag t V)))).
Qed.
Print Assumptions C04_tag_write_read.

Theorem C04_tag_order : forall a b, length a = 4%nat -> length b = 4%nat ->
  Forall PBase.byte a -> Forall PBase.byte b ->
  (lex_ltb a b = true <-> be_value a < be_value b).
Proof.
  exact (fun a b Ha Hb => PTag.lex_ltb_be a b (eq_trans Ha (eq_sym Hb))).
Qed.
Print Assumptions C04_tag_order.

Example C04_ex : tag_from_raw [0x63; 0x76; 0x74] = TagOk [0x63; 0x76; 0x74; 0x20]
  /\ tag_from_raw [0x63; 0x80] = TagErr (InvalidByte 1 0x80).
Proof. split; reflexivity. Qed.

(** ** C05 *)
Theorem C05_f2dot14_bits : forall p, -32768 <= p <= 32767 ->
  ser_f2dot14 (f2dot14_from_packed p) = Ok (ser_i16 p).
Proof.
  exact (fun p H => eq_trans (f_equal (fun o => match o with Some p => Ok (ser_i16 p) | None => Err end)
    (PFixed.f2dot14_packed_id p (conj (proj1 H) (proj2 (Z.lt_succ_r _ _) (proj2 H))))) eq_refl).
Qed.
Print Assumptions C05_f2dot14_bits.

(** Values at or above 2, or below -32769/16384, are rejected ([s] is any scale
    at which the value is an integer multiple of 2^-s). *)
Theorem C05_f2dot14_rejects_high : forall x s, 1 <= s -> 0 <= expo x + s ->
  2 * 2 ^ s <= mant x * 2 ^ (expo x + s) -> ser_f2dot14 x = Err.
Proof.
  exact (fun x s Hs He H => f_equal (fun o => match o with Some p => Ok (ser_i16 p) | None => Err end)
    (PFixed.f2dot14_reject_high x s Hs He H)).
Qed.
Print Assumptions C05_f2dot14_rejects_high.

Theorem C05_f2dot14_rejects_low : forall x s, 1 <= s -> 0 <= expo x + s ->
  16384 * (mant x * 2 ^ (expo x + s)) < - 32769 * 2 ^ s -> ser_f2dot14 x = Err.
Proof.
  exact (fun x s Hs He H => f_equal (fun o => match o with Some p => Ok (ser_i16 p) | None => Err end)
    (PFixed.f2dot14_reject_low x s Hs He H)).
Qed.
Print Assumptions C05_f2dot14_rejects_low.

(** Exactly which Fixed bit patterns survive: magnitude at most 128.0, or an
    even pattern with at most 24 significant bits, or the saturated maximum. *)
Theorem C05_fixed_bits_iff : forall p, - 2 ^ 31 <= p < 2 ^ 31 ->
  (fixed_as_packed (fixed_from_packed p) = p <->
   Z.abs p <= 2 ^ 23 \/
   (exists m e, 1 <= e /\ Z.abs m < 2 ^ 24 /\ p = m * 2 ^ e) \/
   p = 2 ^ 31 - 1).
Proof. exact PFixed.fixed_rt_iff. Qed.
Print Assumptions C05_fixed_bits_iff.

Theorem C05_fixed_whole_numbers : forall k, -32768 <= k < 32768 ->
  fixed_as_packed (fixed_from_packed (k * 65536)) = k * 65536.
Proof. exact PFixed.fixed_integral. Qed.
Print Assumptions C05_fixed_whole_numbers.

(** 128 + 1/65536 does not survive: it is written back as 128 + 2/65536. *)
Theorem C05_fixed_refuted : exists bs, length bs = 4%nat /\ Forall is_byte bs /\
  exists x, from_bytes de_fixed bs = Ok x /\ ser_fixed x <> bs.
Proof.
  exact (ex_intro _ [0; 0x80; 0; 1] (conj eq_refl (conj
    (Forall_cons _ (conj (Z.le_refl 0) (Zle_bool_imp_le 0 255 eq_refl))
      (Forall_cons _ (conj (Zle_bool_imp_le 0 0x80 eq_refl) (Zle_bool_imp_le 0x80 255 eq_refl))
      (Forall_cons _ (conj (Z.le_refl 0) (Zle_bool_imp_le 0 255 eq_refl))
      (Forall_cons _ (conj (Zle_bool_imp_le 0 1 eq_refl) (Zle_bool_imp_le 1 255 eq_refl)) (Forall_nil _)))))
    (ex_intro _ (fixed_from_packed 0x800001) (conj eq_refl
      (fun H : ser_fixed (fixed_from_packed 0x800001) = [0; 0x80; 0; 1] =>
        match eq_ind (ser_fixed (fixed_from_packed 0x800001))
                (fun l => match l with [0; 0x80; 0; 2] => True | _ => False end) I _ H with end)))))).
Qed.
Print Assumptions C05_fixed_refuted.

Example C05_ex : ser_fixed (fixed_from_packed 0x800001) = [0; 0x80; 0; 2].
Proof. vm_compute. reflexivity. Qed.

(** ** C54 *)
Theorem C54_int_list_to_num : forall l, (forall f, In f l -> 0 <= f < 32) ->
  exists n, int_list_to_num l = Ok n /\ forall k, 0 <= k -> (Z.testbit n k = true <-> In k l).
Proof. exact PUtils.int_list_to_num_spec. Qed.
Print Assumptions C54_int_list_to_num.

Theorem C54_int_list_to_num_panics : forall l, (forall f, In f l -> 0 <= f < 256) ->
  (exists f, In f l /\ 32 <= f) -> int_list_to_num l = Panic.
Proof. exact PUtils.int_list_to_num_panics. Qed.
Print Assumptions C54_int_list_to_num_panics.

Theorem C54_filtered_bitset : forall low high l, 0 <= low -> high - low < 32 -> NoDup l ->
  exists n, filtered_bitset_to_num l low high = Ok n /\ 0 <= n < 2 ^ 32 /\
  forall k, 0 <= k -> (Z.testbit n k = true <-> (In (low + k) l /\ low + k <= high)).
Proof. exact PUtils.filtered_bitset_spec. Qed.
Print Assumptions C54_filtered_bitset.

Theorem C54_all_the_same : forall A (eqb : A -> A -> bool) l,
  (forall a b, eqb a b = true <-> a = b) ->
  is_all_the_same eqb l = true <-> (forall x y, In x l -> In y l -> x = y).
Proof. exact @PUtils.is_all_the_same_spec. Qed.
Print Assumptions C54_all_the_same.

Example C54_ex : int_list_to_num [0; 3; 31] = Ok 0x80000009
  /\ filtered_bitset_to_num [1; 33; 40] 32 63 = Ok 258.
Proof. split; reflexivity. Qed.

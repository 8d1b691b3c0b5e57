(** Device tables. *)
From Verif.Model Require Import MBase MLayout.
From Verif.Spec Require Import SBase SGlyph SLayout.
From Verif.Proofs Require Import PBase PCodec PTables PGlyphFmt PPoints PCover.

(** ** Bit strings *)
Lemma bits_length n z : length (bits n z) = n.
Proof. induction n; cbn; auto. Qed.
Lemma bits_testbit n a b : bits n a = bits n b <-> forall i, 0 <= i < Z.of_nat n -> Z.testbit a i = Z.testbit b i.
Proof.
  induction n as [|n IH]; cbn [bits]; [split; [intros; lia|reflexivity]|]. split.
  - intros [= E1 E2] i Hi. rewrite IH in E2. destruct (Z.eq_dec i (Z.of_nat n)) as [->|]; [exact E1|apply E2; lia].
  - intros H. f_equal; [apply H; lia|]. apply IH. intros i Hi. apply H. lia.
Qed.
Lemma bits_false n a : bits n a = repeat false n <-> forall i, 0 <= i < Z.of_nat n -> Z.testbit a i = false.
Proof.
  induction n as [|n IH]; cbn [bits repeat]; [split; [intros; lia|reflexivity]|]. split.
  - intros [= E1 E2] i Hi. rewrite IH in E2. destruct (Z.eq_dec i (Z.of_nat n)) as [->|]; [exact E1|apply E2; lia].
  - intros H. f_equal; [apply H; lia|]. apply IH. intros i Hi. apply H. lia.
Qed.
Lemma bits_app a b z : bits (a + b) z = bits a (Z.shiftr z (Z.of_nat b)) ++ bits b z.
Proof.
  induction a as [|a IH]; [reflexivity|]. cbn [bits Nat.add app]. rewrite IH. f_equal. rewrite Z.shiftr_spec by lia. f_equal. lia.
Qed.
Lemma bits_mod n z : bits n (z mod 2 ^ Z.of_nat n) = bits n z.
Proof. apply bits_testbit. intros i Hi. apply Z.mod_pow2_bits_low. lia. Qed.
Lemma bits_mod_eq n a b : bits n a = bits n b -> a mod 2 ^ Z.of_nat n = b mod 2 ^ Z.of_nat n.
Proof.
  intros H. rewrite bits_testbit in H. apply Z.bits_inj'. intros i Hi. destruct (Z_lt_ge_dec i (Z.of_nat n)).
  - rewrite !Z.mod_pow2_bits_low by lia. apply H. lia.
  - rewrite !Z.mod_pow2_bits_high by lia. reflexivity.
Qed.
Lemma word_bits w : concat (map (bits 8) (word w)) = bits 16 w.
Proof.
  change 16%nat with (8 + 8)%nat. rewrite bits_app. unfold word. cbn [map concat]. rewrite app_nil_r.
  change 256 with (2 ^ Z.of_nat 8). rewrite !bits_mod. f_equal. f_equal. rewrite Z.shiftr_div_pow2 by lia. reflexivity.
Qed.
Lemma words_bits ws : concat (map (bits 8) (words ws)) = concat (map (bits 16) ws).
Proof.
  unfold words. induction ws as [|w ws IH]; [reflexivity|]. cbn [map concat]. rewrite map_app, concat_app, word_bits. now rewrite IH.
Qed.
Lemma words_bytes ws : Forall is_byte (words ws).
Proof.
  unfold words. induction ws as [|w ws IH]; [constructor|]. cbn [map concat]. apply Forall_app. split; [|exact IH]. unfold word, is_byte. repeat constructor; lia.
Qed.
Lemma bytes_words n : forall bs, Forall is_byte bs -> length bs = (n + n)%nat -> exists ws, bs = words ws /\ Forall is_u16 ws.
Proof.
  induction n as [|n IH]; intros bs Hb Hl.
  - destruct bs; [|cbn in Hl; lia]. exists []. split; [reflexivity|constructor].
  - destruct bs as [|a [|b bs]]; cbn [length] in Hl; try lia. inversion Hb as [|? ? Ha Hb1]; subst. inversion Hb1 as [|? ? Hb2 Hb3]; subst.
    destruct (IH bs Hb3) as (ws & -> & Hw); [lia|]. exists (a * 256 + b :: ws). unfold is_byte, is_u16 in *. split; [|constructor; [lia|exact Hw]].
    unfold words. cbn [map concat]. unfold word. cbn [app]. f_equal; [lia|]. f_equal. lia.
Qed.
Lemma even_double n : Nat.even n = true -> exists k, n = (k + k)%nat.
Proof. intros H. apply Nat.even_spec in H as [k Hk]. exists k. lia. Qed.

(** ** Sign extension *)
Lemma land_pow2_zero x k : 0 <= k -> (Z.land x (2 ^ k) =? 0) = negb (Z.testbit x k).
Proof.
  intros Hk. destruct (Z.testbit x k) eqn:E; cbn [negb].
  - apply Z.eqb_neq. intros H. assert (X: Z.testbit (Z.land x (2 ^ k)) k = false) by (rewrite H; apply Z.testbit_0_l).
    rewrite Z.land_spec, E, Z.pow2_bits_true in X by lia. discriminate.
  - apply Z.eqb_eq. apply Z.bits_inj'. intros i Hi. rewrite Z.land_spec, Z.testbit_0_l, Z.pow2_bits_eqb by lia.
    destruct (Z.eqb_spec k i); [subst; now rewrite E|now rewrite andb_false_r].
Qed.
Lemma top_bit x k : 0 <= k -> 0 <= x < 2 ^ (k + 1) -> Z.testbit x k = (2 ^ k <=? x).
Proof.
  intros Hk Hx. rewrite Z.pow_add_r in Hx by lia. change (2 ^ 1) with 2 in Hx. assert (Hp: 0 < 2 ^ k) by (apply Z.pow_pos_nonneg; lia).
  destruct (Z.leb_spec (2 ^ k) x).
  - apply Z.testbit_true; [lia|]. assert (x / 2 ^ k = 1); [|lia]. symmetry. apply (Z.div_unique x (2 ^ k) 1 (x - 2 ^ k)); lia.
  - apply Z.testbit_false; [lia|]. rewrite Z.div_small by lia. reflexivity.
Qed.
Definition signed (n x : Z) : Z := if Z.land x (2 ^ (n - 1)) =? 0 then x else x - 2 ^ n.
Lemma signed_mod n v : 0 < n -> - 2 ^ (n - 1) <= v < 2 ^ (n - 1) -> signed n (v mod 2 ^ n) = v.
Proof.
  intros Hn Hv. unfold signed. rewrite land_pow2_zero by lia. pose proof (Z.mod_pos_bound v (2 ^ n) ltac:(apply Z.pow_pos_nonneg; lia)) as Hb.
  rewrite top_bit; [|lia|replace (n - 1 + 1) with n by lia; exact Hb].
  assert (E: 2 ^ n = 2 * 2 ^ (n - 1)) by (rewrite <- Z.pow_succ_r by lia; f_equal; lia). assert (Hp: 0 < 2 ^ (n - 1)) by (apply Z.pow_pos_nonneg; lia).
  destruct (Z_lt_ge_dec v 0).
  - assert (M: v mod 2 ^ n = v + 2 ^ n) by (symmetry; apply (Z.mod_unique v (2 ^ n) (-1)); lia). rewrite M.
    replace (2 ^ (n - 1) <=? v + 2 ^ n) with true by lia. cbn [negb]. lia.
  - rewrite Z.mod_small by lia. replace (2 ^ (n - 1) <=? v) with false by lia. reflexivity.
Qed.
Lemma signed_fits n x : 0 < n -> 0 <= x < 2 ^ n -> - 2 ^ (n - 1) <= signed n x < 2 ^ (n - 1).
Proof.
  intros Hn Hx. unfold signed. rewrite land_pow2_zero by lia. rewrite top_bit; [|lia|replace (n - 1 + 1) with n by lia; exact Hx].
  assert (E: 2 ^ n = 2 * 2 ^ (n - 1)) by (rewrite <- Z.pow_succ_r by lia; f_equal; lia). assert (Hp: 0 < 2 ^ (n - 1)) by (apply Z.pow_pos_nonneg; lia).
  destruct (Z.leb_spec (2 ^ (n - 1)) x); cbn [negb]; lia.
Qed.
Lemma mask_mod v n : 0 <= n -> Z.land v (2 ^ n - 1) = v mod 2 ^ n.
Proof. intros Hn. rewrite <- Z.land_ones by lia. f_equal. rewrite Z.ones_equiv. lia. Qed.

(** ** Packing *)
Section Pack.
  Variables (n k : nat).
  Hypothesis Hn : (0 < n)%nat.
  Hypothesis Hk : (k * n = 16)%nat.
  Let nb := Z.of_nat n.

  Lemma pack_step tmp j v : (forall i, 0 <= i < Z.of_nat (n + j) -> Z.testbit tmp i = false) ->
    let tmp' := Z.lor tmp (Z.shiftl (Z.land v (2 ^ nb - 1)) (Z.of_nat j)) in
    (forall i, 0 <= i < Z.of_nat j -> Z.testbit tmp' i = false) /\
    forall h, bits (h + n) (Z.shiftr tmp' (Z.of_nat j)) = bits h (Z.shiftr tmp (Z.of_nat (n + j))) ++ bits n v.
  Proof.
    intros Hz tmp'. unfold tmp', nb. rewrite mask_mod by lia. split.
    - intros i Hi. rewrite Z.lor_spec, Hz by lia. rewrite Z.shiftl_spec_low by lia. reflexivity.
    - intros h. rewrite bits_app. f_equal; apply bits_testbit; intros i Hi.
      + rewrite !Z.shiftr_spec by lia. rewrite Z.lor_spec, Z.shiftl_spec by lia. rewrite Z.mod_pow2_bits_high by lia. rewrite orb_false_r. f_equal. lia.
      + rewrite Z.shiftr_spec, Z.lor_spec, Z.shiftl_spec by lia. rewrite Hz by lia. cbn [orb]. replace (i + Z.of_nat j - Z.of_nat j) with i by lia.
        apply Z.mod_pow2_bits_low. lia.
  Qed.
  Lemma dv_pack_spec vs : forall q tmp, (0 < q <= k)%nat -> (forall i, 0 <= i < Z.of_nat (q * n) -> Z.testbit tmp i = false) ->
    exists ws pad, dv_pack nb tmp (Z.of_nat (q * n)) vs = words ws /\ (pad < 16)%nat /\
      concat (map (bits 16) ws) = bits (16 - q * n) (Z.shiftr tmp (Z.of_nat (q * n))) ++ concat (map (bits n) vs) ++ repeat false pad.
  Proof.
    induction vs as [|v vs IH]; intros q tmp Hq Hz.
    - cbn [dv_pack map concat app]. destruct (Z.eqb_spec (Z.of_nat (q * n)) 16) as [E|E].
      + exists [], 0%nat. split; [reflexivity|]. split; [lia|]. replace (16 - q * n)%nat with 0%nat by lia. reflexivity.
      + exists [tmp], (q * n)%nat. split; [unfold words; cbn [map concat]; now rewrite app_nil_r, word_u16|].
        assert (q * n <= k * n)%nat by (apply Nat.mul_le_mono_r; lia). split; [lia|]. cbn [map concat]. rewrite app_nil_r.
        replace 16%nat with ((16 - q * n) + q * n)%nat at 1 by lia. rewrite bits_app. f_equal. now apply bits_false.
    - destruct q as [|q]; [lia|]. destruct (pack_step tmp (q * n) v Hz) as [S1 S2].
      cbn [dv_pack]. change (S q * n)%nat with (n + q * n)%nat. replace (Z.of_nat (n + q * n) - nb) with (Z.of_nat (q * n)) by (unfold nb; lia).
      set (tmp' := Z.lor tmp _) in *. cbn [map concat]. assert (Hle: (S q * n <= k * n)%nat) by (apply Nat.mul_le_mono_r; lia). cbn [Nat.mul] in Hle.
      destruct (Z.eqb_spec (Z.of_nat (q * n)) 0) as [E|E].
      + destruct (IH k 0) as (ws & pad & W1 & W2 & W3); [split; [|lia]; destruct k; lia|intros; apply Z.testbit_0_l|].
        rewrite Hk in W1, W3. change (16 - 16)%nat with 0%nat in W3. change (bits 0 (Z.shiftr 0 (Z.of_nat 16))) with (@nil bool) in W3. cbn [app] in W3.
        exists (tmp' :: ws), pad. split; [change 16 with (Z.of_nat 16); rewrite W1; unfold words; cbn [map concat]; now rewrite word_u16|]. split; [exact W2|].
        cbn [map concat]. rewrite W3. rewrite <- !app_assoc, (app_assoc (bits (16 - _) _)). f_equal. rewrite <- S2. replace (Z.of_nat (q * n)) with 0 by lia.
        rewrite Z.shiftr_0_r. f_equal. lia.
      + assert (Hq0: (0 < q)%nat) by (destruct q; lia). destruct (IH q tmp') as (ws & pad & W1 & W2 & W3); [lia|exact S1|].
        exists ws, pad. split; [exact W1|]. split; [exact W2|]. rewrite W3. rewrite <- !app_assoc, (app_assoc (bits (16 - (n + _)) _)). f_equal. rewrite <- S2. f_equal. lia.
  Qed.
  Lemma dv_unpack_step tmp q v pre post : (n <= 8)%nat -> fits_bits n v -> bits (n + q * n) tmp ++ pre = bits n v ++ post ->
    i8 (let x := Z.land (Z.shiftr tmp (Z.of_nat (q * n))) (2 ^ nb - 1) in if Z.land x (2 ^ (nb - 1)) =? 0 then x else x - 2 ^ nb) = v /\
    bits (q * n) tmp ++ pre = post.
  Proof.
    intros H8 Hv E. rewrite bits_app, <- app_assoc in E. assert (E1 := f_equal (firstn n) E). assert (E2 := f_equal (skipn n) E).
    rewrite !firstn_app, !bits_length, Nat.sub_diag, !firstn_O, !app_nil_r, !firstn_all2 in E1 by (rewrite bits_length; lia).
    rewrite !skipn_app, !bits_length, Nat.sub_diag, !skipn_O, !skipn_all2 in E2 by (rewrite bits_length; lia). cbn [app] in E2. split; [|exact E2].
    cbv zeta. rewrite mask_mod by (unfold nb; lia). unfold nb. rewrite (bits_mod_eq _ _ _ E1). fold (signed (Z.of_nat n) (v mod 2 ^ Z.of_nat n)).
    unfold fits_bits in Hv. rewrite signed_mod by (auto; lia). unfold i8.
    assert (Hle: 2 ^ (Z.of_nat n - 1) <= 2 ^ 7) by (apply Z.pow_le_mono_r; lia). apply wrap_i_id; [lia|]. change (2 ^ (8 - 1)) with (2 ^ 7). lia.
  Qed.
  Lemma dv_unpack_reads vs : (n <= 8)%nat -> Forall (fits_bits n) vs -> forall q tmp ws pad, Forall is_u16 ws -> (length pad < 16)%nat ->
    bits (q * n) tmp ++ concat (map (bits 16) ws) = concat (map (bits n) vs) ++ pad ->
    reads (dv_unpack nb tmp (Z.of_nat (q * n)) (length vs)) (words ws) vs.
  Proof.
    intros H8. induction 1 as [|v vs Hv Hvs IH]; intros q tmp ws pad Hw Hp E.
    - destruct ws as [|w ws]; [exact (reads_pret _)|]. apply (f_equal (@length bool)) in E. cbn [map concat app] in E. rewrite !app_length, !bits_length in E. lia.
    - cbn [dv_unpack length]. cbn [map concat] in E. rewrite <- app_assoc in E. destruct q as [|q].
      + change (bits (0 * n) tmp) with (@nil bool) in E. cbn [app] in E. destruct ws as [|w ws].
        { apply (f_equal (@length bool)) in E. cbn [map concat app length] in E. rewrite app_length, bits_length in E. lia. }
        inversion Hw as [|? ? Hw1 Hw2]; subst. cbn [Nat.mul]. change (Z.of_nat 0 =? 0) with true. cbn iota.
        eapply (reads_bind' _ _ _ (word w) (words ws) (w, 16)); [reflexivity| |].
        * eapply reads_bind'; [symmetry; apply app_nil_r|rewrite word_u16; apply reads_u16; unfold is_u16 in Hw1; lia|apply reads_pret].
        * cbn [fst snd]. assert (Hk1: exists k1, k = S k1) by (destruct k as [|k1]; [discriminate|exists k1; reflexivity]). destruct Hk1 as [k1 Ek]. assert (H16: (n + k1 * n = 16)%nat) by (rewrite <- Hk, Ek; reflexivity).
          replace (16 - nb) with (Z.of_nat (k1 * n)) by (unfold nb; lia). cbn [map concat] in E. rewrite <- H16 in E at 1.
          destruct (dv_unpack_step w k1 v _ _ H8 Hv E) as [E1 E2]. cbv zeta in E1. rewrite E1.
          eapply reads_bind'; [symmetry; apply app_nil_r|eapply IH; [exact Hw2|exact Hp|]; exact E2|apply reads_pret].
      + assert (Hnz: Z.of_nat (S q * n) =? 0 = false) by (cbn [Nat.mul]; lia). rewrite Hnz.
        eapply (reads_bind' _ _ _ [] (words ws) (tmp, Z.of_nat (S q * n))); [reflexivity|apply reads_pret|]. cbn [fst snd].
        replace (Z.of_nat (S q * n) - nb) with (Z.of_nat (q * n)) by (unfold nb; cbn [Nat.mul]; lia). cbn [Nat.mul] in E.
        destruct (dv_unpack_step tmp q v _ _ H8 Hv E) as [E1 E2]. cbv zeta in E1. rewrite E1.
        eapply reads_bind'; [symmetry; apply app_nil_r|eapply IH; [exact Hw|exact Hp|]; exact E2|apply reads_pret].
  Qed.
  Lemma dv_unpack_fits c : (n <= 8)%nat -> forall tmp q r vs r', dv_unpack nb tmp (Z.of_nat (q * n)) c r = Ok (vs, r') ->
    length vs = c /\ Forall (fits_bits n) vs.
  Proof.
    intros H8. assert (Hi: forall x, i8 (signed nb (x mod 2 ^ nb)) = signed nb (x mod 2 ^ nb) /\ fits_bits n (signed nb (x mod 2 ^ nb))).
    { intros x. assert (F: fits_bits n (signed nb (x mod 2 ^ nb))). { unfold fits_bits, nb. apply signed_fits; [lia|]. apply Z.mod_pos_bound. apply Z.pow_pos_nonneg; lia. }
      split; [|exact F]. unfold fits_bits in F. assert (Hle: 2 ^ (Z.of_nat n - 1) <= 2 ^ 7) by (apply Z.pow_le_mono_r; lia). unfold i8. apply wrap_i_id; [lia|]. change (2 ^ (8 - 1)) with (2 ^ 7). lia. }
    induction c as [|c IH]; intros tmp q r vs r' H.
    - injection H as <- _. split; constructor.
    - cbn [dv_unpack] in H. unfold pbind at 1 in H.
      assert (Hts: forall r2 ts r3, (if Z.of_nat (q * n) =? 0 then t <-- de_u16 ;; pret (t, 16) else pret (tmp, Z.of_nat (q * n))) r2 = Ok (ts, r3) ->
        exists q', snd ts - nb = Z.of_nat (q' * n)).
      { intros r2 ts r3. destruct (Z.eqb_spec (Z.of_nat (q * n)) 0) as [Eq|Eq].
        - unfold pbind. destruct (de_u16 r2) as [[t r4]| |]; intros X; try discriminate. injection X as <- <-. cbn [snd].
          destruct k as [|k1] eqn:Ek; [discriminate|]. exists k1. unfold nb. cbn [Nat.mul] in Hk. lia.
        - intros [= <- <-]. cbn [snd]. destruct q as [|q1]; [cbn in Eq; lia|]. exists q1. unfold nb. cbn [Nat.mul]. lia. }
      match type of H with match ?e with _ => _ end = _ => destruct e as [[ts r3]| |] eqn:Ets; try discriminate end.
      destruct (Hts _ _ _ Ets) as [q' Eq']. cbn iota beta in H. unfold pbind in H. rewrite Eq' in H.
      destruct (dv_unpack nb (fst ts) (Z.of_nat (q' * n)) c r3) as [[vs2 r4]| |] eqn:E2; try discriminate.
      destruct (IH _ _ _ _ _ E2) as [L F]. apply Ok_inj in H. unfold pret in H. assert (Hv := f_equal fst H). cbn [fst] in Hv. subst vs.
      split; [cbn [length]; now rewrite L|]. constructor; [|exact F].
      rewrite mask_mod by (unfold nb; lia). fold (signed nb ((Z.shiftr (fst ts) (Z.of_nat (q' * n))) mod 2 ^ nb)).
      destruct (Hi (Z.shiftr (fst ts) (Z.of_nat (q' * n)))) as [-> F2]. exact F2.
  Qed.
End Pack.

(** ** Whole tables *)
Definition dv_fmt (d : device) : Z := match dv_format d with Some f => f | None => suggest_format (dv_values d) end.
Lemma fmt_cases f : 0 <= f <= 3 -> exists n k, 2 ^ f = Z.of_nat n /\ bits_per_value f = n /\ (0 < n <= 8)%nat /\ (k * n = 16)%nat.
Proof.
  intros H. assert (C: f = 0 \/ f = 1 \/ f = 2 \/ f = 3) by lia. destruct C as [->|[->|[->| ->]]].
  - exists 1%nat, 16%nat. repeat split; lia.
  - exists 2%nat, 8%nat. repeat split; lia.
  - exists 4%nat, 4%nat. repeat split; lia.
  - exists 8%nat, 2%nat. repeat split; lia.
Qed.
Lemma suggest_range vs : 1 <= suggest_format vs <= 3.
Proof. induction vs as [|v vs IH]; cbn [suggest_format]; [lia|]. destruct (_ || _); [lia|]. destruct (_ || _); lia. Qed.
Lemma words_even ws : Nat.even (length (words ws)) = true.
Proof. rewrite words_length. apply Nat.even_spec. exists (length ws). lia. Qed.
Lemma dv_written_iff d : (exists bs, dv_ser d = Ok bs) <-> dv_fmt d <= 3.
Proof.
  unfold dv_ser. fold (dv_fmt d). destruct (Z.ltb_spec 3 (dv_fmt d)); split; intros H1; try lia; [|eexists; reflexivity]. destruct H1; discriminate.
Qed.
Lemma dv_written_format d bs : 0 <= dv_fmt d -> dv_ser d = Ok bs ->
  exists pad, dev_bytes (dv_start d) (dv_end d) (dv_fmt d) (dv_values d) (repeat false pad) bs.
Proof.
  unfold dv_ser. fold (dv_fmt d). intros H0 H. destruct (Z.ltb_spec 3 (dv_fmt d)); [discriminate|]. apply Ok_inj in H. subst bs.
  destruct (fmt_cases (dv_fmt d)) as (n & k & E1 & E2 & Hn & Hk); [lia|].
  destruct (dv_pack_spec n k (proj1 Hn) Hk (dv_values d) k 0) as (ws & pad & W1 & W2 & W3); [destruct k; lia|intros; apply Z.testbit_0_l|].
  rewrite Hk in W1, W3. change (16 - 16)%nat with 0%nat in W3. change (bits 0 (Z.shiftr 0 (Z.of_nat 16))) with (@nil bool) in W3. cbn [app] in W3.
  exists pad, (words ws). split; [rewrite !word_u16, E1; change 16 with (Z.of_nat 16); now rewrite W1|]. unfold packed_bits. rewrite E2.
  split; [apply words_bytes|]. split; [apply words_even|]. split; [now rewrite repeat_length|]. now rewrite words_bits.
Qed.
Lemma dv_every_read s e f vs pad bs : 0 <= f <= 3 -> dev_sized s e vs -> Forall (fits_bits (bits_per_value f)) vs -> dev_bytes s e f vs pad bs ->
  reads dv_de bs (mk_device s e (Some f) vs).
Proof.
  intros Hf (Hs & He & Hse & Hl & Hc) Hv (bs' & -> & Hb & Hev & Hpad & E). unfold is_u16 in *. unfold dv_de.
  eapply reads_bind; [rewrite word_u16; apply reads_u16; lia|]. eapply reads_bind; [rewrite word_u16; apply reads_u16; lia|].
  eapply reads_bind; [rewrite word_u16; apply reads_u16; lia|]. replace (f =? 32768) with false by lia.
  rewrite chk16 by lia. eapply (reads_bind' _ _ _ [] bs'); [reflexivity|now apply reads_plift|].
  rewrite chk16 by lia. eapply (reads_bind' _ _ _ [] bs'); [reflexivity|now apply reads_plift|]. replace (3 <? f) with false by lia.
  eapply reads_bind'; [symmetry; apply app_nil_r| |apply reads_pret]. rewrite <- Hc, Nat2Z.id.
  destruct (fmt_cases f Hf) as (n & k & E1 & E2 & Hn & Hk). rewrite E1. rewrite E2 in *. apply even_double in Hev as [m Hm].
  destruct (bytes_words m bs' Hb Hm) as (ws & -> & Hw). rewrite words_bits in E.
  exact (dv_unpack_reads n k (proj1 Hn) Hk vs (proj2 Hn) Hv 0 0 ws pad Hw Hpad E).
Qed.
Lemma dv_de_inv r d r' : (forall f, dv_format d = Some f -> 0 <= f) -> dv_de r = Ok (d, r') -> exists f, dv_format d = Some f /\
  (f = 32768 /\ dv_values d = [] \/ 0 <= f <= 3 /\ dv_start d <= dv_end d /\ dv_end d - dv_start d <= 65534 /\
    Z.of_nat (length (dv_values d)) = dv_end d - dv_start d + 1 /\ Forall (fits_bits (bits_per_value f)) (dv_values d)).
Proof.
  intros Hpos. unfold dv_de. unfold pbind at 1. destruct (de_u16 r) as [[s r1]| |] eqn:Es; try discriminate.
  unfold pbind at 1. destruct (de_u16 r1) as [[e r2]| |] eqn:Ee; try discriminate.
  unfold pbind at 1. destruct (de_u16 r2) as [[f r3]| |] eqn:Ef; try discriminate.
  destruct (Z.eqb_spec f 32768) as [->|Hf].
  - intros [= <- <-]. exists 32768. split; [reflexivity|]. left. auto.
  - unfold pbind at 1, plift at 1. destruct (chk_u 16 (e - s)) as [t| |] eqn:E1; try discriminate. apply chk16_inv in E1 as [-> E1].
    cbn iota beta. unfold pbind at 1, plift at 1. destruct (chk_u 16 (e - s + 1)) as [c| |] eqn:E2; try discriminate. apply chk16_inv in E2 as [-> E2].
    destruct (Z.ltb_spec 3 f); [discriminate|]. unfold pbind at 1. destruct (dv_unpack (2 ^ f) 0 0 (Z.to_nat (e - s + 1)) r3) as [[vs r4]| |] eqn:Eu; try discriminate.
    intros [= <- <-]. exists f. split; [reflexivity|]. right. cbn [dv_start dv_end dv_values].
    assert (H0: 0 <= f) by (apply Hpos; reflexivity). destruct (fmt_cases f) as (n & k & F1 & F2 & Hn & Hk); [lia|]. rewrite F1 in Eu. rewrite F2.
    change 0 with (Z.of_nat (0 * n)) in Eu at 2. destruct (dv_unpack_fits n k (proj1 Hn) Hk _ (proj2 Hn) _ _ _ _ _ Eu) as [L F].
    split; [lia|]. split; [lia|]. split; [lia|]. split; [rewrite L; lia|exact F].
Qed.
Lemma dv_roundtrip d bs : is_u16 (dv_start d) -> is_u16 (dv_end d) -> 0 <= dv_fmt d -> dv_ser d = Ok bs ->
  (reads_back dv_de bs (mk_device (dv_start d) (dv_end d) (Some (dv_fmt d)) (dv_values d)) <->
   dev_sized (dv_start d) (dv_end d) (dv_values d) /\ Forall (fits_bits (bits_per_value (dv_fmt d))) (dv_values d)).
Proof.
  intros Hs He H0 H. assert (Hle: dv_fmt d <= 3) by (apply dv_written_iff; eexists; exact H). split.
  - intros R. apply reads_back_reads in R; [|destruct (dv_written_format d bs H0 H) as (pad & bs' & -> & _); discriminate]. specialize (R (rd_new bs) [] ltac:(now rewrite app_nil_r)). apply dv_de_inv in R; [|cbn [dv_format]; intros f [= <-]; exact H0]. destruct R as (f & Ef & [[Ef2 _]|(F & A & B & C & D)]); cbn [dv_format dv_values dv_start dv_end] in *; injection Ef as <-; [lia|].
    split; [unfold dev_sized; auto|exact D].
  - intros [Hz Hv]. apply reads_reads_back. destruct (dv_written_format d bs H0 H) as [pad Hp]. eapply dv_every_read; eauto.
Qed.
Lemma dv_variation_index s e : is_u16 s -> is_u16 e -> reads dv_de (word s ++ word e ++ word 32768) (mk_device s e (Some 32768) []) /\
  dv_ser (mk_device s e (Some 32768) []) = Panic.
Proof.
  unfold is_u16. intros Hs He. split; [|reflexivity]. unfold dv_de.
  eapply reads_bind; [rewrite word_u16; apply reads_u16; lia|]. eapply reads_bind; [rewrite word_u16; apply reads_u16; lia|].
  eapply reads_bind'; [symmetry; apply app_nil_r|rewrite (word_u16 32768); apply reads_u16; lia|]. apply reads_pret.
Qed.

(** Packed deltas and packed points. *)
From Verif.Model Require Import MBase MFixed MGlyph MPacked.
From Verif.Spec Require Import SBase SGlyph SPacked.
From Verif.Proofs Require Import PBase PCodec PTables PGlyph PGlyphFmt.

Definition zseq (n : nat) : list Z := map Z.of_nat (seq 0 n).
Lemma for_range (n : nat) (P : Z -> bool) : forallb P (zseq n) = true ->
  forall m, 0 <= m < Z.of_nat n -> P m = true.
Proof.
  intros H m Hm. rewrite forallb_forall in H. apply H. unfold zseq.
  replace m with (Z.of_nat (Z.to_nat m)) by lia. apply in_map, in_seq. lia.
Qed.

(** ** Reading deltas *)
Lemma ctl_delta m : 0 <= m < 64 ->
  Z.land m 0x3f = m /\ Z.land m 0x80 = 0 /\ Z.land m 0x40 = 0 /\
  Z.land (0x40 + m) 0x3f = m /\ Z.land (0x40 + m) 0x80 = 0 /\ Z.land (0x40 + m) 0x40 = 0x40 /\
  Z.land (0x80 + m) 0x3f = m /\ Z.land (0x80 + m) 0x80 = 0x80 /\
  Z.land (0xC0 + m) 0x3f = m /\ Z.land (0xC0 + m) 0x80 = 0x80 /\
  Z.lor 0x80 m = 0x80 + m /\ Z.lor 0x40 m = 0x40 + m.
Proof.
  intros H. pose (P m := (Z.land m 0x3f =? m) && (Z.land m 0x80 =? 0) && (Z.land m 0x40 =? 0) &&
    (Z.land (0x40 + m) 0x3f =? m) && (Z.land (0x40 + m) 0x80 =? 0) && (Z.land (0x40 + m) 0x40 =? 0x40) &&
    (Z.land (0x80 + m) 0x3f =? m) && (Z.land (0x80 + m) 0x80 =? 0x80) &&
    (Z.land (0xC0 + m) 0x3f =? m) && (Z.land (0xC0 + m) 0x80 =? 0x80) &&
    (Z.lor 0x80 m =? 0x80 + m) && (Z.lor 0x40 m =? 0x40 + m)).
  assert (E : P m = true) by (apply (for_range 64); [vm_compute; reflexivity|lia]).
  unfold P in E. repeat (apply andb_true_iff in E; destruct E as [E ?]).
  repeat match goal with X : (_ =? _) = true |- _ => apply Z.eqb_eq in X end.
  repeat apply conj; assumption.
Qed.

Lemma sbyte_i8 z : sbyte z = ser_i8 z.
Proof. unfold sbyte, ser_i8, ser_prim. cbn [prim_width be_bytes]. change (256 ^ Z.of_nat 0) with 1. now rewrite Z.div_1_r. Qed.

Lemma reads_cons_u8 {A} c bs (f : Z -> parser A) v : 0 <= c < 256 ->
  reads (f c) bs v -> reads (x <-- de_u8 ;; f x) (c :: bs) v.
Proof.
  intros Hc H. change (c :: bs) with ([c] ++ bs). rewrite <- (ser_u8_byte c) by exact Hc.
  eapply reads_bind; [now apply reads_u8|exact H].
Qed.

Lemma rg_i8 v : in_range I8 v -> reads de_i8 (ser_i8 v) v.
Proof. intros H. apply reads_i8. cbn in H. lia. Qed.

Lemma delta_run_zero c n : (1 <= n <= 64)%nat ->
  c = 0x80 + (Z.of_nat n - 1) \/ c = 0xC0 + (Z.of_nat n - 1) -> reads de_delta_run [c] (repeat 0 n).
Proof.
  intros Hn Hc. destruct (ctl_delta (Z.of_nat n - 1)) as (?&?&?&?&?&?&K1&K2&K3&K4&?&?); [lia|].
  unfold de_delta_run. apply reads_cons_u8; [lia|]. unfold DELTA_RUN_COUNT_MASK, DELTAS_ARE_ZERO.
  destruct Hc as [-> | ->]; rewrite ?K1, ?K2, ?K3, ?K4; cbn [Z.gtb Z.compare];
    replace (Z.to_nat (Z.of_nat n - 1 + 1)) with n by lia; apply reads_pret.
Qed.
Lemma delta_run_bytes vs : (1 <= length vs <= 64)%nat -> Forall (in_range I8) vs ->
  reads de_delta_run ((Z.of_nat (length vs) - 1) :: concat (map ser_i8 vs)) vs.
Proof.
  intros Hn Hv. destruct (ctl_delta (Z.of_nat (length vs) - 1)) as (K1&K2&K3&?&?&?&?&?&?&?&?&?); [lia|].
  unfold de_delta_run. apply reads_cons_u8; [lia|]. unfold DELTA_RUN_COUNT_MASK, DELTAS_ARE_ZERO, DELTAS_ARE_WORDS.
  rewrite K1, K2, K3. cbn [Z.gtb Z.compare].
  replace (Z.to_nat (Z.of_nat (length vs) - 1 + 1)) with (length vs) by lia.
  apply reads_counted. eapply Forall_impl; [|exact Hv]. exact rg_i8.
Qed.
Lemma delta_run_words vs : (1 <= length vs <= 64)%nat -> Forall (in_range I16) vs ->
  reads de_delta_run ((0x40 + (Z.of_nat (length vs) - 1)) :: concat (map ser_i16 vs)) vs.
Proof.
  intros Hn Hv. destruct (ctl_delta (Z.of_nat (length vs) - 1)) as (?&?&?&K1&K2&K3&?&?&?&?&?&?); [lia|].
  unfold de_delta_run. apply reads_cons_u8; [lia|]. unfold DELTA_RUN_COUNT_MASK, DELTAS_ARE_ZERO, DELTAS_ARE_WORDS.
  rewrite K1, K2, K3. cbn [Z.gtb Z.compare].
  replace (Z.to_nat (Z.of_nat (length vs) - 1 + 1)) with (length vs) by lia.
  apply reads_counted. eapply Forall_impl; [|exact Hv]. exact rg_i16.
Qed.

Lemma deltas_step k run rb rest bs : (1 <= length run)%nat -> reads de_delta_run rb run ->
  reads (de_deltas_fuel k (length rest)) bs rest ->
  reads (de_deltas_fuel (S k) (length (run ++ rest))) (rb ++ bs) (run ++ rest).
Proof.
  intros H1 H2 H3. rewrite app_length. destruct (length run + length rest)%nat as [|m] eqn:E; [lia|].
  cbn [de_deltas_fuel]. eapply reads_bind; [exact H2|]. cbn beta.
  replace (S m - length run)%nat with (length rest) by lia. now apply (reads_map _ (fun l => run ++ l)).
Qed.
Lemma de_deltas_nil k : reads (de_deltas_fuel k 0) [] [].
Proof. destruct k; exact (reads_pret []). Qed.

Lemma map_words l : map word l = map ser_i16 l.
Proof. apply map_ext. exact word_i16. Qed.
Lemma map_sbytes l : map sbyte l = map ser_i8 l.
Proof. apply map_ext. exact sbyte_i8. Qed.

Lemma reads_delta_runs ds bs : delta_runs ds bs -> forall k, (length ds <= k)%nat ->
  reads (de_deltas_fuel k (length ds)) bs ds.
Proof.
  induction 1 as [|c n ds bs Hn Hc H IH|vs ds bs Hn Hv H IH|vs ds bs Hn Hv H IH]; intros k Hk.
  - apply de_deltas_nil.
  - rewrite app_length, repeat_length in Hk. destruct k as [|k]; [lia|].
    apply (deltas_step k (repeat 0 n) [c]); [rewrite repeat_length; lia|now apply delta_run_zero|apply IH; lia].
  - rewrite app_length in Hk. destruct k as [|k]; [lia|]. rewrite app_comm_cons.
    apply deltas_step; [lia|rewrite map_sbytes; now apply delta_run_bytes|apply IH; lia].
  - rewrite app_length in Hk. destruct k as [|k]; [lia|]. rewrite app_comm_cons.
    apply deltas_step; [lia|rewrite map_words; now apply delta_run_words|apply IH; lia].
Qed.

Lemma deltas_read ds bs : delta_runs ds bs -> reads_back (de_deltas (length ds)) bs ds.
Proof. intros H. apply reads_reads_back. unfold de_deltas. now apply reads_delta_runs. Qed.

(** ** Writing deltas *)
Lemma fits_i8_iff v : fits_i8 v = true <-> in_range I8 v.
Proof. unfold fits_i8. cbn. lia. Qed.

Lemma put_run_bytes k : forall run ds bs, (length run < k)%nat -> Forall (in_range I8) run -> delta_runs ds bs ->
  delta_runs (run ++ ds) (put_run k 0 (fun x => ser_i8 (i8 x)) run ++ bs).
Proof.
  induction k as [|k IH]; intros run ds bs Hk Hr Hd; [lia|]. cbn [put_run].
  assert (E: forall l, Forall (in_range I8) l -> map (fun x => ser_i8 (i8 x)) l = map sbyte l).
  { intros l Hl. apply map_ext_Forall. eapply Forall_impl; [|exact Hl]. intros a Ha.
    rewrite sbyte_i8, i8_id; [reflexivity|cbn in Ha; lia]. }
  destruct (64 <=? length run)%nat eqn:E1.
  - apply Nat.leb_le in E1. rewrite <- (firstn_skipn 64 run) in Hr. apply Forall_app in Hr as [Ha Hb].
    rewrite E by exact Ha. rewrite <- (firstn_skipn 64 run) at 1. rewrite <- !app_assoc, <- app_comm_cons, <- app_assoc.
    assert (L: length (firstn 64 run) = 64%nat) by (apply firstn_length_le; exact E1).
    replace (Z.lor 0 63) with (Z.of_nat (length (firstn 64 run)) - 1) by (rewrite L; reflexivity).
    apply dr_bytes; [rewrite L; lia|exact Ha|]. apply IH; [rewrite skipn_length; lia|exact Hb|exact Hd].
  - destruct (0 <? length run)%nat eqn:E2.
    + apply Nat.leb_gt in E1. apply Nat.ltb_lt in E2. rewrite E by exact Hr. rewrite Z.lor_0_l, <- app_comm_cons.
      apply dr_bytes; [lia|exact Hr|exact Hd].
    + apply Nat.ltb_ge in E2. destruct run; [exact Hd|cbn in E2; lia].
Qed.
Lemma put_run_words k : forall run ds bs, (length run < k)%nat -> Forall (in_range I16) run -> delta_runs ds bs ->
  delta_runs (run ++ ds) (put_run k DELTAS_ARE_WORDS ser_i16 run ++ bs).
Proof.
  induction k as [|k IH]; intros run ds bs Hk Hr Hd; [lia|]. cbn [put_run]. rewrite <- !map_words.
  destruct (64 <=? length run)%nat eqn:E1.
  - apply Nat.leb_le in E1. rewrite <- (firstn_skipn 64 run) in Hr. apply Forall_app in Hr as [Ha Hb].
    rewrite <- (firstn_skipn 64 run) at 1. rewrite <- !app_assoc, <- app_comm_cons, <- app_assoc.
    assert (L: length (firstn 64 run) = 64%nat) by (apply firstn_length_le; exact E1).
    replace (Z.lor DELTAS_ARE_WORDS 63) with (0x40 + (Z.of_nat (length (firstn 64 run)) - 1)) by (rewrite L; reflexivity).
    apply dr_words; [rewrite L; lia|exact Ha|]. apply IH; [rewrite skipn_length; lia|exact Hb|exact Hd].
  - destruct (0 <? length run)%nat eqn:E2.
    + apply Nat.leb_gt in E1. apply Nat.ltb_lt in E2. unfold DELTAS_ARE_WORDS.
      destruct (ctl_delta (Z.of_nat (length run) - 1)) as (?&?&?&?&?&?&?&?&?&?&?&K); [lia|]. rewrite K, <- app_comm_cons.
      apply dr_words; [lia|exact Hr|exact Hd].
    + apply Nat.ltb_ge in E2. destruct run; [exact Hd|cbn in E2; lia].
Qed.
Lemma put_zeros_runs k : forall n ds bs, 0 <= n < 64 * Z.of_nat k -> delta_runs ds bs ->
  delta_runs (repeat 0 (Z.to_nat n) ++ ds) (put_zeros k n ++ bs).
Proof.
  induction k as [|k IH]; intros n ds bs Hn Hd; [lia|]. cbn [put_zeros]. destruct (n >=? 64) eqn:E.
  - replace (Z.to_nat n) with (64 + Z.to_nat (n - 64))%nat by lia. rewrite repeat_app, <- app_assoc, <- app_comm_cons.
    apply dr_zero; [lia|left; reflexivity|]. apply IH; [lia|exact Hd].
  - destruct (n >? 0) eqn:E2.
    + change ([Z.lor DELTAS_ARE_ZERO (n - 1)] ++ bs) with (Z.lor DELTAS_ARE_ZERO (n - 1) :: bs).
      destruct (ctl_delta (n - 1)) as (?&?&?&?&?&?&?&?&?&?&K&?); [lia|].
      unfold DELTAS_ARE_ZERO. rewrite K. apply dr_zero; [lia|left; lia|exact Hd].
    + replace n with 0 by lia. exact Hd.
Qed.

Lemma byte_run_spec l : forall run rest, byte_run l = (run, rest) ->
  l = run ++ rest /\ Forall (in_range I8) run.
Proof.
  induction l as [|v l IH]; cbn [byte_run]; intros run rest H; [injection H as <- <-; auto|].
  destruct (negb (fits_i8 v)) eqn:E1; [injection H as <- <-; auto|].
  destruct ((v =? 0) && next_zero l); [injection H as <- <-; auto|].
  destruct (byte_run l) as [a b] eqn:E. injection H as <- <-. destruct (IH a b eq_refl) as [-> Hf].
  split; [reflexivity|]. constructor; [apply fits_i8_iff; now destruct (fits_i8 v)|exact Hf].
Qed.
Lemma word_run_spec l : forall run rest, word_run l = (run, rest) -> l = run ++ rest.
Proof.
  induction l as [|v l IH]; cbn [word_run]; intros run rest H; [injection H as <- <-; auto|].
  destruct (v =? 0) eqn:E1; [injection H as <- <-; auto|].
  destruct (fits_i8 v && next_i8 l); [injection H as <- <-; auto|].
  destruct (word_run l) as [a b] eqn:E. injection H as <- <-. now rewrite (IH a b eq_refl).
Qed.
Lemma zero_run_ok l : forall acc n rest, 0 <= acc -> zero_run acc l = Ok (n, rest) ->
  acc <= n /\ l = repeat 0 (Z.to_nat (n - acc)) ++ rest /\ next_zero rest = false /\ (acc <= 255 -> n <= 255).
Proof.
  induction l as [|v l IH]; cbn [zero_run]; intros acc n rest Ha H.
  - injection H as <- <-. replace (acc - acc) with 0 by lia. repeat split; auto; lia.
  - destruct (v =? 0) eqn:E.
    + unfold chk_u in H. destruct ((0 <=? acc + 1) && (acc + 1 <? 2 ^ 8)) eqn:E2; cbn [rbind] in H; [|discriminate].
      change (2 ^ 8) with 256 in E2. destruct (IH (acc + 1) n rest ltac:(lia) H) as (H1 & H2 & H3 & H4).
      repeat split; [lia| |exact H3|lia]. replace (Z.to_nat (n - acc)) with (S (Z.to_nat (n - (acc + 1)))) by lia.
      cbn [repeat app]. f_equal; [lia|exact H2].
    + injection H as <- <-. replace (acc - acc) with 0 by lia. repeat split; auto; lia.
Qed.
Lemma zero_run_panic l : forall acc, 0 <= acc <= 255 -> zero_run acc l = Panic ->
  exists rest, l = repeat 0 (Z.to_nat (256 - acc)) ++ rest.
Proof.
  induction l as [|v l IH]; cbn [zero_run]; intros acc Ha H; [discriminate|].
  destruct (v =? 0) eqn:E; [|discriminate].
  unfold chk_u in H. destruct ((0 <=? acc + 1) && (acc + 1 <? 2 ^ 8)) eqn:E2; cbn [rbind] in H; change (2 ^ 8) with 256 in E2.
  - destruct (IH (acc + 1) ltac:(lia) H) as [rest ->]. exists rest.
    replace (Z.to_nat (256 - acc)) with (S (Z.to_nat (256 - (acc + 1)))) by lia. cbn [repeat app]. f_equal. lia.
  - exists l. replace (Z.to_nat (256 - acc)) with 1%nat by lia. cbn [repeat app]. f_equal. lia.
Qed.
Lemma zero_run_err l : forall acc, zero_run acc l <> Err.
Proof.
  induction l as [|v l IH]; cbn [zero_run]; intros acc; [discriminate|]. destruct (v =? 0); [|discriminate].
  unfold chk_u. destruct (_ && _); cbn [rbind]; [apply IH|discriminate].
Qed.

Lemma byte_run_ne v l run rest : byte_run (v :: l) = (run, rest) -> v <> 0 -> in_range I8 v -> run <> [].
Proof.
  cbn [byte_run]. intros H Hv Hi. apply fits_i8_iff in Hi. rewrite Hi in H. cbn [negb] in H.
  replace (v =? 0) with false in H by lia. cbn [andb] in H. destruct (byte_run l). injection H as <- <-. discriminate.
Qed.
Lemma word_run_ne v l run rest : word_run (v :: l) = (run, rest) -> v <> 0 -> fits_i8 v = false -> run <> [].
Proof.
  cbn [word_run]. intros H Hv Hi. replace (v =? 0) with false in H by lia. rewrite Hi in H. cbn [andb] in H.
  destruct (word_run l). injection H as <- <-. discriminate.
Qed.
Lemma app_longer {A} (run rest l : list A) k : l = run ++ rest -> run <> [] -> (length l <= S k)%nat -> (length rest <= k)%nat.
Proof. intros -> Hn. rewrite app_length. destruct run; [congruence|cbn [length]; lia]. Qed.

Lemma ser_deltas_format k : forall l bs, (length l <= k)%nat -> Forall (in_range I16) l ->
  ser_deltas_fuel k l = Ok bs -> delta_runs l bs.
Proof.
  induction k as [|k IH]; intros l bs Hk Hl H.
  - destruct l; [|cbn in Hk; lia]. apply Ok_inj in H. subst. constructor.
  - destruct l as [|v l]; [apply Ok_inj in H; subst; constructor|]. cbn [ser_deltas_fuel] in H.
    destruct (v =? 0) eqn:E0.
    + destruct (zero_run 0 (v :: l)) as [[n rest]| |] eqn:E; cbn [rbind] in H; try discriminate.
      destruct (zero_run_ok _ 0 _ _ ltac:(lia) E) as (H1 & H2 & H3 & H4).
      destruct (ser_deltas_fuel k rest) as [b| |] eqn:Eb; cbn [rbind] in H; try discriminate. apply Ok_inj in H. subst bs.
      replace (n - 0) with n in H2 by lia. assert (Hn: n <> 0).
      { intros ->. change (v :: l = rest) in H2. subst rest. cbn [next_zero] in H3. congruence. }
      rewrite H2. apply put_zeros_runs; [lia|]. apply IH; [|rewrite H2 in Hl; now apply Forall_app in Hl|exact Eb].
      eapply app_longer; [exact H2| |exact Hk]. destruct (Z.to_nat n) eqn:En; [lia|discriminate].
    + destruct (fits_i8 v) eqn:E1.
      * destruct (byte_run (v :: l)) as [run rest] eqn:E. destruct (byte_run_spec _ _ _ E) as [H2 H3].
        destruct (ser_deltas_fuel k rest) as [b| |] eqn:Eb; cbn [rbind] in H; try discriminate. apply Ok_inj in H. subst bs.
        rewrite H2. apply put_run_bytes; [lia|exact H3|]. apply IH; [|rewrite H2 in Hl; now apply Forall_app in Hl|exact Eb].
        eapply app_longer; [exact H2| |exact Hk]. eapply byte_run_ne; [exact E|lia|now apply fits_i8_iff].
      * destruct (word_run (v :: l)) as [run rest] eqn:E. pose proof (word_run_spec _ _ _ E) as H2.
        destruct (ser_deltas_fuel k rest) as [b| |] eqn:Eb; cbn [rbind] in H; try discriminate. apply Ok_inj in H. subst bs.
        rewrite H2 in Hl |- *. apply Forall_app in Hl as [Ha Hb]. apply put_run_words; [lia|exact Ha|]. apply IH; [|exact Hb|exact Eb].
        eapply app_longer; [exact H2| |exact Hk]. eapply word_run_ne; [exact E|lia|exact E1].
Qed.

Lemma zeros_cons v l : zeros_256 (v :: l) -> v <> 0 \/ next_zero l = false -> zeros_256 l.
Proof.
  intros (a & b & H) Hv. destruct a as [|x a].
  - cbn [app] in H. change 256%nat with (S (S 254)) in H. cbn [repeat app] in H. injection H as -> ->.
    destruct Hv as [Hv|Hv]; [congruence|discriminate Hv].
  - injection H as _ ->. now exists a, b.
Qed.
Lemma zeros_app a l : zeros_256 l -> zeros_256 (a ++ l).
Proof. intros (x & y & ->). exists (a ++ x), y. now rewrite app_assoc. Qed.
Lemma zeros_skip n rest : (n < 256)%nat -> next_zero rest = false -> zeros_256 (repeat 0 n ++ rest) -> zeros_256 rest.
Proof.
  intros Hn Hr (a & b & H). destruct (le_lt_dec n (length a)) as [Hl|Hl].
  - exists (skipn n a), b. apply (f_equal (skipn n)) in H. rewrite !skipn_app, repeat_length in H.
    rewrite Nat.sub_diag in H. rewrite (@skipn_all2 Z n (repeat 0 n)) in H by (rewrite repeat_length; lia).
    replace (n - length a)%nat with 0%nat in H by lia. exact H.
  - exfalso. assert (H1: nth n (repeat 0 n ++ rest) 1 = nth 0 rest 1).
    { rewrite app_nth2 by (rewrite repeat_length; lia). now rewrite repeat_length, Nat.sub_diag. }
    assert (H2: nth n (a ++ repeat 0 256 ++ b) 1 = 0).
    { rewrite app_nth2 by lia. assert (L: length (repeat 0 256) = 256%nat) by apply repeat_length.
      rewrite app_nth1 by lia. rewrite (nth_indep _ 1 0) by lia. apply nth_repeat. }
    rewrite H in H1. rewrite H2 in H1. destruct rest as [|r rest]; cbn in H1, Hr; [discriminate|]. lia.
Qed.
Lemma byte_run_zeros l : forall run rest, byte_run l = (run, rest) -> zeros_256 l -> zeros_256 rest.
Proof.
  induction l as [|v l IH]; cbn [byte_run]; intros run rest H Hz; [injection H as <- <-; auto|].
  destruct (negb (fits_i8 v)); [injection H as <- <-; auto|].
  destruct ((v =? 0) && next_zero l) eqn:E0; [injection H as <- <-; auto|].
  destruct (byte_run l) as [a b]. injection H as <- <-. apply (IH a b eq_refl). apply (zeros_cons v); [exact Hz|].
  apply andb_false_iff in E0 as [E0|E0]; [left; lia|now right].
Qed.
Lemma word_run_zeros l : forall run rest, word_run l = (run, rest) -> zeros_256 l -> zeros_256 rest.
Proof.
  induction l as [|v l IH]; cbn [word_run]; intros run rest H Hz; [injection H as <- <-; auto|].
  destruct (v =? 0) eqn:E0; [injection H as <- <-; auto|].
  destruct (fits_i8 v && next_i8 l); [injection H as <- <-; auto|].
  destruct (word_run l) as [a b]. injection H as <- <-. apply (IH a b eq_refl). apply (zeros_cons v); [exact Hz|left; lia].
Qed.

Lemma ser_deltas_ok_zeros k : forall l bs, (length l <= k)%nat ->
  ser_deltas_fuel k l = Ok bs -> ~ zeros_256 l.
Proof.
  assert (Z0: ~ zeros_256 []). { intros (a & b & H). destruct a; discriminate. }
  induction k as [|k IH]; intros l bs Hk H.
  - destruct l; [exact Z0|cbn in Hk; lia].
  - destruct l as [|v l]; [exact Z0|]. cbn [ser_deltas_fuel] in H. intros Hz.
    destruct (v =? 0) eqn:E0.
    + destruct (zero_run 0 (v :: l)) as [[n rest]| |] eqn:E; cbn [rbind] in H; try discriminate.
      destruct (zero_run_ok _ 0 _ _ ltac:(lia) E) as (H1 & H2 & H3 & H4).
      destruct (ser_deltas_fuel k rest) as [b| |] eqn:Eb; cbn [rbind] in H; try discriminate.
      replace (n - 0) with n in H2 by lia. assert (Hn: n <> 0).
      { intros ->. change (v :: l = rest) in H2. subst rest. cbn [next_zero] in H3. congruence. }
      rewrite H2 in Hz. apply zeros_skip in Hz; [|lia|exact H3]. revert Hz. apply (IH _ b); [|exact Eb].
      eapply app_longer; [exact H2| |exact Hk]. destruct (Z.to_nat n) eqn:En; [lia|discriminate].
    + destruct (fits_i8 v) eqn:E1.
      * destruct (byte_run (v :: l)) as [run rest] eqn:E. destruct (byte_run_spec _ _ _ E) as [H2 H3].
        destruct (ser_deltas_fuel k rest) as [b| |] eqn:Eb; cbn [rbind] in H; try discriminate.
        apply (byte_run_zeros _ _ _ E) in Hz. revert Hz. apply (IH _ b); [|exact Eb].
        eapply app_longer; [exact H2| |exact Hk]. eapply byte_run_ne; [exact E|lia|now apply fits_i8_iff].
      * destruct (word_run (v :: l)) as [run rest] eqn:E. pose proof (word_run_spec _ _ _ E) as H2.
        destruct (ser_deltas_fuel k rest) as [b| |] eqn:Eb; cbn [rbind] in H; try discriminate.
        apply (word_run_zeros _ _ _ E) in Hz. revert Hz. apply (IH _ b); [|exact Eb].
        eapply app_longer; [exact H2| |exact Hk]. eapply word_run_ne; [exact E|lia|exact E1].
Qed.
Lemma ser_deltas_panic_zeros k : forall l, ser_deltas_fuel k l = Panic -> zeros_256 l.
Proof.
  induction k as [|k IH]; intros [|v l] H; try discriminate. cbn [ser_deltas_fuel] in H.
  destruct (v =? 0) eqn:E0.
  - destruct (zero_run 0 (v :: l)) as [[n rest]| |] eqn:E; cbn [rbind] in H; try discriminate.
    + destruct (zero_run_ok _ 0 _ _ ltac:(lia) E) as (_ & -> & _). apply zeros_app, IH.
      destruct (ser_deltas_fuel k rest); cbn [rbind] in H; congruence.
    + destruct (zero_run_panic _ 0 ltac:(lia) E) as [rest ->]. exists [], rest. reflexivity.
  - destruct (fits_i8 v).
    + destruct (byte_run (v :: l)) as [run rest] eqn:E. destruct (byte_run_spec _ _ _ E) as [-> _]. apply zeros_app, IH.
      destruct (ser_deltas_fuel k rest); cbn [rbind] in H; congruence.
    + destruct (word_run (v :: l)) as [run rest] eqn:E. rewrite (word_run_spec _ _ _ E). apply zeros_app, IH.
      destruct (ser_deltas_fuel k rest); cbn [rbind] in H; congruence.
Qed.
Lemma ser_deltas_err k : forall l, ser_deltas_fuel k l <> Err.
Proof.
  induction k as [|k IH]; intros [|v l]; try discriminate. cbn [ser_deltas_fuel]. intros H.
  destruct (v =? 0).
  - destruct (zero_run 0 (v :: l)) as [[n rest]| |] eqn:E; cbn [rbind] in H; try discriminate; [|exact (zero_run_err _ _ E)].
    apply (IH rest). destruct (ser_deltas_fuel k rest); cbn [rbind] in H; congruence.
  - destruct (fits_i8 v).
    + destruct (byte_run (v :: l)) as [run rest]. apply (IH rest). destruct (ser_deltas_fuel k rest); cbn [rbind] in H; congruence.
    + destruct (word_run (v :: l)) as [run rest]. apply (IH rest). destruct (ser_deltas_fuel k rest); cbn [rbind] in H; congruence.
Qed.

Lemma deltas_written l bs : Forall (in_range I16) l -> ser_deltas l = Ok bs -> delta_runs l bs.
Proof. intros Hl. now apply ser_deltas_format. Qed.
Lemma deltas_written_iff l : (exists bs, ser_deltas l = Ok bs) <-> ~ zeros_256 l.
Proof.
  split.
  - intros [bs H]. now apply (ser_deltas_ok_zeros (length l) l bs).
  - intros H. destruct (ser_deltas l) as [bs| |] eqn:E; [now exists bs| |].
    + now apply ser_deltas_err in E.
    + now apply ser_deltas_panic_zeros in E.
Qed.
Lemma deltas_aborts_iff l : ser_deltas l = Panic <-> zeros_256 l.
Proof.
  split; [apply ser_deltas_panic_zeros|]. intros H. destruct (ser_deltas l) as [bs| |] eqn:E; [| |reflexivity].
  - exfalso. revert H. apply deltas_written_iff. now exists bs.
  - now apply ser_deltas_err in E.
Qed.

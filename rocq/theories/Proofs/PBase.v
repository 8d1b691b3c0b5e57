(** Lemmas about the basic codecs. *)
From Coq Require Export Lia ZifyBool ZifyNat ZifyN.
From Verif.Model Require Export MBase.
Ltac Zify.zify_post_hook ::= Z.div_mod_to_equations.

Arguments Z.pow : simpl never.
Arguments Z.mul : simpl never.
Arguments Z.add : simpl never.
Arguments Z.modulo : simpl never.
Arguments Z.div : simpl never.
Arguments Z.of_nat : simpl never.
Arguments Z.to_nat : simpl never.

Lemma Ok_inj {A} (a b : A) : Ok a = Ok b -> a = b.
Proof. congruence. Qed.

Definition byte (b : Z) : Prop := 0 <= b < 256.

Lemma pow256_pos n : 0 < 256 ^ Z.of_nat n.
Proof. apply Z.pow_pos_nonneg; lia. Qed.

Lemma pow256_S n : 256 ^ Z.of_nat (S n) = 256 * 256 ^ Z.of_nat n.
Proof. rewrite Nat2Z.inj_succ, Z.pow_succ_r; lia. Qed.

Lemma be_bytes_length n v : length (be_bytes n v) = n.
Proof. induction n; simpl; congruence. Qed.

Lemma be_bytes_byte n v : Forall byte (be_bytes n v).
Proof.
  induction n; simpl; constructor; auto. unfold byte.
  apply Z.mod_pos_bound; lia.
Qed.

Lemma be_value_acc l a :
  fold_left (fun a b => a * 256 + b) l a = a * 256 ^ Z.of_nat (length l) + be_value l.
Proof.
  unfold be_value. revert a. induction l as [|b l IH]; intros a; cbn [fold_left length].
  - change (256 ^ Z.of_nat 0) with 1. lia.
  - rewrite IH, (IH (0 * 256 + b)), pow256_S. ring.
Qed.

Lemma be_value_cons b l : be_value (b :: l) = b * 256 ^ Z.of_nat (length l) + be_value l.
Proof.
  unfold be_value at 1. cbn [fold_left]. rewrite be_value_acc. f_equal; lia.
Qed.

Lemma be_value_app l1 l2 :
  be_value (l1 ++ l2) = be_value l1 * 256 ^ Z.of_nat (length l2) + be_value l2.
Proof.
  induction l1 as [|b l1 IH]; cbn [app].
  - unfold be_value at 2. cbn [fold_left]. lia.
  - rewrite !be_value_cons, IH, app_length, Nat2Z.inj_add, Z.pow_add_r by lia. ring.
Qed.

Lemma be_value_range l : Forall byte l -> 0 <= be_value l < 256 ^ Z.of_nat (length l).
Proof.
  induction 1 as [|b l Hb Hl IH].
  - unfold be_value. cbn [fold_left length]. change (256 ^ Z.of_nat 0) with 1. lia.
  - rewrite be_value_cons. cbn [length]. rewrite pow256_S. unfold byte in Hb.
    pose proof (pow256_pos (length l)). nia.
Qed.

Lemma be_value_bytes n v : be_value (be_bytes n v) = v mod 256 ^ Z.of_nat n.
Proof.
  induction n as [|n IH]; cbn [be_bytes].
  - unfold be_value. cbn [fold_left]. change (256 ^ Z.of_nat 0) with 1. now rewrite Z.mod_1_r.
  - rewrite be_value_cons, be_bytes_length, IH, pow256_S.
    pose proof (pow256_pos n) as Hp.
    rewrite (Z.mul_comm 256), Z.rem_mul_r by lia. ring.
Qed.

Lemma be_bytes_mod n v : be_bytes n (v mod 256 ^ Z.of_nat n) = be_bytes n v.
Proof.
  enough (forall k, (k <= n)%nat -> be_bytes k (v mod 256 ^ Z.of_nat n) = be_bytes k v) by auto.
  induction k as [|k IH]; intros Hk; cbn [be_bytes]; auto.
  rewrite IH by lia. f_equal.
  pose proof (pow256_pos k) as Hp.
  assert (Hs: 256 ^ Z.of_nat n = 256 ^ Z.of_nat k * (256 * 256 ^ Z.of_nat (n - S k))).
  { rewrite <- pow256_S, <- Z.pow_add_r by lia. f_equal. lia. }
  pose proof (pow256_pos (n - S k)) as Hq.
  rewrite Hs, Z.rem_mul_r by lia.
  rewrite (Z.mul_comm (256 ^ Z.of_nat k)), Z.div_add by lia.
  rewrite (Z.div_small (v mod _)) by (apply Z.mod_pos_bound; lia).
  rewrite Z.add_0_l, Z.rem_mul_r by lia.
  rewrite (Z.mul_comm 256), Z.mod_add by lia.
  now rewrite Z.mod_mod by lia.
Qed.

Lemma be_bytes_cong n v w : v mod 256 ^ Z.of_nat n = w mod 256 ^ Z.of_nat n ->
  be_bytes n v = be_bytes n w.
Proof. intros H. rewrite <- be_bytes_mod, H. apply be_bytes_mod. Qed.

Lemma be_bytes_value l : Forall byte l -> be_bytes (length l) (be_value l) = l.
Proof.
  induction 1 as [|b l Hb Hl IH]; cbn [length be_bytes]; auto.
  pose proof (be_value_range l Hl) as Hr. pose proof (pow256_pos (length l)) as Hp.
  rewrite be_value_cons. f_equal.
  - rewrite Z.add_comm, Z.div_add, Z.div_small by lia.
    unfold byte in Hb. rewrite Z.mod_small; lia.
  - transitivity (be_bytes (length l) (be_value l)); [|exact IH]. apply be_bytes_cong.
    rewrite Z.add_comm, Z.mod_add by lia. reflexivity.
Qed.

Lemma be_value_inj l1 l2 : Forall byte l1 -> Forall byte l2 -> length l1 = length l2 ->
  be_value l1 = be_value l2 -> l1 = l2.
Proof.
  intros H1 H2 Hl Hv. rewrite <- (be_bytes_value l1 H1), <- (be_bytes_value l2 H2).
  now rewrite Hl, Hv.
Qed.

(** ** Casts *)

Lemma wrap_i_spec bits z : 0 < bits ->
  - 2 ^ (bits - 1) <= wrap_i bits z < 2 ^ (bits - 1) /\
  wrap_i bits z mod 2 ^ bits = z mod 2 ^ bits.
Proof.
  intros Hb. unfold wrap_i. cbv zeta.
  assert (H2: 2 ^ bits = 2 * 2 ^ (bits - 1)).
  { rewrite <- Z.pow_succ_r by lia. f_equal. lia. }
  pose proof (Z.pow_pos_nonneg 2 (bits - 1) ltac:(lia) ltac:(lia)) as Hp.
  pose proof (Z.mod_pos_bound z (2 ^ bits) ltac:(lia)) as Hm.
  destruct (Z.ltb_spec (z mod 2 ^ bits) (2 ^ (bits - 1))); split; try lia.
  - apply Z.mod_mod; lia.
  - rewrite <- Zminus_mod_idemp_r, Z.mod_same, Z.sub_0_r by lia. apply Z.mod_mod; lia.
Qed.

Lemma wrap_i_unique bits z w : 0 < bits ->
  - 2 ^ (bits - 1) <= w < 2 ^ (bits - 1) -> w mod 2 ^ bits = z mod 2 ^ bits -> wrap_i bits z = w.
Proof.
  intros Hb Hw Hm.
  pose proof (Z.pow_pos_nonneg 2 (bits - 1) ltac:(lia) ltac:(clear - Hb; lia)) as Hp.
  destruct (wrap_i_spec bits z Hb) as [Hr Hq].
  assert (H2: 2 ^ bits = 2 * 2 ^ (bits - 1)).
  { rewrite <- Z.pow_succ_r by (clear - Hb; lia). f_equal. clear; lia. }
  assert (Hnz: 2 ^ bits <> 0) by (clear - H2 Hp; lia).
  assert (He: (wrap_i bits z - w) mod 2 ^ bits = 0).
  { rewrite Zminus_mod, Hq, Hm, Z.sub_diag. apply Z.mod_0_l; exact Hnz. }
  apply Z.mod_divide in He; [|exact Hnz]. destruct He as [k Hk]. rewrite H2 in Hk.
  assert (k = 0).
  { destruct (Z.lt_trichotomy k 0) as [?|[?|?]]; [|assumption|]; exfalso; clear - Hk Hw Hr Hp H; nia. }
  subst k. clear - Hk. lia.
Qed.

Lemma wrap_i_id bits z : 0 < bits -> - 2 ^ (bits - 1) <= z < 2 ^ (bits - 1) -> wrap_i bits z = z.
Proof. intros. apply wrap_i_unique; auto. Qed.

Lemma wrap_u_id bits z : 0 <= z < 2 ^ bits -> wrap_u bits z = z.
Proof. intros. apply Z.mod_small; auto. Qed.

Lemma i16_id z : -32768 <= z < 32768 -> i16 z = z.
Proof. intros. apply wrap_i_id; [lia|]. exact H. Qed.
Lemma i8_id z : -128 <= z < 128 -> i8 z = z.
Proof. intros. apply wrap_i_id; [lia|]. exact H. Qed.
Lemma u16_id z : 0 <= z < 65536 -> u16 z = z.
Proof. intros. apply wrap_u_id. exact H. Qed.
Lemma u32_id z : 0 <= z < 4294967296 -> u32 z = z.
Proof. intros. apply wrap_u_id. exact H. Qed.

(** ** Reading: [reads p bs v] says that whenever the bytes [bs] are next in
    the input, [p] succeeds with [v] and advances by exactly [length bs]. *)

Definition rest (r : rd) : list Z := skipn (rd_ptr r) (rd_input r).
Definition adv (r : rd) (n : nat) : rd := mkrd (rd_input r) (rd_ptr r + n) (rd_stack r).

Definition reads {A} (p : parser A) (bs : list Z) (v : A) : Prop :=
  forall r post, rest r = bs ++ post -> p r = Ok (v, adv r (length bs)).

Lemma skipn_skipn {A} (l : list A) a b : skipn a (skipn b l) = skipn (b + a) l.
Proof.
  revert l. induction b as [|b IH]; intros l; cbn [skipn]; auto.
  destruct l; cbn [skipn]; [now rewrite ?skipn_nil|]. apply IH.
Qed.

Lemma rest_adv r n : rest (adv r n) = skipn n (rest r).
Proof. unfold rest, adv. cbn. now rewrite skipn_skipn. Qed.

Lemma adv_adv r a b : adv (adv r a) b = adv r (a + b).
Proof. unfold adv; cbn. f_equal. lia. Qed.

Lemma skipn_app_exact {A} (a b : list A) : skipn (length a) (a ++ b) = b.
Proof. induction a; cbn; auto. Qed.

Lemma firstn_app_exact {A} (a b : list A) : firstn (length a) (a ++ b) = a.
Proof. induction a; cbn; congruence. Qed.

Lemma reads_pret {A} (a : A) : reads (pret a) [] a.
Proof.
  intros r post _. unfold pret. cbn. f_equal. f_equal.
  unfold adv. rewrite Nat.add_0_r. now destruct r.
Qed.

Lemma reads_bind {A B} (p : parser A) (f : A -> parser B) bs1 bs2 a b :
  reads p bs1 a -> reads (f a) bs2 b -> reads (pbind p f) (bs1 ++ bs2) b.
Proof.
  intros Hp Hf r post Hr. unfold pbind. rewrite <- app_assoc in Hr.
  rewrite (Hp r _ Hr).
  rewrite (Hf (adv r (length bs1)) post).
  - now rewrite adv_adv, app_length.
  - now rewrite rest_adv, Hr, skipn_app_exact.
Qed.

Lemma reads_bind' {A B} (p : parser A) (f : A -> parser B) bs bs1 bs2 a b :
  bs = bs1 ++ bs2 -> reads p bs1 a -> reads (f a) bs2 b -> reads (pbind p f) bs b.
Proof. intros -> . apply reads_bind. Qed.

Lemma reads_map {A B} (p : parser A) (f : A -> B) bs a :
  reads p bs a -> reads (pbind p (fun x => pret (f x))) bs (f a).
Proof.
  intros H. rewrite <- (app_nil_r bs). eapply reads_bind; eauto. apply reads_pret.
Qed.

Lemma reads_ext {A} (p q : parser A) bs v : (forall r, p r = q r) -> reads p bs v -> reads q bs v.
Proof. intros E H r post Hr. rewrite <- E. now apply H with post. Qed.

Lemma rest_length r : length (rest r) = (length (rd_input r) - rd_ptr r)%nat.
Proof. apply skipn_length. Qed.

Lemma reads_consume r bs post : bs <> [] -> rest r = bs ++ post ->
  consume r (length bs) = Ok (bs, adv r (length bs)).
Proof.
  intros Hne Hr. unfold consume, consume_or_peek.
  pose proof (rest_length r) as Hl. rewrite Hr, app_length in Hl.
  assert (length bs <> 0)%nat by (destruct bs; cbn; congruence || lia).
  destruct (Nat.ltb_spec (length (rd_input r)) (rd_ptr r + length bs)); [lia|].
  fold (rest r). rewrite Hr, firstn_app_exact. reflexivity.
Qed.

Definition prim_ok (t : prim) (v : Z) : Prop :=
  let b := 8 * Z.of_nat (prim_width t) in
  if prim_signed t then - 2 ^ (b - 1) <= v < 2 ^ (b - 1) else 0 <= v < 2 ^ b.

Lemma pow256_2 n : 256 ^ Z.of_nat n = 2 ^ (8 * Z.of_nat n).
Proof. rewrite Z.pow_mul_r by lia. reflexivity. Qed.

Lemma prim_width_pos t : (0 < prim_width t)%nat.
Proof. destruct t; cbn; lia. Qed.

Lemma ser_prim_length t v : length (ser_prim t v) = prim_width t.
Proof. apply be_bytes_length. Qed.

Lemma reads_prim t v : prim_ok t v -> reads (de_prim t) (ser_prim t v) v.
Proof.
  intros Hv r post Hr. unfold de_prim.
  pose proof (prim_width_pos t) as Hw.
  assert (Hne: ser_prim t v <> []).
  { intros E. pose proof (ser_prim_length t v). rewrite E in H. cbn in H. lia. }
  pose proof (reads_consume r _ _ Hne Hr) as Hc. rewrite ser_prim_length in Hc. rewrite Hc.
  rewrite ser_prim_length. do 2 f_equal. unfold ser_prim. rewrite be_value_bytes, pow256_2.
  unfold prim_ok in Hv. destruct (prim_signed t).
  - apply wrap_i_unique; [lia|exact Hv|]. symmetry. apply Z.mod_mod.
    pose proof (Z.pow_pos_nonneg 2 (8 * Z.of_nat (prim_width t)) ltac:(lia) ltac:(lia)). lia.
  - apply Z.mod_small. exact Hv.
Qed.

Lemma reads_u8 v : 0 <= v < 256 -> reads de_u8 (ser_u8 v) v.
Proof. intros. apply reads_prim. exact H. Qed.
Lemma reads_i8 v : -128 <= v < 128 -> reads de_i8 (ser_i8 v) v.
Proof. intros. apply reads_prim. exact H. Qed.
Lemma reads_u16 v : 0 <= v < 65536 -> reads de_u16 (ser_u16 v) v.
Proof. intros. apply reads_prim. exact H. Qed.
Lemma reads_i16 v : -32768 <= v < 32768 -> reads de_i16 (ser_i16 v) v.
Proof. intros. apply reads_prim. exact H. Qed.
Lemma reads_u32 v : 0 <= v < 4294967296 -> reads de_u32 (ser_u32 v) v.
Proof. intros. apply reads_prim. exact H. Qed.
Lemma reads_i32 v : -2147483648 <= v < 2147483648 -> reads de_i32 (ser_i32 v) v.
Proof. intros. apply reads_prim. exact H. Qed.
Lemma reads_i64 v : - 2 ^ 63 <= v < 2 ^ 63 -> reads de_i64 (ser_i64 v) v.
Proof. intros. apply reads_prim. exact H. Qed.

Lemma ser_u8_byte v : 0 <= v < 256 -> ser_u8 v = [v].
Proof.
  intros. unfold ser_u8, ser_prim. cbn [prim_width be_bytes].
  change (256 ^ Z.of_nat 0) with 1. rewrite Z.div_1_r, Z.mod_small by lia. reflexivity.
Qed.

Lemma ser_u16_eq v : ser_u16 v = [(v / 256) mod 256; v mod 256].
Proof.
  unfold ser_u16, ser_prim. cbn [prim_width be_bytes].
  change (256 ^ Z.of_nat 0) with 1. change (256 ^ Z.of_nat 1) with 256.
  now rewrite Z.div_1_r.
Qed.

Lemma reads_counted {A} (p : parser A) (f : A -> list Z) l :
  Forall (fun a => reads p (f a) a) l ->
  reads (de_counted p (length l)) (concat (map f l)) l.
Proof.
  induction 1 as [|a l Ha Hl IH]; cbn [length de_counted map concat].
  - apply reads_pret.
  - eapply reads_bind; [exact Ha|]. cbn beta.
    eapply reads_bind'; [symmetry; apply app_nil_r|exact IH|apply reads_pret].
Qed.

Lemma reads_counted2 {A} (p : parser A) l bs :
  Forall2 (fun a b => reads p b a) l bs ->
  reads (de_counted p (length l)) (concat bs) l.
Proof.
  induction 1 as [|a b l bs Ha Hl IH]; cbn [length de_counted concat].
  - apply reads_pret.
  - eapply reads_bind; [exact Ha|]. cbn beta.
    eapply reads_bind'; [symmetry; apply app_nil_r|exact IH|apply reads_pret].
Qed.

Lemma rmapM_Ok {A B} (f : A -> res B) (g : A -> B) l :
  (forall a, In a l -> f a = Ok (g a)) -> rmapM f l = Ok (map g l).
Proof.
  induction l as [|a l IH]; intros H; cbn [rmapM map]; auto.
  rewrite (H a) by (now left). cbn [rbind]. rewrite IH by (intros; apply H; now right).
  reflexivity.
Qed.

Lemma rmapM_inv {A B} (f : A -> res B) l ys :
  rmapM f l = Ok ys -> Forall2 (fun a b => f a = Ok b) l ys.
Proof.
  revert ys. induction l as [|a l IH]; intros ys; cbn [rmapM].
  - intros [= <-]. constructor.
  - destruct (f a) eqn:E; cbn [rbind]; try discriminate.
    destruct (rmapM f l) eqn:E2; cbn [rbind]; try discriminate.
    intros [= <-]. constructor; auto.
Qed.

Lemma rmapM_fwd {A B} (f : A -> res B) l ys :
  Forall2 (fun a b => f a = Ok b) l ys -> rmapM f l = Ok ys.
Proof.
  induction 1 as [|a b l ys Ha Hl IH]; cbn [rmapM]; auto.
  now rewrite Ha, IH.
Qed.

Lemma Forall2_length {A B} (P : A -> B -> Prop) l m : Forall2 P l m -> length l = length m.
Proof. induction 1; cbn; congruence. Qed.

Lemma reads_counted16 {A} (ser : A -> res (list Z)) (p : parser A) l bs :
  (forall a b, In a l -> ser a = Ok b -> reads p b a) ->
  (length l < Z.to_nat 65536)%nat ->
  ser_counted ser l = Ok bs -> reads (de_counted16 p) bs l.
Proof.
  intros Hp Hl. unfold ser_counted. destruct (rmapM ser l) eqn:E; cbn [rbind]; try discriminate.
  intros Hs; apply Ok_inj in Hs; subst bs. apply rmapM_inv in E. unfold de_counted16.
  rewrite u16_id by lia.
  eapply reads_bind; [apply reads_u16; lia|].
  rewrite Nat2Z.id. apply reads_counted2.
  clear Hl. induction E as [|x y l ys Hxy HE IH]; constructor.
  - apply Hp; [now left|exact Hxy].
  - apply IH. intros c d Hc. apply Hp. now right.
Qed.

Lemma reads_counted32 {A} (ser : A -> res (list Z)) (p : parser A) l bs :
  (forall a b, In a l -> ser a = Ok b -> reads p b a) ->
  Z.of_nat (length l) < 2 ^ 32 ->
  ser_counted32 ser l = Ok bs -> reads (de_counted32 p) bs l.
Proof.
  intros Hp Hl. unfold ser_counted32. destruct (rmapM ser l) eqn:E; cbn [rbind]; try discriminate.
  intros Hs; apply Ok_inj in Hs; subst bs. apply rmapM_inv in E. unfold de_counted32.
  rewrite u32_id by lia.
  eapply reads_bind; [apply reads_u32; lia|].
  rewrite Nat2Z.id. apply reads_counted2.
  clear Hl. induction E as [|x y l ys Hxy HE IH]; constructor.
  - apply Hp; [now left|exact Hxy].
  - apply IH. intros c d Hc. apply Hp. now right.
Qed.

Lemma reads_u24 v bs : 0 <= v -> ser_u24 v = Ok bs -> reads de_u24 bs v.
Proof.
  intros Hv. unfold ser_u24. destruct (Z.gtb_spec v (2 ^ 24 - 1)); [discriminate|].
  intros Hs; apply Ok_inj in Hs; subst bs.
  assert (Hb: Forall byte (be_bytes 3 v)) by apply be_bytes_byte.
  pose proof (be_value_bytes 3 v) as Hval. rewrite Z.mod_small in Hval by (cbn; lia).
  pose proof (be_bytes_length 3 v) as Hlen.
  destruct (be_bytes 3 v) as [|a [|b [|c [|? ?]]]]; try discriminate.
  repeat match goal with H : Forall _ (_ :: _) |- _ => inversion_clear H end.
  unfold byte in *. unfold de_u24.
  eapply reads_bind' with (bs2 := []); [symmetry; apply app_nil_r| |].
  - assert (E: [a; b; c] = concat (map ser_u8 [a; b; c])).
    { cbn [map concat]. rewrite !ser_u8_byte by lia. reflexivity. }
    rewrite E. apply (reads_counted de_u8 ser_u8 [a; b; c]).
    repeat constructor; apply reads_u8; lia.
  - cbn beta iota. unfold be_value in Hval. cbn [fold_left] in Hval.
    replace (a * 2 ^ 16 + b * 2 ^ 8 + c) with v by lia. apply reads_pret.
Qed.

(** Running a [reads] fact from the start of a buffer. *)
Lemma reads_from_bytes {A} (p : parser A) bs v post :
  reads p bs v -> from_bytes p (bs ++ post) = Ok v.
Proof.
  intros H. unfold from_bytes. rewrite (H (rd_new (bs ++ post)) post); reflexivity.
Qed.

Lemma reads_at {A} (p : parser A) bs v pre post stk :
  reads p bs v ->
  p (mkrd (pre ++ bs ++ post) (length pre) stk)
  = Ok (v, mkrd (pre ++ bs ++ post) (length pre + length bs) stk).
Proof.
  intros H. rewrite (H _ post); [reflexivity|]. unfold rest; cbn. apply skipn_app_exact.
Qed.

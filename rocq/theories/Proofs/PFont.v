(** The sfnt container. *)
From Coq Require Import Sorted.
From Verif.Proofs Require Import PBase PCodec PTag PMap PReader.
From Verif.Model Require Import MTag MMap MFont.
From Verif.Spec Require Import SBase SReader SFont.

(** ** Checksum *)

Lemma list_ind4 {A} (P : list A -> Prop) :
  P [] -> (forall a, P [a]) -> (forall a b, P [a; b]) -> (forall a b c, P [a; b; c]) ->
  (forall a b c d l, P l -> P (a :: b :: c :: d :: l)) -> forall l, P l.
Proof.
  intros H0 H1 H2 H3 H4. fix IH 1.
  intros [|a [|b [|c [|d l]]]]; [exact H0|apply H1|apply H2|apply H3|apply H4, IH].
Qed.

Lemma word_sum_shift l i : word_sum_from (4 + i) l = word_sum_from i l.
Proof.
  revert i. induction l as [|b l IH]; intros i; cbn [word_sum_from]; [reflexivity|].
  rewrite <- (IH (S i)). change (S (4 + i)) with (4 + S i)%nat. do 3 f_equal.
  replace (4 + i)%nat with (i + 1 * 4)%nat by lia. now rewrite Nat.mod_add by lia.
Qed.

Lemma word_sum_shift4 l i k : word_sum_from (4 * k + i) l = word_sum_from i l.
Proof.
  induction k as [|k IH]; [reflexivity|].
  replace (4 * S k + i)%nat with (4 + (4 * k + i))%nat by lia. now rewrite word_sum_shift.
Qed.

Lemma word_sum_from_app l1 l2 i :
  word_sum_from i (l1 ++ l2) = word_sum_from i l1 + word_sum_from (i + length l1) l2.
Proof.
  revert i. induction l1 as [|b l1 IH]; intros i; cbn [app word_sum_from length].
  - now rewrite Nat.add_0_r.
  - rewrite IH. replace (S i + length l1)%nat with (i + S (length l1))%nat by lia. ring.
Qed.

Lemma word_sum_app l1 l2 : (length l1 mod 4 = 0)%nat -> word_sum (l1 ++ l2) = word_sum l1 + word_sum l2.
Proof.
  intros H. unfold word_sum. rewrite word_sum_from_app. f_equal. cbn [Nat.add].
  assert (length l1 = 4 * (length l1 / 4) + 0)%nat.
  { pose proof (Nat.div_mod (length l1) 4). lia. }
  rewrite H0. apply word_sum_shift4.
Qed.

Lemma word4 a b c d : word_sum [a; b; c; d] = be_value [a; b; c; d].
Proof.
  unfold word_sum, be_value. cbn [word_sum_from fold_left].
  change (256 ^ (3 - Z.of_nat (0 mod 4))) with 16777216. change (256 ^ (3 - Z.of_nat (1 mod 4))) with 65536.
  change (256 ^ (3 - Z.of_nat (2 mod 4))) with 256. change (256 ^ (3 - Z.of_nat (3 mod 4))) with 1. ring.
Qed.

Lemma word_sum_zeros n i : word_sum_from i (repeat 0 n) = 0.
Proof. revert i; induction n as [|n IH]; intros i; cbn [repeat word_sum_from]; [reflexivity|]. rewrite IH. ring. Qed.

Lemma checksum_loop_spec l : forall s, 0 <= s < 2 ^ 32 -> checksum_loop l s = (s + word_sum l) mod 2 ^ 32.
Proof.
  induction l as [|a|a b|a b c|a b c d l IH] using list_ind4; intros s Hs; cbn [checksum_loop].
  - unfold word_sum. cbn [word_sum_from]. rewrite Z.add_0_r, Z.mod_small by lia. reflexivity.
  - rewrite <- word4. unfold u32, wrap_u, word_sum. cbn [word_sum_from]. try (f_equal; ring).
  - rewrite <- word4. unfold u32, wrap_u, word_sum. cbn [word_sum_from]. try (f_equal; ring).
  - rewrite <- word4. unfold u32, wrap_u, word_sum. cbn [word_sum_from]. try (f_equal; ring).
  - rewrite IH by (apply Z.mod_pos_bound; lia). unfold u32, wrap_u.
    rewrite Zplus_mod_idemp_l. f_equal.
    change (a :: b :: c :: d :: l) with ([a; b; c; d] ++ l). rewrite word_sum_app by reflexivity.
    rewrite word4. ring.
Qed.

Lemma checksum_spec l : checksum l = word_sum l mod 2 ^ 32.
Proof. unfold checksum. rewrite checksum_loop_spec by lia. reflexivity. Qed.

Lemma checksum_range l : 0 <= checksum l < 2 ^ 32.
Proof. rewrite checksum_spec. apply Z.mod_pos_bound. lia. Qed.

Lemma pad4_length l : (length (pad4 l) mod 4 = 0)%nat.
Proof.
  unfold pad4. rewrite app_length, repeat_length. generalize (length l). intros n.
  pose proof (Nat.mod_upper_bound n 4 ltac:(lia)).
  rewrite Nat.add_mod_idemp_r by lia.
  rewrite (Nat.div_mod n 4) at 1 by lia.
  replace (4 * (n / 4) + n mod 4 + (4 - n mod 4))%nat with ((n / 4 + 1) * 4)%nat by lia.
  apply Nat.mod_mul. lia.
Qed.

Lemma pad4_word_sum l : word_sum (pad4 l) = word_sum l.
Proof. unfold pad4, word_sum. rewrite word_sum_from_app, word_sum_zeros. ring. Qed.

Lemma checksum_pad l n : checksum (l ++ repeat 0 n) = checksum l.
Proof. rewrite !checksum_spec. unfold word_sum. rewrite word_sum_from_app, word_sum_zeros. f_equal. ring. Qed.

Lemma checksum_app a b : (length a mod 4 = 0)%nat ->
  checksum (a ++ b) = (checksum a + checksum b) mod 2 ^ 32.
Proof.
  intros H. rewrite !checksum_spec, word_sum_app by exact H. now rewrite <- Z.add_mod by lia.
Qed.

(** ** Search range *)

Lemma max_pow2_loop_spec fuel n p : 0 <= n < 65536 -> 0 <= p -> p = 0 \/ 2 ^ p <= n -> Z.of_nat fuel = 17 - p ->
  (n < 32768 -> max_pow2_loop fuel n p = Ok (Z.log2 n)) /\
  (32768 <= n -> max_pow2_loop fuel n p = Panic).
Proof.
  intros Hn. revert p. induction fuel as [|fuel IH]; intros p Hp Hlow Hf.
  - split; intros; cbn [max_pow2_loop]; [|reflexivity].
    destruct Hlow as [->|Hl]; [lia|]. assert (p = 17) by lia. subst p. cbn in Hl. lia.
  - cbn [max_pow2_loop]. destruct (Z.leb_spec 16 (p + 1)).
    + split; [|reflexivity]. intros Hlt. exfalso.
      destruct Hlow as [->|Hl]; [lia|].
      assert (2 ^ 15 <= 2 ^ p) by (apply Z.pow_le_mono_r; lia). change (2 ^ 15) with 32768 in *. lia.
    + rewrite Z.shiftl_1_l. destruct (Z.leb_spec (2 ^ (p + 1)) n).
      * apply IH; [lia|now right|lia].
      * split; intros Hc.
        { f_equal. symmetry. destruct (Z.eq_dec n 0) as [->|Hn0].
          - destruct Hlow as [->|Hl]; [reflexivity|]. pose proof (Z.pow_pos_nonneg 2 p). lia.
          - apply Z.log2_unique; [lia|]. split; [|exact H0].
            destruct Hlow as [->|Hl]; [|exact Hl]. change (2 ^ 0) with 1. lia. }
        { exfalso. assert (2 ^ (p + 1) <= 2 ^ 15) by (apply Z.pow_le_mono_r; lia).
          change (2 ^ 15) with 32768 in *. lia. }
Qed.

Lemma search_range_ok n s : 0 <= n < 32768 -> 0 <= s < 65536 -> n * s < 65536 ->
  get_search_range n s = Ok (2 ^ Z.log2 n * s, Z.log2 n, Z.max (2 ^ Z.log2 n * s) (n * s) - 2 ^ Z.log2 n * s).
Proof.
  intros Hn Hs Hm. unfold get_search_range.
  destruct (max_pow2_loop_spec 17 n 0) as [H1 _]; [lia|lia|now left|reflexivity|].
  rewrite H1 by lia. cbn [rbind]. rewrite Z.shiftl_1_l.
  assert (Hb: 0 < 2 ^ Z.log2 n) by (apply Z.pow_pos_nonneg; [lia|apply Z.log2_nonneg]).
  assert (Hr: 0 <= 2 ^ Z.log2 n * s < 65536).
  { destruct (Z.eq_dec n 0) as [->|]; [cbn; lia|].
    pose proof (Z.log2_spec n ltac:(lia)). nia. }
  unfold chk_u. change (2 ^ 16) with 65536.
  replace ((0 <=? 2 ^ Z.log2 n * s) && (2 ^ Z.log2 n * s <? 65536)) with true by lia. cbn [rbind].
  replace ((0 <=? n * s) && (n * s <? 65536)) with true by nia. cbn [rbind].
  match goal with |- context[if ?c then _ else _] => replace c with true by nia end. reflexivity.
Qed.

Lemma search_range_panic n s : 0 <= n < 65536 -> 0 <= s < 65536 -> 32768 <= n \/ 65536 <= n * s ->
  get_search_range n s = Panic.
Proof.
  intros Hn Hs Hm. unfold get_search_range.
  destruct (max_pow2_loop_spec 17 n 0) as [H1 H2]; [lia|lia|now left|reflexivity|].
  destruct (Z.lt_ge_cases n 32768) as [Hlt|Hge]; [|now rewrite H2 by exact Hge].
  rewrite H1 by lia. cbn [rbind]. unfold chk_u. change (2 ^ 16) with 65536.
  destruct ((0 <=? _) && _); cbn [rbind]; [|reflexivity].
  replace ((0 <=? n * s) && (n * s <? 65536)) with false by nia. reflexivity.
Qed.

(** ** Writing *)

Definition okd (td : list Z * list Z) : list Z * res (list Z) := (fst td, Ok (snd td)).
Definition zero4 : list Z := [0; 0; 0; 0].
Definition zeroed := adjusted zero4.

Definition head_ok (td : list Z * list Z) : bool :=
  negb (bytes_eqb (fst td) TAG_head) || (12 <=? length (snd td))%nat.

Definition entry (pos : Z) (td : list Z * list Z) : list Z :=
  fst td ++ ser_u32 (checksum (snd td)) ++ ser_u32 (u32 pos) ++ ser_u32 (u32 (Z.of_nat (length (snd td)))).

Definition plen (td : list Z * list Z) : Z := Z.of_nat (length (pad4 (snd td))).

Fixpoint entries (pos : Z) (l : list (list Z * list Z)) : list (list Z) :=
  match l with
  | [] => []
  | td :: l' => entry pos td :: entries (pos + plen td) l'
  end.

Fixpoint head_pos_of (pos : Z) (hp : option Z) (l : list (list Z * list Z)) : option Z :=
  match l with
  | [] => hp
  | td :: l' => head_pos_of (pos + plen td) (if bytes_eqb (fst td) TAG_head then Some pos else hp) l'
  end.

Definition body (l : list (list Z * list Z)) : list Z := concat (map (fun td => pad4 (snd td)) l).

Lemma bytes_eqb_false a b : bytes_eqb a b = false <-> a <> b.
Proof. rewrite <- bytes_eqb_eq. destruct (bytes_eqb a b); split; congruence. Qed.

Lemma adjusted_head w d : adjusted w (HEAD, d) = (HEAD, with_adjustment w d).
Proof. reflexivity. Qed.
Lemma adjusted_other w td : fst td <> HEAD -> adjusted w td = td.
Proof. intros H. unfold adjusted. destruct (list_eq_dec Z.eq_dec (fst td) HEAD); [contradiction|]. now destruct td. Qed.
Lemma adjusted_fst w td : fst (adjusted w td) = fst td.
Proof. reflexivity. Qed.

Lemma splice_zero d : (12 <= length d)%nat -> splice d 8 zero4 = Ok (with_adjustment zero4 d).
Proof.
  intros H. unfold splice. change (8 + length zero4)%nat with 12%nat.
  destruct (Nat.ltb_spec (length d) 12); [lia|]. reflexivity.
Qed.

Lemma splice_short d : (length d < 12)%nat -> splice d 8 zero4 = Panic.
Proof.
  intros H. unfold splice. change (8 + length zero4)%nat with 12%nat.
  destruct (Nat.ltb_spec (length d) 12); [reflexivity|lia].
Qed.

Lemma write_tables_spec tabs : forall pos hp dir out,
  write_tables (map okd tabs) pos hp dir out
  = if forallb head_ok tabs
    then Ok (dir ++ concat (entries pos (map zeroed tabs)), out ++ body (map zeroed tabs),
             head_pos_of pos hp (map zeroed tabs))
    else Panic.
Proof.
  induction tabs as [|[tag d] tabs IH]; intros pos hp dir out; cbn [map write_tables forallb].
  - cbn. now rewrite !app_nil_r.
  - unfold okd at 1. cbn [fst snd rbind]. unfold head_ok at 1. cbn [fst snd].
    cbn [entries head_pos_of map].
    destruct (bytes_eqb tag TAG_head) eqn:E; cbn [negb orb].
    + pose proof E as E'. apply bytes_eqb_eq in E'. subst tag.
      destruct (Nat.leb_spec 12 (length d)).
      * change [0; 0; 0; 0] with zero4. rewrite splice_zero by lia. cbn [rbind andb].
        rewrite IH. change (zeroed (TAG_head, d)) with (HEAD, with_adjustment zero4 d).
        change TAG_head with HEAD in *.
        unfold body. cbn [map concat fst]. rewrite E. unfold entry, plen. cbn [fst snd]. rewrite <- !app_assoc. reflexivity.
      * change [0; 0; 0; 0] with zero4. rewrite splice_short by lia. reflexivity.
    + cbn [rbind andb]. rewrite IH.
      assert (Hz: zeroed (tag, d) = (tag, d)) by (apply adjusted_other; now apply bytes_eqb_false in E).
      rewrite Hz. cbn [fst]. rewrite E.
      unfold body. cbn [map concat]. unfold entry, plen. cbn [fst snd].
      rewrite <- !app_assoc. reflexivity.
Qed.

Definition header (v : Z) (n : Z) : list Z :=
  ser_u32 v ++ ser_u16 n ++ ser_u16 (2 ^ Z.log2 n * 16) ++ ser_u16 (Z.log2 n)
  ++ ser_u16 (Z.max (2 ^ Z.log2 n * 16) (n * 16) - 2 ^ Z.log2 n * 16).

Lemma header_length v n : length (header v n) = 12%nat.
Proof. reflexivity. Qed.

Lemma concat_entries_length l : forall pos, Forall (fun td => length (fst td) = 4%nat) l ->
  length (concat (entries pos l)) = (16 * length l)%nat.
Proof.
  induction l as [|td l IH]; intros pos HF; cbn [entries concat length]; [reflexivity|].
  inversion_clear HF. rewrite app_length, IH by assumption.
  unfold entry, ser_u32. rewrite !app_length, !ser_prim_length, H. cbn [prim_width]. lia.
Qed.

Lemma body_app l1 l2 : body (l1 ++ l2) = body l1 ++ body l2.
Proof. unfold body. now rewrite map_app, concat_app. Qed.

Lemma body_mod4 l : (length (body l) mod 4 = 0)%nat.
Proof.
  induction l as [|td l IH]; cbn [body map concat]; [reflexivity|].
  change (concat (map (fun td => pad4 (snd td)) l)) with (body l).
  rewrite app_length, Nat.add_mod, pad4_length, IH by lia. reflexivity.
Qed.

Lemma head_pos_of_none pos l : ~ In HEAD (map fst l) -> forall hp, head_pos_of pos hp l = hp.
Proof.
  revert pos. induction l as [|[t d] l IH]; intros pos H hp; cbn [head_pos_of fst]; [reflexivity|].
  cbn [map fst In] in H.
  assert (E: bytes_eqb t TAG_head = false) by (apply bytes_eqb_false; intros ->; apply H; now left).
  rewrite E. apply IH. tauto.
Qed.

Lemma head_pos_of_split pos pre d post hp : ~ In HEAD (map fst post) ->
  head_pos_of pos hp (pre ++ (HEAD, d) :: post) = Some (pos + Z.of_nat (length (body pre))).
Proof.
  intros H. revert pos hp. induction pre as [|td pre IH]; intros pos hp; cbn [app head_pos_of].
  - rewrite head_pos_of_none by exact H. cbn. f_equal. lia.
  - rewrite IH. cbn [body map concat]. rewrite app_length. unfold plen, body. f_equal. lia.
Qed.

Lemma with_adjustment_length w d : length w = 4%nat -> (12 <= length d)%nat ->
  length (with_adjustment w d) = length d.
Proof. intros Hw Hd. unfold with_adjustment. rewrite !app_length, firstn_length, skipn_length. lia. Qed.

Lemma pad4_adjust w d : length w = 4%nat -> (12 <= length d)%nat ->
  pad4 (with_adjustment w d) = firstn 8 d ++ w ++ (skipn 12 d ++ repeat 0 ((4 - length d mod 4) mod 4)%nat).
Proof.
  intros Hw Hd. unfold pad4. rewrite with_adjustment_length by assumption. unfold with_adjustment.
  now rewrite <- !app_assoc.
Qed.

Lemma map_adjusted_nohead w l : ~ In HEAD (map fst l) -> map (adjusted w) l = l.
Proof.
  induction l as [|td l IH]; intros H; cbn [map] in *; [reflexivity|].
  rewrite adjusted_other, IH; [reflexivity| |]; cbn [In] in H; intuition.
Qed.

Lemma splice_app p q w z : length z = length w -> splice (p ++ z ++ q) (length p) w = Ok (p ++ w ++ q).
Proof.
  intros H. unfold splice. rewrite !app_length, <- H.
  destruct (Nat.ltb_spec (length p + (length z + length q)) (length p + length z)); [lia|].
  rewrite firstn_app_exact, <- app_length, (app_assoc p z q), skipn_app_exact. reflexivity.
Qed.

Definition files_form (v : Z) (tabs : list (list Z * list Z)) (w : list Z) : list Z :=
  header v (Z.of_nat (length tabs))
  ++ concat (entries (16 * Z.of_nat (length tabs) + 12) (map zeroed tabs))
  ++ body (map (adjusted w) tabs).

Lemma in_split_nodup (tabs : list (list Z * list Z)) : NoDup (map fst tabs) -> In HEAD (map fst tabs) ->
  exists pre d post, tabs = pre ++ (HEAD, d) :: post /\ ~ In HEAD (map fst pre) /\ ~ In HEAD (map fst post).
Proof.
  intros Hnd Hin. apply in_map_iff in Hin as ([t d] & Ht & Hin). cbn in Ht. subst t.
  apply in_split in Hin as (pre & post & ->). exists pre, d, post. split; [reflexivity|].
  rewrite map_app in Hnd. cbn [map fst] in Hnd. apply NoDup_remove_2 in Hnd.
  rewrite in_app_iff in Hnd. tauto.
Qed.

Lemma u32_mod_add a b : (a + u32 (b - a)) mod 2 ^ 32 = b mod 2 ^ 32.
Proof. unfold u32, wrap_u. rewrite Zplus_mod_idemp_r. f_equal. ring. Qed.

Lemma word_sum_u32 x : word_sum (ser_u32 x) = x mod 2 ^ 32.
Proof.
  pose proof (be_value_bytes 4 x) as H. change (256 ^ Z.of_nat 4) with (2 ^ 32) in H. rewrite <- H.
  unfold ser_u32, ser_prim. change (prim_width U32) with 4%nat.
  pose proof (be_bytes_length 4 x). destruct (be_bytes 4 x) as [|a [|b [|c [|d [|? ?]]]]]; try discriminate.
  apply word4.
Qed.

(** Everything about writing. *)
Definition wstar (v : Z) (tabs : list (list Z * list Z)) : list Z :=
  ser_u32 (u32 (0xB1B0AFBA - checksum (files_form v tabs zero4))).

Definition len4 (tabs : list (list Z * list Z)) : Prop := Forall (fun td => length (fst td) = 4%nat) tabs.

Lemma len4_adjusted w tabs : len4 tabs -> len4 (map (adjusted w) tabs).
Proof.
  intros H. apply Forall_forall. intros td Htd. apply in_map_iff in Htd as (td0 & <- & Htd0).
  rewrite adjusted_fst. unfold len4 in H. rewrite Forall_forall in H. now apply H.
Qed.

Lemma font_to_bytes_ok v tabs :
  NoDup (map fst tabs) -> len4 tabs ->
  Z.of_nat (length tabs) < 4096 -> forallb head_ok tabs = true ->
  font_to_bytes v (map okd tabs) = Ok (files_form v tabs (wstar v tabs)) /\
  (In HEAD (map fst tabs) -> checksum (files_form v tabs (wstar v tabs)) = 0xB1B0AFBA).
Proof.
  intros Hnd Hlen Hn Hh. unfold font_to_bytes. rewrite map_length.
  unfold try_u. set (n := Z.of_nat (length tabs)) in *.
  assert (Hn0: 0 <= n) by lia.
  replace ((0 <=? n) && (n <? 2 ^ 16)) with true by lia. cbn [andb unwrap rbind].
  rewrite search_range_ok by lia. cbn [rbind]. fold (header v n).
  rewrite write_tables_spec, Hh.
  cbn [rbind app]. rewrite <- app_assoc.
  change (header v n ++ concat (entries (16 * n + 12) (map zeroed tabs)) ++ body (map zeroed tabs))
    with (files_form v tabs zero4).
  set (full := u32 (0xB1B0AFBA - checksum (files_form v tabs zero4))).
  change (wstar v tabs) with (ser_u32 full).
  destruct (in_dec (list_eq_dec Z.eq_dec) HEAD (map fst tabs)) as [Hin|Hnin].
  - destruct (in_split_nodup tabs Hnd Hin) as (pre & d & post & E & Hpre & Hpost).
    assert (Hd: (12 <= length d)%nat).
    { rewrite forallb_forall in Hh. specialize (Hh (HEAD, d)). unfold head_ok in Hh. cbn [fst snd] in Hh.
      change (bytes_eqb HEAD TAG_head) with true in Hh. cbn [negb orb] in Hh.
      apply Nat.leb_le, Hh. rewrite E. apply in_or_app. right. now left. }
    assert (Hform: forall w, length w = 4%nat -> files_form v tabs w =
       (header v n ++ concat (entries (16 * n + 12) (map zeroed tabs)) ++ body pre ++ firstn 8 d) ++ w ++
       ((skipn 12 d ++ repeat 0 ((4 - length d mod 4) mod 4)%nat) ++ body post)).
    { intros w Hw. unfold files_form. fold n. rewrite E at 2. rewrite map_app, body_app. cbn [map].
      rewrite adjusted_head, !map_adjusted_nohead by assumption.
      cbn [body map concat snd]. rewrite pad4_adjust by assumption.
      change (concat (map (fun td => pad4 (snd td)) post)) with (body post).
      rewrite <- !app_assoc. reflexivity. }
    assert (Hp: head_pos_of (16 * n + 12) None (map zeroed tabs) = Some (16 * n + 12 + Z.of_nat (length (body pre)))).
    { rewrite E. rewrite map_app. cbn [map]. unfold zeroed. rewrite adjusted_head.
      rewrite !map_adjusted_nohead by assumption. now apply head_pos_of_split. }
    rewrite Hp. rewrite (Hform zero4 eq_refl) at 1.
    set (P := header v n ++ concat (entries (16 * n + 12) (map zeroed tabs)) ++ body pre ++ firstn 8 d) in *.
    assert (HP: length P = (12 + 16 * length tabs + length (body pre) + 8)%nat).
    { unfold P. rewrite !app_length, header_length, concat_entries_length, map_length by (now apply len4_adjusted).
      rewrite firstn_length_le by lia. lia. }
    replace (Z.to_nat (16 * n + 12 + Z.of_nat (length (body pre)) + 8)) with (length P) by (rewrite HP; lia).
    rewrite splice_app by reflexivity.
    rewrite <- (Hform (ser_u32 full) eq_refl). split; [reflexivity|].
    intros _.
    assert (HP4: (length P mod 4 = 0)%nat).
    { rewrite HP. pose proof (body_mod4 pre).
      pose proof (Nat.div_mod (length (body pre)) 4 ltac:(lia)).
      replace (12 + 16 * length tabs + length (body pre) + 8)%nat
        with ((5 + 4 * length tabs + length (body pre) / 4) * 4)%nat by lia.
      apply Nat.mod_mul; lia. }
    set (Q := (skipn 12 d ++ _) ++ _) in *.
    assert (HS: forall w, length w = 4%nat -> word_sum (files_form v tabs w) = word_sum P + word_sum w + word_sum Q).
    { intros w Hw. rewrite (Hform w Hw), word_sum_app by exact HP4.
      rewrite (word_sum_app w) by (now rewrite Hw). ring. }
    rewrite checksum_spec, HS by reflexivity.
    pose proof (HS zero4 eq_refl) as HZ. change (word_sum zero4) with 0 in HZ.
    rewrite word_sum_u32. unfold full, u32, wrap_u. rewrite Z.mod_mod by lia.
    rewrite checksum_spec, HZ.
    rewrite <- (Z.mod_small 0xB1B0AFBA (2 ^ 32)) at 2 by lia.
    generalize (word_sum P) (word_sum Q). intros p q. clear.
    rewrite <- Z.add_assoc, (Z.add_comm _ q), Z.add_assoc.
    rewrite Zplus_mod_idemp_r, Z.add_sub_assoc.
    rewrite <- (Zminus_mod_idemp_l _ _ (2^32)), Zminus_mod_idemp_r, Zminus_mod_idemp_l.
    f_equal. ring.
  - assert (Hp: head_pos_of (16 * n + 12) None (map zeroed tabs) = None).
    { unfold zeroed. rewrite map_adjusted_nohead by assumption. now apply head_pos_of_none. }
    rewrite Hp. split; [|intros; contradiction].
    f_equal. unfold files_form. now rewrite !(map_adjusted_nohead _ _ Hnin).
Qed.

Lemma font_to_bytes_inv v tabs file :
  font_to_bytes v (map okd tabs) = Ok file ->
  Z.of_nat (length tabs) < 4096 /\ forallb head_ok tabs = true.
Proof.
  unfold font_to_bytes. rewrite map_length.
  unfold try_u. destruct (Z.ltb_spec (Z.of_nat (length tabs)) (2 ^ 16)) as [H16|H16].
  2:{ rewrite andb_false_r. cbn [unwrap rbind]. discriminate. }
  replace (0 <=? Z.of_nat (length tabs)) with true by lia. cbn [andb unwrap rbind].
  set (n := Z.of_nat (length tabs)) in *.
  destruct (Z.lt_ge_cases n 4096) as [Hn|Hn].
  2:{ rewrite search_range_panic by lia. discriminate. }
  rewrite search_range_ok by lia. cbn [rbind].
  rewrite write_tables_spec. destruct (forallb head_ok tabs) eqn:Hh; [|discriminate]. auto.
Qed.

Lemma font_to_bytes_form v tabs file :
  NoDup (map fst tabs) -> len4 tabs ->
  font_to_bytes v (map okd tabs) = Ok file ->
  Z.of_nat (length tabs) < 4096 /\ forallb head_ok tabs = true /\
  file = files_form v tabs (wstar v tabs) /\
  (In HEAD (map fst tabs) -> checksum file = 0xB1B0AFBA).
Proof.
  intros Hnd Hl Hf. destruct (font_to_bytes_inv _ _ _ Hf) as [Hn Hh].
  destruct (font_to_bytes_ok v tabs Hnd Hl Hn Hh) as [He Hc]. rewrite He in Hf.
  apply Ok_inj in Hf. subst file. auto.
Qed.

(** ** Layout *)

Lemma slice_mid (a b c : list Z) : slice (a ++ b ++ c) (length a) (length b) b.
Proof.
  split; [reflexivity|]. split; [rewrite !app_length; lia|].
  intros i Hi. rewrite nth_error_app2 by lia.
  replace (length a + i - length a)%nat with i by lia. now rewrite nth_error_app1.
Qed.

Lemma nth_error_ext {A} (l1 l2 : list A) : (forall i, nth_error l1 i = nth_error l2 i) -> l1 = l2.
Proof.
  revert l2. induction l1 as [|a l1 IH]; intros [|b l2] H.
  - reflexivity.
  - specialize (H 0%nat). discriminate.
  - specialize (H 0%nat). discriminate.
  - pose proof (H 0%nat) as H0. injection H0 as ->. f_equal. apply IH. intros i. apply (H (S i)).
Qed.

Lemma slice_eq buf pos n bs : slice buf pos n bs <->
  (pos + n <= length buf)%nat /\ bs = firstn n (skipn pos buf).
Proof.
  split.
  - intros (Hl & Hb & Hn). split; [exact Hb|]. apply nth_error_ext. intros i.
    destruct (Nat.lt_ge_cases i n) as [Hi|Hi].
    + rewrite Hn by exact Hi. rewrite nth_error_firstn_lt by exact Hi. now rewrite nth_error_skipn.
    + rewrite (proj2 (nth_error_None bs i)) by lia. symmetry. apply nth_error_None.
      rewrite firstn_length, skipn_length. lia.
  - intros [Hb ->]. split; [rewrite firstn_length, skipn_length; lia|]. split; [exact Hb|].
    intros i Hi. rewrite nth_error_firstn_lt by exact Hi. now rewrite nth_error_skipn.
Qed.

Lemma entries_app l1 l2 pos : entries pos (l1 ++ l2) = entries pos l1 ++ entries (pos + Z.of_nat (length (body l1))) l2.
Proof.
  revert pos. induction l1 as [|td l1 IH]; intros pos; cbn [app entries].
  - cbn. do 2 f_equal. lia.
  - rewrite IH. do 3 f_equal. unfold body. cbn [map concat]. rewrite app_length. unfold plen. lia.
Qed.

Definition off_of (pos : Z) (l : list (list Z * list Z)) (i : nat) : Z :=
  pos + Z.of_nat (length (body (firstn i l))).

Lemma firstn_nth_skipn {A} (l : list A) i a : nth_error l i = Some a ->
  l = firstn i l ++ a :: skipn (S i) l.
Proof.
  revert i. induction l as [|x l IH]; intros [|i] H; cbn in *; try discriminate.
  - now injection H as ->.
  - now rewrite <- (IH i H).
Qed.

Lemma nth_map_zeroed w tabs i td : nth_error tabs i = Some td ->
  nth_error (map (adjusted w) tabs) i = Some (adjusted w td).
Proof. intros H. now apply map_nth_error. Qed.

Lemma head_ok_len w tabs td : length w = 4%nat -> forallb head_ok tabs = true -> In td tabs ->
  length (snd (adjusted w td)) = length (snd td).
Proof.
  intros Hw Hh Hin. destruct td as [t d]. unfold adjusted. cbn [fst snd].
  destruct (list_eq_dec Z.eq_dec t HEAD) as [->|]; [|reflexivity].
  apply with_adjustment_length; [exact Hw|].
  rewrite forallb_forall in Hh. specialize (Hh _ Hin). unfold head_ok in Hh. cbn [fst snd] in Hh.
  change (bytes_eqb HEAD TAG_head) with true in Hh. now apply Nat.leb_le.
Qed.

Lemma pad4_len l : length (pad4 l) = (length l + (4 - length l mod 4) mod 4)%nat.
Proof. unfold pad4. now rewrite app_length, repeat_length. Qed.

Lemma body_len_eq w tabs : length w = 4%nat -> forallb head_ok tabs = true ->
  length (body (map (adjusted w) tabs)) = length (body tabs).
Proof.
  intros Hw Hh. induction tabs as [|td tabs IH]; [reflexivity|].
  unfold body in *. cbn [map concat]. rewrite !app_length.
  rewrite IH by (cbn [forallb] in Hh; apply andb_true_iff in Hh; tauto). f_equal.
  rewrite !pad4_len. rewrite (head_ok_len w (td :: tabs)) by (try assumption; now left). reflexivity.
Qed.

Lemma forallb_firstn {A} (f : A -> bool) l i : forallb f l = true -> forallb f (firstn i l) = true.
Proof.
  rewrite !forallb_forall. intros H x Hx. apply H.
  rewrite <- (firstn_skipn i l). apply in_or_app. now left.
Qed.

Lemma off_of_adjusted w tabs pos i : length w = 4%nat -> forallb head_ok tabs = true ->
  off_of pos (map (adjusted w) tabs) i = off_of pos tabs i.
Proof.
  intros Hw Hh. unfold off_of. rewrite firstn_map, body_len_eq; [reflexivity|exact Hw|].
  now apply forallb_firstn.
Qed.

Lemma files_length v tabs w : len4 tabs ->
  length (files_form v tabs w) = (12 + 16 * length tabs + length (body (map (adjusted w) tabs)))%nat.
Proof.
  intros H. unfold files_form. rewrite !app_length, header_length, concat_entries_length, map_length
    by (now apply len4_adjusted). lia.
Qed.

Lemma data_slice v tabs w i td : length w = 4%nat -> len4 tabs -> forallb head_ok tabs = true ->
  nth_error tabs i = Some td ->
  slice (files_form v tabs w) (Z.to_nat (off_of (16 * Z.of_nat (length tabs) + 12) tabs i))
    (length (snd td)) (snd (adjusted w td)).
Proof.
  intros Hw Hl Hh Hi. unfold files_form.
  rewrite <- (off_of_adjusted w) by assumption.
  pose proof (nth_map_zeroed w _ _ _ Hi) as Hi'.
  set (l := map (adjusted w) tabs) in *.
  rewrite (firstn_nth_skipn l i _ Hi') at 1. rewrite body_app. unfold body at 2. cbn [map concat].
  unfold pad4 at 1. unfold off_of.
  set (H0 := header v _). set (E0 := concat _).
  replace (Z.to_nat (16 * Z.of_nat (length tabs) + 12 + Z.of_nat (length (body (firstn i l)))))
    with (length (H0 ++ E0 ++ body (firstn i l))).
  2:{ rewrite !app_length. unfold H0, E0. rewrite header_length, concat_entries_length, map_length by (now apply len4_adjusted). lia. }
  rewrite <- (head_ok_len w tabs td Hw Hh) by (eapply nth_error_In; eauto).
  match goal with |- slice ?f _ _ _ =>
    replace f with ((H0 ++ E0 ++ body (firstn i l)) ++ snd (adjusted w td) ++
      (repeat 0 ((4 - length (snd (adjusted w td)) mod 4) mod 4)%nat ++ body (skipn (S i) l))) end.
  - apply slice_mid.
  - rewrite <- !app_assoc. reflexivity.
Qed.

Lemma entry_slice v tabs w i td : len4 tabs -> forallb head_ok tabs = true ->
  nth_error tabs i = Some td ->
  slice (files_form v tabs w) (12 + 16 * i) 16
    (entry (off_of (16 * Z.of_nat (length tabs) + 12) tabs i) (zeroed td)).
Proof.
  intros Hl Hh Hi. unfold files_form.
  pose proof (nth_map_zeroed zero4 _ _ _ Hi) as Hi'.
  rewrite <- (off_of_adjusted zero4) by (try reflexivity; assumption).
  fold zeroed in *. pose proof (len4_adjusted zero4 tabs Hl) as HlZ. fold zeroed in HlZ.
  set (l := map zeroed tabs) in *.
  set (p0 := 16 * Z.of_nat (length tabs) + 12).
  assert (HE: concat (entries p0 l) = concat (entries p0 (firstn i l)) ++ entry (off_of p0 l i) (zeroed td) ++
     concat (entries (off_of p0 l i + plen (zeroed td)) (skipn (S i) l))).
  { rewrite (firstn_nth_skipn l i _ Hi') at 1. rewrite entries_app, concat_app. reflexivity. }
  rewrite HE.
  assert (Hlt: (i < length l)%nat) by (apply nth_error_Some; congruence).
  assert (HF: length (concat (entries p0 (firstn i l))) = (16 * i)%nat).
  { rewrite concat_entries_length, firstn_length_le by lia || (unfold len4 in HlZ; rewrite Forall_forall in *; intros x Hx; apply HlZ;
      rewrite <- (firstn_skipn i l); apply in_or_app; now left). reflexivity. }
  assert (HL: length (entry (off_of p0 l i) (zeroed td)) = 16%nat).
  { unfold entry, ser_u32. rewrite !app_length, !ser_prim_length. unfold zeroed. rewrite adjusted_fst.
    unfold len4 in Hl. rewrite Forall_forall in Hl. rewrite (Hl td) by (eapply nth_error_In; eauto). reflexivity. }
  set (H0 := header v _).
  replace (12 + 16 * i)%nat with (length (H0 ++ concat (entries p0 (firstn i l))))
    by (rewrite app_length, HF; reflexivity).
  rewrite <- HL.
  match goal with |- slice ?f _ _ _ =>
    replace f with ((H0 ++ concat (entries p0 (firstn i l))) ++ entry (off_of p0 l i) (zeroed td) ++
     (concat (entries (off_of p0 l i + plen (zeroed td)) (skipn (S i) l)) ++ body (map (adjusted w) tabs))) end.
  - apply slice_mid.
  - rewrite <- !app_assoc. reflexivity.
Qed.

Lemma off_of_step tabs pos i td : nth_error tabs i = Some td ->
  off_of pos tabs (S i) = off_of pos tabs i + plen td.
Proof.
  intros H. unfold off_of. revert i H. induction tabs as [|x tabs IH]; intros [|i] H; cbn [nth_error] in H; try discriminate.
  - injection H as ->. cbn [firstn]. unfold body, plen. cbn [map concat length]. rewrite app_nil_r. lia.
  - specialize (IH i H). change (firstn (S (S i)) (x :: tabs)) with (x :: firstn (S i) tabs).
    change (firstn (S i) (x :: tabs)) with (x :: firstn i tabs).
    unfold body in *. cbn [map concat]. rewrite !app_length. lia.
Qed.

Lemma plen_ge td : Z.of_nat (length (snd td)) <= plen td.
Proof. unfold plen. rewrite pad4_len. lia. Qed.

Lemma off_of_mono tabs pos i j : (i <= j)%nat -> off_of pos tabs i <= off_of pos tabs j.
Proof.
  intros H. unfold off_of. replace (firstn i tabs) with (firstn i (firstn j tabs)).
  - rewrite <- (firstn_skipn i (firstn j tabs)) at 2. rewrite body_app, app_length. lia.
  - rewrite firstn_firstn. f_equal. lia.
Qed.

Lemma off_of_disjoint tabs pos i j td : (i < j)%nat -> nth_error tabs i = Some td ->
  off_of pos tabs i + Z.of_nat (length (snd td)) <= off_of pos tabs j.
Proof.
  intros Hij Hi. pose proof (off_of_mono tabs pos (S i) j ltac:(lia)).
  rewrite (off_of_step _ _ _ _ Hi) in H. pose proof (plen_ge td). lia.
Qed.

Lemma off_of_mod4 tabs i : off_of (16 * Z.of_nat (length tabs) + 12) tabs i mod 4 = 0.
Proof.
  unfold off_of. pose proof (body_mod4 (firstn i tabs)) as H.
  pose proof (Nat.div_mod (length (body (firstn i tabs))) 4 ltac:(lia)). lia.
Qed.

Lemma off_of_end v tabs w i td : length w = 4%nat -> len4 tabs -> forallb head_ok tabs = true ->
  nth_error tabs i = Some td ->
  off_of (16 * Z.of_nat (length tabs) + 12) tabs i + Z.of_nat (length (snd td))
  <= Z.of_nat (length (files_form v tabs w)).
Proof.
  intros Hw Hl Hh Hi. rewrite files_length by assumption. rewrite body_len_eq by assumption.
  pose proof (off_of_disjoint tabs (16 * Z.of_nat (length tabs) + 12) i (length tabs) td) as H.
  assert (i < length tabs)%nat by (apply nth_error_Some; congruence).
  specialize (H H0 Hi). unfold off_of in H at 2. rewrite firstn_all in H. lia.
Qed.

Lemma off_of_start tabs pos i : pos <= off_of pos tabs i.
Proof. unfold off_of. lia. Qed.

Lemma digits_u32 x : 0 <= x < 2 ^ 32 -> digits_value (ser_u32 x) = x.
Proof.
  intros H. rewrite digits_value_eq. unfold ser_u32, ser_prim. rewrite be_value_bytes. now rewrite Z.mod_small.
Qed.

Lemma entry_at_file v tabs w i td : length w = 4%nat -> len4 tabs -> forallb head_ok tabs = true ->
  nth_error tabs i = Some td -> Z.of_nat (length (files_form v tabs w)) < 2 ^ 32 ->
  entry_at (files_form v tabs w) i (fst td)
    (word_sum (snd (adjusted zero4 td)) mod 2 ^ 32)
    (off_of (16 * Z.of_nat (length tabs) + 12) tabs i) (Z.of_nat (length (snd td))).
Proof.
  intros Hw Hl Hh Hi Hsz. pose proof (entry_slice v tabs w i td Hl Hh Hi) as Hs.
  pose proof (off_of_end v tabs w i td Hw Hl Hh Hi) as He.
  pose proof (off_of_start tabs (16 * Z.of_nat (length tabs) + 12) i).
  unfold entry in Hs. unfold zeroed in Hs. rewrite adjusted_fst in Hs.
  rewrite (head_ok_len zero4 tabs td) in Hs by (try reflexivity; try assumption; eapply nth_error_In; eauto).
  do 3 eexists. split; [exact Hs|]. repeat (split; [reflexivity|]).
  rewrite digits_u32 by apply checksum_range. rewrite checksum_spec. split; [reflexivity|].
  unfold u32, wrap_u. rewrite !Z.mod_small by lia. rewrite !digits_u32 by lia. auto.
Qed.

(** ** Reading *)

Lemma consume_slice r n bs r' : consume r n = Ok (bs, r') <->
  slice (rd_input r) (rd_ptr r) n bs /\ r' = adv r n.
Proof.
  unfold consume, consume_or_peek. rewrite slice_eq.
  destruct (Nat.ltb_spec (length (rd_input r)) (rd_ptr r + n)).
  - split; [discriminate|]. intros [[? _] _]. lia.
  - split.
    + intros H'. apply Ok_inj in H'. injection H' as <- <-. split; [|reflexivity]. split; [lia|reflexivity].
    + intros [[_ ->] ->]. reflexivity.
Qed.

Lemma consume_total r n : (exists bs r', consume r n = Ok (bs, r')) \/ consume r n = Err.
Proof. unfold consume, consume_or_peek. destruct (_ <? _)%nat; eauto. Qed.

Lemma de_uprim_inv t r v r' : prim_signed t = false -> de_prim t r = Ok (v, r') ->
  exists bs, slice (rd_input r) (rd_ptr r) (prim_width t) bs /\ v = digits_value bs /\ r' = adv r (prim_width t).
Proof.
  intros Ht. unfold de_prim. destruct (consume r (prim_width t)) as [[bs r1]| |] eqn:E; try discriminate.
  apply consume_slice in E as [Hs ->]. intros H'. apply Ok_inj in H'. rewrite Ht in H'. injection H' as <- <-.
  exists bs. rewrite digits_value_eq. auto.
Qed.

Lemma de_uprim_fwd t r bs : prim_signed t = false -> slice (rd_input r) (rd_ptr r) (prim_width t) bs ->
  de_prim t r = Ok (digits_value bs, adv r (prim_width t)).
Proof.
  intros Ht Hs. unfold de_prim. rewrite (proj2 (consume_slice r (prim_width t) bs _) (conj Hs eq_refl)).
  now rewrite Ht, digits_value_eq.
Qed.

Lemma de_prim_nopanic t r : de_prim t r <> Panic.
Proof. unfold de_prim. destruct (consume_total r (prim_width t)) as [(bs & r' & ->)| ->]; discriminate. Qed.

Lemma de_tag_inv r t r' : de_tag r = Ok (t, r') <->
  slice (rd_input r) (rd_ptr r) 4 t /\ valid_tag t /\ r' = adv r 4.
Proof.
  unfold de_tag. destruct (consume r 4) as [[bs r1]| |] eqn:E.
  - apply consume_slice in E as [Hs ->].
    pose proof Hs as (Hl & _ & _).
    destruct (tag_from_raw bs) as [t0|] eqn:Et.
    + pose proof (valid_tag_from_raw _ _ Et) as Hv.
      apply tag_from_raw_ok in Et as (_ & _ & Et). rewrite Hl in Et. cbn in Et. rewrite app_nil_r in Et. subst t0.
      split.
      * intros H'. apply Ok_inj in H'. injection H' as <- <-. auto.
      * intros (Hs' & _ & ->). apply slice_eq in Hs as [_ ->]. apply slice_eq in Hs' as [_ ->]. reflexivity.
    + split; [discriminate|]. intros (Hs' & Hv & _). apply slice_eq in Hs as [_ ->]. apply slice_eq in Hs' as [_ ->].
      rewrite tag_from_raw_valid in Et by assumption. discriminate.
  - split; [discriminate|]. intros (Hs & _ & _).
    pose proof (proj2 (consume_slice r 4 t _) (conj Hs eq_refl)). congruence.
  - split; [discriminate|]. intros (Hs & _ & _).
    pose proof (proj2 (consume_slice r 4 t _) (conj Hs eq_refl)). congruence.
Qed.

Lemma de_tag_nopanic r : de_tag r <> Panic.
Proof.
  unfold de_tag. destruct (consume_total r 4) as [(bs & r' & ->)| ->]; [|discriminate].
  destruct (tag_from_raw bs); discriminate.
Qed.

(** Concatenating and splitting slices *)
Lemma slice_app buf pos n m a b : slice buf pos n a -> slice buf (pos + n) m b -> slice buf pos (n + m) (a ++ b).
Proof.
  intros (Ha & Hba & Hna) (Hb & Hbb & Hnb). split; [rewrite app_length; lia|]. split; [lia|].
  intros i Hi. destruct (Nat.lt_ge_cases i n).
  - rewrite nth_error_app1 by lia. now apply Hna.
  - rewrite nth_error_app2 by lia. rewrite Hnb by lia. f_equal. lia.
Qed.

Lemma slice_split buf pos n m ab a b : slice buf pos (n + m) ab -> ab = a ++ b -> length a = n ->
  slice buf pos n a /\ slice buf (pos + n) m b.
Proof.
  intros (Hl & Hb & Hn) -> Ha. rewrite app_length in Hl. split.
  - split; [exact Ha|]. split; [lia|]. intros i Hi. rewrite <- Hn by lia. now rewrite nth_error_app1 by lia.
  - split; [lia|]. split; [lia|]. intros i Hi. replace (pos + n + i)%nat with (pos + (n + i))%nat by lia.
    rewrite <- Hn by lia. rewrite nth_error_app2 by lia. f_equal. lia.
Qed.

Lemma de_table_record_spec r tr r' : de_table_record r = Ok (tr, r') <->
  rec_at (rd_input r) (rd_ptr r) tr /\ r' = adv r 16.
Proof.
  unfold de_table_record, pbind, pret. split.
  - destruct (de_tag r) as [[t r1]| |] eqn:Et; try discriminate. apply de_tag_inv in Et as (Ht & Hv & ->).
    destruct (de_u32 _) as [[cs r2]| |] eqn:E1; try discriminate.
    apply de_uprim_inv in E1 as (c & Hc & -> & ->); [|reflexivity].
    destruct (de_u32 _) as [[of r3]| |] eqn:E2; try discriminate.
    apply de_uprim_inv in E2 as (o & Ho & -> & ->); [|reflexivity].
    destruct (de_u32 _) as [[ln r4]| |] eqn:E3; try discriminate.
    apply de_uprim_inv in E3 as (l & Hl & -> & ->); [|reflexivity].
    intros H'. apply Ok_inj in H'. injection H' as <- <-. cbn [prim_width] in *.
    rewrite !adv_adv. split; [|reflexivity]. split; [exact Hv|].
    exists c, o, l. cbn [tr_tag tr_checksum tr_offset tr_length].
    unfold adv in *. cbn [rd_input rd_ptr] in *.
    split.
    + apply (slice_app _ _ 4 12); [exact Ht|]. apply (slice_app _ _ 4 8); [exact Hc|].
      apply (slice_app _ _ 4 4); [exact Ho|exact Hl].
    + repeat split; try reflexivity; [apply Hc|apply Ho|apply Hl].
  - intros ((Hv & c & o & l & Hs & Lc & Lo & Ll & Ec & Eo & El) & ->).
    destruct (slice_split _ _ 4 12 _ _ _ Hs eq_refl (proj1 Hv)) as [Ht Hs1].
    destruct (slice_split _ _ 4 8 _ _ _ Hs1 eq_refl Lc) as [Hc Hs2].
    destruct (slice_split _ _ 4 4 _ _ _ Hs2 eq_refl Lo) as [Ho Hl].
    rewrite (proj2 (de_tag_inv r (tr_tag tr) (adv r 4))) by auto.
    unfold de_u32. rewrite (de_uprim_fwd U32 (adv r 4) c) by (auto; exact Hc).
    rewrite (de_uprim_fwd U32 _ o) by (auto; exact Ho).
    rewrite (de_uprim_fwd U32 _ l) by (auto; exact Hl).
    rewrite !adv_adv. rewrite Ec, Eo, El. now destruct tr.
Qed.

Lemma de_table_record_nopanic r : de_table_record r <> Panic.
Proof.
  unfold de_table_record, pbind, pret.
  destruct (de_tag r) as [[t r1]| |] eqn:E; try discriminate; [|now apply de_tag_nopanic in E].
  destruct (de_u32 r1) as [[? r2]| |] eqn:E1; try discriminate; [|now apply de_prim_nopanic in E1].
  destruct (de_u32 r2) as [[? r3]| |] eqn:E2; try discriminate; [|now apply de_prim_nopanic in E2].
  destruct (de_u32 r3) as [[? r4]| |] eqn:E3; try discriminate. now apply de_prim_nopanic in E3.
Qed.

Lemma de_counted_spec n : forall r trs r', de_counted de_table_record n r = Ok (trs, r') <->
  length trs = n /\ r' = adv r (16 * n) /\
  forall i tr, nth_error trs i = Some tr -> rec_at (rd_input r) (rd_ptr r + 16 * i) tr.
Proof.
  induction n as [|n IH]; intros r trs r'; cbn [de_counted].
  - unfold pret. split.
    + intros H'. apply Ok_inj in H'. injection H' as <- <-. split; [reflexivity|]. split.
      * unfold adv. cbn. rewrite Nat.add_0_r. now destruct r.
      * intros [|i]; discriminate.
    + intros (Hl & -> & _). destruct trs; [|discriminate]. unfold adv. cbn. rewrite Nat.add_0_r. now destruct r.
  - unfold pbind, pret. split.
    + destruct (de_table_record r) as [[tr r1]| |] eqn:E; try discriminate.
      apply de_table_record_spec in E as [Hr ->].
      destruct (de_counted de_table_record n (adv r 16)) as [[l r2]| |] eqn:E2; try discriminate.
      apply IH in E2 as (Hl & -> & Hrec).
      intros H'. apply Ok_inj in H'. injection H' as <- <-. split; [cbn; lia|]. split; [rewrite adv_adv; f_equal; lia|].
      intros [|i] t Ht; cbn [nth_error] in Ht.
      * injection Ht as <-. now rewrite Nat.mul_0_r, Nat.add_0_r.
      * specialize (Hrec i t Ht). unfold adv in Hrec. cbn [rd_input rd_ptr] in Hrec.
        replace (rd_ptr r + 16 * S i)%nat with (rd_ptr r + 16 + 16 * i)%nat by lia. exact Hrec.
    + intros (Hl & -> & Hrec). destruct trs as [|tr trs]; [discriminate|].
      rewrite (proj2 (de_table_record_spec r tr (adv r 16))).
      * rewrite (proj2 (IH (adv r 16) trs (adv (adv r 16) (16 * n)))).
        { rewrite adv_adv. do 3 f_equal. lia. }
        split; [cbn in Hl; lia|]. split; [reflexivity|]. intros i t Ht. specialize (Hrec (S i) t Ht).
        unfold adv. cbn [rd_input rd_ptr].
        replace (rd_ptr r + 16 + 16 * i)%nat with (rd_ptr r + 16 * S i)%nat by lia. exact Hrec.
      * split; [|reflexivity]. specialize (Hrec 0%nat tr eq_refl). now rewrite Nat.mul_0_r, Nat.add_0_r in Hrec.
Qed.

Lemma de_counted_nopanic n : forall r, de_counted de_table_record n r <> Panic.
Proof.
  induction n as [|n IH]; intros r; cbn [de_counted]; [discriminate|]. unfold pbind, pret.
  destruct (de_table_record r) as [[tr r1]| |] eqn:E; try discriminate; [|now apply de_table_record_nopanic in E].
  destruct (de_counted de_table_record n r1) as [[l r2]| |] eqn:E2; try discriminate. now apply IH in E2.
Qed.

Lemma digits_nonneg bs : Forall is_byte bs -> 0 <= digits_value bs.
Proof.
  intros H. rewrite digits_value_eq. apply is_byte_byte in H. now apply be_value_range.
Qed.

Lemma slice_bytes file pos n bs : Forall is_byte file -> slice file pos n bs -> Forall is_byte bs.
Proof.
  intros H Hs. apply slice_eq in Hs as [_ ->]. apply Forall_forall. intros x Hx.
  rewrite Forall_forall in H. apply H.
  rewrite <- (firstn_skipn pos file). apply in_or_app. right.
  rewrite <- (firstn_skipn n (skipn pos file)). apply in_or_app. now left.
Qed.

Lemma slice_exists file pos n : (pos + n <= length file)%nat -> exists bs, slice file pos n bs.
Proof. intros H. exists (firstn n (skipn pos file)). now apply slice_eq. Qed.

Lemma slice_fun buf pos n a b : slice buf pos n a -> slice buf pos n b -> a = b.
Proof. rewrite !slice_eq. intros [_ ->] [_ ->]. reflexivity. Qed.

Definition read_dir : parser (Z * list table_record) :=
  sfntVersion <-- de_u32 ;; numTables <-- de_u16 ;;
  _ <-- de_u16 ;; _ <-- de_u16 ;; _ <-- de_u16 ;;
  match sfnt_version_of sfntVersion with
  | None => perr
  | Some version =>
      table_records <-- de_counted de_table_record (Z.to_nat numTables) ;;
      pret (version, table_records)
  end.

Lemma font_read_raw_dir file : from_bytes font_read_raw file =
  match read_dir (rd_new file) with
  | Ok ((v, trs), _) => rmap (fun m => (v, m)) (load_records file (sort_by_offset trs) [])
  | Err => Err
  | Panic => Panic
  end.
Proof.
  unfold from_bytes, font_read_raw, read_dir, pbind, plift, pret, perr.
  destruct (de_u32 (rd_new file)) as [[a r1]| |]; [|reflexivity|reflexivity].
  destruct (de_u16 r1) as [[b r2]| |]; [|reflexivity|reflexivity].
  destruct (de_u16 r2) as [[c r3]| |]; [|reflexivity|reflexivity].
  destruct (de_u16 r3) as [[d r4]| |]; [|reflexivity|reflexivity].
  destruct (de_u16 r4) as [[e r5]| |]; [|reflexivity|reflexivity].
  destruct (sfnt_version_of a); [|reflexivity].
  destruct (de_counted _ _ _) as [[trs r6]| |]; [|reflexivity|reflexivity].
  cbn [rd_new rd_input]. destruct (load_records _ _ _); reflexivity.
Qed.

Lemma sfnt_version_of_spec a v : sfnt_version_of a = Some v <-> a = v /\ (v = SFNT_TRUETYPE \/ v = SFNT_OPENTYPE).
Proof.
  unfold sfnt_version_of. destruct (Z.eqb_spec a SFNT_TRUETYPE) as [->|H1].
  - split; [intros [= <-]; auto|]. intros [-> _]. reflexivity.
  - destruct (Z.eqb_spec a SFNT_OPENTYPE) as [->|H2].
    + split; [intros [= <-]; auto|]. intros [-> _]. reflexivity.
    + split; [discriminate|]. intros [-> [?|?]]; congruence.
Qed.

Lemma read_dir_spec file v trs : Forall is_byte file ->
  (exists r', read_dir (rd_new file) = Ok ((v, trs), r')) <-> directory file v trs.
Proof.
  intros HB. unfold read_dir, pbind, pret, perr. split.
  - intros (r' & H). revert H.
    destruct (de_u32 (rd_new file)) as [[a r1]| |] eqn:E1; try discriminate.
    apply de_uprim_inv in E1 as (ba & Ha & -> & ->); [|reflexivity].
    destruct (de_u16 _) as [[b r2]| |] eqn:E2; try discriminate.
    apply de_uprim_inv in E2 as (bb & Hb & -> & ->); [|reflexivity].
    destruct (de_u16 _) as [[c r3]| |] eqn:E3; try discriminate.
    apply de_uprim_inv in E3 as (bc & Hc & -> & ->); [|reflexivity].
    destruct (de_u16 _) as [[d r4]| |] eqn:E4; try discriminate.
    apply de_uprim_inv in E4 as (bd & Hd & -> & ->); [|reflexivity].
    destruct (de_u16 _) as [[e r5]| |] eqn:E5; try discriminate.
    apply de_uprim_inv in E5 as (be & He & -> & ->); [|reflexivity].
    destruct (sfnt_version_of _) as [v'|] eqn:Ev; [|discriminate].
    apply sfnt_version_of_spec in Ev as [Ev Hv].
    destruct (de_counted _ _ _) as [[trs' r6]| |] eqn:E6; try discriminate.
    apply de_counted_spec in E6 as (Hl & -> & Hrec).
    intros H'. apply Ok_inj in H'. injection H' as <- <- <-. cbn in Ha, Hb, He.
    split; [exact Hv|]. split; [exists ba; auto|]. split.
    { exists bb. split; [exact Hb|]. rewrite Hl. rewrite Z2Nat.id; [reflexivity|]. apply digits_nonneg.
      eapply slice_bytes; eauto. }
    split; [apply He|]. exact Hrec.
  - intros (Hv & (ba & Ha & Ea) & (bb & Hb & Eb) & Hlen & Hrec).
    destruct (slice_exists file 6 2 ltac:(lia)) as [bc Hc].
    destruct (slice_exists file 8 2 ltac:(lia)) as [bd Hd].
    destruct (slice_exists file 10 2 ltac:(lia)) as [be He].
    unfold de_u32, de_u16.
    rewrite (de_uprim_fwd U32 (rd_new file) ba) by (auto; exact Ha).
    rewrite (de_uprim_fwd U16 _ bb) by (auto; exact Hb).
    rewrite (de_uprim_fwd U16 _ bc) by (auto; exact Hc).
    rewrite (de_uprim_fwd U16 _ bd) by (auto; exact Hd).
    rewrite (de_uprim_fwd U16 _ be) by (auto; exact He).
    rewrite (proj2 (sfnt_version_of_spec _ v) (conj Ea Hv)).
    rewrite !adv_adv. rewrite Eb, Nat2Z.id.
    match goal with |- context[de_counted de_table_record (length trs) ?r0] =>
      pose proof (proj2 (de_counted_spec (length trs) r0 trs (adv r0 (16 * length trs)))) as HC end.
    rewrite HC; [eauto|]. split; [reflexivity|]. split; [reflexivity|]. exact Hrec.
Qed.

Lemma read_dir_nopanic r : read_dir r <> Panic.
Proof.
  unfold read_dir, pbind, pret, perr.
  destruct (de_u32 r) as [[a r1]| |] eqn:E1; try discriminate; [|now apply de_prim_nopanic in E1].
  destruct (de_u16 r1) as [[b r2]| |] eqn:E2; try discriminate; [|now apply de_prim_nopanic in E2].
  destruct (de_u16 r2) as [[c r3]| |] eqn:E3; try discriminate; [|now apply de_prim_nopanic in E3].
  destruct (de_u16 r3) as [[d r4]| |] eqn:E4; try discriminate; [|now apply de_prim_nopanic in E4].
  destruct (de_u16 r4) as [[e r5]| |] eqn:E5; try discriminate; [|now apply de_prim_nopanic in E5].
  destruct (sfnt_version_of a); try discriminate.
  destruct (de_counted _ _ _) as [[trs r6]| |] eqn:E6; try discriminate. now apply de_counted_nopanic in E6.
Qed.

Definition in_file (file : list Z) (tr : table_record) : Prop :=
  tr_offset tr + tr_length tr <= Z.of_nat (length file).

Lemma insert_by_offset_In r l x : In x (insert_by_offset r l) <-> x = r \/ In x l.
Proof.
  induction l as [|y l IH]; cbn [insert_by_offset In]; [intuition congruence|].
  destruct (_ <? _); cbn [In]; [intuition congruence|]. rewrite IH. tauto.
Qed.

Lemma sort_by_offset_In l x : In x (sort_by_offset l) <-> In x l.
Proof.
  unfold sort_by_offset. enough (forall acc, In x (fold_left (fun acc r => insert_by_offset r acc) l acc) <-> In x l \/ In x acc) as H.
  { rewrite H. cbn. tauto. }
  induction l as [|y l IH]; intros acc; cbn [fold_left In]; [tauto|]. rewrite IH, insert_by_offset_In. intuition congruence.
Qed.

Definition rec_bytes (file : list Z) (tr : table_record) : list Z :=
  firstn (Z.to_nat (tr_length tr)) (skipn (Z.to_nat (tr_offset tr)) file).

Lemma load_records_ok file trs : Forall (in_file file) trs -> forall m,
  load_records file trs m
  = Ok (fold_left (fun m kv => bm_insert lex_ltb (fst kv) (snd kv) m)
          (map (fun tr => (tr_tag tr, rec_bytes file tr)) trs) m).
Proof.
  induction 1 as [|tr trs Htr Htrs IH]; intros m; cbn [load_records map fold_left]; [reflexivity|].
  unfold in_file in Htr. destruct (Z.ltb_spec (Z.of_nat (length file)) (tr_offset tr + tr_length tr)); [lia|].
  apply IH.
Qed.

Lemma load_records_panic file trs : Exists (fun tr => ~ in_file file tr) trs -> forall m,
  load_records file trs m = Panic.
Proof.
  induction 1 as [tr trs H|tr trs H IH]; intros m; cbn [load_records]; unfold in_file in *.
  - destruct (Z.ltb_spec (Z.of_nat (length file)) (tr_offset tr + tr_length tr)); [reflexivity|lia].
  - destruct (Z.ltb_spec (Z.of_nat (length file)) (tr_offset tr + tr_length tr)); [reflexivity|apply IH].
Qed.

Lemma in_file_dec file tr : {in_file file tr} + {~ in_file file tr}.
Proof. apply Z_le_dec. Qed.

(** Trichotomy of loading. *)
Lemma font_read_raw_cases file : Forall is_byte file ->
  (exists v trs, directory file v trs /\ Forall (in_file file) trs /\
     from_bytes font_read_raw file
     = Ok (v, bm_of_list lex_ltb (map (fun tr => (tr_tag tr, rec_bytes file tr)) (sort_by_offset trs))))
  \/ (exists v trs, directory file v trs /\ Exists (fun tr => ~ in_file file tr) trs /\
       from_bytes font_read_raw file = Panic)
  \/ ((forall v trs, ~ directory file v trs) /\ from_bytes font_read_raw file = Err).
Proof.
  intros HB. rewrite font_read_raw_dir.
  destruct (read_dir (rd_new file)) as [[[v trs] r']| |] eqn:E.
  - assert (HD: directory file v trs) by (apply read_dir_spec; eauto).
    destruct (Forall_Exists_dec (in_file file) (in_file_dec file) trs) as [HF|HX].
    + left. exists v, trs. split; [exact HD|]. split; [exact HF|].
      rewrite load_records_ok; [reflexivity|]. apply Forall_forall. intros x Hx.
      apply (proj1 (sort_by_offset_In trs x)) in Hx. rewrite Forall_forall in HF. now apply HF.
    + right; left. exists v, trs. split; [exact HD|]. split; [exact HX|].
      rewrite load_records_panic; [reflexivity|]. apply Exists_exists in HX as (x & Hx & Hn).
      apply Exists_exists. exists x. split; [apply (proj2 (sort_by_offset_In trs x)); exact Hx|exact Hn].
  - right; right. split; [|reflexivity]. intros v trs HD. apply read_dir_spec in HD as (r' & H'); [|exact HB]. congruence.
  - now apply read_dir_nopanic in E.
Qed.

Lemma digits_u16 x : 0 <= x < 2 ^ 16 -> digits_value (ser_u16 x) = x.
Proof.
  intros H. rewrite digits_value_eq. unfold ser_u16, ser_prim. rewrite be_value_bytes. now rewrite Z.mod_small.
Qed.

Lemma sort_sorted l : StronglySorted (fun a b => tr_offset a <= tr_offset b) l -> sort_by_offset l = l.
Proof.
  unfold sort_by_offset. intros H. change l with ([] ++ l) at 2. revert H. 
  change l with ([] ++ l) at 1. generalize (@nil table_record). induction l as [|x l IH]; intros acc H; cbn [fold_left].
  - now rewrite app_nil_r.
  - rewrite IH.
    + assert (E: insert_by_offset x acc = acc ++ [x]).
      { assert (HF: Forall (fun a => tr_offset a <= tr_offset x) acc).
        { clear IH. induction acc as [|a acc IHa]; constructor.
          - cbn [app] in H. inversion_clear H as [|? ? _ HF]. rewrite Forall_forall in HF. apply HF, in_or_app. right; now left.
          - apply IHa. cbn [app] in H. now inversion_clear H. }
        induction HF as [|a acc Ha HF IHa]; cbn [insert_by_offset app]; [reflexivity|].
        destruct (Z.ltb_spec (tr_offset x) (tr_offset a)); [lia|]. f_equal. apply IHa.
        cbn [app] in H. now inversion_clear H. }
      now rewrite E, <- app_assoc.
    + assert (HF: Forall (fun a => tr_offset a <= tr_offset x) acc).
      { clear IH. induction acc as [|a acc IHa]; constructor.
        - cbn [app] in H. inversion_clear H as [|? ? _ HF]. rewrite Forall_forall in HF. apply HF, in_or_app. right; now left.
        - apply IHa. cbn [app] in H. now inversion_clear H. }
      assert (E: insert_by_offset x acc = acc ++ [x]).
      { clear H IH. induction HF as [|a acc Ha HF IHa]; cbn [insert_by_offset app]; [reflexivity|].
        destruct (Z.ltb_spec (tr_offset x) (tr_offset a)); [lia|]. f_equal. apply IHa. }
      rewrite E, <- app_assoc. exact H.
Qed.

(** ** Reading back what was written *)

Fixpoint recs (pos : Z) (l : list (list Z * list Z)) : list table_record :=
  match l with
  | [] => []
  | td :: l' => mkTR (fst td) (checksum (snd td)) pos (Z.of_nat (length (snd td))) :: recs (pos + plen td) l'
  end.

Lemma recs_length pos l : length (recs pos l) = length l.
Proof. revert pos; induction l; intros; cbn; congruence. Qed.

Lemma recs_nth l : forall pos i tr, nth_error (recs pos l) i = Some tr ->
  exists td, nth_error l i = Some td /\
    tr = mkTR (fst td) (checksum (snd td)) (off_of pos l i) (Z.of_nat (length (snd td))).
Proof.
  induction l as [|td l IH]; intros pos [|i] tr H; cbn [recs nth_error] in H; try discriminate.
  - injection H as <-. exists td. split; [reflexivity|]. f_equal. unfold off_of. cbn. lia.
  - destruct (IH _ _ _ H) as (td' & Hn & ->). exists td'. split; [exact Hn|]. f_equal.
    unfold off_of. cbn [firstn]. unfold body. cbn [map concat]. rewrite app_length. unfold plen. lia.
Qed.

Lemma recs_sorted l : forall pos, StronglySorted (fun a b => tr_offset a <= tr_offset b) (recs pos l) /\
  Forall (fun a => pos <= tr_offset a) (recs pos l).
Proof.
  induction l as [|td l IH]; intros pos; cbn [recs]; [split; constructor|].
  destruct (IH (pos + plen td)) as [H1 H2].
  assert (0 <= plen td) by (unfold plen; lia).
  assert (H3: Forall (fun a => pos <= tr_offset a) (recs (pos + plen td) l)).
  { eapply Forall_impl; [|exact H2]. cbn. lia. }
  split; constructor; auto. cbn. lia.
Qed.

Lemma entries_bytes l : forall pos, Forall (fun td => Forall is_byte (fst td)) l ->
  Forall is_byte (concat (entries pos l)).
Proof.
  induction l as [|td l IH]; intros pos H; cbn [entries concat]; [constructor|].
  inversion_clear H. apply Forall_app. split; [|now apply IH].
  unfold entry. repeat (apply Forall_app; split); try assumption; apply is_byte_byte, be_bytes_byte.
Qed.

Lemma pad4_bytes l : Forall is_byte l -> Forall is_byte (pad4 l).
Proof.
  intros H. apply Forall_app. split; [exact H|]. apply Forall_forall. intros x Hx.
  apply repeat_spec in Hx. subst. unfold is_byte. lia.
Qed.

Lemma Forall_firstn {A} (P : A -> Prop) n l : Forall P l -> Forall P (firstn n l).
Proof. intros H. rewrite <- (firstn_skipn n l) in H. now apply Forall_app in H. Qed.
Lemma Forall_skipn {A} (P : A -> Prop) n l : Forall P l -> Forall P (skipn n l).
Proof. intros H. rewrite <- (firstn_skipn n l) in H. now apply Forall_app in H. Qed.

Lemma adjusted_bytes w td : Forall is_byte w -> Forall is_byte (snd td) -> Forall is_byte (snd (adjusted w td)).
Proof.
  intros Hw Hd. unfold adjusted. cbn [snd]. destruct (list_eq_dec _ _ _); [|exact Hd].
  unfold with_adjustment. repeat (apply Forall_app; split); auto; [now apply Forall_firstn|now apply Forall_skipn].
Qed.

Lemma body_bytes l : Forall (fun td => Forall is_byte (snd td)) l -> Forall is_byte (body l).
Proof.
  induction 1 as [|td l H Hl IH]; unfold body; cbn [map concat]; [constructor|].
  apply Forall_app. split; [now apply pad4_bytes|exact IH].
Qed.

Lemma valid_is_byte t : valid_tag t -> Forall is_byte t.
Proof. intros H. apply is_byte_byte. now apply valid_tag_bytes. Qed.

Lemma good_len4 tabs : good_tabs tabs -> len4 tabs.
Proof. apply Forall_impl. intros td [[H _] _]. exact H. Qed.

Lemma files_bytes v tabs w : good_tabs tabs -> Forall is_byte w -> Forall is_byte (files_form v tabs w).
Proof.
  intros Hg Hw. unfold files_form. apply Forall_app. split.
  { unfold header. repeat (apply Forall_app; split); apply is_byte_byte, be_bytes_byte. }
  apply Forall_app. split.
  - apply entries_bytes. apply Forall_forall. intros td Htd. apply in_map_iff in Htd as (td0 & <- & Hin).
    unfold zeroed. rewrite adjusted_fst. unfold good_tabs in Hg. rewrite Forall_forall in Hg. apply valid_is_byte, Hg, Hin.
  - apply body_bytes. apply Forall_forall. intros td Htd. apply in_map_iff in Htd as (td0 & <- & Hin).
    apply adjusted_bytes; [exact Hw|]. unfold good_tabs in Hg. rewrite Forall_forall in Hg. apply Hg, Hin.
Qed.

Definition ptabs (tabs : list (list Z * list Z)) : Prop := Forall (fun td => printable_tag (fst td)) tabs.
Lemma ptabs_len4 tabs : ptabs tabs -> len4 tabs.
Proof. intros H. unfold len4. eapply Forall_impl; [|exact H]. intros td Htd. apply Htd. Qed.
Lemma good_ptabs tabs : good_tabs tabs -> ptabs tabs.
Proof. intros H. eapply Forall_impl; [|exact H]. intros td Htd. apply Htd. Qed.

Lemma files_directory v tabs w :
  (v = SFNT_TRUETYPE \/ v = SFNT_OPENTYPE) ->
  length w = 4%nat -> ptabs tabs -> forallb head_ok tabs = true ->
  Z.of_nat (length tabs) < 4096 -> Z.of_nat (length (files_form v tabs w)) < 2 ^ 32 ->
  directory (files_form v tabs w) v (recs (16 * Z.of_nat (length tabs) + 12) (map zeroed tabs)).
Proof.
  intros Hv Hw Hg Hh Hn Hsz. pose proof (ptabs_len4 _ Hg) as Hl. split; [exact Hv|]. split.
  { exists (ser_u32 v). split.
    - unfold files_form, header. rewrite <- !app_assoc. apply (slice_mid [] (ser_u32 v)).
    - apply digits_u32. destruct Hv as [-> | ->]; unfold SFNT_TRUETYPE, SFNT_OPENTYPE; lia. }
  split.
  { exists (ser_u16 (Z.of_nat (length tabs))). split.
    - unfold files_form, header. rewrite <- !app_assoc. apply (slice_mid (ser_u32 v) (ser_u16 _)).
    - rewrite recs_length, map_length. apply digits_u16. lia. }
  split; [rewrite files_length by assumption; lia|].
  intros i tr Htr. apply recs_nth in Htr as (tdz & Hz & ->).
  assert (exists td, nth_error tabs i = Some td /\ tdz = zeroed td) as (td & Htd & ->).
  { destruct (nth_error tabs i) as [td|] eqn:E.
    - exists td. split; [reflexivity|]. pose proof (map_nth_error zeroed _ _ E). congruence.
    - exfalso. apply nth_error_None in E. assert (i < length (map zeroed tabs))%nat by (apply nth_error_Some; congruence).
      rewrite map_length in H. lia. }
  unfold zeroed in *. rewrite off_of_adjusted by (try reflexivity; assumption).
  rewrite adjusted_fst.
  rewrite (head_ok_len zero4 tabs td) by (try reflexivity; try assumption; eapply nth_error_In; eauto).
  split; cbn [tr_tag tr_checksum tr_offset tr_length].
  - unfold ptabs in Hg. rewrite Forall_forall in Hg. apply Hg. eapply nth_error_In; eauto.
  - rewrite checksum_spec. now apply entry_at_file.
Qed.

Lemma map_ext_nth {A B C} (f : A -> C) (g : B -> C) l1 l2 : length l1 = length l2 ->
  (forall i a b, nth_error l1 i = Some a -> nth_error l2 i = Some b -> f a = g b) -> map f l1 = map g l2.
Proof.
  revert l2. induction l1 as [|a l1 IH]; intros [|b l2] Hl H; try discriminate; [reflexivity|].
  cbn [map]. f_equal; [now apply (H 0%nat)|]. apply IH; [cbn in Hl; lia|]. intros i. apply (H (S i)).
Qed.

Lemma files_read v tabs w :
  (v = SFNT_TRUETYPE \/ v = SFNT_OPENTYPE) ->
  length w = 4%nat -> Forall is_byte (files_form v tabs w) -> ptabs tabs -> forallb head_ok tabs = true ->
  sorted_map lex_ltb tabs ->
  Z.of_nat (length tabs) < 4096 -> Z.of_nat (length (files_form v tabs w)) < 2 ^ 32 ->
  from_bytes font_read_raw (files_form v tabs w) = Ok (v, map (adjusted w) tabs).
Proof.
  intros Hv Hw HB Hg Hh HS Hn Hsz. pose proof (ptabs_len4 _ Hg) as Hl.
  pose proof (files_directory v tabs w Hv Hw Hg Hh Hn Hsz) as HD.
  set (p0 := 16 * Z.of_nat (length tabs) + 12) in *.
  set (trs := recs p0 (map zeroed tabs)) in *.
  apply read_dir_spec in HD as (r' & HD); [|exact HB].
  rewrite font_read_raw_dir, HD.
  rewrite sort_sorted by apply recs_sorted.
  assert (Hget: forall i tr, nth_error trs i = Some tr -> exists td, nth_error tabs i = Some td /\
    tr = mkTR (fst td) (checksum (snd (zeroed td))) (off_of p0 tabs i) (Z.of_nat (length (snd td)))).
  { intros i tr Htr. apply recs_nth in Htr as (tdz & Hz & ->).
    destruct (nth_error tabs i) as [td|] eqn:E.
    - exists td. split; [reflexivity|]. pose proof (map_nth_error zeroed _ _ E) as Hm. rewrite Hm in Hz.
      injection Hz as <-. unfold zeroed. rewrite off_of_adjusted by (try reflexivity; assumption).
      rewrite adjusted_fst. rewrite (head_ok_len zero4 tabs td) by (try reflexivity; try assumption; eapply nth_error_In; eauto).
      reflexivity.
    - exfalso. apply nth_error_None in E. assert (i < length (map zeroed tabs))%nat by (apply nth_error_Some; congruence).
      rewrite map_length in H. lia. }
  rewrite load_records_ok.
  - cbn [rmap]. f_equal. f_equal.
    assert (E: map (fun tr => (tr_tag tr, rec_bytes (files_form v tabs w) tr)) trs = map (adjusted w) tabs).
    { apply map_ext_nth; [unfold trs; now rewrite recs_length, map_length|].
      intros i tr td Htr Htd. destruct (Hget i tr Htr) as (td' & Htd' & ->).
      assert (td' = td) by congruence. subst td'.
      rewrite (surjective_pairing (adjusted w td)), adjusted_fst. cbn [tr_tag]. f_equal.
      unfold rec_bytes. cbn [tr_length tr_offset]. rewrite Nat2Z.id.
      symmetry. eapply slice_eq. now apply data_slice. }
    rewrite E. apply (of_list_id lex_ltb lex_strict).
    unfold sorted_map in *. rewrite map_map.
    erewrite map_ext; [exact HS|]. intros td. apply adjusted_fst.
  - apply Forall_forall. intros tr Htr. apply In_nth_error in Htr as [i Htr].
    destruct (Hget i tr Htr) as (td & Htd & ->). unfold in_file. cbn [tr_offset tr_length].
    now apply off_of_end.
Qed.

Lemma wstar_ok v tabs : length (wstar v tabs) = 4%nat /\ Forall is_byte (wstar v tabs).
Proof. split; [reflexivity|]. apply is_byte_byte, be_bytes_byte. Qed.

Lemma sorted_tags_spec (tabs : list (list Z * list Z)) :
  tags_increasing (map fst tabs) <-> sorted_map lex_ltb tabs.
Proof.
  unfold sorted_map, sorted_keys. generalize (map fst tabs). clear tabs. intros l. split.
  - induction l as [|a l IH]; intros H; constructor.
    + apply IH. intros i j x y Hij Hi Hj. apply (H (S i) (S j)); [lia|exact Hi|exact Hj].
    + apply Forall_forall. intros y Hy. apply In_nth_error in Hy as [j Hj]. now apply (H 0%nat (S j)); [lia| |].
  - intros H. induction H as [|a l HS IH HF]; intros [|i] [|j] x y Hij Hi Hj; try lia; try discriminate.
    + cbn [nth_error] in Hi, Hj. injection Hi as <-. rewrite Forall_forall in HF. apply HF. eapply nth_error_In; eauto.
    + apply (IH i j); [lia|exact Hi|exact Hj].
Qed.

Lemma sorted_nodup (tabs : list (list Z * list Z)) : sorted_map lex_ltb tabs -> NoDup (map fst tabs).
Proof.
  unfold sorted_map, sorted_keys. induction 1 as [|a l HS IH HF]; constructor; auto.
  intros Hin. rewrite Forall_forall in HF. specialize (HF _ Hin). rewrite (st_irrefl _ lex_strict) in HF. discriminate.
Qed.

Lemma save_load v tabs file :
  (v = SFNT_TRUETYPE \/ v = SFNT_OPENTYPE) -> good_tabs tabs -> tags_increasing (map fst tabs) ->
  font_to_bytes v (map okd tabs) = Ok file -> Z.of_nat (length file) < 2 ^ 32 ->
  exists w, length w = 4%nat /\ from_bytes font_read_raw file = Ok (v, map (adjusted w) tabs).
Proof.
  intros Hv Hg HT Hf Hsz. apply sorted_tags_spec in HT.
  destruct (font_to_bytes_form v tabs file (sorted_nodup _ HT) (good_len4 _ Hg) Hf) as (Hn & Hh & -> & _).
  exists (wstar v tabs). split; [apply wstar_ok|]. apply files_read; try assumption; try apply wstar_ok; [apply files_bytes; [exact Hg|apply wstar_ok]|now apply good_ptabs].
Qed.

Lemma save_load_bytes v tabs file :
  (v = SFNT_TRUETYPE \/ v = SFNT_OPENTYPE) -> ptabs tabs -> tags_increasing (map fst tabs) ->
  font_to_bytes v (map okd tabs) = Ok file -> Z.of_nat (length file) < 2 ^ 32 -> Forall is_byte file ->
  exists w, length w = 4%nat /\ from_bytes font_read_raw file = Ok (v, map (adjusted w) tabs).
Proof.
  intros Hv Hg HT Hf Hsz HB. apply sorted_tags_spec in HT.
  destruct (font_to_bytes_form v tabs file (sorted_nodup _ HT) (ptabs_len4 _ Hg) Hf) as (Hn & Hh & -> & _).
  exists (wstar v tabs). split; [apply wstar_ok|]. apply files_read; try assumption; apply wstar_ok.
Qed.

Lemma with_adjustment_twice w w' d : length w = 4%nat -> (12 <= length d)%nat ->
  with_adjustment w' (with_adjustment w d) = with_adjustment w' d.
Proof.
  intros Hw Hd. unfold with_adjustment.
  assert (H8: length (firstn 8 d) = 8%nat) by (rewrite firstn_length; lia).
  f_equal; [|f_equal].
  - rewrite firstn_app, H8, Nat.sub_diag, firstn_O, app_nil_r, firstn_firstn. reflexivity.
  - rewrite app_assoc. rewrite skipn_app. rewrite (skipn_all2 (firstn 8 d ++ w)) by (rewrite app_length; lia).
    rewrite app_length, H8, Hw. cbn [Nat.add Nat.sub skipn app]. reflexivity.
Qed.

Lemma adjusted_twice w w' tabs td : length w = 4%nat -> forallb head_ok tabs = true -> In td tabs ->
  adjusted w' (adjusted w td) = adjusted w' td.
Proof.
  intros Hw Hh Hin. destruct td as [t d]. unfold adjusted. cbn [fst snd].
  destruct (list_eq_dec Z.eq_dec t HEAD) as [->|]; [|reflexivity]. f_equal.
  apply with_adjustment_twice; [exact Hw|].
  rewrite forallb_forall in Hh. specialize (Hh _ Hin). unfold head_ok in Hh. cbn [fst snd] in Hh.
  change (bytes_eqb HEAD TAG_head) with true in Hh. now apply Nat.leb_le.
Qed.

Lemma map_adjusted_twice w w' tabs : length w = 4%nat -> forallb head_ok tabs = true ->
  map (adjusted w') (map (adjusted w) tabs) = map (adjusted w') tabs.
Proof. intros Hw Hh. rewrite map_map. apply map_ext_in. intros td Hin. eapply adjusted_twice; eauto. Qed.

Lemma files_form_adjusted v tabs w w' : length w = 4%nat -> forallb head_ok tabs = true ->
  files_form v (map (adjusted w) tabs) w' = files_form v tabs w'.
Proof.
  intros Hw Hh. unfold files_form, zeroed. now rewrite map_length, !map_adjusted_twice.
Qed.

Lemma head_ok_adjusted w tabs : length w = 4%nat -> forallb head_ok tabs = true ->
  forallb head_ok (map (adjusted w) tabs) = true.
Proof.
  intros Hw Hh. apply forallb_forall. intros td Htd. apply in_map_iff in Htd as (td0 & <- & Hin).
  unfold head_ok. rewrite (head_ok_len w tabs td0) by assumption. rewrite adjusted_fst.
  rewrite forallb_forall in Hh. now apply Hh.
Qed.

Lemma save_load_save_bytes v tabs file v' tabs' :
  (v = SFNT_TRUETYPE \/ v = SFNT_OPENTYPE) -> ptabs tabs -> tags_increasing (map fst tabs) ->
  font_to_bytes v (map okd tabs) = Ok file -> Z.of_nat (length file) < 2 ^ 32 -> Forall is_byte file ->
  from_bytes font_read_raw file = Ok (v', tabs') ->
  font_to_bytes v' (map okd tabs') = Ok file.
Proof.
  intros Hv Hg HT Hf Hsz HB Hr. apply sorted_tags_spec in HT.
  pose proof (sorted_nodup _ HT) as Hnd.
  destruct (font_to_bytes_form v tabs file Hnd (ptabs_len4 _ Hg) Hf) as (Hn & Hh & E & _).
  destruct (wstar_ok v tabs) as [Hw Hwb].
  rewrite E in Hr, Hsz, HB. rewrite files_read in Hr by assumption. apply Ok_inj in Hr. injection Hr as <- <-.
  set (w := wstar v tabs) in *.
  destruct (font_to_bytes_ok v (map (adjusted w) tabs)) as [H _].
  - rewrite map_map. erewrite map_ext; [exact Hnd|]. intros; apply adjusted_fst.
  - apply len4_adjusted, ptabs_len4, Hg.
  - now rewrite map_length.
  - now apply head_ok_adjusted.
  - rewrite H. f_equal. rewrite E. unfold w at 2. unfold wstar.
    rewrite !files_form_adjusted by assumption. reflexivity.
Qed.
Lemma save_load_save v tabs file v' tabs' :
  (v = SFNT_TRUETYPE \/ v = SFNT_OPENTYPE) -> good_tabs tabs -> tags_increasing (map fst tabs) ->
  font_to_bytes v (map okd tabs) = Ok file -> Z.of_nat (length file) < 2 ^ 32 ->
  from_bytes font_read_raw file = Ok (v', tabs') ->
  font_to_bytes v' (map okd tabs') = Ok file.
Proof.
  intros Hv Hg HT Hf Hsz Hr. eapply save_load_save_bytes; eauto; [now apply good_ptabs|].
  destruct (font_to_bytes_form v tabs file (sorted_nodup _ (proj1 (sorted_tags_spec _) HT)) (good_len4 _ Hg) Hf) as (_ & _ & -> & _).
  apply files_bytes; [exact Hg|apply wstar_ok].
Qed.

(** Statement-level forms *)
Lemma save_directory v tabs file :
  good_tabs tabs -> tags_increasing (map fst tabs) ->
  font_to_bytes v (map okd tabs) = Ok file -> Z.of_nat (length file) < 2 ^ 32 ->
  exists (offs : list Z) (w : list Z),
    length offs = length tabs /\ length w = 4%nat /\
    slice file 0 4 (be_bytes 4 v) /\
    (exists n, slice file 4 2 n /\ digits_value n = Z.of_nat (length tabs)) /\
    (forall i td off, nth_error tabs i = Some td -> nth_error offs i = Some off ->
       let len := Z.of_nat (length (snd td)) in
       entry_at file i (fst td) (word_sum (snd (adjusted [0; 0; 0; 0] td)) mod 2 ^ 32) off len /\
       off mod 4 = 0 /\ 12 + 16 * Z.of_nat (length tabs) <= off /\ off + len <= Z.of_nat (length file) /\
       slice file (Z.to_nat off) (length (snd td)) (snd (adjusted w td))) /\
    (forall i j td off off', (i < j)%nat -> nth_error tabs i = Some td ->
       nth_error offs i = Some off -> nth_error offs j = Some off' ->
       off + Z.of_nat (length (snd td)) <= off').
Proof.
  intros Hg HT Hf Hsz. apply sorted_tags_spec in HT. pose proof (good_len4 _ Hg) as Hl.
  destruct (font_to_bytes_form v tabs file (sorted_nodup _ HT) Hl Hf) as (Hn & Hh & -> & _).
  destruct (wstar_ok v tabs) as [Hw _]. set (w := wstar v tabs) in *.
  set (p0 := 16 * Z.of_nat (length tabs) + 12).
  exists (map (off_of p0 tabs) (seq 0 (length tabs))), w.
  assert (Hoff: forall i off, nth_error (map (off_of p0 tabs) (seq 0 (length tabs))) i = Some off -> off = off_of p0 tabs i).
  { intros i off H. assert (i < length tabs)%nat.
    { assert (i < length (map (off_of p0 tabs) (seq 0 (length tabs))))%nat by (apply nth_error_Some; congruence).
      now rewrite map_length, seq_length in H0. }
    erewrite map_nth_error in H; [injection H as <-; reflexivity|].
    rewrite nth_error_nth' with (d := 0%nat) by (now rewrite seq_length). rewrite seq_nth by assumption. reflexivity. }
  split; [now rewrite map_length, seq_length|]. split; [exact Hw|]. split.
  { unfold files_form, header. rewrite <- !app_assoc. apply (slice_mid [] (ser_u32 v)). }
  split.
  { exists (ser_u16 (Z.of_nat (length tabs))). split; [|apply digits_u16; lia].
    unfold files_form, header. rewrite <- !app_assoc. apply (slice_mid (ser_u32 v) (ser_u16 _)). }
  split.
  - intros i td off Htd Ho. apply Hoff in Ho. subst off. cbv zeta.
    split; [now apply entry_at_file|]. split; [apply off_of_mod4|].
    split; [pose proof (off_of_start tabs p0 i); unfold p0 in *; lia|].
    split; [now apply off_of_end|now apply data_slice].
  - intros i j td off off' Hij Htd Ho Ho'. apply Hoff in Ho, Ho'. subst. now apply off_of_disjoint.
Qed.

Lemma save_checksum v tabs file : good_tabs tabs -> tags_increasing (map fst tabs) ->
  In HEAD (map fst tabs) -> font_to_bytes v (map okd tabs) = Ok file ->
  word_sum file mod 2 ^ 32 = 0xB1B0AFBA.
Proof.
  intros Hg HT Hin Hf. apply sorted_tags_spec in HT. rewrite <- checksum_spec.
  now apply (font_to_bytes_form v tabs file (sorted_nodup _ HT) (good_len4 _ Hg) Hf).
Qed.

Lemma save_succeeds v tabs : good_tabs tabs -> tags_increasing (map fst tabs) ->
  Z.of_nat (length tabs) < 4096 -> (forall d, In (HEAD, d) tabs -> (12 <= length d)%nat) ->
  exists file, font_to_bytes v (map okd tabs) = Ok file.
Proof.
  intros Hg HT Hn Hd. apply sorted_tags_spec in HT. eexists. apply font_to_bytes_ok.
  - now apply sorted_nodup. - now apply good_len4. - exact Hn.
  - apply forallb_forall. intros [t d] Hin. unfold head_ok. cbn [fst snd].
    destruct (bytes_eqb t TAG_head) eqn:E; [|reflexivity]. apply bytes_eqb_eq in E. subst t. cbn [negb orb].
    apply Nat.leb_le. now apply Hd.
Qed.

Lemma load_ok_inv file v m : Forall is_byte file -> from_bytes font_read_raw file = Ok (v, m) ->
  exists trs, directory file v trs /\ Forall (in_file file) trs /\
    (forall tr, In tr trs -> exists d, bm_get lex_ltb (tr_tag tr) m = Some d) /\
    (forall t d, bm_get lex_ltb t m = Some d -> exists tr, In tr trs /\ tr_tag tr = t /\
       slice file (Z.to_nat (tr_offset tr)) (Z.to_nat (tr_length tr)) d).
Proof.
  intros HB H. destruct (font_read_raw_cases file HB) as [(v0 & trs & HD & HF & E)|[(v0 & trs & _ & _ & E)|[_ E]]];
    rewrite E in H; try discriminate. apply Ok_inj in H. injection H as <- <-.
  exists trs. split; [exact HD|]. split; [exact HF|].
  set (kvs := map (fun tr => (tr_tag tr, rec_bytes file tr)) (sort_by_offset trs)).
  unfold bm_of_list.
  split.
  - intros tr Htr. rewrite (get_fold_insert lex_ltb lex_strict).
    destruct (find _ (rev kvs)) as [kv|] eqn:Ef; [eauto|]. exfalso.
    assert (Hin: In (tr_tag tr, rec_bytes file tr) (rev kvs)).
    { rewrite <- in_rev. unfold kvs. apply in_map_iff. exists tr. split; [reflexivity|].
      now apply (proj2 (sort_by_offset_In trs tr)). }
    pose proof (find_none _ _ Ef _ Hin) as Hn. cbn [fst] in Hn.
    rewrite (st_irrefl _ lex_strict) in Hn. discriminate.
  - intros t d. rewrite (get_fold_insert lex_ltb lex_strict).
    destruct (find _ (rev kvs)) as [kv|] eqn:Ef; [|discriminate]. intros [= <-].
    apply find_some in Ef as [Hin Ht]. rewrite <- in_rev in Hin. unfold kvs in Hin.
    apply in_map_iff in Hin as (tr & <- & Htr). apply (proj1 (sort_by_offset_In trs tr)) in Htr.
    exists tr. split; [exact Htr|]. cbn [fst snd] in *.
    apply negb_true_iff, (eq_case _ lex_strict) in Ht. subst t. split; [reflexivity|].
    apply slice_eq. rewrite Forall_forall in HF. specialize (HF _ Htr). unfold in_file in HF.
    assert (0 <= tr_offset tr /\ 0 <= tr_length tr).
    { apply In_nth_error in Htr as [i Htr]. destruct HD as (_ & _ & _ & _ & HD). specialize (HD _ _ Htr).
      destruct HD as (_ & c & o & l & Hs & _ & _ & _ & _ & Eo & El).
      assert (Forall is_byte (tr_tag tr ++ c ++ o ++ l)) by (eapply slice_bytes; eauto).
      rewrite !Forall_app in H. destruct H as (_ & _ & Ho & Hl). rewrite <- Eo, <- El.
      split; now apply digits_nonneg. }
    split; [lia|reflexivity].
Qed.

Lemma load_panic_iff file : Forall is_byte file ->
  (from_bytes font_read_raw file = Panic <->
   exists v trs, directory file v trs /\ Exists (fun tr => Z.of_nat (length file) < tr_offset tr + tr_length tr) trs).
Proof.
  intros HB. split.
  - intros H. destruct (font_read_raw_cases file HB) as [(v0 & trs & HD & HF & E)|[(v0 & trs & HD & HX & E)|[_ E]]];
    rewrite E in H; try discriminate. exists v0, trs. split; [exact HD|].
    eapply Exists_impl; [|exact HX]. unfold in_file. cbn. lia.
  - intros (v & trs & HD & HX). rewrite font_read_raw_dir. apply read_dir_spec in HD as (r' & ->); [|exact HB].
    rewrite load_records_panic; [reflexivity|]. apply Exists_exists in HX as (x & Hx & Hn). apply Exists_exists.
    exists x. split; [now apply (proj2 (sort_by_offset_In trs x))|]. unfold in_file. lia.
Qed.

Lemma load_err_iff file : Forall is_byte file ->
  (from_bytes font_read_raw file = Err <-> forall v trs, ~ directory file v trs).
Proof.
  intros HB. split.
  - intros H v trs HD. rewrite font_read_raw_dir in H. apply read_dir_spec in HD as (r' & HD); [|exact HB].
    rewrite HD in H. destruct (Forall_Exists_dec (in_file file) (in_file_dec file) (sort_by_offset trs)) as [HF|HX].
    + rewrite load_records_ok in H by exact HF. discriminate.
    + rewrite load_records_panic in H by exact HX. discriminate.
  - intros HN. destruct (font_read_raw_cases file HB) as [(v0 & trs & HD & HF & E)|[(v0 & trs & HD & HX & E)|[_ E]]];
      [now apply HN in HD|now apply HN in HD|exact E].
Qed.

(** Proofs about hmtx and loca. *)
From Verif.Model Require Import MMetrics.
From Verif.Spec Require Import SBase SReader SMetrics.
From Verif.Proofs Require Import PBase PCodec PReader PMap PFont PTables.

Lemma reads_metric m : metric_ok m -> reads de_metric (ser_metric m) m.
Proof.
  destruct m as [a l]. intros [Ha Hl]. unfold de_metric, ser_metric. cbn [m_adv m_lsb] in *.
  eapply reads_bind; [now apply rg_u16|]. cbn beta.
  apply (reads_map _ (fun l => mk_metric a l)). now apply rg_i16.
Qed.

Definition adv_at (ms : list metric) (i : nat) : Z := m_adv (nth i ms (mk_metric 0 0)).

Lemma end_index_spec ms : forall e, (e < length ms)%nat ->
  let k := end_index_loop ms e in
  (k <= e)%nat /\ (forall i, (k <= i <= e)%nat -> adv_at ms i = adv_at ms k) /\
  (k = 0%nat \/ adv_at ms (k - 1) <> adv_at ms k).
Proof.
  induction e as [|e IH]; intros He; cbn [end_index_loop].
  - cbn. repeat split; auto. intros i Hi. now replace i with 0%nat by lia.
  - destruct (Z.eqb_spec (m_adv (nth e ms (mk_metric 0 0))) (m_adv (nth (S e) ms (mk_metric 0 0)))) as [E|N].
    + destruct IH as (H1 & H2 & H3); [lia|]. cbv zeta in *. split; [lia|]. split; [|exact H3].
      intros i Hi. destruct (Nat.eq_dec i (S e)) as [->|?]; [|apply H2; lia].
      unfold adv_at at 1. rewrite <- E. apply H2. lia.
    + cbv zeta. split; [lia|]. split.
      * intros i Hi. now replace i with (S e) by lia.
      * right. replace (S e - 1)%nat with e by lia. exact N.
Qed.

Lemma ser_metrics_split e : forall ms i,
  ser_metrics_from i e ms =
  concat (map ser_metric (firstn (S e - i) ms)) ++ concat (map (fun m => ser_i16 (m_lsb m)) (skipn (S e - i) ms)).
Proof.
  induction ms as [|m ms IH]; intros i; cbn [ser_metrics_from].
  - now rewrite firstn_nil, skipn_nil.
  - destruct (Nat.leb_spec i e) as [H|H].
    + replace (S e - i)%nat with (S (S e - S i)) by lia. cbn [firstn skipn map concat].
      rewrite IH. now rewrite <- app_assoc.
    + replace (S e - i)%nat with 0%nat by lia. cbn [firstn skipn map concat app].
      rewrite IH. replace (S e - S i)%nat with 0%nat by lia. reflexivity.
Qed.

Lemma last_firstn (ms : list metric) e : (e < length ms)%nat ->
  exists l, rev (firstn (S e) ms) = nth e ms (mk_metric 0 0) :: l.
Proof.
  intros H. exists (rev (firstn e ms)).
  assert (firstn (S e) ms = firstn e ms ++ [nth e ms (mk_metric 0 0)]) as ->.
  { clear -H. revert e H. induction ms as [|m ms IH]; intros e H; cbn in H; [lia|].
    destruct e as [|e]; [reflexivity|]. cbn [nth].
    change (firstn (S (S e)) (m :: ms)) with (m :: firstn (S e) ms).
    change (firstn (S e) (m :: ms)) with (m :: firstn e ms). rewrite IH by lia. reflexivity. }
  now rewrite rev_app_distr.
Qed.

Lemma skipn_same_adv ms e : (e < length ms)%nat ->
  (forall i, (e <= i <= length ms - 1)%nat -> adv_at ms i = adv_at ms e) ->
  map (fun m => mk_metric (adv_at ms e) (m_lsb m)) (skipn (S e) ms) = skipn (S e) ms.
Proof.
  intros He H. rewrite <- (map_id (skipn (S e) ms)) at 2. apply map_ext_in.
  intros m Hm. apply In_nth with (d := mk_metric 0 0) in Hm. destruct Hm as (j & Hj & Hm).
  rewrite skipn_length in Hj.
  assert (Hn: nth (S e + j) ms (mk_metric 0 0) = m).
  { rewrite <- Hm. clear -Hj. rewrite <- (firstn_skipn (S e) ms) at 1.
    rewrite app_nth2; rewrite firstn_length_le; try lia.
    f_equal. lia. }
  specialize (H (S e + j)%nat ltac:(lia)). unfold adv_at in H at 1. rewrite Hn in H.
  destruct m as [a l]; cbn in *. now rewrite <- H.
Qed.

Lemma hmtx_write_read ms bs n :
  ms <> [] -> Forall metric_ok ms -> Z.of_nat (length ms) <= 65535 ->
  hmtx_to_bytes ms = (bs, n) ->
  1 <= n <= Z.of_nat (length ms) /\ from_bytes (de_hmtx n) bs = Ok ms.
Proof.
  intros Hne Hok Hlen. unfold hmtx_to_bytes.
  assert (Hl: (0 < length ms)%nat) by (destruct ms; [congruence|cbn; lia]).
  set (e := end_index_loop ms (length ms - 1)).
  destruct (end_index_spec ms (length ms - 1) ltac:(lia)) as (H1 & H2 & _). fold e in H1, H2.
  replace (match ms with [] => ([], 0) | _ :: _ => (ser_metrics_from 0 e ms, u16 (Z.of_nat (e + 1))) end)
    with (ser_metrics_from 0 e ms, u16 (Z.of_nat (e + 1))) by (destruct ms; [congruence|reflexivity]).
  intros E. injection E as <- <-. rewrite u16_id by lia. split; [lia|].
  rewrite ser_metrics_split, Nat.sub_0_r. unfold from_bytes, de_hmtx, pbind.
  replace (Z.to_nat (Z.of_nat (e + 1))) with (length (firstn (S e) ms)) by (rewrite firstn_length_le; lia).
  assert (Hf1: Forall metric_ok (firstn (S e) ms) /\ Forall metric_ok (skipn (S e) ms)).
  { rewrite <- Forall_app, firstn_skipn. exact Hok. }
  destruct Hf1 as [Hf1 Hf2].
  rewrite (reads_counted de_metric ser_metric (firstn (S e) ms)) with
    (post := concat (map (fun m => ser_i16 (m_lsb m)) (skipn (S e) ms))).
  2:{ eapply Forall_impl; [|exact Hf1]. intros; now apply reads_metric. }
  2:{ reflexivity. }
  set (r1 := adv _ _).
  assert (Hr1: rest r1 = concat (map ser_i16 (map m_lsb (skipn (S e) ms))) ++ []).
  { rewrite app_nil_r, map_map. unfold r1. rewrite rest_adv. unfold rest; cbn [rd_new rd_ptr rd_input].
    cbn [skipn]. apply skipn_app_exact. }
  rewrite (de_vec_exact de_i16 ser_i16 (map m_lsb (skipn (S e) ms)) [] r1).
  - destruct (last_firstn ms e ltac:(lia)) as [l ->]. unfold pret.
    rewrite map_map. fold (adv_at ms e). rewrite skipn_same_adv by (auto; lia).
    now rewrite firstn_skipn.
  - apply Forall_forall. intros x Hx. apply in_map_iff in Hx. destruct Hx as (m & <- & Hm).
    apply rg_i16. rewrite Forall_forall in Hf2. now apply Hf2.
  - intros a _. discriminate.
  - exact Hr1.
  - apply prim_eof. rewrite rest_adv, Hr1, skipn_app_exact. cbn. lia.
Qed.

Lemma de_counted_length {A} (p : parser A) n : forall r l r', de_counted p n r = Ok (l, r') -> length l = n.
Proof.
  induction n as [|n IH]; intros r l r'; cbn [de_counted].
  - unfold pret. intros E. injection E as <- <-. reflexivity.
  - unfold pbind, pret. destruct (p r) as [[x r1]| |]; try discriminate.
    destruct (de_counted p n r1) as [[xs r2]| |] eqn:E; try discriminate.
    intros E2. injection E2 as <- <-. cbn. f_equal. eauto.
Qed.

(** Whatever bytes give back [ms], all advances from the last long metric on agree. *)
Lemma de_hmtx_shape n data ms : 0 <= n -> from_bytes (de_hmtx n) data = Ok ms ->
  1 <= n <= Z.of_nat (length ms) /\
  forall i, (Z.to_nat n - 1 <= i < length ms)%nat -> adv_at ms i = adv_at ms (Z.to_nat n - 1).
Proof.
  intros Hn. unfold from_bytes, de_hmtx, pbind.
  destruct (de_counted de_metric (Z.to_nat n) (rd_new data)) as [[l r1]| |] eqn:E; try discriminate.
  apply de_counted_length in E.
  destruct (de_vec de_i16 r1) as [[o r2]| |]; try discriminate.
  destruct (rev l) as [|lastm before] eqn:Er; [discriminate|]. unfold pret.
  intros H; apply Ok_inj in H. subst ms.
  assert (Hl: l = rev before ++ [lastm]).
  { rewrite <- (rev_involutive l), Er. reflexivity. }
  assert (Hlen: length l = S (length before)) by (rewrite Hl, app_length, rev_length; cbn; lia).
  rewrite app_length, map_length. split; [lia|].
  assert (Hlast: forall x, adv_at (l ++ x) (Z.to_nat n - 1) = m_adv lastm).
  { intros x. unfold adv_at. rewrite app_nth1 by lia. rewrite Hl.
    rewrite app_nth2; rewrite rev_length; [|lia].
    replace (Z.to_nat n - 1 - length before)%nat with 0%nat by lia. reflexivity. }
  intros i Hi. rewrite Hlast. destruct (Nat.lt_ge_cases i (length l)) as [H|H].
  - replace i with (Z.to_nat n - 1)%nat by lia. apply Hlast.
  - unfold adv_at. rewrite app_nth2 by lia.
    rewrite nth_indep with (d' := (fun x => mk_metric (m_adv lastm) x) 0) by (rewrite map_length; lia).
    now rewrite map_nth.
Qed.

Lemma hmtx_minimal ms bs n : ms <> [] -> Z.of_nat (length ms) <= 65535 -> hmtx_to_bytes ms = (bs, n) ->
  forall k data, 0 <= k -> from_bytes (de_hmtx k) data = Ok ms -> n <= k.
Proof.
  intros Hne Hlen. unfold hmtx_to_bytes.
  assert (Hl: (0 < length ms)%nat) by (destruct ms; [congruence|cbn; lia]).
  set (e := end_index_loop ms (length ms - 1)).
  destruct (end_index_spec ms (length ms - 1) ltac:(lia)) as (H1 & _ & H3). fold e in H1, H3.
  replace (match ms with [] => ([], 0) | _ :: _ => (ser_metrics_from 0 e ms, u16 (Z.of_nat (e + 1))) end)
    with (ser_metrics_from 0 e ms, u16 (Z.of_nat (e + 1))) by (destruct ms; [congruence|reflexivity]).
  intros E. injection E as <- <-. rewrite u16_id by lia.
  intros k data Hk H. destruct (de_hmtx_shape k data ms Hk H) as [Hk1 Hs].
  destruct (Z.le_gt_cases (Z.of_nat (e + 1)) k) as [?|Hlt]; [assumption|exfalso].
  destruct H3 as [H3|H3]; [lia|]. apply H3.
  rewrite (Hs (e - 1)%nat) by lia. symmetry. apply Hs. lia.
Qed.

Lemma count_while_spec {A} (f : A -> bool) l :
  (count_while f l <= length l)%nat /\
  (forall i x, (i < count_while f l)%nat -> nth_error l i = Some x -> f x = true) /\
  (forall x, nth_error l (count_while f l) = Some x -> f x = false).
Proof.
  induction l as [|y l (IH1 & IH2 & IH3)]; cbn [count_while length].
  - repeat split; [lia|intros; lia|]. intros x; destruct (count_while f []); discriminate.
  - destruct (f y) eqn:E.
    + repeat split; [lia| |intros x; cbn [nth_error]; apply IH3].
      intros [|i] x Hi; cbn [nth_error]; [congruence|]. apply IH2. lia.
    + repeat split; [lia|intros; lia|]. cbn. intros x; congruence.
Qed.

Lemma nth_error_rev {A} (l : list A) i : (i < length l)%nat ->
  nth_error (rev l) i = nth_error l (length l - 1 - i).
Proof.
  revert i. induction l as [|a l IH]; intros i Hi; cbn in Hi; [lia|]. cbn [rev].
  destruct (Nat.eq_dec i (length l)) as [->|N].
  - rewrite nth_error_app2; rewrite rev_length; [|lia].
    rewrite Nat.sub_diag. replace (length (a :: l) - 1 - length l)%nat with 0%nat by (cbn; lia). reflexivity.
  - rewrite nth_error_app1 by (rewrite rev_length; lia). rewrite IH by lia.
    replace (length (a :: l) - 1 - i)%nat with (S (length l - 1 - i)) by (cbn; lia). reflexivity.
Qed.

Lemma adv_nth_error ms i x : nth_error ms i = Some x -> adv_at ms i = m_adv x.
Proof. intros H. unfold adv_at. now rewrite (nth_error_nth _ _ _ H). Qed.

Lemma number_eq ms bs n : Z.of_nat (length ms) <= 65535 -> hmtx_to_bytes ms = (bs, n) ->
  number_of_hmetrics ms = Ok n.
Proof.
  intros Hlen. unfold hmtx_to_bytes, number_of_hmetrics.
  destruct ms as [|m0 ms0] eqn:Ems; [intros E; injection E as <- <-; reflexivity|].
  rewrite <- Ems in *. assert (Hl: (0 < length ms)%nat) by (subst; cbn; lia). clear m0 ms0 Ems.
  set (e := end_index_loop ms (length ms - 1)).
  destruct (end_index_spec ms (length ms - 1) ltac:(lia)) as (H1 & H2 & H3). fold e in H1, H2, H3.
  intros E. injection E as <- <-. rewrite u16_id by lia.
  destruct (rev ms) as [|lastm before] eqn:Er.
  { apply (f_equal (@length _)) in Er. rewrite rev_length in Er. cbn in Er. lia. }
  assert (Hlb: length ms = S (length before)) by (rewrite <- rev_length, Er; reflexivity).
  set (f := fun m => m_adv m =? m_adv lastm).
  destruct (count_while_spec f before) as (C1 & C2 & C3). set (c := count_while f before) in *.
  assert (Hlast: adv_at ms (length ms - 1) = m_adv lastm).
  { apply adv_nth_error. replace (length ms - 1)%nat with (length ms - 1 - 0)%nat by lia.
    rewrite <- nth_error_rev by lia. now rewrite Er. }
  assert (Hb: forall i, (i < length before)%nat -> exists x, nth_error before i = Some x /\ adv_at ms (length ms - 2 - i) = m_adv x).
  { intros i Hi. destruct (nth_error before i) as [x|] eqn:Ex; [|apply nth_error_None in Ex; lia].
    exists x. split; [reflexivity|]. apply adv_nth_error.
    replace (length ms - 2 - i)%nat with (length ms - 1 - (S i))%nat by lia.
    rewrite <- nth_error_rev by lia. now rewrite Er. }
  assert (Hce: (length ms - c = e + 1)%nat).
  { assert (adv_at ms e = m_adv lastm) by (rewrite <- Hlast; symmetry; apply H2; lia).
    destruct (Nat.lt_trichotomy c (length ms - 1 - e)%nat) as [Hlt|[Heq|Hgt]]; [exfalso|lia|exfalso].
    - destruct (Hb c ltac:(lia)) as (x & Hx & Ha). specialize (C3 x Hx). unfold f in C3.
      apply Z.eqb_neq in C3. apply C3. rewrite <- Ha, (H2 (length ms - 2 - c)%nat) by lia. assumption.
    - destruct H3 as [H3|H3]; [lia|]. apply H3.
      destruct (Hb (length ms - 1 - e)%nat ltac:(lia)) as (x & Hx & Ha).
      specialize (C2 _ x Hgt Hx). unfold f in C2. apply Z.eqb_eq in C2.
      replace (length ms - 2 - (length ms - 1 - e))%nat with (e - 1)%nat in Ha by lia.
      congruence. }
  rewrite Hce. unfold try_u. change (2 ^ 16) with 65536.
  replace ((0 <=? Z.of_nat (e + 1)) && (Z.of_nat (e + 1) <? 65536)) with true by lia. reflexivity.
Qed.

Lemma hmtx_zero_panics data : from_bytes (de_hmtx 0) data = Panic.
Proof.
  assert (H: forall k r, exists l r', de_vec_fuel de_i16 k r = Ok (l, r')).
  { induction k as [|k IH]; intros r; cbn [de_vec_fuel]; [eauto|].
    destruct (de_i16 r) as [[x r1]| |] eqn:E; [|eauto|].
    - destruct (IH r1) as (l & r2 & ->). eauto.
    - exfalso. revert E. exact (de_prim_nopanic I16 r). }
  unfold from_bytes, de_hmtx, pbind. change (Z.to_nat 0) with 0%nat. unfold de_counted, pret, de_vec. cbv beta iota.
  match goal with |- context [de_vec_fuel de_i16 ?k ?r] => destruct (H k r) as (l & r' & ->) end.
  reflexivity.
Qed.

Lemma hmtx_empty_refuted : hmtx_to_bytes [] = ([], 0) /\ number_of_hmetrics [] = Ok 0 /\
  forall data, from_bytes (de_hmtx 0) data = Panic.
Proof. repeat split. apply hmtx_zero_panics. Qed.

Lemma hmtx_full ms : ms <> [] -> Forall metric_ok ms -> Z.of_nat (length ms) <= 65535 ->
  exists bs n, hmtx_to_bytes ms = (bs, n) /\ number_of_hmetrics ms = Ok n /\
    1 <= n <= Z.of_nat (length ms) /\ from_bytes (de_hmtx n) bs = Ok ms /\
    forall k data, 0 <= k -> from_bytes (de_hmtx k) data = Ok ms -> n <= k.
Proof.
  intros H1 H2 H3. destruct (hmtx_to_bytes ms) as [bs n] eqn:E. exists bs, n.
  split; [reflexivity|]. split; [now apply (number_eq ms bs)|].
  destruct (hmtx_write_read ms bs n H1 H2 H3 E). split; [assumption|]. split; [assumption|].
  now apply (hmtx_minimal ms bs n).
Qed.

(** ** loca *)
Lemma loca_windows_length l : length (loca_windows l) = (length l - 1)%nat.
Proof.
  induction l as [|a l IH]; [reflexivity|]. destruct l as [|b l]; [reflexivity|].
  change (loca_windows (a :: b :: l)) with ((if a =? b then None else Some a) :: loca_windows (b :: l)).
  cbn [length] in *. rewrite IH. lia.
Qed.
Lemma loca_windows_nth : forall l i a b, nth_error l i = Some a -> nth_error l (S i) = Some b ->
  nth_error (loca_windows l) i = Some (if a =? b then None else Some a).
Proof.
  induction l as [|x l IH]; intros i a b Ha Hb; [now destruct i|].
  destruct l as [|y l]; [destruct i; discriminate|].
  change (loca_windows (x :: y :: l)) with ((if x =? y then None else Some x) :: loca_windows (y :: l)).
  destruct i as [|i]; cbn in Ha, Hb.
  - injection Ha as <-. injection Hb as <-. reflexivity.
  - cbn [nth_error]. apply IH; assumption.
Qed.

(** Reading fixed-width unsigned integers to the end: floor(length/width) values. *)
Lemma de_vec_prim_any t : prim_signed t = false -> forall fuel r,
  (length (rest r) < fuel)%nat ->
  exists l r', de_vec_fuel (de_prim t) fuel r = Ok (l, r') /\
    length l = (length (rest r) / prim_width t)%nat /\
    forall i, (i < length l)%nat -> exists bs,
      slice (rest r) (i * prim_width t) (prim_width t) bs /\ nth_error l i = Some (digits_value bs).
Proof.
  intros Hs. assert (Hw := prim_width_pos t). induction fuel as [|k IH]; intros r Hf; [lia|].
  cbn [de_vec_fuel].
  destruct (Nat.lt_ge_cases (length (rest r)) (prim_width t)) as [Hlt|Hge].
  - rewrite prim_eof by exact Hlt. exists [], r. split; [reflexivity|]. split.
    + now rewrite Nat.div_small.
    + cbn; intros; lia.
  - set (bs := firstn (prim_width t) (rest r)).
    assert (Hbl: length bs = prim_width t) by (unfold bs; rewrite firstn_length_le; lia).
    assert (Hr: rest r = bs ++ skipn (prim_width t) (rest r)) by (unfold bs; now rewrite firstn_skipn).
    assert (Hd: de_prim t r = Ok (digits_value bs, adv r (prim_width t))).
    { unfold de_prim. rewrite <- Hbl at 1. rewrite (reads_consume r bs (skipn (prim_width t) (rest r)));
        [|intros E; rewrite E in Hbl; cbn in Hbl; lia|exact Hr].
      rewrite Hs, digits_value_eq, Hbl. reflexivity. }
    rewrite Hd.
    assert (Hr2: rest (adv r (prim_width t)) = skipn (prim_width t) (rest r)) by apply rest_adv.
    destruct (IH (adv r (prim_width t))) as (l & r' & E & Hl & Hn).
    { rewrite Hr2, skipn_length. lia. }
    rewrite E. exists (digits_value bs :: l), r'. split; [reflexivity|].
    rewrite Hr2, skipn_length in Hl. split.
    + cbn [length]. rewrite Hl.
      replace (length (rest r)) with ((length (rest r) - prim_width t) + 1 * prim_width t)%nat at 2 by lia.
      rewrite Nat.div_add by lia. lia.
    + intros [|i] Hi; cbn [nth_error].
      * exists bs. split; [|reflexivity]. rewrite Nat.mul_0_l. split; [exact Hbl|]. split; [lia|].
        intros j Hj. unfold bs. rewrite nth_error_firstn_lt by lia. reflexivity.
      * cbn [length] in Hi. destruct (Hn i ltac:(lia)) as (b & (S1 & S2 & S3) & Hb).
        exists b. split; [|exact Hb]. rewrite Hr2 in S2, S3. rewrite skipn_length in S2.
        split; [exact S1|]. split; [lia|].
        intros j Hj. rewrite S3 by exact Hj. rewrite nth_error_skipn. f_equal. lia.
Qed.

Lemma loca_spec is32 data :
  exists idx, from_bytes (de_loca is32) data = Ok idx /\
    length idx = (length data / (if is32 then 4 else 2) - 1)%nat /\
    forall i, (i < length idx)%nat -> exists a b,
      loca_entry is32 data i a /\ loca_entry is32 data (S i) b /\
      nth_error idx i = Some (if a =? b then None else Some a).
Proof.
  unfold from_bytes, de_loca, pbind.
  set (t := if is32 then U32 else U16).
  assert (Ht: prim_signed t = false) by (unfold t; now destruct is32).
  destruct (de_vec_prim_any t Ht (S (length (rd_input (rd_new data)) - rd_ptr (rd_new data))) (rd_new data))
    as (l & r' & E & Hl & Hn); [rewrite rest_length; lia|].
  change (rest (rd_new data)) with data in *.
  assert (Hw: prim_width t = (if is32 then 4 else 2)%nat) by (unfold t; now destruct is32).
  set (raw := map (fun v => v * (if is32 then 1 else 2)) l).
  exists (loca_windows raw). split; [|split].
  - unfold raw. destruct is32.
    + change (de_vec de_u32 (rd_new data)) with
        (de_vec_fuel (de_prim t) (S (length (rd_input (rd_new data)) - rd_ptr (rd_new data))) (rd_new data)).
      rewrite E. unfold pret. do 2 f_equal.
      rewrite <- (map_id l) at 1. apply map_ext. intros; lia.
    + change (de_vec de_u16 (rd_new data)) with
        (de_vec_fuel (de_prim t) (S (length (rd_input (rd_new data)) - rd_ptr (rd_new data))) (rd_new data)).
      rewrite E. unfold pret. reflexivity.
  - rewrite loca_windows_length. unfold raw. rewrite map_length, Hl, Hw. reflexivity.
  - intros i Hi. rewrite loca_windows_length in Hi. unfold raw in Hi; rewrite map_length in Hi.
    assert (HH: forall j, (j < length l)%nat -> exists c, loca_entry is32 data j c /\ nth_error raw j = Some c).
    { intros j Hj. destruct (Hn j Hj) as (bs' & S' & En). rewrite Hw in S'.
      exists (digits_value bs' * (if is32 then 1 else 2)). split; [exists bs'; auto|].
      unfold raw. now rewrite nth_error_map, En. }
    destruct (HH i ltac:(lia)) as (a & Ha & Ea). destruct (HH (S i) ltac:(lia)) as (b & Hb & Eb).
    exists a, b. split; [exact Ha|]. split; [exact Hb|]. now apply loca_windows_nth.
Qed.

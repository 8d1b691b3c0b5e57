(** Tuple variation stores and item variation data. *)
From Verif.Model Require Import MBase MFixed MGlyph MPacked.
From Verif.Spec Require Import SBase SGlyph SPacked.
From Verif.Proofs Require Import PBase PCodec PFixed PTables PGlyph PGlyphFmt PPacked PPoints.

Lemma tuple_reads t : Forall f2dot14_value t ->
  exists bs, ser_tuple t = Ok bs /\ reads (de_tuple (length t)) bs t /\ length bs = (2 * length t)%nat.
Proof.
  intros H. assert (E: exists ps, t = map f2dot14_from_packed ps /\ Forall (in_range I16) ps).
  { induction H as [|x t (p & Hp & ->) Ht (ps & -> & Hps)]; [exists []; split; [reflexivity|constructor]|].
    exists (p :: ps). split; [reflexivity|now constructor]. }
  destruct E as (ps & -> & Hps). exists (concat (map ser_i16 ps)). split; [|split].
  - unfold ser_tuple. rewrite (rmapM_Ok ser_f2dot14 (fun x => match f2dot14_as_packed x with Some p => ser_i16 p | None => [] end)).
    + cbn [rmap]. f_equal. f_equal. rewrite map_map. apply map_ext_Forall. eapply Forall_impl; [|exact Hps].
      intros p Hp. cbn in Hp. now rewrite f2dot14_packed_id by lia.
    + intros x Hx. apply in_map_iff in Hx as (p & <- & Hp). rewrite Forall_forall in Hps. specialize (Hps p Hp). cbn in Hps.
      unfold ser_f2dot14. now rewrite f2dot14_packed_id by lia.
  - rewrite map_length. unfold de_tuple. apply (reads_map _ (map f2dot14_from_packed)). apply reads_counted.
    eapply Forall_impl; [|exact Hps]. exact rg_i16.
  - rewrite map_length. clear. induction ps as [|p ps IH]; [reflexivity|]. cbn [map concat length]. rewrite app_length, IH.
    change (length (ser_i16 p)) with 2%nat. lia.
Qed.

Lemma opt_tuple_reads axes wanted t : tuple_ok axes wanted t ->
  exists bs, ser_opt_tuple wanted t = Ok bs /\
    reads (if wanted then t <-- de_tuple axes ;; pret (Some t) else pret None) bs t /\
    length bs = (if wanted then 2 * axes else 0)%nat.
Proof.
  destruct t as [t|]; cbn [tuple_ok].
  - intros (-> & <- & H). destruct (tuple_reads t H) as (bs & E & R & L). exists bs. split; [exact E|]. split; [|exact L].
    now apply (reads_map _ Some).
  - intros ->. exists []. split; [reflexivity|]. split; [exact (reads_pret None)|reflexivity].
Qed.

Lemma contains_15 g : contains g EMBEDDED_PEAK_TUPLE = Z.testbit g 15.
Proof. change EMBEDDED_PEAK_TUPLE with (2 ^ 15). apply contains_bit. lia. Qed.
Lemma contains_14 g : contains g INTERMEDIATE_REGION = Z.testbit g 14.
Proof. change INTERMEDIATE_REGION with (2 ^ 14). apply contains_bit. lia. Qed.
Lemma contains_13 g : contains g PRIVATE_POINT_NUMBERS = Z.testbit g 13.
Proof. change PRIVATE_POINT_NUMBERS with (2 ^ 13). apply contains_bit. lia. Qed.

Section Header.
Variable axes : nat.
Variable h : tvh.
Variable priv : bool.
Hypothesis Hok : header_ok axes h.
Let f : Z := if priv then Z.lor (tv_flags h) PRIVATE_POINT_NUMBERS else tv_flags h.
Let w : Z := Z.lor (tv_index h) f.

Lemma index_high k : 12 <= k -> Z.testbit (tv_index h) k = false.
Proof.
  intros Hk. destruct Hok as (_ & Hi & _). rewrite <- (Z.mod_small (tv_index h) (2 ^ 12)) by (change (2 ^ 12) with 4096; lia).
  apply Z.mod_pow2_bits_high. lia.
Qed.
Lemma priv_bits k : 0 <= k -> Z.testbit f k = orb (Z.testbit (tv_flags h) k) (priv && (k =? 13)).
Proof.
  intros Hk. unfold f. destruct priv; cbn [andb]; [|now rewrite orb_false_r].
  rewrite Z.lor_spec. f_equal. change PRIVATE_POINT_NUMBERS with (2 ^ 13). rewrite Z.pow2_bits_eqb by lia. lia.
Qed.
Lemma w_bits k : 12 <= k -> Z.testbit w k = orb (Z.testbit (tv_flags h) k) (priv && (k =? 13)).
Proof. intros Hk. unfold w. rewrite Z.lor_spec, index_high by lia. cbn [orb]. apply priv_bits. lia. Qed.
Lemma w_range : 0 <= w < 65536.
Proof.
  assert (H0: 0 <= w).
  { unfold w, f. destruct Hok as (Hf & Hi & _). cbn in Hf. apply Z.lor_nonneg. split; [lia|].
    destruct priv; [|lia]. apply Z.lor_nonneg. unfold PRIVATE_POINT_NUMBERS. lia. }
  split; [exact H0|]. destruct (Z.eq_dec w 0) as [->|Hw]; [lia|]. change 65536 with (2 ^ 16). apply Z.log2_lt_pow2; [lia|].
  destruct (Z_lt_ge_dec (Z.log2 w) 16) as [|Hl]; [assumption|exfalso].
  assert (B: Z.testbit w (Z.log2 w) = true) by (apply Z.bit_log2; lia).
  rewrite w_bits in B by lia. destruct Hok as (Hf & _). cbn in Hf.
  rewrite <- (Z.mod_small (tv_flags h) (2 ^ 16)) in B by (change (2 ^ 16) with 65536; lia).
  rewrite Z.mod_pow2_bits_high in B by lia. lia.
Qed.
Lemma w_index : Z.land w TUPLE_INDEX_MASK = tv_index h.
Proof.
  destruct Hok as (Hf & Hi & _ & _ & _ & Hm & _). change TUPLE_INDEX_MASK with (Z.ones 12). unfold w.
  rewrite Z.land_lor_distr_l. assert (E: Z.land f (Z.ones 12) = 0).
  { unfold f. change (Z.ones 12) with 4095. destruct priv; [|exact Hm]. rewrite Z.land_lor_distr_l, Hm. reflexivity. }
  rewrite E, Z.lor_0_r, Z.land_ones by lia. apply Z.mod_small. change (2 ^ 12) with 4096. lia.
Qed.

Definition read_header (size : Z) : tvh := mk_tvh size w (tv_index h) (tv_peak h) (tv_start h) (tv_end h).

Lemma header_reads : exists hb, ser_tvh (set_flags h f) = Ok hb /\
  (length hb <= 4 + 6 * axes)%nat /\
  forall size, 0 <= size < 65536 -> reads (de_tvh axes) (ser_u16 size ++ skipn 2 hb) (read_header size).
Proof.
  destruct Hok as (Hf & Hi & Hp & Hs & He & Hm & Hn).
  destruct (opt_tuple_reads _ _ _ Hp) as (pb & P1 & P2 & P3).
  destruct (opt_tuple_reads _ _ _ Hs) as (sb & S1 & S2 & S3).
  destruct (opt_tuple_reads _ _ _ He) as (eb & E1 & E2 & E3).
  unfold ser_tvh, set_flags. cbn [tv_flags tv_peak tv_start tv_end tv_size tv_index].
  rewrite contains_15, contains_14, !priv_bits by lia.
  replace (priv && (15 =? 13)) with false by (destruct priv; reflexivity).
  replace (priv && (14 =? 13)) with false by (destruct priv; reflexivity). rewrite !orb_false_r.
  rewrite P1, S1, E1. cbn [rbind]. eexists. split; [reflexivity|]. split.
  { rewrite !app_length. change (length (ser_u16 (tv_size h))) with 2%nat.
    change (length (ser_u16 (Z.lor (tv_index h) f))) with 2%nat. rewrite P3, S3, E3.
    destruct (Z.testbit (tv_flags h) 15), (Z.testbit (tv_flags h) 14); lia. }
  intros size Hsz. change (skipn 2 (ser_u16 (tv_size h) ++ ser_u16 (Z.lor (tv_index h) f) ++ pb ++ sb ++ eb))
    with (ser_u16 w ++ pb ++ sb ++ eb).
  unfold de_tvh. eapply reads_bind; [now apply reads_u16|]. cbn beta.
  eapply reads_bind; [apply reads_u16, w_range|]. cbn beta.
  rewrite contains_15, contains_14, !w_bits by lia.
  replace (priv && (15 =? 13)) with false by (destruct priv; reflexivity).
  replace (priv && (14 =? 13)) with false by (destruct priv; reflexivity). rewrite !orb_false_r.
  eapply reads_bind; [exact P2|]. cbn beta. rewrite <- (app_nil_r (sb ++ eb)).
  eapply (reads_bind _ _ _ _ (tv_start h, tv_end h)).
  - destruct (Z.testbit (tv_flags h) 14).
    + destruct (tv_start h) as [st|]; [|discriminate Hs]. destruct (tv_end h) as [en|]; [|discriminate He].
      destruct Hs as (_ & Ls & Hs). destruct He as (_ & Le & He).
      destruct (tuple_reads st Hs) as (sb' & S1' & S2' & _). destruct (tuple_reads en He) as (eb' & E1' & E2' & _).
      cbn [ser_opt_tuple] in S1, E1. rewrite S1' in S1. rewrite E1' in E1. apply Ok_inj in S1. apply Ok_inj in E1. subst sb' eb'.
      rewrite Ls in S2'. rewrite Le in E2'.
      eapply reads_bind; [exact S2'|]. cbn beta. apply (reads_map _ (fun e => (Some st, Some e))). exact E2'.
    + destruct (tv_start h) as [st|]; [destruct Hs; discriminate|]. destruct (tv_end h) as [en|]; [destruct He; discriminate|].
      cbn [ser_opt_tuple] in S1, E1. apply Ok_inj in S1. apply Ok_inj in E1. subst. exact (reads_pret (None, None)).
  - cbn [fst snd]. rewrite w_index. exact (reads_pret (read_header size)).
Qed.
End Header.

(** ** One variation *)
Lemma touched_all ds : forall i, existsb is_none ds = false ->
  touched i ds = map (fun k => i + Z.of_nat k) (seq 0 (length ds)).
Proof.
  induction ds as [|[d|] ds IH]; intros i H; [reflexivity| |discriminate]. cbn [touched length seq map]. f_equal; [lia|].
  rewrite IH by exact H. rewrite <- seq_shift, map_map. apply map_ext. intros k. lia.
Qed.
Lemma all_points_touched ds : existsb is_none ds = false -> all_points (length ds) = touched 0 ds.
Proof. intros H. rewrite touched_all by exact H. unfold all_points. apply map_ext. intros; lia. Qed.
Lemma touched_length ds : forall i, length (touched i ds) = length (given ds).
Proof. induction ds as [|[d|] ds IH]; intros i; cbn [touched given length]; auto. Qed.
Lemma touched_ge ds : forall i, Forall (fun p => i <= p < i + Z.of_nat (length ds)) (touched i ds).
Proof.
  induction ds as [|[d|] ds IH]; intros i; cbn [touched]; [constructor| |].
  - constructor; [cbn [length]; lia|]. eapply Forall_impl; [|apply (IH (i + 1))]. cbn [length]. cbn beta. lia.
  - eapply Forall_impl; [|apply (IH (i + 1))]. cbn [length]. cbn beta. lia.
Qed.
Lemma spread_touched ds : forall i, spread (length ds) i (touched i ds) (given ds) = Ok ds.
Proof.
  induction ds as [|[d|] ds IH]; intros i; [reflexivity| |]; cbn [length touched given spread].
  - rewrite Z.eqb_refl, IH. reflexivity.
  - pose proof (touched_ge ds (i + 1)) as G. pose proof (IH (i + 1)) as H. destruct (touched (i + 1) ds) as [|p ps].
    + rewrite H. reflexivity.
    + inversion G as [|? ? Hp _]; subst. replace (i =? p) with false by lia. rewrite H. reflexivity.
Qed.
Lemma point_numbers_touched ds : forall i, 0 <= i -> i + Z.of_nat (length ds) <= 65536 -> point_numbers i ds = touched i ds.
Proof.
  induction ds as [|[d|] ds IH]; intros i Hi H; [reflexivity| |]; cbn [point_numbers touched length] in *.
  - rewrite u16_id by lia. f_equal. apply IH; lia.
  - apply IH; lia.
Qed.
Lemma delta_xs_given ds : delta_xs ds = map delta_x (given ds).
Proof. induction ds as [|[[d|x y]|] ds IH]; cbn [delta_xs given map]; [reflexivity| | |exact IH]; now rewrite IH. Qed.
Lemma delta_ys_given g ds : Forall (delta_ok g) (given ds) ->
  delta_ys ds = if g then map delta_y (given ds) else [].
Proof.
  induction ds as [|[[d|x y]|] ds IH]; cbn [delta_ys given map]; intros H; [now destruct g| | |exact (IH H)];
    inversion H as [|? ? Hd Hr]; subst; rewrite IH by exact Hr; destruct Hd as [-> _]; reflexivity.
Qed.
Lemma existsb_none {A} (ds : list (option A)) : existsb is_none ds = true <-> In None ds.
Proof.
  rewrite existsb_exists. split.
  - intros ([x|] & H & E); [discriminate|exact H].
  - intros H. now exists None.
Qed.

Lemma ser_deltas_reads l : Forall (in_range I16) l -> ~ zeros_256 l ->
  exists bs, ser_deltas l = Ok bs /\ reads (de_deltas (length l)) bs l.
Proof.
  intros Hl Hz. destruct (proj2 (deltas_written_iff l) Hz) as [bs Hb]. exists bs. split; [exact Hb|].
  apply deltas_written in Hb; [|exact Hl]. unfold de_deltas. now apply reads_delta_runs.
Qed.
Lemma delta_ok_xs g l : Forall (delta_ok g) l -> Forall (in_range I16) (map delta_x l).
Proof. intros H. apply Forall_map. eapply Forall_impl; [|exact H]. intros [d|x y]; cbn [delta_ok delta_x]; intuition. Qed.
Lemma delta_ok_ys l : Forall (delta_ok true) l -> Forall (in_range I16) (map delta_y l).
Proof. intros H. apply Forall_map. eapply Forall_impl; [|exact H]. intros [d|x y]; cbn [delta_ok delta_y]; intuition; discriminate. Qed.
Lemma delta_combine l : Forall (delta_ok true) l ->
  map (fun p => Delta2D (fst p) (snd p)) (combine (map delta_x l) (map delta_y l)) = l.
Proof.
  induction 1 as [|d l Hd Hl IH]; [reflexivity|]. cbn [map combine]. rewrite IH. destruct d; [now destruct Hd|reflexivity].
Qed.
Lemma delta_scalar l : Forall (delta_ok false) l -> map Delta1D (map delta_x l) = l.
Proof.
  induction 1 as [|d l Hd Hl IH]; [reflexivity|]. cbn [map]. rewrite IH. destruct d; [reflexivity|now destruct Hd].
Qed.

Lemma variation_reads axes g n v : Z.of_nat n <= 65535 -> variation_ok axes g n v ->
  exists hb block v', ser_tv v = Ok (hb, block) /\ variation_same v v' /\
    (length hb <= 4 + 6 * axes)%nat /\
    reads (de_tvh axes) hb (tv_header v') /\
    reads (de_tv g n (all_points n) (tv_header v')) block v'.
Proof.
  intros Hn (Hh & Hl & Hd & Hx & Hy & Hp). destruct v as [h ds]. cbn [tv_header tv_deltas] in *.
  set (priv := existsb is_none ds).
  destruct (header_reads axes h priv Hh) as (hb & H1 & H2 & H3).
  destruct (ser_deltas_reads (map delta_x (given ds))) as (xs & X1 & X2); [eapply delta_ok_xs; exact Hd|exact Hx|].
  assert (Y: exists ys, (if negb (match delta_ys ds with [] => true | _ => false end) then unwrap_res (ser_deltas (delta_ys ds)) else Ok []) = Ok ys /\
     reads (de_delta_data g (length (given ds))) (xs ++ ys) (given ds)).
  { unfold de_delta_data. rewrite (delta_ys_given g ds Hd). rewrite map_length in X2. destruct g.
    - destruct (ser_deltas_reads (map delta_y (given ds))) as (ys & Y1 & Y2); [now apply delta_ok_ys|now apply Hy|].
      exists ys. split.
      + destruct (map delta_y (given ds)) eqn:E; cbn [negb]; [|now rewrite Y1].
        unfold ser_deltas in Y1. cbn in Y1. apply Ok_inj in Y1. now subst.
      + rewrite map_length in Y2. eapply reads_bind; [exact X2|]. cbn beta. rewrite <- (delta_combine _ Hd) at 2.
        apply (reads_map _ (fun l => map (fun p => Delta2D (fst p) (snd p)) (combine (map delta_x (given ds)) l))). exact Y2.
    - exists []. split; [reflexivity|]. rewrite app_nil_r. rewrite <- (delta_scalar _ Hd) at 2.
      apply (reads_map _ (map Delta1D)). exact X2. }
  destruct Y as (ys & Y1 & Y2).
  assert (P: exists pb, (if priv then unwrap_res (ser_points (Some (point_numbers 0 ds))) else Ok []) = Ok pb /\
     reads (if priv then pp <-- de_points ;; pret (match pp with Some p => p | None => all_points n end) else pret (all_points n)) pb (touched 0 ds)).
  { unfold priv. destruct (existsb is_none ds) eqn:E.
    - rewrite point_numbers_touched by lia.
      destruct (points_roundtrip (touched 0 ds)) as (pb & P1 & _ & _ & P2).
      + apply Hp. now apply existsb_none.
      + eapply Forall_impl; [|apply touched_ge]. cbn. lia.
      + exists pb. rewrite P1. split; [reflexivity|].
        apply (reads_map _ (fun pp => match pp with Some p => p | None => all_points n end) pb (Some (touched 0 ds))). exact P2.
    - exists []. split; [reflexivity|]. rewrite <- Hl, all_points_touched by exact E. apply reads_pret. }
  destruct P as (pb & P1 & P2).
  set (size := u16 (Z.of_nat (length (pb ++ xs ++ ys)))).
  assert (Hsz: 0 <= size < 65536) by (unfold size, u16, wrap_u; change (2 ^ 16) with 65536; lia).
  exists (ser_u16 size ++ skipn 2 hb), (pb ++ xs ++ ys), (mk_tv (read_header h priv size) ds).
  assert (B13: Z.testbit (tv_flags h) 13 = false) by apply Hh.
  split.
  { unfold ser_tv. cbn [tv_header tv_deltas]. fold priv. cbv zeta.
    replace (if priv then set_flags h (Z.lor (tv_flags h) PRIVATE_POINT_NUMBERS) else h)
      with (set_flags h (if priv then Z.lor (tv_flags h) PRIVATE_POINT_NUMBERS else tv_flags h))
      by (destruct priv, h; reflexivity).
    rewrite P1. cbn [rbind]. rewrite delta_xs_given, X1. cbn [unwrap_res rbind]. rewrite Y1. cbn [rbind].
    rewrite H1. reflexivity. }
  split.
  { unfold variation_same. cbn [tv_header tv_deltas read_header tv_index tv_peak tv_start tv_end tv_flags].
    repeat match goal with |- _ /\ _ => split end; auto.
    - intros k Hk. rewrite (w_bits axes) by (exact Hh || lia). replace (k =? 13) with false by lia. now rewrite andb_false_r, orb_false_r.
    - rewrite (w_bits axes) by (exact Hh || lia). rewrite B13. cbn [orb Z.eqb]. rewrite andb_true_r. apply existsb_none. }
  split.
  { rewrite app_length, skipn_length. change (length (ser_u16 size)) with 2%nat. lia. }
  split; [now apply H3|].
  cbn [tv_header]. unfold de_tv. rewrite contains_13. cbn [read_header tv_flags].
  rewrite (w_bits axes) by (exact Hh || lia). rewrite B13. cbn [orb]. change (13 =? 13) with true. rewrite andb_true_r.
  eapply reads_bind; [exact P2|]. cbn beta. rewrite touched_length.
  rewrite <- (app_nil_r (xs ++ ys)). eapply reads_bind; [exact Y2|]. cbn beta.
  rewrite <- Hl. rewrite (spread_touched ds 0). exact (reads_pret (mk_tv (read_header h priv size) ds)).
Qed.

(** ** The store *)
Lemma store_parts axes g n s : Z.of_nat n <= 65535 -> Forall (variation_ok axes g n) s ->
  exists parts s', rmapM ser_tv s = Ok parts /\ Forall2 variation_same s s' /\ length parts = length s /\
    (length (concat (map fst parts)) <= length s * (4 + 6 * axes))%nat /\
    reads (de_counted (de_tvh axes) (length s)) (concat (map fst parts)) (map tv_header s') /\
    reads (de_tvs_data g n (all_points n) (map tv_header s')) (concat (map snd parts)) s'.
Proof.
  intros Hn. induction 1 as [|v s Hv Hs (parts & s' & E & F & L & Lh & R1 & R2)].
  - exists [], []. repeat split; [constructor|reflexivity|exact (reads_pret [])|exact (reads_pret [])].
  - destruct (variation_reads axes g n v Hn Hv) as (hb & block & v' & V1 & V2 & V3 & V4 & V5).
    exists ((hb, block) :: parts), (v' :: s'). cbn [rmapM]. rewrite V1. cbn [rbind]. rewrite E. cbn [rbind].
    split; [reflexivity|]. split; [now constructor|]. split; [cbn; lia|]. cbn [map fst snd concat length].
    split; [rewrite app_length; lia|]. split.
    + cbn [de_counted]. eapply reads_bind; [exact V4|]. cbn beta. apply (reads_map _ (fun l => tv_header v' :: l)). exact R1.
    + cbn [de_tvs_data]. eapply reads_bind; [exact V5|]. cbn beta. apply (reads_map _ (fun l => v' :: l)). exact R2.
Qed.

Lemma store_roundtrip axes g n s : Z.of_nat n <= 65535 -> (length s < Z.to_nat 4096)%nat -> Forall (variation_ok axes g n) s ->
  (forall bs, ser_tvs s = Ok bs -> exists s', Forall2 variation_same s s' /\ reads_back (de_tvs axes g n) bs s') /\
  (Z.of_nat (length s) * (4 + 6 * Z.of_nat axes) <= 65531 -> exists bs, ser_tvs s = Ok bs).
Proof.
  intros Hn Hc Hs. destruct (store_parts axes g n s Hn Hs) as (parts & s' & E & F & L & Lh & R1 & R2).
  unfold ser_tvs. rewrite E. cbn [rbind]. split.
  - intros bs H. unfold chk_u in H. set (off := 4 + u16 _) in H.
    destruct ((0 <=? off) && (off <? 2 ^ 16)) eqn:Eo; cbn [rbind] in H; [|discriminate]. apply Ok_inj in H. subst bs.
    exists s'. split; [exact F|]. apply reads_reads_back. rewrite u16_id by lia.
    assert (Ec: Z.lor (Z.of_nat (length s)) 0x8000 = 1 * 2 ^ 15 + Z.of_nat (length s)).
    { rewrite Z.lor_comm. change 0x8000 with (1 * 2 ^ 15). apply lor_high; [lia|]. change (2 ^ 15) with 32768. lia. }
    rewrite Ec. change (1 * 2 ^ 15) with 32768. unfold de_tvs.
    eapply reads_bind; [apply reads_u16; lia|]. cbn beta. cbv zeta.
    replace (Z.land (32768 + Z.of_nat (length s)) 0x0FFF) with (Z.of_nat (length s)).
    2:{ change 0x0FFF with (Z.ones 12). rewrite Z.land_ones by lia. change (2 ^ 12) with 4096.
        replace 32768 with (8 * 4096) by lia. rewrite Z.add_comm, Z.mod_add by lia. rewrite Z.mod_small; lia. }
    replace (Z.land (32768 + Z.of_nat (length s)) 0x8000 =? 0) with false.
    2:{ symmetry. apply Z.eqb_neq. intros B. apply (f_equal (fun z => Z.testbit z 15)) in B. rewrite Z.land_spec in B.
        change (Z.testbit 32768 15) with true in B. rewrite andb_true_r, Z.bits_0 in B.
        change 32768 with (1 * 2 ^ 15) in B at 1. rewrite <- Ec, Z.lor_spec in B. change (Z.testbit 32768 15) with true in B. rewrite orb_true_r in B. discriminate. }
    cbn [negb]. rewrite Nat2Z.id. change (2 ^ 16) with 65536 in Eo.
    eapply reads_bind; [apply reads_u16; lia|]. cbn beta. eapply reads_bind; [exact R1|]. cbn beta.
    eapply (reads_bind _ _ [0]); [|exact R2].
    apply (reads_map _ (fun pp => match pp with Some p => p | None => all_points n end) [0] None). exact points_read_none.
  - intros Hh. rewrite u16_id by lia. unfold chk_u. change (2 ^ 16) with 65536.
    match goal with |- context [(0 <=? ?x) && (?x <? 65536)] => replace ((0 <=? x) && (x <? 65536)) with true by lia end.
    cbn [rbind]. eauto.
Qed.

Lemma store_laid_out s bs : (length s < Z.to_nat 4096)%nat -> ser_tvs s = Ok bs ->
  exists headers blocks, length headers = length s /\ length blocks = length s /\
    bs = word (0x8000 + Z.of_nat (length s)) ++ word (4 + Z.of_nat (length (concat headers)) mod 65536) ++
         concat headers ++ [0] ++ concat blocks /\
    Forall2 (fun h b => firstn 2 h = word (Z.of_nat (length b) mod 65536)) headers blocks.
Proof.
  intros Hc. unfold ser_tvs. destruct (rmapM ser_tv s) as [parts| |] eqn:E; try discriminate. cbn [rbind].
  unfold chk_u. destruct ((0 <=? _) && _) eqn:Eo; cbn [rbind]; try discriminate. intros H. apply Ok_inj in H.
  apply rmapM_inv in E. exists (map fst parts), (map snd parts). rewrite !map_length.
  pose proof (Forall2_length _ _ _ E) as L. repeat match goal with |- _ /\ _ => split end; try congruence.
  - rewrite <- H, !word_u16. rewrite (u16_id (Z.of_nat (length s))) by lia. rewrite Z.lor_comm. change 0x8000 with (1 * 2 ^ 15) at 1.
    rewrite lor_high by (try change (2 ^ 15) with 32768; lia). reflexivity.
  - clear -E. induction E as [|v [hb block] s parts Hv E IH]; cbn [map]; constructor; [|exact IH]. cbn [fst snd].
    unfold ser_tv in Hv. cbv zeta in Hv.
    repeat match type of Hv with (x <- ?e ;; _) = Ok _ => destruct e as [?| |]; cbn [rbind] in Hv; try discriminate end.
    apply Ok_inj in Hv. injection Hv as <- <-. rewrite word_u16. reflexivity.
Qed.

(** ** Item variation data *)
Lemma row_reads short row : forall col, 
  Forall (in_range I16) (firstn (Z.to_nat (short - col)) row) -> Forall (in_range I8) (skipn (Z.to_nat (short - col)) row) ->
  reads (de_row short col (length row)) (row_bytes (Z.to_nat (short - col)) row) row.
Proof.
  induction row as [|d row IH]; intros col Hw Hb.
  - unfold row_bytes. rewrite firstn_nil, skipn_nil. exact (reads_pret []).
  - cbn [length de_row]. destruct (col <? short) eqn:E.
    + replace (Z.to_nat (short - col)) with (S (Z.to_nat (short - (col + 1)))) in * by lia. unfold row_bytes. cbn [firstn skipn map concat] in *.
      inversion Hw as [|? ? Hd Hr]; subst. rewrite <- app_assoc. rewrite word_i16. eapply reads_bind; [now apply rg_i16|]. cbn beta.
      apply (reads_map _ (fun l => d :: l)). now apply IH.
    + replace (Z.to_nat (short - col)) with 0%nat in * by lia. unfold row_bytes. cbn [firstn skipn map concat app] in *.
      inversion Hb as [|? ? Hd Hr]; subst. rewrite sbyte_i8. eapply reads_bind; [now apply rg_i8|]. cbn beta.
      apply (reads_map _ (fun l => d :: l)). specialize (IH (col + 1)). replace (Z.to_nat (short - (col + 1))) with 0%nat in IH by lia.
      unfold row_bytes in IH. cbn [firstn skipn map concat app] in IH. apply IH; [constructor|exact Hr].
Qed.

Lemma concat_words_u l : concat (map word l) = concat (map ser_u16 l).
Proof. now rewrite map_words_u. Qed.

Lemma ivd_reads short v : (short <= length (iv_regions v))%nat -> ivd_ok v -> rectangular v ->
  Forall (fun row => Forall (in_range I8) (skipn short row)) (iv_deltas v) ->
  reads de_ivd (ivd_encoding short v) v.
Proof.
  intros Hs (H1 & H2 & H3 & H4) Hr Hb. unfold ivd_encoding, de_ivd. rewrite !word_u16.
  eapply reads_bind; [apply reads_u16; lia|]. cbn beta.
  eapply reads_bind; [apply reads_u16; lia|]. cbn beta. rewrite app_assoc.
  eapply reads_bind.
  - unfold de_counted16. eapply reads_bind; [apply reads_u16; lia|]. cbn beta. rewrite Nat2Z.id, concat_words_u.
    apply reads_counted. eapply Forall_impl; [|exact H3]. exact rg_u16.
  - cbn beta. rewrite Nat2Z.id. rewrite <- (app_nil_r (concat _)). eapply (reads_bind _ _ _ _ (iv_deltas v)); [|destruct v; exact (reads_pret _)].
    apply (reads_counted _ (row_bytes short)). unfold rectangular in Hr. rewrite Forall_forall in *. intros row Hrow.
    specialize (Hr row Hrow). specialize (Hb row Hrow). specialize (H4 row Hrow). rewrite <- Hr.
    pose proof (row_reads (Z.of_nat short) row 0) as R. replace (Z.to_nat (Z.of_nat short - 0)) with short in R by lia.
    apply R; [|exact Hb]. rewrite <- (firstn_skipn short row) in H4. now apply Forall_app in H4.
Qed.
Lemma ser_row_words n row : forall ix, ix + Z.of_nat (length row) <= n -> ser_row n ix row = concat (map ser_i16 row).
Proof.
  induction row as [|d row IH]; intros ix H; [reflexivity|]. cbn [length ser_row map concat] in *.
  replace (ix <? n) with true by lia. rewrite IH by lia. reflexivity.
Qed.
Lemma ivd_written v : ivd_ok v -> rectangular v -> ser_ivd v = Ok (ivd_encoding (length (iv_regions v)) v).
Proof.
  intros (H1 & H2 & H3 & H4) Hr. unfold ser_ivd, ser_counted, ivd_encoding. cbv zeta.
  rewrite (rmapM_Ok _ ser_u16) by auto. cbn [rbind]. rewrite !u16_id by lia. rewrite !word_u16, concat_words_u.
  f_equal. f_equal. f_equal. rewrite <- app_assoc. f_equal. f_equal. f_equal.
  apply map_ext_in. intros row Hrow. unfold rectangular in Hr. rewrite Forall_forall in Hr. specialize (Hr row Hrow).
  rewrite ser_row_words by lia. unfold row_bytes. rewrite firstn_all2, skipn_all2 by lia. cbn [map concat]. now rewrite app_nil_r, map_words.
Qed.
Lemma row_len short n : forall col r row r', de_row short col n r = Ok (row, r') -> length row = n.
Proof.
  induction n as [|n IH]; intros col r row r' H; cbn [de_row] in H; [unfold pret in H; apply Ok_inj in H; now injection H as <- _|].
  unfold pbind in H. destruct ((if col <? short then de_i16 else de_i8) r) as [[d r1]| |]; try discriminate.
  destruct (de_row short (col + 1) n r1) as [[ds r2]| |] eqn:E; try discriminate. unfold pret in H. apply Ok_inj in H. injection H as <- _.
  cbn. f_equal. eapply IH; exact E.
Qed.
Lemma counted_all {A} (p : parser A) (P : A -> Prop) n : (forall r x r', p r = Ok (x, r') -> P x) ->
  forall r l r', de_counted p n r = Ok (l, r') -> Forall P l.
Proof.
  intros Hp. induction n as [|n IH]; intros r l r' H; cbn [de_counted] in H; [unfold pret in H; apply Ok_inj in H; injection H as <- _; constructor|].
  unfold pbind in H. destruct (p r) as [[x r1]| |] eqn:E; try discriminate.
  destruct (de_counted p n r1) as [[xs r2]| |] eqn:E2; try discriminate. unfold pret in H. apply Ok_inj in H. injection H as <- _.
  constructor; eauto.
Qed.
Lemma ivd_read_rectangular bs v : from_bytes de_ivd bs = Ok v -> rectangular v.
Proof.
  unfold from_bytes, de_ivd, pbind. intros H.
  destruct (de_u16 (rd_new bs)) as [[items r1]| |]; try discriminate. destruct (de_u16 r1) as [[short r2]| |]; try discriminate.
  destruct (de_counted16 de_u16 r2) as [[regs r3]| |]; try discriminate.
  destruct (de_counted (de_row short 0 (length regs)) (Z.to_nat items) r3) as [[rows r4]| |] eqn:E; try discriminate.
  unfold pret in H. apply Ok_inj in H. subst v. unfold rectangular. cbn [iv_regions iv_deltas].
  eapply counted_all; [|exact E]. intros r x r'. apply row_len.
Qed.
Lemma ivd_iff v : ivd_ok v ->
  ((exists bs, ser_ivd v = Ok bs /\ from_bytes de_ivd bs = Ok v) <-> rectangular v).
Proof.
  intros Hv. split.
  - intros (bs & _ & H). eapply ivd_read_rectangular; exact H.
  - intros Hr. exists (ivd_encoding (length (iv_regions v)) v). split; [now apply ivd_written|].
    pose proof (ivd_reads (length (iv_regions v)) v (le_n _) Hv Hr) as R.
    rewrite <- (app_nil_r (ivd_encoding _ _)). apply reads_from_bytes. apply R.
    unfold rectangular in Hr. eapply Forall_impl; [|exact Hr]. cbn beta. intros row E. rewrite skipn_all2 by lia. constructor.
Qed.
Lemma region_list_roundtrip l : region_list_ok l ->
  exists bs, ser_region_list l = Ok bs /\ reads_back de_region_list bs l.
Proof.
  intros (Ha & Hc & Hn & Hr).
  assert (V: forall x, f2dot14_value x -> exists b, ser_f2dot14 x = Ok b /\ reads de_f2dot14 b x).
  { intros x (p & Hp & ->). cbn in Hp. exists (ser_i16 p). split; [unfold ser_f2dot14; now rewrite f2dot14_packed_id by lia|].
    unfold de_f2dot14. apply (reads_map _ f2dot14_from_packed). apply reads_i16. lia. }
  assert (A: forall a, f2dot14_value (ra_start a) /\ f2dot14_value (ra_peak a) /\ f2dot14_value (ra_end a) ->
     exists b, ser_region_axis a = Ok b /\ reads de_region_axis b a).
  { intros a (Hs & Hp & He). destruct (V _ Hs) as (b1 & S1 & R1). destruct (V _ Hp) as (b2 & S2 & R2). destruct (V _ He) as (b3 & S3 & R3).
    exists (b1 ++ b2 ++ b3). unfold ser_region_axis. rewrite S1, S2, S3. split; [reflexivity|].
    unfold de_region_axis. eapply reads_bind; [exact R1|]. eapply reads_bind; [exact R2|]. rewrite <- (app_nil_r b3).
    eapply reads_bind; [exact R3|]. destruct a. apply reads_pret. }
  assert (M: forall (B : Type) (ser : B -> res (list Z)) (p : parser B) xs, Forall (fun x => exists b, ser x = Ok b /\ reads p b x) xs ->
     exists bss, rmapM ser xs = Ok bss /\ reads (de_counted p (length xs)) (concat bss) xs).
  { intros B ser p xs. induction 1 as [|x xs (b & S1 & R1) Hxs (bss & S2 & R2)]; [exists []; split; [reflexivity|exact (reads_pret [])]|].
    exists (b :: bss). cbn [rmapM]. rewrite S1. cbn [rbind]. rewrite S2. split; [reflexivity|]. cbn [length de_counted concat].
    eapply reads_bind; [exact R1|]. apply (reads_map _ (fun l => x :: l)). exact R2. }
  destruct (M _ (fun r => rmap (@concat Z) (rmapM ser_region_axis r)) (de_counted de_region_axis (Z.to_nat (rl_axes l))) (rl_regions l)) as (bss & S & R).
  { eapply Forall_impl; [|exact Hr]. cbn beta. intros r [Lr Fr].
    destruct (M _ ser_region_axis de_region_axis r) as (bs & S & R); [eapply Forall_impl; [|exact Fr]; exact A|].
    exists (concat bs). rewrite S. split; [reflexivity|]. replace (Z.to_nat (rl_axes l)) with (length r) by lia. exact R. }
  exists (ser_u16 (rl_axes l) ++ ser_u16 (rl_count l) ++ concat bss). unfold ser_region_list. rewrite S. split; [reflexivity|].
  apply reads_reads_back. unfold de_region_list. cbn in Ha, Hc.
  eapply reads_bind; [apply reads_u16; lia|]. eapply reads_bind; [apply reads_u16; lia|]. cbn beta.
  rewrite <- (app_nil_r (concat bss)). eapply (reads_bind _ _ _ _ (rl_regions l)); [|destruct l; exact (reads_pret _)].
  replace (Z.to_nat (rl_count l)) with (length (rl_regions l)) by lia. exact R.
Qed.

(** ** For the property file *)
Lemma all_points_roundtrip : exists bs, ser_points None = Ok bs /\ reads_back de_points bs None.
Proof. exists [0]. split; [reflexivity|]. exact (reads_reads_back _ _ _ points_read_none). Qed.
Lemma points_back pts : points_ok pts -> Forall (in_range U16) pts ->
  exists bs, ser_points (Some pts) = Ok bs /\ reads_back de_points bs (Some pts).
Proof. intros H1 H2. destruct (points_roundtrip pts H1 H2) as (bs & A & B & _). now exists bs. Qed.
Lemma points_read_back pts bs : (1 <= length pts <= 127)%nat -> Forall (in_range U16) pts ->
  point_runs (gaps 0 pts) bs -> reads_back de_points (Z.of_nat (length pts) :: bs) (Some pts).
Proof. intros H1 H2 H3. apply reads_reads_back. now apply points_read. Qed.
Lemma ivd_reads_back short v : (short <= length (iv_regions v))%nat ->
  ivd_ok v -> rectangular v -> Forall (fun row => Forall (in_range I8) (skipn short row)) (iv_deltas v) ->
  reads_back de_ivd (ivd_encoding short v) v.
Proof. intros. apply reads_reads_back. now apply ivd_reads. Qed.

Definition ex_header : tvh := mk_tvh 0 0x8000 0 (Some [f2dot14_from_packed 16384]) None None.
Lemma ex_header_ok : header_ok 1 ex_header.
Proof.
  unfold header_ok, ex_header, tuple_ok. cbn [tv_flags tv_index tv_peak tv_start tv_end length].
  repeat match goal with |- _ /\ _ => split end; try (vm_compute; intuition congruence).
  constructor; [|constructor]. exists 16384. split; [cbn; lia|reflexivity].
Qed.
Definition ex_store : list tuple_variation :=
  [mk_tv ex_header [Some (Delta2D 10 (-20)); None; Some (Delta2D 0 300)];
   mk_tv ex_header [Some (Delta2D 1 2); Some (Delta2D 3 4); Some (Delta2D 5 6)]].
Lemma short_no_zeros l : (length l < 256)%nat -> ~ zeros_256 l.
Proof. intros H (a & b & ->). rewrite !app_length, repeat_length in H. lia. Qed.
Lemma store_example : Forall (variation_ok 1 true 3) ex_store /\
  match ser_tvs ex_store with
  | Ok bs => match from_bytes (de_tvs 1 true 3) bs with
             | Ok s => map tv_deltas s = map tv_deltas ex_store
             | _ => False end
  | _ => False end.
Proof.
  split; [|vm_compute; reflexivity]. unfold ex_store, variation_ok.
  constructor; [|constructor; [|constructor]]; cbn [tv_header tv_deltas given map delta_x delta_y touched length].
  all: split; [exact ex_header_ok|]; split; [reflexivity|]; split; [repeat constructor; cbn; lia|].
  all: split; [apply short_no_zeros; cbn; lia|]; split; [intros _; apply short_no_zeros; cbn; lia|].
  - intros _. unfold points_ok. cbn [length gaps]. split; [lia|repeat constructor; lia].
  - intros [H|[H|[H|[]]]]; discriminate.
Qed.
Lemma stale_flag : exists v, header_ok 1 (set_flags (tv_header v) 0x8000) /\
  tv_flags (tv_header v) = 0xA000 /\
  match ser_tvs [v] with
  | Ok bs => match from_bytes (de_tvs 1 false 2) bs with Ok [v'] => tv_deltas v' <> tv_deltas v | Ok _ => False | Err => True | Panic => False end
  | _ => False end.
Proof.
  exists (mk_tv (set_flags ex_header 0xA000) [Some (Delta1D 1); Some (Delta1D 2)]). split; [exact ex_header_ok|]. split; [reflexivity|].
  vm_compute. first [exact I|discriminate].
Qed.
Lemma ivd_example : let v := mk_ivd [0; 2] [[100; -1000]; [3; 4]] in
  ivd_ok v /\ rectangular v /\
  ser_ivd v = Ok [0; 2; 0; 2; 0; 2; 0; 0; 0; 2; 0; 100; 252; 24; 0; 3; 0; 4] /\
  from_bytes de_ivd [0; 2; 0; 1; 0; 2; 0; 0; 0; 2; 252; 24; 100; 0; 3; 4] = Ok (mk_ivd [0; 2] [[-1000; 100]; [3; 4]]).
Proof.
  unfold ivd_ok, rectangular. cbn [iv_regions iv_deltas length]. repeat match goal with |- _ /\ _ => split end; try lia.
  1-3: repeat constructor; cbn; lia.
  all: vm_compute; reflexivity.
Qed.
Lemma no_deltas : exists v, Forall (fun d => d = None) (tv_deltas v) /\ length (tv_deltas v) = 2%nat /\
  match ser_tvs [v] with Ok bs => from_bytes (de_tvs 1 true 2) bs = Err | _ => False end.
Proof.
  exists (mk_tv ex_header [None; None]). split; [repeat constructor|]. split; [reflexivity|]. vm_compute. reflexivity.
Qed.

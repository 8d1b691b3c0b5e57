(** Exactly which bytes make the readers of variation data abort. *)
From Verif.Model Require Import MBase MFixed MGlyph MPacked.
From Verif.Spec Require Import SBase SReader SCalm SStop SVarStop.
From Verif.Proofs Require Import PBase PCalm PStop POutline.
From Verif.Proofs Require PGlyph.

Lemma byte_of d q c : number_at U8 d q c -> 0 <= c <= 255.
Proof. intros (bs & _ & _ & R). exact R. Qed.
Lemma land_bit c k : 0 <= k -> 0 <= c -> (Z.land c (2 ^ k) >? 0) = Z.testbit c k.
Proof.
  intros Hk Hc. pose proof (PGlyph.contains_bit c k Hk) as H. unfold contains in H. rewrite <- H.
  assert (0 < 2 ^ k) by (apply Z.pow_pos_nonneg; lia).
  destruct (Z.testbit c k) eqn:E.
  - rewrite E in H || idtac. apply Z.eqb_eq in H. rewrite H, Z.eqb_refl. lia.
  - assert (Z.land c (2 ^ k) = 0).
    { apply Z.bits_inj'. intros j Hj. rewrite Z.land_spec, Z.bits_0, Z.pow2_bits_eqb by exact Hk. destruct (Z.eqb_spec k j); [subst j; rewrite E|rewrite andb_false_r]; reflexivity. }
    rewrite H1. destruct (0 =? 2 ^ k) eqn:E0; [apply Z.eqb_eq in E0; lia|reflexivity].
Qed.

(** ** Runs *)
Fixpoint loop (run : parser (list Z)) (fuel n : nat) : parser (list Z) :=
  match fuel, n with
  | O, _ | _, O => pret []
  | S k, _ => r <-- run ;; rest <-- loop run k (n - length r) ;; pret (r ++ rest)
  end.
Definition a_run (d : list Z) (size : Z -> nat) (kind : Z -> option prim) (q : nat) (vs : list Z) (q' : nat) : Prop :=
  exists c, number_at U8 d q c /\ length vs = size c /\
    match kind c with Some t => values_at t d (q + 1) vs | None => vs = repeat 0 (size c) end /\
    q' = (q + 1 + match kind c with Some t => width t * size c | None => 0 end)%nat.
Definition runs_cases (d : list Z) st (size : Z -> nat) kind (run : parser (list Z)) : Prop := forall q,
  (exists vs q', a_run d size kind q vs q' /\ run (mkrd d q st) = Ok (vs, mkrd d q' st)) \/
  ((forall vs q', ~ a_run d size kind q vs q') /\ run (mkrd d q st) = Err).
Lemma values_unique t d q : forall vs vs', length vs = length vs' -> values_at t d q vs -> values_at t d q vs' -> vs = vs'.
Proof.
  intros vs vs' L H H'. apply nth_ext with (d := 0) (d' := 0); [exact L|]. intros i Hi.
  assert (X: nth_error vs i = Some (nth i vs 0)) by (apply nth_error_nth'; lia).
  assert (Y: nth_error vs' i = Some (nth i vs' 0)) by (apply nth_error_nth'; lia).
  exact (number_unique _ _ _ _ _ (H _ _ X) (H' _ _ Y)).
Qed.
Lemma run_unique d size kind q vs q' vs' q'' : a_run d size kind q vs q' -> a_run d size kind q vs' q'' -> vs = vs' /\ q' = q''.
Proof.
  intros (c & N & L & V & ->) (c' & N' & L' & V' & ->). pose proof (number_unique _ _ _ _ _ N N') as <-. split; [|reflexivity].
  destruct (kind c); [apply (values_unique p d (q + 1)); [congruence|assumption|assumption]|congruence].
Qed.
(** A list of numbers of known length. *)
Lemma values_cases t d q st n : Forall is_byte d -> (0 < n)%nat ->
  (exists vs, length vs = n /\ values_at t d q vs /\ de_counted (de_prim t) n (mkrd d q st) = Ok (vs, mkrd d (q + width t * n) st)) \/
  ((forall vs, length vs = n -> ~ values_at t d q vs) /\ de_counted (de_prim t) n (mkrd d q st) = Err).
Proof.
  intros B Hn. destruct (items_at _ _ _ d st (item_prim t d st B) n q) as [(l & Hl & Hr & _ & E)|(_ & L & E)].
  - left. exists l. auto.
  - right. split; [|exact E]. intros vs Hv V. assert (X: nth_error vs (n - 1) = Some (nth (n - 1) vs 0)) by (apply nth_error_nth'; lia).
    apply V, number_fits in X. replace (width t * n)%nat with (width t * (n - 1) + width t)%nat in L by nia. lia.
Qed.
Lemma loop_cases d st size kind run : (forall c, (0 < size c)%nat) -> runs_cases d st size kind run -> forall fuel n q, (n <= fuel)%nat ->
  (exists l q', runs d size kind q n l q' /\ (n <= length l)%nat /\ loop run fuel n (mkrd d q st) = Ok (l, mkrd d q' st)) \/
  ((forall l q', ~ runs d size kind q n l q') /\ loop run fuel n (mkrd d q st) = Err).
Proof.
  intros Pos H. induction fuel as [|k IH]; intros [|n] q Hn; try lia.
  - left. exists [], q. repeat split; [constructor|cbn; lia].
  - left. exists [], q. repeat split; [constructor|cbn; lia].
  - cbn [loop]. destruct (H q) as [(vs & q1 & R & E)|(R & E)].
    + rewrite (bind_at _ _ _ _ _ E). clear E. pose proof R as (c & N & L & V & ->). pose proof (Pos c) as Pc. rewrite L.
      destruct (IH (S n - size c)%nat (q + 1 + match kind c with Some t => width t * size c | None => 0 end)%nat ltac:(lia)) as [(l & q' & R2 & L2 & E)|(R2 & E)].
      * left. exists (vs ++ l), q'. split; [econstructor; eassumption|]. split; [rewrite app_length; lia|]. rewrite (bind_at _ _ _ _ _ E). reflexivity.
      * right. split; [|exact (bind_err _ _ _ E)]. intros l q' X. inversion X as [|? ? c' vs' more ? N' L' V' X']; subst.
        pose proof (number_unique _ _ _ _ _ N' N) as ->. exact (R2 _ _ X').
    + right. split; [|exact (bind_err _ _ _ E)]. intros l q' X. inversion X as [|? ? c' vs' more ? N' L' V' X']; subst.
      eapply R. exists c'. repeat split; eassumption.
Qed.
Lemma runs_unique d size kind : forall q n l q', runs d size kind q n l q' -> forall l' q'', runs d size kind q n l' q'' -> l = l' /\ q' = q''.
Proof.
  intros q n l q' R. induction R as [q|q n c vs more q' N L V R IH]; intros l' q'' R'.
  - inversion R'; subst. auto.
  - inversion R' as [|? ? c' vs' more' ? N' L' V' X']; subst. pose proof (number_unique _ _ _ _ _ N' N) as ->.
    destruct (IH _ _ X') as [<- <-]. split; [|reflexivity]. f_equal.
    destruct (kind c); [apply (values_unique p d (q + 1)); [congruence|assumption|assumption]|congruence].
Qed.
Definition psize (c : Z) : nat := S (Z.to_nat (c mod 128)).
Definition pkind (c : Z) : option prim := Some (if Z.testbit c 7 then U16 else U8).
Definition dsize (c : Z) : nat := S (Z.to_nat (c mod 64)).
Definition dkind (c : Z) : option prim := if Z.testbit c 7 then None else Some (if Z.testbit c 6 then I16 else I8).
Lemma point_run_cases d st : Forall is_byte d -> runs_cases d st psize pkind de_point_run.
Proof.
  intros B q. unfold de_point_run. prims. destruct (prim_at U8 d q st B) as [(c & N & E)|(L & E)]; cbn [width] in *.
  2: { right. split; [|exact (bind_err _ _ _ E)]. intros vs q' (c & N & _). apply number_fits in N. cbn [width] in N. lia. }
  rewrite (bind_at _ _ _ _ _ E). clear E. cbv zeta. pose proof (byte_of _ _ _ N) as Rc.
  change 128 with (2 ^ 7). rewrite (land_bit c 7) by lia.
  replace (Z.to_nat (Z.land c 127 + 1)) with (psize c) by (unfold psize; change 127 with (Z.ones 7); rewrite Z.land_ones by lia; change (2 ^ 7) with 128; lia).
  assert (Go: forall t, pkind c = Some t ->
    (exists vs q', a_run d psize pkind q vs q' /\ de_counted (de_prim t) (psize c) (mkrd d (q + 1) st) = Ok (vs, mkrd d q' st)) \/
    ((forall vs q', ~ a_run d psize pkind q vs q') /\ de_counted (de_prim t) (psize c) (mkrd d (q + 1) st) = Err)).
  { intros t Et. destruct (values_cases t d (q + 1) st (psize c) B ltac:(unfold psize; lia)) as [(vs & L & V & E)|(V & E)].
    - left. exists vs, (q + 1 + width t * psize c)%nat. split; [|exact E]. exists c. rewrite Et. auto.
    - right. split; [|exact E]. intros vs q' (c' & N' & L' & V' & _). pose proof (number_unique _ _ _ _ _ N' N) as ->. rewrite Et in V'. exact (V _ L' V'). }
  destruct (Z.testbit c 7) eqn:Eb; apply Go; unfold pkind; now rewrite Eb.
Qed.
Lemma delta_run_cases d st : Forall is_byte d -> runs_cases d st dsize dkind de_delta_run.
Proof.
  intros B q. unfold de_delta_run, DELTA_RUN_COUNT_MASK, DELTAS_ARE_ZERO, DELTAS_ARE_WORDS. prims. destruct (prim_at U8 d q st B) as [(c & N & E)|(L & E)]; cbn [width] in *.
  2: { right. split; [|exact (bind_err _ _ _ E)]. intros vs q' (c & N & _). apply number_fits in N. cbn [width] in N. lia. }
  rewrite (bind_at _ _ _ _ _ E). clear E. cbv zeta. pose proof (byte_of _ _ _ N) as Rc.
  change 128 with (2 ^ 7). change 64 with (2 ^ 6). rewrite (land_bit c 7), (land_bit c 6) by lia.
  replace (Z.to_nat (Z.land c 63 + 1)) with (dsize c) by (unfold dsize; change 63 with (Z.ones 6); rewrite Z.land_ones by lia; change (2 ^ 6) with 64; lia).
  assert (Go: forall t, dkind c = Some t ->
    (exists vs q', a_run d dsize dkind q vs q' /\ de_counted (de_prim t) (dsize c) (mkrd d (q + 1) st) = Ok (vs, mkrd d q' st)) \/
    ((forall vs q', ~ a_run d dsize dkind q vs q') /\ de_counted (de_prim t) (dsize c) (mkrd d (q + 1) st) = Err)).
  { intros t Et. destruct (values_cases t d (q + 1) st (dsize c) B ltac:(unfold dsize; lia)) as [(vs & L & V & E)|(V & E)].
    - left. exists vs, (q + 1 + width t * dsize c)%nat. split; [|exact E]. exists c. rewrite Et. auto.
    - right. split; [|exact E]. intros vs q' (c' & N' & L' & V' & _). pose proof (number_unique _ _ _ _ _ N' N) as ->. rewrite Et in V'. exact (V _ L' V'). }
  destruct (Z.testbit c 7) eqn:E7.
  - left. exists (repeat 0 (dsize c)), (q + 1)%nat. split; [|reflexivity]. exists c. unfold dkind. rewrite E7, repeat_length. repeat split; [exact N|lia].
  - destruct (Z.testbit c 6) eqn:E6; apply Go; unfold dkind; now rewrite E7, E6.
Qed.
Lemma deltas_loop : forall fuel n r, de_deltas_fuel fuel n r = loop de_delta_run fuel n r.
Proof.
  induction fuel as [|k IH]; intros [|n] r; try reflexivity. cbn [de_deltas_fuel loop]. unfold pbind. destruct (de_delta_run r) as [[l r']| |]; [|reflexivity|reflexivity].
  now rewrite IH.
Qed.
Lemma points_loop : forall fuel n r, de_point_runs fuel n r = loop de_point_run fuel n r.
Proof.
  induction fuel as [|k IH]; intros [|n] r; try reflexivity. cbn [de_point_runs loop]. unfold pbind. destruct (de_point_run r) as [[l r']| |]; [|reflexivity|reflexivity].
  now rewrite IH.
Qed.
Lemma deltas_cases d st n q : Forall is_byte d ->
  (exists l q', delta_runs d q n l q' /\ (n <= length l)%nat /\ de_deltas n (mkrd d q st) = Ok (l, mkrd d q' st)) \/
  ((forall l q', ~ delta_runs d q n l q') /\ de_deltas n (mkrd d q st) = Err).
Proof. intros B. unfold de_deltas. rewrite deltas_loop. exact (loop_cases d st dsize dkind de_delta_run (fun c => Nat.lt_0_succ _) (delta_run_cases d st B) n n q (le_n n)). Qed.
Lemma point_runs_cases d st n q : Forall is_byte d ->
  (exists l q', point_runs d q n l q' /\ (n <= length l)%nat /\ de_point_runs n n (mkrd d q st) = Ok (l, mkrd d q' st)) \/
  ((forall l q', ~ point_runs d q n l q') /\ de_point_runs n n (mkrd d q st) = Err).
Proof. intros B. rewrite points_loop. exact (loop_cases d st psize pkind de_point_run (fun c => Nat.lt_0_succ _) (point_run_cases d st B) n n q (le_n n)). Qed.

(** ** Point numbers *)
Lemma runs_nonneg d : forall q n l q', point_runs d q n l q' -> Forall (fun x => 0 <= x) l.
Proof.
  intros q n l q' R. induction R as [q|q n c vs more q' N L V R IH]; [constructor|]. apply Forall_app. split; [|exact IH].
  apply Forall_forall. intros x Hx. apply In_nth_error in Hx as [i Hi]. apply V in Hi. destruct Hi as (bs & _ & _ & Rg). destruct (Z.testbit c 7); cbn in Rg; lia.
Qed.
Lemma total_nonneg l : Forall (fun x => 0 <= x) l -> 0 <= total l.
Proof. induction 1; unfold total in *; cbn [fold_right]; lia. Qed.
Lemma cumsum_cases : forall l acc, 0 <= acc -> Forall (fun x => 0 <= x) l ->
  (acc + total l <= 65535 /\ exists r, cumsum acc l = Ok r /\ length r = length l) \/ (l <> [] /\ 65535 < acc + total l /\ cumsum acc l = Panic) \/ (l = [] /\ cumsum acc l = Ok []).
Proof.
  induction l as [|x l IH]; intros acc Ha F; cbn [cumsum].
  - right. right. auto.
  - pose proof (Forall_inv F) as Hx. cbn beta in Hx. apply Forall_inv_tail in F. pose proof (total_nonneg _ F). unfold total in *. cbn [fold_right].
    destruct (chk_u_cases 16 (acc + x)) as [(R & ->)|(R & ->)]; cbn [rbind]; change (2 ^ 16) with 65536 in R.
    + destruct (IH (acc + x) ltac:(lia) F) as [(R2 & r & -> & L)|[(_ & R2 & ->)|(-> & ->)]]; cbn [rbind].
      * left. split; [lia|]. eexists. split; [reflexivity|cbn; lia].
      * right. left. split; [discriminate|]. split; [lia|reflexivity].
      * left. cbn [fold_right]. split; [lia|]. eexists. split; reflexivity.
    + right. left. split; [discriminate|]. split; [lia|reflexivity].
Qed.
Lemma count_cases d q st : Forall is_byte d ->
  (exists n q', point_count d q n q' /\ de_point_count (mkrd d q st) = Ok (n, mkrd d q' st)) \/
  ((forall n q', ~ point_count d q n q') /\ de_point_count (mkrd d q st) = Err).
Proof.
  intros B. unfold de_point_count. prims. destruct (prim_at U8 d q st B) as [(a & N & E)|(L & E)]; cbn [width] in *.
  2: { right. split; [|exact (bind_err _ _ _ E)]. intros n q' [(N & _)|(a & b & N & _)]; apply number_fits in N; cbn [width] in N; lia. }
  rewrite (bind_at _ _ _ _ _ E). clear E. pose proof (byte_of _ _ _ N) as Ra. destruct (a >? 127) eqn:Ea.
  - destruct (prim_at U8 d (q + 1) st B) as [(b & N2 & E)|(L & E)]; cbn [width] in *.
    + left. exists (a * 256 + b), (q + 2)%nat. split; [right; exists a, b; repeat split; auto; lia|]. rewrite (bind_at _ _ _ _ _ E). unfold pret.
      replace (q + 1 + 1)%nat with (q + 2)%nat by lia. do 2 f_equal. pose proof (byte_of _ _ _ N2) as Rb.
      change 255 with (Z.ones 8). rewrite Z.land_ones, Z.shiftl_mul_pow2 by lia. change (2 ^ 8) with 256. rewrite Z.mod_small by lia.
      replace (a * 256) with (Z.shiftl a 8) by (rewrite Z.shiftl_mul_pow2 by lia; reflexivity).
      assert (X: Z.land (Z.shiftl a 8) b = 0).
      { apply Z.bits_inj'. intros j Hj. rewrite Z.land_spec, Z.bits_0.
        destruct (Z.ltb_spec j 8); [rewrite Z.shiftl_spec_low by lia; reflexivity|]. rewrite (Z.bits_above_log2 b j); [apply andb_false_r|lia|].
        destruct (Z.eq_dec b 0) as [-> | ]; [cbn; lia|]. apply Z.log2_lt_pow2; [lia|]. assert (2 ^ 8 <= 2 ^ j) by (apply Z.pow_le_mono_r; lia). change (2 ^ 8) with 256 in *. lia. }
      now rewrite <- (Z.lxor_lor _ _ X), <- (Z.add_nocarry_lxor _ _ X).
    + right. split; [|exact (bind_err _ _ _ E)]. intros n q' [(N' & R & _)|(a' & b & N' & _ & N2 & _)].
      * rewrite (number_unique _ _ _ _ _ N' N) in R. lia.
      * apply number_fits in N2. cbn [width] in N2. lia.
  - left. exists a, (q + 1)%nat. split; [left; repeat split; [exact N|lia]|reflexivity].
Qed.
Lemma count_unique d q n q' n' q'' : point_count d q n q' -> point_count d q n' q'' -> n = n' /\ q' = q''.
Proof.
  intros [(N & R & ->)|(a & b & N & R & N2 & -> & ->)] [(N' & R' & ->)|(a' & b' & N' & R' & N2' & -> & ->)].
  - split; [exact (number_unique _ _ _ _ _ N N')|reflexivity].
  - pose proof (number_unique _ _ _ _ _ N N'). lia.
  - pose proof (number_unique _ _ _ _ _ N N'). lia.
  - rewrite (number_unique _ _ _ _ _ N N'), (number_unique _ _ _ _ _ N2 N2'). auto.
Qed.
Lemma count_range d q n q' : point_count d q n q' -> 0 <= n.
Proof. intros [(N & _)|(a & b & N & R & N2 & -> & _)]; [apply byte_of in N; lia|]. apply byte_of in N2. lia. Qed.
Definition chosen_points (all : nat) (o : option (list Z)) : list Z := match o with Some p => p | None => all_points all end.
Lemma points_cases d q st : Forall is_byte d ->
  (~ points_bad d q /\ exists o q', (forall all, points_at d all q (length (chosen_points all o)) q') /\ de_points (mkrd d q st) = Ok (o, mkrd d q' st)) \/
  (points_bad d q /\ (forall all n q', ~ points_at d all q n q') /\ de_points (mkrd d q st) = Panic) \/
  (~ points_bad d q /\ (forall all n q', ~ points_at d all q n q') /\ de_points (mkrd d q st) = Err).
Proof.
  intros B. unfold de_points. destruct (count_cases d q st B) as [(c & q1 & C & E)|(C & E)].
  2: { right. right. split; [intros (c & q1 & vs & q' & X & _); exact (C _ _ X)|]. split; [|exact (bind_err _ _ _ E)].
       intros all n q' [(X & _)|(c & q1 & vs & X & _)]; exact (C _ _ X). }
  rewrite (bind_at _ _ _ _ _ E). clear E. destruct (c =? 0) eqn:E0.
  { assert (c = 0) by lia. subst c. left. split.
    - intros (c & q2 & vs & q' & X & Nz & _). destruct (count_unique _ _ _ _ _ _ X C) as [-> _]. now destruct Nz.
    - exists None, q1. split; [|reflexivity]. intros all. left. split; [exact C|]. unfold chosen_points, all_points. now rewrite map_length, seq_length. }
  assert (Nz: c <> 0) by lia. pose proof (count_range _ _ _ _ C) as Rc.
  destruct (point_runs_cases d st (Z.to_nat c) q1 B) as [(l & q' & R & L & E)|(R & E)].
  - rewrite (bind_at _ _ _ _ _ E). clear E. pose proof (runs_nonneg _ _ _ _ _ R) as Nn.
    assert (Bad: points_bad d q <-> 65535 < total l).
    { split; [|intros H; exists c, q1, l, q'; auto]. intros (c' & q1' & vs & q2 & X & _ & R' & H). destruct (count_unique _ _ _ _ _ _ X C) as [-> ->].
      destruct (runs_unique _ _ _ _ _ _ _ R' _ _ R) as [-> _]. exact H. }
    destruct (cumsum_cases l 0 ltac:(lia) Nn) as [(H & r & E & Lr)|[(_ & H & E)|(-> & _)]].
    + left. split; [rewrite Bad; lia|]. exists (Some r), q'. split.
      * intros all. right. exists c, q1, l. cbn [chosen_points]. repeat split; auto.
      * unfold plift, pbind. rewrite E. reflexivity.
    + right. left. split; [rewrite Bad; lia|]. split; [|unfold plift, pbind; now rewrite E].
      intros all n q2 [(X & _)|(c' & q1' & vs & X & _ & R' & H' & _)]; destruct (count_unique _ _ _ _ _ _ X C) as [Ec Eq]; [congruence|]. subst c' q1'.
      destruct (runs_unique _ _ _ _ _ _ _ R' _ _ R) as [-> _]. lia.
    + cbn in L. lia.
  - right. right. split; [|split; [|exact (bind_err _ _ _ E)]].
    + intros (c' & q1' & vs & q2 & X & _ & R' & _). destruct (count_unique _ _ _ _ _ _ X C) as [-> ->]. exact (R _ _ R').
    + intros all n q2 [(X & _)|(c' & q1' & vs & X & _ & R' & _)]; destruct (count_unique _ _ _ _ _ _ X C) as [Ec Eq]; [congruence|]. subst c' q1'. exact (R _ _ R').
Qed.
Lemma points_unique d all q n q' n' q'' : points_at d all q n q' -> points_at d all q n' q'' -> n = n' /\ q' = q''.
Proof.
  intros [(C & ->)|(c & q1 & vs & C & Nz & R & _ & ->)] [(C' & ->)|(c' & q1' & vs' & C' & Nz' & R' & _ & ->)]; destruct (count_unique _ _ _ _ _ _ C C') as [? ?]; subst; auto; try congruence.
  destruct (runs_unique _ _ _ _ _ _ _ R _ _ R') as [-> ->]. auto.
Qed.
Lemma points_stop : stops de_points points_bad.
Proof. intros d k st B. destruct (points_cases d k st B) as [(X & o & q & _ & ->)|[(X & _ & ->)|(X & _ & ->)]]; split; intros Y; try discriminate Y; try contradiction; auto. Qed.

(** ** Variations *)
Lemma delta_data_cases d st two n q : Forall is_byte d ->
  (exists l q', deltas_at d two n q q' /\ (n <= length l)%nat /\ de_delta_data two n (mkrd d q st) = Ok (l, mkrd d q' st)) \/
  ((forall q', ~ deltas_at d two n q q') /\ de_delta_data two n (mkrd d q st) = Err).
Proof.
  intros B. unfold de_delta_data, deltas_at. destruct (deltas_cases d st n q B) as [(l & q1 & R & L & E)|(R & E)].
  2: { right. split; [intros q' (l & q1 & X & _); exact (R _ _ X)|]. destruct two; exact (bind_err _ _ _ E). }
  destruct two.
  - destruct (deltas_cases d st n q1 B) as [(l' & q2 & R2 & L2 & E2)|(R2 & E2)].
    + left. eexists. exists q2. split; [eauto|]. split; [|rewrite (bind_at _ _ _ _ _ E), (bind_at _ _ _ _ _ E2); reflexivity].
      rewrite map_length, combine_length. lia.
    + right. split; [|rewrite (bind_at _ _ _ _ _ E); exact (bind_err _ _ _ E2)]. intros q' (l0 & q0 & X & l' & Y).
      destruct (runs_unique _ _ _ _ _ _ _ X _ _ R) as [_ ->]. exact (R2 _ _ Y).
  - left. eexists. exists q1. split; [eauto|]. split; [|rewrite (bind_at _ _ _ _ _ E); reflexivity]. now rewrite map_length.
Qed.
Lemma deltas_unique d two n q q' q'' : deltas_at d two n q q' -> deltas_at d two n q q'' -> q' = q''.
Proof.
  intros (l & q1 & R & H) (l' & q1' & R' & H'). destruct (runs_unique _ _ _ _ _ _ _ R _ _ R') as [_ <-]. destruct two; [|congruence].
  destruct H as [m M], H' as [m' M']. now destruct (runs_unique _ _ _ _ _ _ _ M _ _ M').
Qed.
Lemma spread_ok : forall n i ps ds, (length ps <= length ds)%nat -> exists r, spread n i ps ds = Ok r.
Proof.
  induction n as [|n IH]; intros i ps ds L; cbn [spread]; [eauto|]. destruct ps as [|p ps].
  - destruct (IH (i + 1) [] ds L) as [r ->]. cbn [rbind]. eauto.
  - destruct (i =? p).
    + destruct ds as [|x ds]; [cbn in L; lia|]. destruct (IH (i + 1) ps ds ltac:(cbn in L; lia)) as [r ->]. cbn [rbind]. eauto.
    + destruct (IH (i + 1) (p :: ps) ds L) as [r ->]. cbn [rbind]. eauto.
Qed.
Lemma tv_cases d st two all shared h q : Forall is_byte d -> let f := tv_flags h in
  ((Z.testbit f 13 = true -> ~ points_bad d q) /\ exists v q', variation_at d two all (length shared) f q q' /\ de_tv two all shared h (mkrd d q st) = Ok (v, mkrd d q' st)) \/
  ((Z.testbit f 13 = true /\ points_bad d q) /\ (forall q', ~ variation_at d two all (length shared) f q q') /\ de_tv two all shared h (mkrd d q st) = Panic) \/
  ((Z.testbit f 13 = true -> ~ points_bad d q) /\ (forall q', ~ variation_at d two all (length shared) f q q') /\ de_tv two all shared h (mkrd d q st) = Err).
Proof.
  intros B f. unfold de_tv, variation_at, PRIVATE_POINT_NUMBERS. fold f. change 8192 with (2 ^ 13). rewrite (PGlyph.contains_bit f 13) by lia.
  destruct (Z.testbit f 13) eqn:Ef.
  - destruct (points_cases d q st B) as [(NB & o & q1 & P & E)|[(Bd & P & E)|(NB & P & E)]].
    + rewrite bind_assoc, (bind_at _ _ _ _ _ E), bind_ret. fold (chosen_points all o). specialize (P all).
      destruct (delta_data_cases d st two (length (chosen_points all o)) q1 B) as [(l & q' & D & L & E2)|(D & E2)].
      * left. split; [auto|]. rewrite (bind_at _ _ _ _ _ E2). destruct (spread_ok all 0 (chosen_points all o) l L) as [r Er].
        eexists. exists q'. split; [eauto|]. unfold plift, pbind. rewrite Er. reflexivity.
      * right. right. split; [auto|]. split; [|exact (bind_err _ _ _ E2)]. intros q' (n & q2 & P' & D').
        destruct (points_unique _ _ _ _ _ _ _ P' P) as [-> ->]. exact (D _ D').
    + right. left. split; [auto|]. split; [intros q' (n & q1 & P' & _); exact (P _ _ _ P')|]. rewrite bind_assoc. exact (bind_panic _ _ _ E).
    + right. right. split; [auto|]. split; [intros q' (n & q1 & P' & _); exact (P _ _ _ P')|]. rewrite bind_assoc. exact (bind_err _ _ _ E).
  - rewrite bind_ret. destruct (delta_data_cases d st two (length shared) q B) as [(l & q' & D & L & E2)|(D & E2)].
    + left. split; [discriminate|]. rewrite (bind_at _ _ _ _ _ E2). destruct (spread_ok all 0 shared l L) as [r Er].
      eexists. exists q'. split; [exists (length shared), q; auto|]. unfold plift, pbind. rewrite Er. reflexivity.
    + right. right. split; [discriminate|]. split; [|exact (bind_err _ _ _ E2)]. intros q' (n & q2 & (-> & ->) & D'). exact (D _ D').
Qed.
Lemma variation_unique d two all shared f q q' q'' : variation_at d two all shared f q q' -> variation_at d two all shared f q q'' -> q' = q''.
Proof.
  intros (n & q1 & P & D) (n' & q1' & P' & D').
  assert (X: n = n' /\ q1 = q1') by (destruct (Z.testbit f 13); [exact (points_unique _ _ _ _ _ _ _ P P')|destruct P, P'; subst; auto]).
  destruct X as [-> ->]. exact (deltas_unique _ _ _ _ _ _ D D').
Qed.
Lemma variations_bad_cons d two all shared q f fs : variations_bad d two all shared q (f :: fs) <->
  (Z.testbit f 13 = true /\ points_bad d q) \/ exists q1, variation_at d two all shared f q q1 /\ variations_bad d two all shared q1 fs.
Proof.
  split.
  - intros (pre & g & post & q' & E & V & Hb & P). destruct pre as [|x pre].
    + injection E as <- <-. inversion V; subst. auto.
    + injection E as <- ->. inversion V as [|? ? ? q1 ? V1 V2]; subst. right. exists q1. split; [exact V1|]. exists pre, g, post, q'. auto.
  - intros [[Hb P]|(q1 & V1 & pre & g & post & q' & -> & V & Hb & P)].
    + exists [], f, fs, q. split; [reflexivity|]. split; [constructor|auto].
    + exists (f :: pre), g, post, q'. split; [reflexivity|]. split; [econstructor; eassumption|auto].
Qed.
Lemma data_stops d st two all shared : Forall is_byte d -> forall hs q,
  (de_tvs_data two all shared hs (mkrd d q st) = Panic <-> variations_bad d two all (length shared) q (map tv_flags hs)).
Proof.
  intros B. induction hs as [|h hs IH]; intros q; cbn [de_tvs_data map].
  - split; [discriminate|]. intros (pre & g & post & q' & E & _). destruct pre; discriminate E.
  - rewrite variations_bad_cons. destruct (tv_cases d st two all shared h q B) as [(NB & v & q1 & V & E)|[(Bd & V & E)|(NB & V & E)]].
    + rewrite (bind_at _ _ _ _ _ E). specialize (IH q1). transitivity (de_tvs_data two all shared hs (mkrd d q1 st) = Panic).
      * unfold pbind. destruct (de_tvs_data two all shared hs (mkrd d q1 st)) as [[? ?]| |]; unfold pret; split; congruence.
      * rewrite IH. split; [intros X; right; eauto|]. intros [[Hb P]|(q2 & V2 & X)]; [now apply NB in Hb|]. now rewrite (variation_unique _ _ _ _ _ _ _ _ V V2).
    + rewrite (bind_panic _ _ _ E). split; auto.
    + rewrite (bind_err _ _ _ E). split; [discriminate|]. intros [[Hb P]|(q2 & V2 & X)]; [now apply NB in Hb|now apply V in V2].
Qed.

(** ** Headers *)
Lemma tuple_item axes d st : Forall is_byte d -> forall q,
  ((axes = 0%nat \/ (q + 2 * axes <= length d)%nat) /\ exists l, de_tuple axes (mkrd d q st) = Ok (l, mkrd d (q + 2 * axes) st)) \/
  ((0 < axes)%nat /\ (length d < q + 2 * axes)%nat /\ de_tuple axes (mkrd d q st) = Err).
Proof.
  intros B q. unfold de_tuple. prims. destruct (items_at _ _ _ d st (item_prim I16 d st B) axes q) as [(l & _ & _ & H & E)|(P & L & E)]; cbn [width] in *.
  - left. split; [exact H|]. eexists. rewrite (bind_at _ _ _ _ _ E). reflexivity.
  - right. split; [exact P|]. split; [exact L|]. exact (bind_err _ _ _ E).
Qed.
Lemma header_cases axes d st q : Forall is_byte d ->
  (exists h, u16_at d (q + 2) (tv_flags h) /\ (q + header_size axes (tv_flags h) <= length d)%nat /\ de_tvh axes (mkrd d q st) = Ok (h, mkrd d (q + header_size axes (tv_flags h)) st)) \/
  ((forall f, u16_at d (q + 2) f -> ~ (q + header_size axes f <= length d)%nat) /\ de_tvh axes (mkrd d q st) = Err).
Proof.
  intros B. unfold de_tvh, EMBEDDED_PEAK_TUPLE, INTERMEDIATE_REGION. prims.
  destruct (prim_at U16 d q st B) as [(sz & N0 & E)|(L & E)]; cbn [width] in *.
  2: { right. split; [|exact (bind_err _ _ _ E)]. intros f N. apply number_fits in N. cbn [width] in N. lia. }
  rewrite (bind_at _ _ _ _ _ E). clear E.
  destruct (prim_at U16 d (q + 2) st B) as [(f & N & E)|(L & E)]; cbn [width] in *.
  2: { right. split; [|exact (bind_err _ _ _ E)]. intros f N. apply number_fits in N. cbn [width] in N. lia. }
  rewrite (bind_at _ _ _ _ _ E). clear E. change 32768 with (2 ^ 15). change 16384 with (2 ^ 14). rewrite (PGlyph.contains_bit f 15), (PGlyph.contains_bit f 14) by lia.
  pose proof (number_fits _ _ _ _ N) as Fit. cbn [width] in Fit. replace (q + 2 + 2)%nat with (q + 4)%nat in * by lia.
  assert (Bad: ~ (q + header_size axes f <= length d)%nat -> forall f', u16_at d (q + 2) f' -> ~ (q + header_size axes f' <= length d)%nat).
  { intros H f' N'. now rewrite (number_unique _ _ _ _ _ N' N). }
  set (q1 := (q + 4 + (if Z.testbit f 15 then 2 * axes else 0))%nat).
  set (P15 := if Z.testbit f 15 then t <-- de_tuple axes ;; pret (Some t) else pret None).
  set (P14 := if Z.testbit f 14 then s <-- de_tuple axes ;; e <-- de_tuple axes ;; pret (Some s, Some e) else pret (None, None)).
  assert (C15: (exists p, P15 (mkrd d (q + 4) st) = Ok (p, mkrd d q1 st) /\ (q1 <= length d)%nat) \/ ((length d < q1)%nat /\ P15 (mkrd d (q + 4) st) = Err)).
  { unfold P15, q1. destruct (Z.testbit f 15); [|left; eexists; split; [unfold pret; do 2 f_equal; f_equal; lia|lia]].
    destruct (tuple_item axes d st B (q + 4)%nat) as [(H & l & E)|(H & L & E)].
    - left. eexists. split; [rewrite (bind_at _ _ _ _ _ E); reflexivity|lia].
    - right. split; [lia|exact (bind_err _ _ _ E)]. }
  assert (C14: (exists p, P14 (mkrd d q1 st) = Ok (p, mkrd d (q + header_size axes f) st) /\ ((q1 <= length d)%nat -> (q + header_size axes f <= length d)%nat)) \/
               ((length d < q + header_size axes f)%nat /\ P14 (mkrd d q1 st) = Err)).
  { unfold P14, header_size. fold q1. destruct (Z.testbit f 14).
    - destruct (tuple_item axes d st B q1) as [(H & l & E)|(H & L & E)].
      + destruct (tuple_item axes d st B (q1 + 2 * axes)%nat) as [(H2 & l2 & E2)|(H2 & L2 & E2)].
        * left. eexists. split; [rewrite (bind_at _ _ _ _ _ E), (bind_at _ _ _ _ _ E2); unfold pret; do 2 f_equal; f_equal; unfold q1; lia|unfold q1 in *; lia].
        * right. split; [unfold q1 in *; lia|]. rewrite (bind_at _ _ _ _ _ E). exact (bind_err _ _ _ E2).
      + right. split; [unfold q1 in *; lia|exact (bind_err _ _ _ E)].
    - left. eexists. split; [unfold pret; do 2 f_equal; f_equal; unfold q1; lia|unfold q1 in *; lia]. }
  assert (Le: (q1 <= q + header_size axes f)%nat) by (unfold q1, header_size; lia).
  destruct C15 as [(p & E & L15)|(L & E)]; [|right; split; [apply Bad; lia|exact (bind_err _ _ _ E)]]. rewrite (bind_at _ _ _ _ _ E). clear E.
  destruct C14 as [(se & E & L14)|(L & E)]; [|right; split; [apply Bad; lia|exact (bind_err _ _ _ E)]]. rewrite (bind_at _ _ _ _ _ E). clear E.
  left. exists (mk_tvh sz f (Z.land f TUPLE_INDEX_MASK) p (fst se) (snd se)). cbn [tv_flags]. split; [exact N|]. split; [auto|reflexivity].
Qed.
Lemma headers_cases axes d st : Forall is_byte d -> forall n q,
  (exists hs q', headers d axes q n (map tv_flags hs) q' /\ de_counted (de_tvh axes) n (mkrd d q st) = Ok (hs, mkrd d q' st)) \/
  ((forall fs q', ~ headers d axes q n fs q') /\ de_counted (de_tvh axes) n (mkrd d q st) = Err).
Proof.
  intros B. induction n as [|n IH]; intros q; cbn [de_counted].
  - left. exists [], q. split; [constructor|reflexivity].
  - destruct (header_cases axes d st q B) as [(h & N & L & E)|(N & E)].
    + rewrite (bind_at _ _ _ _ _ E). destruct (IH (q + header_size axes (tv_flags h))%nat) as [(hs & q' & H & E2)|(H & E2)].
      * left. exists (h :: hs), q'. split; [cbn [map]; econstructor; eassumption|]. rewrite (bind_at _ _ _ _ _ E2). reflexivity.
      * right. split; [|exact (bind_err _ _ _ E2)]. intros fs q' X. inversion X as [|? ? f fs' ? N' L' X']; subst.
        pose proof (number_unique _ _ _ _ _ N' N) as ->. exact (H _ _ X').
    + right. split; [|exact (bind_err _ _ _ E)]. intros fs q' X. inversion X as [|? ? f fs' ? N' L' X']; subst. exact (N _ N' L').
Qed.
Lemma headers_unique d axes : forall q n fs q', headers d axes q n fs q' -> forall fs' q'', headers d axes q n fs' q'' -> fs = fs' /\ q' = q''.
Proof.
  intros q n fs q' H. induction H as [q|q n f fs q' N L H IH]; intros fs' q'' H'.
  - inversion H'; subst. auto.
  - inversion H' as [|? ? f' fs'' ? N' L' X']; subst. pose proof (number_unique _ _ _ _ _ N' N) as ->. destruct (IH _ _ X') as [<- <-]. auto.
Qed.
Lemma variation_data_stops axes two all : stops (de_tvs axes two all) (variation_data_bad axes two all).
Proof.
  intros d k st B. unfold de_tvs. prims.
  destruct (prim_at U16 d k st B) as [(c & N & E)|(L & E)]; cbn [width] in *.
  2: { rewrite (bind_err _ _ _ E). split; [discriminate|]. intros (c & fs & q & N & L' & _). apply number_fits in N. cbn [width] in N. lia. }
  rewrite (bind_at _ _ _ _ _ E). clear E. cbv zeta.
  destruct (prim_at U16 d (k + 2) st B) as [(x & N2 & E)|(L & E)]; cbn [width] in *.
  2: { rewrite (bind_err _ _ _ E). split; [discriminate|]. intros (c' & fs & q & _ & L' & _). lia. }
  rewrite (bind_at _ _ _ _ _ E). clear E. apply number_fits in N2. cbn [width] in N2. replace (k + 2 + 2)%nat with (k + 4)%nat in * by lia.
  pose proof (u16_range _ _ _ N) as Rc.
  replace (Z.land c 4095) with (c mod 4096) by (change 4095 with (Z.ones 12); rewrite Z.land_ones by lia; reflexivity).
  assert (E15: negb (Z.land c 32768 =? 0) = Z.testbit c 15).
  { rewrite <- (land_bit c 15) by lia. change (2 ^ 15) with 32768. assert (0 <= Z.land c 32768) by (apply Z.land_nonneg; lia). lia. }
  rewrite E15. destruct (headers_cases axes d st B (Z.to_nat (c mod 4096)) (k + 4)) as [(hs & q & H & E)|(H & E)].
  2: { rewrite (bind_err _ _ _ E). split; [discriminate|]. intros (c' & fs & q & N' & _ & H' & _). rewrite (number_unique _ _ _ _ _ N' N) in H'. destruct (H _ _ H'). }
  rewrite (bind_at _ _ _ _ _ E). clear E.
  assert (Bad: variation_data_bad axes two all d k <->
    if Z.testbit c 15 then points_bad d q \/ exists n q', points_at d all q n q' /\ variations_bad d two all n q' (map tv_flags hs)
    else variations_bad d two all 0 q (map tv_flags hs)).
  { split; [|intros X; exists c, (map tv_flags hs), q; auto]. intros (c' & fs & q' & N' & _ & H' & X). rewrite (number_unique _ _ _ _ _ N' N) in *.
    destruct (headers_unique _ _ _ _ _ _ H' _ _ H) as [-> ->]. exact X. }
  rewrite Bad. clear Bad. destruct (Z.testbit c 15).
  - rewrite bind_assoc. destruct (points_cases d q st B) as [(NB & o & q1 & P & E)|[(Bd & P & E)|(NB & P & E)]].
    + rewrite (bind_at _ _ _ _ _ E), bind_ret. fold (chosen_points all o). specialize (P all). rewrite (data_stops d st two all _ B).
      split; [intros X; right; eauto|]. intros [X|(n & q' & P' & X)]; [contradiction|]. destruct (points_unique _ _ _ _ _ _ _ P' P) as [-> ->]. exact X.
    + rewrite (bind_panic _ _ _ E). split; auto.
    + rewrite (bind_err _ _ _ E). split; [discriminate|]. intros [X|(n & q' & P' & _)]; [contradiction|destruct (P _ _ _ P')].
  - rewrite bind_ret. apply (data_stops d st two all [] B).
Qed.

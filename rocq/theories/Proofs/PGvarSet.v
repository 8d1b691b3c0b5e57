(** What the writer of the glyph variations table makes of one delta set. *)
From Coq Require Import Lia.
From Verif.Model Require Import MBase MFixed MFloat MGlyph MGlyf MPacked MIup MGvar.
From Verif.Spec Require Import SBase SGlyph SPacked SIup SGvar.
From Verif.Proofs Require Import PBase PFixed PVarStore PIupContour PIupWhole PIupThm.

Definition zerob (p : Z * Z) : bool := (fst p =? 0) && (snd p =? 0).
Definition nonzero (p : Z * Z) : bool := negb (zerob p).

(** ** What the optimizer keeps *)

Lemma contour_zero dl cs r : length cs = length dl -> (forall d, In (Some d) dl -> i16_pair d) ->
  (forall d, In (Some d) dl -> zerob d = true) -> iup_contour (SIup.given dl) cs = Ok r -> forall x, In x r -> zerob x = true.
Proof.
  intros L D Z0 H x Hx.
  destruct (zerob x) eqn:Ez; [reflexivity|exfalso].
  assert (T: (exists i, SIup.touched dl i) \/ forall i, ~ SIup.touched dl i).
  { clear. induction dl as [|[d|] dl IH]; [right; intros i (d & E); destruct i; discriminate|left; exists 0%nat, d; reflexivity|].
    destruct IH as [(i & d & E)|N]; [left; exists (S i), d; exact E|right; intros [|i] (d & E); [discriminate|apply (N i); now exists d]]. }
  destruct T as [(i & T)|N].
  2:{ rewrite (iup_none dl cs L N) in H. apply Ok_inj in H. subst r. apply repeat_spec in Hx. subst x. discriminate. }
  destruct (iup_spec dl cs i L D T) as [F NF].
  assert (NN: ~ contour_fits dl cs).
  2:{ rewrite (NF NN) in H. discriminate. }
  intros Fit. destruct (F Fit) as (r' & E & Len & Own & Inf). rewrite E in H. apply Ok_inj in H. subst r'.
  change pt with (Z * Z)%type in *. apply In_nth_error in Hx as (t & Ht). assert (Lt: (t < length dl)%nat) by (rewrite <- Len; apply nth_error_Some; congruence).
  destruct (nth_error dl t) as [[d|]|] eqn:Ed; [| |apply nth_error_None in Ed; lia].
  - rewrite (Own _ _ Ed) in Ht. injection Ht as <-. rewrite Z0 in Ez; [discriminate|]. eapply nth_error_In; exact Ed.
  - destruct (nth_error cs t) as [c|] eqn:Ec; [|apply nth_error_None in Ec; lia].
    destruct (Inf t c Ed Ec) as (p & q & c1 & d1 & c2 & d2 & d & _ & R1 & R2 & Et & I1 & I2).
    rewrite Et in Ht. injection Ht as <-.
    assert (Z1: zerob d1 = true) by (apply Z0; destruct R1 as [_ R1]; eapply nth_error_In; exact R1).
    assert (Z2: zerob d2 = true) by (apply Z0; destruct R2 as [_ R2]; eapply nth_error_In; exact R2).
    unfold zerob in Z1, Z2, Ez.
    assert (One: forall x1 a1 x2 a2 x0 a, a1 = 0 -> a2 = 0 -> inferred x1 a1 x2 a2 x0 a -> a = 0).
    { clear. intros x1 a1 x2 a2 x0 a -> -> (A & B & C). cbn in A. destruct (Z.lt_total x1 x2) as [H|[H|H]]; [|auto|].
      - destruct (B H) as (B1 & B2 & B3). destruct (Z.le_gt_cases x0 x1); [auto|]. destruct (Z.le_gt_cases x2 x0); [auto|].
        destruct B3 as [B3 _]; [lia|]. cbn in B3. lia.
      - destruct (C H) as (B1 & B2 & B3). destruct (Z.le_gt_cases x0 x2); [auto|]. destruct (Z.le_gt_cases x1 x0); [auto|].
        destruct B3 as [B3 _]; [lia|]. cbn in B3. lia. }
    apply andb_true_iff in Z1, Z2. 
    rewrite (One _ _ _ _ _ _ (proj1 (Z.eqb_eq _ _) (proj1 Z1)) (proj1 (Z.eqb_eq _ _) (proj1 Z2)) I1) in Ez.
    rewrite (One _ _ _ _ _ _ (proj1 (Z.eqb_eq _ _) (proj2 Z1)) (proj1 (Z.eqb_eq _ _) (proj2 Z2)) I2) in Ez. discriminate.
Qed.

Lemma SIup_given_app a b : SIup.given (a ++ b) = SIup.given a ++ SIup.given b.
Proof. apply map_app. Qed.

Lemma opt_contours_kept xy cs : Forall i16_pair xy -> forall ends start o,
  optimize_contours xy cs start ends = Ok o ->
  exists dl, o = SIup.given dl /\ (forall d, In (Some d) dl -> In d xy) /\
    ((forall d, In (Some d) dl -> zerob d = true) -> forall x, In x (firstn (length o) (skipn start xy)) -> zerob x = true).
Proof.
  intros FX. induction ends as [|e ends IH]; intros start o H; cbn [optimize_contours] in H.
  { apply Ok_inj in H. subst o. exists []. cbn. repeat split; intros; contradiction. }
  destruct (chk_u 64 (e + 1)) as [e1| |] eqn:E1; try discriminate. cbn [rbind] in H.
  assert (EE: e1 = e + 1 /\ 0 <= e1) by (unfold chk_u in E1; destruct (_ && _) eqn:Q; [apply Ok_inj in E1; lia|discriminate]). destruct EE as [-> P1].
  destruct (@slice pt xy start _) as [d| |] eqn:SD; try discriminate. cbn [rbind] in H.
  destruct (slice cs start _) as [c| |] eqn:SC; try discriminate. cbn [rbind] in H.
  destruct (iup_contour_optimize d c half) as [a| |] eqn:EA; try discriminate. cbn [rbind] in H.
  destruct (chk_u 64 (e - Z.of_nat start)) as [m| |] eqn:E2; try discriminate. cbn [rbind] in H.
  destruct (_ =? _) eqn:EL; [|discriminate].
  destruct (optimize_contours _ _ _ ends) as [r'| |] eqn:ER; try discriminate. cbn [rbind] in H. apply Ok_inj in H. subst o.
  apply slice_inv in SD, SC. destruct SD as (S1 & S2 & S3). destruct SC as (S4 & _ & S6). change pt with (Z * Z)%type in *.
  assert (ID: forall x, In x d -> In x xy) by (intros x Hx; subst d; now apply In_part in Hx).
  assert (FD: Forall i16_pair d) by (apply Forall_forall; intros x Hx; rewrite Forall_forall in FX; apply FX, ID, Hx).
  destruct (optimize_sound d c (eq_trans S6 (eq_sym S3)) FD a EA) as (dl & -> & LA & Own & LO).
  destruct (IH _ _ ER) as (dl' & -> & K & Zr).
  assert (Kd: forall x, In (Some x) dl -> In x d).
  { intros x Hx. apply In_nth_error in Hx as (t & Ht). eapply nth_error_In. apply (Own _ _ Ht). }
  exists (dl ++ dl'). split; [symmetry; apply SIup_given_app|]. split.
  { intros x Hx. apply in_app_or in Hx as [Hx|Hx]; [apply ID, Kd, Hx|now apply K]. }
  intros Z0. rewrite app_length. rewrite given_length in *. rewrite firstn_plus, skipn_skipn.
  assert (LA': (start + length dl)%nat = Z.to_nat (e + 1)) by (rewrite LA, S3; lia).
  intros x Hx. apply in_app_or in Hx as [Hx|Hx].
  - assert (EF: firstn (length dl) (skipn start xy) = d) by (rewrite S2; f_equal; lia).
    rewrite EF in Hx. apply (contour_zero dl c d); [|intros y Hy|intros y Hy|exact LO|exact Hx].
    + rewrite LA, S3. exact S6.
    + rewrite Forall_forall in FD. apply FD, Kd, Hy.
    + apply Z0, in_or_app. now left.
  - rewrite LA' in Hx. rewrite (given_length dl') in Hx. apply (fun F => Zr F x Hx). intros y Hy. apply Z0, in_or_app. now right.
Qed.

Definition pairs (l : list (Z * Z)) : list (option (Z * Z)) := map Some l.
Lemma full_given d : full_deltas d = SIup.given (pairs (ds_deltas d)).
Proof. unfold full_deltas, SIup.given, pairs. rewrite map_map. reflexivity. Qed.
Lemma full_iup l cs ends : iup_delta (SIup.given (pairs l)) cs ends = Ok l.
Proof.
  unfold iup_delta. replace (forallb _ _) with true.
  2:{ symmetry. apply forallb_forall. intros x Hx. unfold SIup.given, pairs in Hx. rewrite map_map in Hx.
      apply in_map_iff in Hx as (y & <- & _). reflexivity. }
  induction l as [|[x y] l IH]; [reflexivity|]. cbn [pairs map SIup.given option_map rmapM get_2d rbind].
  unfold SIup.given, pairs in IH. cbn [fst snd]. rewrite IH. reflexivity.
Qed.

Lemma optimized_facts d g cs ends o : Forall i16_pair (ds_deltas d) -> gvar_coords_and_ends g = Ok (cs, ends) ->
  length (ds_deltas d) = length cs -> optimize_deltas (full_deltas d) g = Ok o ->
  length o = length cs /\ iup_delta o cs ends = Ok (ds_deltas d) /\
  exists dl, o = SIup.given dl /\ (forall x, In (Some x) dl -> i16_pair x) /\
    existsb nonzero (flat_map (fun x => match x with Some y => [y] | None => [] end) dl) = existsb nonzero (ds_deltas d).
Proof.
  intros FX G L H. rewrite full_given in H.
  assert (D: forall x, In (Some x) (pairs (ds_deltas d)) -> i16_pair x).
  { intros x Hx. unfold pairs in Hx. apply in_map_iff in Hx as (y & E & Hy). injection E as ->. rewrite Forall_forall in FX. auto. }
  destruct (optimize_deltas_lossless (pairs (ds_deltas d)) g o D) as (cs' & ends' & xy & G' & E1 & L' & E2).
  { intros cs' ends' G'. rewrite G in G'. injection G' as <- <-. unfold pairs. now rewrite map_length. }
  { exact H. }
  rewrite G in G'. injection G' as <- <-. rewrite full_iup in E1. apply Ok_inj in E1. subst xy.
  unfold pairs in L'. rewrite map_length in L'.
  split; [congruence|]. split; [exact E2|].
  unfold optimize_deltas in H. rewrite G in H. cbn [rbind] in H. rewrite full_iup in H. cbn [rbind] in H.
  destruct (opt_contours_kept (ds_deltas d) cs FX _ _ _ H) as (dl & -> & K & Zr).
  exists dl. split; [reflexivity|]. split; [intros x Hx; rewrite Forall_forall in FX; apply FX, K, Hx|].
  assert (KIn: forall y, In y (flat_map (fun x => match x with Some y => [y] | None => [] end) dl) <-> In (Some y) dl).
  { intros y. rewrite in_flat_map. split; [intros ([z|] & I & J); [destruct J as [->|[]]; exact I|destruct J]|intros I; exists (Some y); split; [exact I|now left]]. }
  destruct (existsb nonzero (ds_deltas d)) eqn:E.
  - destruct (existsb nonzero (flat_map _ dl)) eqn:E'; [reflexivity|]. exfalso.
    apply existsb_exists in E as (x & Ix & Nx).
    assert (A: zerob x = true); [|unfold nonzero in Nx; rewrite A in Nx; discriminate].
    apply Zr.
    + intros y Hy. destruct (zerob y) eqn:Ey; [reflexivity|exfalso]. enough (existsb nonzero (flat_map (fun x => match x with Some y => [y] | None => [] end) dl) = true) by congruence.
      apply existsb_exists. exists y. split; [now apply KIn|]. unfold nonzero. now rewrite Ey.
    + cbn [skipn]. rewrite firstn_all2 by lia. exact Ix.
  - destruct (existsb nonzero (flat_map _ dl)) eqn:E'; [|reflexivity]. exfalso.
    apply existsb_exists in E' as (x & Ix & Nx). apply KIn, K in Ix.
    enough (existsb nonzero (ds_deltas d) = true) by congruence. apply existsb_exists. now exists x.
Qed.

Lemma moves_nonzero d : moves d = existsb nonzero (ds_deltas d).
Proof. reflexivity. Qed.

Lemma has_effect_given dl : has_effect (SIup.given dl) =
  Ok (existsb nonzero (flat_map (fun x => match x with Some y => [y] | None => [] end) dl)).
Proof.
  induction dl as [|[[x y]|] dl IH]; [reflexivity| |exact IH].
  cbn [SIup.given map option_map has_effect flat_map get_2d rbind existsb app]. cbn [fst snd].
  unfold SIup.given in IH. rewrite IH. unfold nonzero at 2, zerob. cbn [fst snd]. rewrite negb_andb.
  destruct (negb (x =? 0) || negb (y =? 0)); reflexivity.
Qed.
Lemma has_effect_full d : has_effect (full_deltas d) = Ok (moves d).
Proof.
  rewrite full_given, has_effect_given, moves_nonzero. f_equal. f_equal. unfold pairs.
  induction (ds_deltas d) as [|x l IH]; [reflexivity|]. cbn. now rewrite IH.
Qed.

(** ** The header *)

Lemma bytes_eqb_eq a : forall b, bytes_eqb a b = true <-> a = b.
Proof.
  induction a as [|x a IH]; destruct b as [|y b]; cbn [bytes_eqb]; split; try discriminate; try reflexivity.
  - intros H. apply andb_true_iff in H as [H1 H2]. f_equal; [lia|now apply IH].
  - intros [= -> ->]. rewrite Z.eqb_refl. cbn. now apply IH.
Qed.
Lemma position_found x l : forall i, In x l -> exists n, position_from i x l = Some (i + Z.of_nat n) /\ nth_error l n = Some x.
Proof.
  induction l as [|t l IH]; intros i H; [destruct H|]. cbn [position_from].
  destruct (bytes_eqb t x) eqn:E.
  - apply bytes_eqb_eq in E. subst t. exists 0%nat. split; [f_equal; lia|reflexivity].
  - destruct H as [->|H]; [assert (bytes_eqb x x = true) by (now apply bytes_eqb_eq); congruence|].
    destruct (IH (i + 1) H) as (n & E1 & E2). exists (S n). split; [rewrite E1; f_equal; lia|exact E2].
Qed.
Lemma dy_eqb_refl x : dy_eqb x x = true.
Proof. unfold dy_eqb, dy_compare. now rewrite Z.compare_refl. Qed.
Lemma dy_eqb_f2 p q : in_range I16 p -> in_range I16 q -> dy_eqb (f2dot14_from_packed p) (f2dot14_from_packed q) = true -> p = q.
Proof.
  unfold f2dot14_from_packed, f32_of_int. cbn [in_range]. intros P Q.
  rewrite !rnd24_small by (change (2 ^ 24) with 16777216; lia). unfold f32_scale. cbn [mant expo].
  unfold dy_eqb, dy_compare, dy_at. cbn [mant expo]. rewrite Z.min_id, Z.sub_diag. change (2 ^ 0) with 1. rewrite !Z.mul_1_r.
  destruct (Z.compare_spec p q); [auto|discriminate|discriminate].
Qed.
Lemma tuple_eqb_eq a b : Forall f2dot14_value a -> Forall f2dot14_value b -> tuple_eqb a b = true <-> a = b.
Proof.
  intros Fa. revert b. induction Fa as [|x a (p & Rp & ->) Fa IH]; intros [|y b] Fb; cbn [tuple_eqb]; split; try discriminate; try reflexivity.
  - intros H. apply andb_true_iff in H as [H1 H2]. inversion Fb as [|? ? (q & Rq & ->) Fb']; subst.
    apply dy_eqb_f2 in H1; [|assumption|assumption]. subst q. f_equal. now apply IH.
  - intros [= <- <-]. rewrite dy_eqb_refl. cbn. inversion Fb; subst. now apply IH.
Qed.
Lemma tuple_packed t : Forall f2dot14_value t -> exists ps, t = map f2dot14_from_packed ps /\ Forall (in_range I16) ps.
Proof.
  induction 1 as [|x t (p & R & ->) F (ps & -> & H)]; [exists []; split; [reflexivity|constructor]|].
  exists (p :: ps). split; [reflexivity|now constructor].
Qed.
Lemma ser_tuple_packed ps : Forall (in_range I16) ps -> tuple_bytes (map f2dot14_from_packed ps) = Ok (concat (map ser_i16 ps)).
Proof.
  intros H. unfold tuple_bytes, ser_tuple. enough (E: rmapM ser_f2dot14 (map f2dot14_from_packed ps) = Ok (map ser_i16 ps)) by now rewrite E.
  induction H as [|p ps R H IH]; [reflexivity|]. cbn [map rmapM]. unfold ser_f2dot14 at 1.
  rewrite (f2dot14_packed_id p) by (cbn in R; lia). cbn [rbind]. rewrite IH. reflexivity.
Qed.

(** With the peak among at most 4096 shared tuples, the header refers to it. *)
Lemma header_facts axes shared peak d i : tuple_of axes (ds_peak d) -> tuple_of axes (ds_start d) -> tuple_of axes (ds_end d) ->
  extended d -> position_from 0 peak shared = Some i -> 0 <= i < 4096 ->
  let h := ds_header shared peak d in
  header_ok axes h /\ tv_index h = i /\ tv_peak h = None /\ tv_start h = Some (ds_start d) /\ tv_end h = Some (ds_end d).
Proof.
  intros (P1 & P2) (S1 & S2) (E1 & E2) X Hp Hi. unfold ds_header. rewrite Hp.
  assert (EI: negb (tuple_eqb (ds_peak d) (ds_start d)) || negb (tuple_eqb (ds_peak d) (ds_end d)) = true).
  { destruct (tuple_eqb (ds_peak d) (ds_start d)) eqn:A; [|reflexivity]. destruct (tuple_eqb (ds_peak d) (ds_end d)) eqn:B; [|reflexivity].
    apply tuple_eqb_eq in A; [|assumption|assumption]. apply tuple_eqb_eq in B; [|assumption|assumption]. exfalso. apply X. split; congruence. }
  rewrite EI. change (Z.lor 0 INTERMEDIATE_REGION) with 0x4000. change (contains 0x4000 EMBEDDED_PEAK_TUPLE) with false.
  change (contains 0x4000 INTERMEDIATE_REGION) with true. cbv zeta. cbn [tv_index tv_peak tv_start tv_end].
  rewrite u16_id by lia. split; [|auto].
  unfold header_ok. cbn [tv_flags tv_index tv_peak tv_start tv_end tuple_ok].
  repeat match goal with |- _ /\ _ => split end; try reflexivity; try assumption; try lia; cbn; lia.
Qed.

(** ** The variation *)

Lemma full_no_none d : ~ In None (full_deltas d).
Proof. unfold full_deltas. rewrite in_map_iff. intros (x & E & _). discriminate. Qed.
Lemma full_some d : SPacked.given (full_deltas d) = map (fun p => Delta2D (fst p) (snd p)) (ds_deltas d).
Proof. unfold full_deltas. induction (ds_deltas d) as [|x l IH]; [reflexivity|]. cbn. now rewrite IH. Qed.
Lemma pair_ok p : i16_pair p -> delta_ok true (Delta2D (fst p) (snd p)).
Proof. unfold i16_pair. change (2 ^ 15) with 32768. intros (A & B). cbn. lia. Qed.

Lemma full_variation axes n h d : header_ok axes h -> length (ds_deltas d) = n -> Forall i16_pair (ds_deltas d) ->
  ~ zeros_256 (map fst (ds_deltas d)) -> ~ zeros_256 (map snd (ds_deltas d)) -> variation_ok axes true n (mk_tv h (full_deltas d)).
Proof.
  intros Hh L F X Y. unfold variation_ok. cbn [tv_header tv_deltas]. rewrite full_some, !map_map. cbn [delta_x delta_y].
  split; [exact Hh|]. split; [unfold full_deltas; now rewrite map_length|]. split.
  - apply Forall_map. eapply Forall_impl; [|exact F]. exact pair_ok.
  - split; [exact X|]. split; [intros _; exact Y|]. intros H. now apply full_no_none in H.
Qed.
Lemma given_given dl : SPacked.given (SIup.given dl) = map (fun p => Delta2D (fst p) (snd p)) (SPacked.given dl).
Proof. induction dl as [|[x|] dl IH]; [reflexivity| |exact IH]. cbn. unfold SIup.given in IH. now rewrite IH. Qed.
Lemma given_In {A} (dl : list (option A)) x : In x (SPacked.given dl) <-> In (Some x) dl.
Proof.
  induction dl as [|[y|] dl IH]; [reflexivity| |]; cbn [SPacked.given In]; rewrite IH; split.
  - intros [->|H]; auto.
  - intros [[= ->]|H]; auto.
  - auto.
  - intros [[=]|H]; auto.
Qed.
Lemma all_none_given {A} (o : list (option A)) : forallb is_none o = false -> SPacked.given o <> [].
Proof. induction o as [|[x|] o IH]; cbn; [discriminate|discriminate|exact IH]. Qed.

Lemma set_written axes shared g ce d : Z.of_nat axes <= 10000 -> set_ok axes (length (fst ce)) d -> extended d ->
  Z.of_nat (length (fst ce)) <= 65535 -> (length shared <= Z.to_nat 4096)%nat ->
  (forall p, tuple_bytes (ds_peak d) = Ok p -> In p shared) ->
  (forall g', g = Some g' -> gvar_coords_and_ends g' = Ok ce /\ optimizable g' d) ->
  exists v p i, to_tuple_variation shared g d = Ok v /\ variation_ok axes true (length (fst ce)) v /\
    has_effect (tv_deltas v) = Ok (moves d) /\ iup_delta (tv_deltas v) (fst ce) (snd ce) = Ok (ds_deltas d) /\
    tv_peak (tv_header v) = None /\ tv_start (tv_header v) = Some (ds_start d) /\ tv_end (tv_header v) = Some (ds_end d) /\
    tuple_bytes (ds_peak d) = Ok p /\ tv_index (tv_header v) = Z.of_nat i /\ nth_error shared i = Some p.
Proof.
  intros Ha (TP & TS & TE & Ld & Fd & X & Y) Xt Hn Hs Hp Hg.
  destruct (tuple_packed _ (proj2 TP)) as (ps & EP & FP).
  pose proof (ser_tuple_packed ps FP) as EB. rewrite <- EP in EB.
  destruct (position_found _ shared 0 (Hp _ EB)) as (i & Ei & Ni).
  assert (Li: (i < length shared)%nat) by (apply nth_error_Some; congruence).
  destruct (header_facts axes shared _ d _ TP TS TE Xt Ei ltac:(lia)) as (Hh & H1 & H2 & H3 & H4).
  set (h := ds_header shared (concat (map ser_i16 ps)) d) in *.
  assert (VF: variation_ok axes true (length (fst ce)) (mk_tv h (full_deltas d))) by (apply full_variation; assumption).
  assert (OkF: forall v, variation_ok axes true (length (fst ce)) v -> exists bs, ser_tvs [v] = Ok bs).
  { intros v V. apply (store_roundtrip axes true (length (fst ce)) [v]).
    - exact Hn.
    - cbn [length]. lia.
    - constructor; [exact V|constructor].
    - cbn [length]. lia. }
  assert (Fin: forall o, variation_ok axes true (length (fst ce)) (mk_tv h o) -> has_effect o = Ok (moves d) ->
     iup_delta o (fst ce) (snd ce) = Ok (ds_deltas d) -> to_tuple_variation shared g d = Ok (mk_tv h o) ->
     exists v p i, to_tuple_variation shared g d = Ok v /\ variation_ok axes true (length (fst ce)) v /\
       has_effect (tv_deltas v) = Ok (moves d) /\ iup_delta (tv_deltas v) (fst ce) (snd ce) = Ok (ds_deltas d) /\
       tv_peak (tv_header v) = None /\ tv_start (tv_header v) = Some (ds_start d) /\ tv_end (tv_header v) = Some (ds_end d) /\
       tuple_bytes (ds_peak d) = Ok p /\ tv_index (tv_header v) = Z.of_nat i /\ nth_error shared i = Some p).
  { intros o A B C E. exists (mk_tv h o), (concat (map ser_i16 ps)), i. cbn [tv_header tv_deltas].
    repeat match goal with |- _ /\ _ => split end; assumption. }
  assert (IF: iup_delta (full_deltas d) (fst ce) (snd ce) = Ok (ds_deltas d)) by (rewrite full_given; apply full_iup).
  destruct g as [g|].
  2:{ apply (Fin (full_deltas d)); [exact VF|apply has_effect_full|exact IF|].
      unfold to_tuple_variation. rewrite EB. reflexivity. }
  destruct (Hg g eq_refl) as (HG & o & Eo & So1 & So2 & So3).
  destruct ce as [cs ends]. cbn [fst snd] in *.
  destruct (optimized_facts d g cs ends o Fd HG Ld Eo) as (Lo & Io & dl & -> & Do & Ne).
  destruct (forallb is_none (SIup.given dl)) eqn:AN.
  { apply (Fin (full_deltas d)); [exact VF|apply has_effect_full|exact IF|].
    unfold to_tuple_variation. rewrite EB. cbn [rbind]. rewrite Eo. cbn [rbind]. now rewrite AN. }
  assert (VO: variation_ok axes true (length cs) (mk_tv h (SIup.given dl))).
  { unfold variation_ok. cbn [tv_header tv_deltas]. split; [exact Hh|]. split; [exact Lo|]. split.
    - rewrite given_given. apply Forall_map, Forall_forall. intros x Hx. apply pair_ok, Do, given_In, Hx.
    - split; [exact So1|]. split; [intros _; exact So2|]. intros Hi. apply So3; [exact Hi|]. now apply all_none_given. }
  destruct (OkF _ VF) as (ba & Ea). destruct (OkF _ VO) as (bb & Eb).
  assert (EV: to_tuple_variation shared (Some g) d = if (length bb <? length ba)%nat then Ok (mk_tv h (SIup.given dl)) else Ok (mk_tv h (full_deltas d))).
  { unfold to_tuple_variation. rewrite EB. cbn [rbind]. rewrite Eo. cbn [rbind]. rewrite AN. fold h. rewrite Ea, Eb. reflexivity. }
  destruct (length bb <? length ba)%nat.
  - apply (Fin (SIup.given dl)); [exact VO| |exact Io|exact EV]. rewrite has_effect_given, Ne. reflexivity.
  - apply (Fin (full_deltas d)); [exact VF|apply has_effect_full|exact IF|exact EV].
Qed.

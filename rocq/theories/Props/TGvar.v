(** C63: the glyph variations table *)
From Coq Require Import Lia.
From Verif.Model Require Import MBase MFixed MFloat MGlyph MGlyf MPacked MIup MGvar.
From Verif.Spec Require Import SBase SGlyph SCmap SPacked SGvar.
From Verif.Spec Require SIup.
From Verif.Proofs Require PCmap4 PName PFixed POffset.
From Verif.Proofs Require Import PBase PCmap12 PGlyphFmt PGvar PGvarRead PGvarMore.

(** A written table, with or without the outlines to optimize for, reads back
    with every glyph's delta sets that move a point, in order and with the same
    regions and deltas.  Only a table in which nothing moves and which has too
    few glyphs with data for its number of axes is not readable. *)
Theorem C63_roundtrip : forall mc v ces glyf axes bs, most_common_first mc -> gvar_ok axes v ces -> glyphs_match v ces glyf ->
  gvar_ser mc v glyf = Ok bs -> Z.of_nat (length bs) < 2 ^ 32 ->
  from_bytes (gvar_de ces) bs = if existsb moves (all_sets v) || (axes <=? 3 * with_data v)%nat then Ok (kept v) else Err.
Proof.
  intros mc v ces glyf axes bs Hmc Hv Hg H Hl. destruct (gvar_written mc v ces glyf axes Hmc Hv Hg) as (W & _).
  destruct (W bs H Hl) as (tuples & chunks & ps & -> & Ht & _ & Hc & Hold & _ & _ & _ & M1 & M2).
  destruct (gvar_read true axes tuples chunks ces [] ltac:(destruct Hv; lia) Ht Hc ltac:(discriminate) (kept v) Hold) as (R1 & R2).
  rewrite !app_nil_r in *. destruct (existsb moves (all_sets v)); cbn [orb].
  - now apply R1, M1.
  - specialize (M2 eq_refl). destruct (_ <=? _)%nat eqn:E; [apply Nat.leb_le in E; apply R1; lia|apply Nat.leb_gt in E; apply R2; lia].
Qed.
Print Assumptions C63_roundtrip.

(** A table is written whenever the headers of each glyph's delta sets fit. *)
Theorem C63_writes : forall mc v ces glyf axes, most_common_first mc -> gvar_ok axes v ces -> glyphs_match v ces glyf ->
  Forall (fun s => match s with Some sets => Z.of_nat (length sets) * (4 + 6 * Z.of_nat axes) <= 65531 | None => True end) v ->
  exists bs, gvar_ser mc v glyf = Ok bs.
Proof. intros mc v ces glyf axes Hmc Hv Hg. exact (proj2 (gvar_written mc v ces glyf axes Hmc Hv Hg)). Qed.
Print Assumptions C63_writes.

(** Optimizing never changes what the table says. *)
Theorem C63_optimizing : forall mc v ces gs axes bs bs', most_common_first mc -> gvar_ok axes v ces -> glyphs_match v ces (Some gs) ->
  gvar_ser mc v None = Ok bs -> gvar_ser mc v (Some gs) = Ok bs' -> Z.of_nat (length bs) < 2 ^ 32 -> Z.of_nat (length bs') < 2 ^ 32 ->
  from_bytes (gvar_de ces) bs' = from_bytes (gvar_de ces) bs.
Proof.
  intros mc v ces gs axes bs bs' Hmc Hv Hg H H' L L'.
  rewrite (C63_roundtrip mc v ces (Some gs) axes bs' Hmc Hv Hg H' L'). symmetry. apply (C63_roundtrip mc v ces None axes bs Hmc Hv); [discriminate|exact H|exact L].
Qed.
Print Assumptions C63_optimizing.

(** Glyphs of at most 127 points, phantom points and components included, can
    always be optimized when no contour is empty and the numbers are moderate. *)
Theorem C63_small_glyphs : forall v ces gs,
  (forall i sets ce, nth_error v i = Some (Some sets) -> nth_error ces i = Some ce ->
    exists g, nth_error gs i = Some g /\ gvar_coords_and_ends g = Ok ce /\ (length (fst ce) <= 127)%nat /\
      Forall SIup.small_pair (fst ce) /\ Forall (fun c => c <> []) (g_contours g) /\
      Forall (fun d => length (ds_deltas d) = length (fst ce) /\ Forall SIup.small_pair (ds_deltas d)) sets) ->
  glyphs_match v ces (Some gs).
Proof.
  intros v ces gs H gs' i sets ce [= <-] E1 E2. destruct (H i sets ce E1 E2) as (g & G1 & G2 & G3 & G4 & G5 & G6).
  exists g. split; [exact G1|]. split; [exact G2|]. eapply Forall_impl; [|exact G6]. intros d (L & S0). destruct ce as [cs ends].
  now apply (small_optimizable g cs ends d).
Qed.
Print Assumptions C63_small_glyphs.

(** The written file is the one the specification describes, with long offsets,
    data at even offsets and each peak stored once, the most used ones first. *)
Theorem C63_laid_out : forall mc v ces glyf axes bs, most_common_first mc -> gvar_ok axes v ces -> glyphs_match v ces glyf ->
  gvar_ser mc v glyf = Ok bs -> Z.of_nat (length bs) < 2 ^ 32 ->
  exists tuples chunks ps, bs = gvar_file true axes tuples chunks /\ tuples_ok axes tuples /\ chunks_ok true axes tuples chunks /\
    chunks_hold axes tuples ces chunks (kept v) /\ Forall (fun o => o mod 2 = 0) (starts 0 chunks) /\
    Forall2 (fun d t => ds_peak d = map f2dot14_from_packed t) (all_sets v) ps /\ by_frequency ps tuples.
Proof.
  intros mc v ces glyf axes bs Hmc Hv Hg H Hl. destruct (gvar_written mc v ces glyf axes Hmc Hv Hg) as (W & _).
  destruct (W bs H Hl) as (tuples & chunks & ps & E & Ht & _ & Hc & Hold & Ev & Fp & By & _).
  exists tuples, chunks, ps. split; [exact E|]. split; [exact Ht|]. split; [exact Hc|]. split; [exact Hold|]. split; [|now split].
  apply starts_even; [|reflexivity]. eapply Forall_impl; [|exact Ev]. cbn beta. intros c Od.
  destruct (Nat.Even_or_Odd (length c)) as [(k & ->)|Od']; [rewrite Nat.mul_comm; apply Nat.mod_mul; lia|]. apply Nat.odd_spec in Od'. congruence.
Qed.
Print Assumptions C63_laid_out.

(** Reading, for both offset formats: the delta sets the variations stand for,
    provided a tuple's worth of bytes follows the shared tuples; if not, an error. *)
Theorem C63_read : forall long axes tuples chunks ces v post, Z.of_nat axes <= 65535 -> tuples_ok axes tuples ->
  chunks_ok long axes tuples chunks -> (long = false -> Z.of_nat (length (concat chunks)) < 65536) ->
  chunks_hold axes tuples ces chunks v ->
  from_bytes (gvar_de ces) (gvar_file long axes tuples chunks ++ post) =
    if (2 * axes <=? length (concat chunks ++ post))%nat then Ok v else Err.
Proof.
  intros long axes tuples chunks ces v post Ha Ht Hc Hs Hold. destruct (gvar_read long axes tuples chunks ces post Ha Ht Hc Hs v Hold) as (R1 & R2).
  destruct (_ <=? _)%nat eqn:E; [apply Nat.leb_le in E; now apply R1|apply Nat.leb_gt in E; now apply R2].
Qed.
Print Assumptions C63_read.

(** Short offsets reach 131070 bytes, but reading them aborts from 65536 on. *)
Theorem C63_short_offsets_abort : forall axes tuples chunks ces post, Z.of_nat axes <= 65535 -> tuples_ok axes tuples ->
  chunks_ok false axes tuples chunks -> 65536 <= Z.of_nat (length (concat chunks)) < 131072 ->
  from_bytes (gvar_de ces) (gvar_file false axes tuples chunks ++ post) = Panic.
Proof. exact gvar_read_far. Qed.
Print Assumptions C63_short_offsets_abort.

(** A font with 65535 glyphs, the most there can be, cannot be read either. *)
Theorem C63_most_glyphs_abort : forall ces axes tuples tuple_pos flags data_pos post,
  Forall (fun x => 0 <= x <= 65535) [axes; tuples; flags] -> Forall (fun x => 0 <= x < 2 ^ 32) [tuple_pos; data_pos] ->
  from_bytes (gvar_de ces) (word 1 ++ word 0 ++ word axes ++ word tuples ++ dword tuple_pos ++ word 65535 ++ word flags ++ dword data_pos ++ post) = Panic.
Proof.
  intros ces axes tuples tuple_pos flags data_pos post H1 H2. inversion H1 as [|? ? B1 H3]; subst. inversion H3 as [|? ? B2 H4]; subst. inversion H4 as [|? ? B3 _]; subst.
  inversion H2 as [|? ? B4 H5]; subst. inversion H5 as [|? ? B5 _]; subst. unfold from_bytes.
  set (buf := _ ++ _). assert (H: SOffset.at_pos buf 0 buf) by (exists [], []; now rewrite app_nil_r). unfold buf at 2 in H. clearbody buf.
  do 8 (apply POffset.at_pos_app in H as [? H]). unfold gvar_de, rd_new, rd_push. cbn [rd_input rd_ptr rd_stack].
  do 8 (erewrite step_reads; [| |eassumption]; [|first [rewrite word_u16; apply reads_u16; lia | apply reads_dword; lia]]).
  rewrite PName.chk_u_bad by (cbn; lia). reflexivity.
Qed.
Print Assumptions C63_most_glyphs_abort.

(** A table without any delta set cannot be written. *)
Theorem C63_nothing_aborts : forall mc v glyf, most_common_first mc -> all_sets v = [] -> gvar_ser mc v glyf = Panic.
Proof.
  intros mc v glyf Hmc E. unfold gvar_ser. rewrite E. cbn [rmapM rbind]. destruct (mc []) as [|t m] eqn:Em; [reflexivity|].
  destruct (Hmc []) as (_ & S0 & _). destruct (proj1 (S0 t)). rewrite Em. now left.
Qed.
Print Assumptions C63_nothing_aborts.

(** ** Examples *)

Definition half_axis : dyadic := f2dot14_from_packed 8192.
Definition one_axis : dyadic := f2dot14_from_packed 16384.
Definition zero_axis : dyadic := f2dot14_from_packed 0.
Definition ce1 : list (Z * Z) * list Z := ([(0, 0); (100, 0); (100, 100); (0, 100); (0, 0); (0, 0); (0, 0); (0, 0)], [3; 4; 5; 6; 7]).
Definition gl1 : glyph := mk_glyph 0 0 100 100 [[mk_point 0 0 true; mk_point 100 0 true; mk_point 100 100 true; mk_point 0 100 true]] [] [] false.
Definition ds1 : delta_set := mk_ds [half_axis] [zero_axis] [one_axis] [(10, 0); (10, 0); (10, 0); (10, 0); (0, 0); (20, 0); (0, 0); (0, 0)].
Definition ds2 : delta_set := mk_ds [one_axis] [half_axis] [one_axis] [(0, 5); (0, 5); (0, 5); (0, 7); (0, 0); (0, 0); (0, 0); (0, 0)].
Definition ds0 : delta_set := mk_ds [one_axis] [half_axis] [one_axis] (repeat (0, 0) 8).
Definition ex_v : gvar := [Some [ds1; ds2; ds0]; None; Some [ds1]].


Lemma few_zeros l : (count_occ Z.eq_dec l 0%Z < 256)%nat -> ~ zeros_256 l.
Proof. intros H (a & b & ->). rewrite !count_occ_app in H. change (count_occ Z.eq_dec (repeat 0 256) 0) with 256%nat in H. lia. Qed.
Definition pair16 (p : Z * Z) : bool := (-32768 <=? fst p) && (fst p <? 32768) && (-32768 <=? snd p) && (snd p <? 32768).
Definition f2 (x : dyadic) : bool := (expo x =? -14) && (-32768 <=? mant x) && (mant x <? 32768).
Definition set_okb (axes points : nat) (d : delta_set) : bool :=
  ((length (ds_peak d) =? axes)%nat && forallb f2 (ds_peak d)) && ((length (ds_start d) =? axes)%nat && forallb f2 (ds_start d)) &&
  ((length (ds_end d) =? axes)%nat && forallb f2 (ds_end d)) && (length (ds_deltas d) =? points)%nat && forallb pair16 (ds_deltas d) &&
  (count_occ Z.eq_dec (map fst (ds_deltas d)) 0%Z <? 256)%nat && (count_occ Z.eq_dec (map snd (ds_deltas d)) 0%Z <? 256)%nat.
Lemma tuple_okb axes t : ((length t =? axes)%nat && forallb f2 t) = true -> tuple_of axes t.
Proof.
  intros H. apply andb_true_iff in H as (L & F). split; [now apply Nat.eqb_eq|]. apply Forall_forall. intros x I. rewrite forallb_forall in F. specialize (F x I).
  unfold f2 in F. exists (mant x). destruct x as [m e]. cbn in *. assert (e = -14) as -> by lia. split; [unfold in_range; lia|].
  unfold f2dot14_from_packed, f32_of_int. rewrite PFixed.rnd24_small by lia. reflexivity.
Qed.
Lemma set_okb_ok axes points d : set_okb axes points d = true -> set_ok axes points d.
Proof.
  unfold set_okb. intros H. repeat (apply andb_true_iff in H as [H ?]). split; [apply tuple_okb; now apply andb_true_iff|].
  split; [now apply tuple_okb|]. split; [now apply tuple_okb|]. split; [now apply Nat.eqb_eq|]. split.
  - apply Forall_forall. intros p I. match goal with F : forallb pair16 _ = true |- _ => rewrite forallb_forall in F; specialize (F p I) end. unfold pair16, SIup.i16_pair in *. lia.
  - split; apply few_zeros; now apply Nat.ltb_lt.
Qed.

Lemma ex_ok : gvar_ok 1 ex_v [ce1; ce1; ce1].
Proof.
  split; [lia|]. split; [cbn; lia|]. split; [discriminate|]. split.
  - exists [[half_axis]; [one_axis]]. split; [apply Nat2Z.inj_le; cbn; lia|]. intros d H. cbn in H. destruct H as [<-|[<-|[<-|[<-|[]]]]]; cbn; tauto.
  - repeat (apply Forall2_cons || apply Forall2_nil); try exact I; (split; [cbn; lia|]; split; [apply Nat2Z.inj_lt; cbn; lia|]);
      repeat (apply Forall_cons || apply Forall_nil); (split; [apply set_okb_ok; vm_compute; reflexivity|intros (A & B); discriminate]).
Qed.
Lemma ex_match : glyphs_match ex_v [ce1; ce1; ce1] (Some [gl1; gl1; gl1]).
Proof.
  apply C63_small_glyphs. intros i sets ce E1 E2.
  assert (Small: (length (fst ce1) <= 127)%nat /\ Forall SIup.small_pair (fst ce1) /\ Forall (fun c => c <> []) (g_contours gl1)).
  { split; [cbn; lia|]. split; [|repeat constructor; discriminate]. repeat (apply Forall_cons || apply Forall_nil); split; cbn; lia. }
  assert (D: Forall (fun d => length (ds_deltas d) = length (fst ce1) /\ Forall SIup.small_pair (ds_deltas d)) [ds1; ds2; ds0]).
  { repeat (apply Forall_cons || apply Forall_nil); (split; [reflexivity|]); repeat (apply Forall_cons || apply Forall_nil); split; cbn; lia. }
  destruct Small as (S1 & S2 & S3). destruct i as [|[|[|i]]]; cbn in E1, E2; try discriminate; [| |now destruct i]; injection E1 as <-; injection E2 as <-; exists gl1;
    (split; [reflexivity|]); (split; [vm_compute; reflexivity|]); (split; [exact S1|]); (split; [exact S2|]); (split; [exact S3|]); [exact D|].
  inversion D; subst. now constructor.
Qed.
Example C63_ex : exists bs bs', gvar_ser counted_list ex_v None = Ok bs /\ gvar_ser counted_list ex_v (Some [gl1; gl1; gl1]) = Ok bs' /\
  length bs = 100%nat /\ length bs' = 98%nat /\ kept ex_v = [Some [ds1; ds2]; None; Some [ds1]] /\
  most_common_first counted_list /\ gvar_ok 1 ex_v [ce1; ce1; ce1] /\ glyphs_match ex_v [ce1; ce1; ce1] (Some [gl1; gl1; gl1]).
Proof.
  eexists. eexists. split; [vm_compute; reflexivity|]. split; [vm_compute; reflexivity|]. split; [reflexivity|]. split; [reflexivity|].
  split; [reflexivity|]. split; [exact counted_first|]. split; [exact ex_ok|exact ex_match].
Qed.
(** Nothing moves: four axes and one glyph with data are too many. *)
Example C63_still_ex : 
  let d := mk_ds (repeat one_axis 4) (repeat zero_axis 4) (repeat one_axis 4) [(0, 0)] in
  gvar_ok 4 [Some [d]] [([(0, 0)], [0])] /\ existsb moves (all_sets [Some [d]]) = false /\
  exists bs, gvar_ser counted_list [Some [d]] None = Ok bs /\ from_bytes (gvar_de [([(0, 0)], [0])]) bs = Err.
Proof.
  cbv zeta. split; [|split; [reflexivity|eexists; split; [vm_compute; reflexivity|vm_compute; reflexivity]]].
  split; [lia|]. split; [cbn; lia|]. split; [discriminate|]. split.
  - exists [repeat one_axis 4]. split; [apply Nat2Z.inj_le; cbn; lia|]. intros d [<-|[]]. now left.
  - repeat (apply Forall2_cons || apply Forall2_nil). split; [cbn; lia|]. split; [apply Nat2Z.inj_lt; cbn; lia|].
    repeat (apply Forall_cons || apply Forall_nil). split; [apply set_okb_ok; vm_compute; reflexivity|intros (A & B); discriminate].
Qed.

(** ** What does not hold *)

(** A region that is a single location is not written as such: it comes back
    as a region reaching from the default to the end of the axis. *)
Theorem C63_single_location_refuted : exists d bs d', set_ok 1 1 d /\ gvar_ser counted_list [Some [d]] None = Ok bs /\
  from_bytes (gvar_de [([(0, 0)], [0])]) bs = Ok [Some [d']] /\ ds_start d = [half_axis] /\ ds_start d' = [Dy 0 0] /\ ds_end d = [half_axis] /\ ds_end d' = [Dy 1 0].
Proof.
  exists (mk_ds [half_axis] [half_axis] [half_axis] [(10, 0)]). eexists. eexists. split; [apply set_okb_ok; vm_compute; reflexivity|].
  split; [vm_compute; reflexivity|]. split; [vm_compute; reflexivity|]. repeat split.
Qed.
Print Assumptions C63_single_location_refuted.

(** A variation without start and end tuples applies, says OpenType, from the
    default up to its peak and not beyond it; read here, it reaches the end of the axis. *)
Definition half_file : list Z :=
  gvar_file true 1 [[8192]] [word 1 ++ word 8 ++ word 3 ++ word 0x2000 ++ [0; 0; 10; 0x80]].
Theorem C63_implied_region_refuted : exists d, from_bytes (gvar_de [([(0, 0)], [0])]) half_file = Ok [Some [d]] /\
  ds_peak d = [half_axis] /\ ds_start d = [Dy 0 0] /\ ds_end d = [Dy 1 0].
Proof. eexists. split; [vm_compute; reflexivity|]. repeat split. Qed.
Print Assumptions C63_implied_region_refuted.

(** A variation that uses the tuple after the last shared one reads its peak
    from the variation data; one further, reading aborts. *)
Definition index_file (i : Z) : list Z :=
  gvar_file true 1 [[8192]] [word 1 ++ word 8 ++ word 3 ++ word (0x2000 + i) ++ [0; 0; 10; 0x80]].
Theorem C63_bad_index_refuted : (exists d, from_bytes (gvar_de [([(0, 0)], [0])]) (index_file 1) = Ok [Some [d]] /\ ds_peak d = [f2dot14_from_packed 1]) /\
  from_bytes (gvar_de [([(0, 0)], [0])]) (index_file 2) = Panic /\ from_bytes (gvar_de [([(0, 0)], [0])]) (index_file 3) = Err.
Proof. split; [eexists; split; [vm_compute; reflexivity|reflexivity]|]. split; vm_compute; reflexivity. Qed.
Print Assumptions C63_bad_index_refuted.

(** 130 contours of one point, which all keep their deltas, and one of 400
    points: optimized, the table can be written and not read. *)
Definition dots : glyph :=
  mk_glyph 0 0 0 0 (map (fun i => [mk_point (Z.of_nat i) 0 true]) (seq 0 130) ++ [map (fun i => mk_point (Z.of_nat i) (Z.of_nat i) true) (seq 0 400)]) [] [] false.
Definition dots_set : delta_set :=
  mk_ds [half_axis] [zero_axis] [one_axis] (repeat (1, 1) 130 ++ repeat (7, 7) 400 ++ repeat (0, 0) 4).
Theorem C63_many_points_refuted : exists ce bs bs', gvar_coords_and_ends dots = Ok ce /\ gvar_ok 1 [Some [dots_set]] [ce] /\
  gvar_ser counted_list [Some [dots_set]] None = Ok bs /\ from_bytes (gvar_de [ce]) bs = Ok [Some [dots_set]] /\
  gvar_ser counted_list [Some [dots_set]] (Some [dots]) = Ok bs' /\ from_bytes (gvar_de [ce]) bs' = Err.
Proof.
  destruct (gvar_coords_and_ends dots) as [ce| |] eqn:E; [|vm_compute in E; discriminate|vm_compute in E; discriminate].
  assert (Ec: ce = match gvar_coords_and_ends dots with Ok c => c | _ => ([], []) end) by (now rewrite E).
  destruct (gvar_ser counted_list [Some [dots_set]] None) as [bs| |] eqn:E1; [|vm_compute in E1; discriminate|vm_compute in E1; discriminate].
  destruct (gvar_ser counted_list [Some [dots_set]] (Some [dots])) as [bs'| |] eqn:E2; [|vm_compute in E2; discriminate|vm_compute in E2; discriminate].
  assert (Eb: bs = match gvar_ser counted_list [Some [dots_set]] None with Ok b => b | _ => [] end) by (now rewrite E1).
  assert (Eb': bs' = match gvar_ser counted_list [Some [dots_set]] (Some [dots]) with Ok b => b | _ => [] end) by (now rewrite E2).
  exists ce, bs, bs'. split; [reflexivity|]. split.
  - split; [lia|]. split; [cbn; lia|]. split; [discriminate|]. split.
    + exists [[half_axis]]. split; [apply Nat2Z.inj_le; cbn; lia|]. intros d [<-|[]]. now left.
    + constructor; [|constructor]. rewrite Ec. split; [vm_compute; discriminate|]. split; [apply Nat2Z.inj_lt; cbn; lia|].
      constructor; [|constructor]. split; [apply set_okb_ok; vm_compute; reflexivity|intros (A & B); discriminate].
  - split; [reflexivity|]. split; [rewrite Eb, Ec; vm_compute; reflexivity|]. split; [reflexivity|]. rewrite Eb', Ec. vm_compute. reflexivity.
Qed.
Print Assumptions C63_many_points_refuted.

(** More than 4096 peaks: a delta set whose peak is the 4097th shared tuple is
    stored as one that uses the first. *)
Definition shared_4097 : list (list Z) := map (fun k => ser_i16 (Z.of_nat k)) (seq 0 (Z.to_nat 4097)).
Definition set_4097 : delta_set := mk_ds [f2dot14_from_packed 4096] [zero_axis] [one_axis] [(1, 1)].
Theorem C63_many_peaks_refuted : exists tv bs tv', 
  tuple_bytes (ds_peak set_4097) = unwrap (nth_error shared_4097 (Z.to_nat 4096)) /\
  to_tuple_variation shared_4097 None set_4097 = Ok tv /\ ser_tvs [tv] = Ok bs /\ from_bytes (de_tvs 1 true 1) bs = Ok [tv'] /\
  tv_index (tv_header tv) = 4096 /\ tv_peak (tv_header tv') = None /\ tv_index (tv_header tv') = 0.
Proof.
  eexists. eexists. eexists. split; [vm_compute; reflexivity|]. split; [vm_compute; reflexivity|]. split; [vm_compute; reflexivity|].
  split; [vm_compute; reflexivity|]. repeat split.
Qed.
Print Assumptions C63_many_peaks_refuted.

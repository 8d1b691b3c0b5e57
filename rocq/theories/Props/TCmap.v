(** C35-C38: character maps. *)
From Coq Require Import List ZArith Lia Sorted.
Import ListNotations.
From Verif.Model Require Import MBase MMap MFont MOffset MCmap.
From Verif.Spec Require Import SBase SGlyph SLayout SOffset SCmap SCmapTable.
From Verif.Proofs Require Import PBase PMap PCodec PFont POffset PLow PCmap4 PCmap12 PCmapTable.
Open Scope Z_scope.

Ltac written e := let r := eval vm_compute in e in match r with Ok ?b => exists b end.

(** ** C35: format 4 *)

(** What is written is a format 4 subtable of the specification, with segments
    in order up to 0xFFFF and the prescribed search fields; its lookup gives
    every character of the basic plane the glyph of the mapping, and glyph 0 to
    the characters that are not mapped. *)
Theorem C35_written_follows_format : forall lang m bs, char_map m -> is_u16 lang -> cmap4_write lang m = Ok bs ->
  Z.of_nat (length bs) <= 65535 ->
  exists segs arr, let n := Z.of_nat (length segs) in
    cmap4_bytes lang (2 * 2 ^ Z.log2 n, Z.log2 n, 2 * n - 2 * 2 ^ Z.log2 n) segs arr bs
    /\ well_formed4 segs arr /\ forall c, c <= 65535 -> lookup4 segs arr c = glyph_for m c.
Proof.
  intros lang m bs CM HL W LB. destruct (cmap4_written _ _ _ CM HL W LB) as (search & segs & arr & B & S & WF & _ & L & _).
  exists segs, arr. cbv zeta. split; [|split; [exact WF|exact L]].
  assert (NN : 1 <= Z.of_nat (length segs)) by (destruct WF as (_ & _ & O & _); destruct segs; [destruct O|cbn [length]; lia]).
  assert (N2 : 16 + 8 * Z.of_nat (length segs) <= Z.of_nat (length bs)).
  { pose proof (f_equal (@length Z)) as FE. destruct search as [[sr es] rs]. unfold cmap4_bytes in B. rewrite B.
    rewrite words_length, !app_length, !map_length. cbn [length]. lia. }
  rewrite search_range_ok in S by lia. apply Ok_inj in S. subst search.
  assert (P : 2 ^ Z.log2 (Z.of_nat (length segs)) <= Z.of_nat (length segs)) by (apply Z.log2_spec; lia).
  rewrite Z.max_r in B by lia.
  replace (2 * 2 ^ Z.log2 (Z.of_nat (length segs))) with (2 ^ Z.log2 (Z.of_nat (length segs)) * 2) by lia.
  replace (2 * Z.of_nat (length segs)) with (Z.of_nat (length segs) * 2) by lia. exact B.
Qed.
(** What was written is read back, with its language, exactly when it is shorter
    than 64K. *)
Theorem C35_roundtrip_iff : forall lang m bs, char_map m -> is_u16 lang -> cmap4_write lang m = Ok bs ->
  (from_bytes cmap4_read bs = Ok (lang, m) <-> Z.of_nat (length bs) <= 65535).
Proof.
  intros lang m bs CM HL W. split.
  - intros R. destruct (Z.le_gt_cases (Z.of_nat (length bs)) 65535) as [?|G]; [assumption|].
    exfalso. exact (cmap4_too_long lang m bs CM HL W ltac:(lia) R).
  - intros L. pose proof (cmap4_roundtrip _ _ _ CM HL W L) as R. apply reads_from_bytes with (post := []) in R. now rewrite app_nil_r in R.
Qed.
(** Every mapping of codes and glyphs below 65535 that is small enough, counting
    runs of consecutive codes, is written, *)
Theorem C35_written_if_small : forall lang m, char_map m -> m <> [] ->
  Forall (fun cg => fst cg <= 65534 /\ snd cg <= 65534) m ->
  24 + 8 * Z.of_nat (runs (map fst m)) + 2 * Z.of_nat (length m) <= 65535 ->
  exists bs, cmap4_write lang m = Ok bs
    /\ Z.of_nat (length bs) <= 24 + 8 * Z.of_nat (runs (map fst m)) + 2 * Z.of_nat (length m).
Proof. exact cmap4_writes. Qed.
(** in particular every mapping of up to 6551 characters, whatever its shape. *)
Theorem C35_up_to_6551_kept : forall lang m, char_map m -> m <> [] -> is_u16 lang ->
  Forall (fun cg => fst cg <= 65534 /\ snd cg <= 65534) m -> Z.of_nat (length m) <= 6551 ->
  exists bs, cmap4_write lang m = Ok bs /\ reads_back cmap4_read bs (lang, m).
Proof.
  intros lang m CM NE HL F N.
  assert (R : (runs (map fst m) <= length m)%nat).
  { destruct m as [|x m]; [congruence|]. cbn [map runs length]. pose proof (runs_le (map fst m) (fst x)) as R. rewrite map_length in R. lia. }
  destruct (cmap4_writes lang m CM NE F ltac:(lia)) as (bs & W & L). exists bs. split; [exact W|].
  apply reads_reads_back, cmap4_roundtrip; auto. lia.
Qed.
(** Every format 4 subtable of the specification, however its segments were
    chosen, is read as the mapping that its lookup defines on the codes of all
    segments but the last.  (Array words and deltas must add up within 16 signed
    bits; the specification adds modulo 65536.) *)
Theorem C35_every_encoding_read : forall lang search segs arr bs,
  cmap4_bytes lang search segs arr bs -> is_u16 lang -> well_formed4 segs arr -> short_sums segs arr ->
  Z.of_nat (length bs) <= 65535 ->
  exists m, reads_back cmap4_read bs (lang, m) /\ char_map m
    /\ forall c g, In (c, g) m <-> in_segments (removelast segs) c /\ g = lookup4 segs arr c.
Proof.
  intros lang search segs arr bs B HL WF SS L. exists (seg_entries segs arr (removelast segs)).
  split; [apply reads_reads_back; now apply (cmap4_every_read lang search)|].
  split; [now apply seg_entries_map|]. intros c g. apply seg_entries_In.
Qed.
(** The empty mapping and mappings of code 65535 or above are never written. *)
Theorem C35_never_written : forall lang m, char_map m -> (m = [] \/ Exists (fun cg => 65535 <= fst cg) m) ->
  forall bs, cmap4_write lang m <> Ok bs.
Proof.
  intros lang m CM [->|E] bs W; [discriminate|].
  destruct (cmap4_write_inv _ _ _ CM W) as [F _]. apply Exists_exists in E as (x & Hx & G). rewrite Forall_forall in F.
  specialize (F _ (in_map fst _ _ Hx)). lia.
Qed.
(** 8190 separate characters: written without complaint, not readable. *)
Definition spread : list (Z * Z) := map (fun i => (2 * Z.of_nat i, 5)) (seq 0 (Z.to_nat 8190)).
Lemma spread_ok : char_map spread /\ Forall (fun cg => fst cg <= 65534 /\ snd cg <= 65534) spread.
Proof.
  unfold spread. assert (N : Z.of_nat (Z.to_nat 8190) = 8190) by apply Z2Nat.id, Zle_bool_imp_le, eq_refl. revert N. generalize (Z.to_nat 8190). intros n N.
  split; [split|].
  - rewrite map_map. cbn [fst]. generalize 0%nat. clear.
    induction n as [|n IH]; intros k; [exact I|]. cbn [seq map]. specialize (IH (S k)).
    destruct n; [exact I|]. cbn [seq map] in *. split; [lia|exact IH].
  - apply Forall_forall. intros x Hx. apply in_map_iff in Hx as (i & <- & Hi). apply in_seq in Hi. cbn [fst snd]. unfold is_u16. lia.
  - apply Forall_forall. intros x Hx. apply in_map_iff in Hx as (i & <- & Hi). apply in_seq in Hi. cbn [fst snd]. lia.
Qed.
Lemma spread_written : match cmap4_write 0 spread with Ok bs => (Z.of_nat (length bs) >? 65535) | _ => false end = true.
Proof. vm_cast_no_check (@eq_refl bool true). Qed.
Theorem C35_large_maps_refuted : exists m bs, char_map m /\ Forall (fun cg => fst cg <= 65534 /\ snd cg <= 65534) m
  /\ cmap4_write 0 m = Ok bs /\ from_bytes cmap4_read bs <> Ok (0, m).
Proof.
  destruct spread_ok as [CM F]. pose proof spread_written as CK. generalize dependent spread. intros m CM F CK.
  destruct (cmap4_write 0 m) as [bs| |] eqn:W; try discriminate. exists m, bs. split; [exact CM|]. split; [exact F|].
  split; [exact W|]. apply cmap4_too_long; auto; [unfold is_u16; lia|]. apply Z.gtb_lt in CK. lia.
Qed.
(** A valid subtable whose array words and deltas add up modulo 65536 only:
    reading panics. *)
Theorem C35_wrapping_sum_refuted : exists search segs arr bs,
  cmap4_bytes 0 search segs arr bs /\ well_formed4 segs arr /\ lookup4 segs arr 65 = 62767 /\ from_bytes cmap4_read bs = Panic.
Proof.
  exists (4, 1, 0), [(65, 65, 32767, 4); (65535, 65535, 1, 0)], [30000].
  eexists (words ([4; 34; 0; 4; 4; 1; 0] ++ [65; 65535] ++ [0] ++ [65; 65535] ++ [32767; 1] ++ [4; 0] ++ [30000])).
  split; [reflexivity|]. split; [|split; [vm_compute; reflexivity|vm_compute; reflexivity]].
  split; [repeat constructor; cbn; lia|]. split; [repeat constructor; cbn; lia|]. split; [cbn; lia|].
  intros i g c [N LT] O B. destruct i as [|[|i]]; cbn [nth_error length] in *; [|lia|lia]. injection N as <-. cbn in *. lia.
Qed.
Example C35_example : exists bs, cmap4_write 0 [(65, 36); (66, 37); (67, 40); (100, 1)] = Ok bs
  /\ from_bytes cmap4_read bs = Ok (0, [(65, 36); (66, 37); (67, 40); (100, 1)]).
Proof. written (cmap4_write 0 [(65, 36); (66, 37); (67, 40); (100, 1)]). split; vm_compute; reflexivity. Qed.
Example C35_example_ok : char_map [(65, 36); (66, 37); (67, 40); (100, 1)].
Proof. split; [cbn; lia|]. repeat constructor; cbn; lia. Qed.

(** ** C36: format 12 *)

(** Exactly the non-empty mappings are written whose first glyph is not 0 and
    whose glyphs, but for the first and the last entry, are not 65535. *)
Theorem C36_written_iff : forall lang m, char_map m ->
  ((exists bs, cmap12_write lang m = Ok bs) <->
   exists c g m', m = (c, g) :: m' /\ g <> 0 /\ Forall (fun cg => snd cg <> 65535) (middle m)).
Proof. exact cmap12_writes_iff. Qed.
(** Exactly those are read back that start at code 0 with a glyph different from
    the next one's. *)
Theorem C36_roundtrip_iff : forall lang m bs, char_map m -> unicode_codes m -> is_u16 lang -> cmap12_write lang m = Ok bs ->
  (from_bytes cmap12_read bs = Ok (lang, m) <-> (exists g m', m = (0, g) :: m') /\ second_glyph_differs m).
Proof. exact cmap12_roundtrip_iff. Qed.
(** These are written as the specification says, *)
Theorem C36_written_follows_format : forall lang g m bs, char_map ((0, g) :: m) -> unicode_codes ((0, g) :: m) ->
  second_glyph_differs ((0, g) :: m) -> cmap12_write lang ((0, g) :: m) = Ok bs ->
  exists gs, cmap12_bytes lang gs bs /\ Forall group_fields gs /\ group_order 0 gs
    /\ forall c gl, Exists (group_has c gl) gs <-> In (c, gl) ((0, g) :: m).
Proof.
  intros lang g m bs CM U SD W. destruct (cmap12_written lang g m bs CM U SD W) as (gs & B & F & O & E & _).
  exists gs. split; [exact B|]. split; [exact F|]. split; [exact O|]. intros c gl. rewrite <- E. symmetry. apply group_entries_In.
Qed.
(** and every mapping that starts at another code is written as a subtable that
    cannot be read: reading panics. *)
Theorem C36_other_starts_refuted : forall lang c g m bs, char_map ((c, g) :: m) -> unicode_codes ((c, g) :: m) -> is_u16 lang ->
  c <> 0 -> cmap12_write lang ((c, g) :: m) = Ok bs -> from_bytes cmap12_read bs = Panic.
Proof. exact cmap12_first_not_zero. Qed.
(** Every format 12 subtable of the specification whose glyphs are 16-bit numbers
    is read as the mapping it defines. *)
Theorem C36_every_encoding_read : forall lang gs bs, cmap12_bytes lang gs bs -> 0 <= lang <= 4294967295 ->
  Forall group_fields gs -> group_order 0 gs -> Z.of_nat (length bs) <= 4294967295 ->
  exists m, reads_back cmap12_read bs (lang mod 65536, m) /\ char_map m
    /\ forall c gl, In (c, gl) m <-> Exists (group_has c gl) gs.
Proof.
  intros lang gs bs B HL F O L. exists (concat (map group_entries gs)).
  split; [apply reads_reads_back; now apply cmap12_every_read|]. split.
  - destruct (group_entries_map gs 0 ltac:(lia) F O) as [I1 I2]. split; [exact I1|]. exact I2.
  - intros c gl. apply group_entries_In.
Qed.
Example C36_example : exists bs, cmap12_write 0 [(0, 3); (1, 4); (65, 36); (66, 37); (128512, 900)] = Ok bs
  /\ from_bytes cmap12_read bs = Ok (0, [(0, 3); (1, 4); (65, 36); (66, 37); (128512, 900)]).
Proof. written (cmap12_write 0 [(0, 3); (1, 4); (65, 36); (66, 37); (128512, 900)]). split; vm_compute; reflexivity. Qed.
Example C36_example_ok : char_map [(0, 3); (1, 4); (65, 36); (66, 37); (128512, 900)]
  /\ unicode_codes [(0, 3); (1, 4); (65, 36); (66, 37); (128512, 900)].
Proof. split; [split; [cbn; lia|]|]; repeat constructor; cbn; lia. Qed.
Example C36_latin_unreadable : exists bs, cmap12_write 0 [(65, 36); (66, 37)] = Ok bs /\ from_bytes cmap12_read bs = Panic.
Proof. written (cmap12_write 0 [(65, 36); (66, 37)]). split; vm_compute; reflexivity. Qed.

(** ** C37: the table *)

(** A table that is written is read as the same list of platforms and encodings,
    each with format, language, mapping and variation sequences of the first
    subtable of the table that has the same mapping (format 14 comes back under
    platform 0, encoding 5). *)
Theorem C37_read_back : forall hash sts bs, no_collision hash sts ->
  Forall (fun st => is_u16 (st_platform st) /\ is_u16 (st_encoding st)) sts ->
  Z.of_nat (length sts) <= 65535 -> cmap_write hash sts = Ok bs -> Z.of_nat (length bs) <= 4294967295 ->
  (forall r b, first_same sts r r -> subtable_write r = Ok b -> readable r b) ->
  exists sts', from_bytes cmap_de bs = Ok sts'
    /\ Forall2 (fun st st' => exists r, first_same sts st r /\ st' = shown_as r st) sts sts'.
Proof. exact cmap_read_back. Qed.
(** So a table is kept exactly when subtables with equal mappings agree on
    everything but platform and encoding. *)
Theorem C37_kept_iff : forall hash sts bs, no_collision hash sts ->
  Forall (fun st => is_u16 (st_platform st) /\ is_u16 (st_encoding st)) sts -> Forall ordinary sts ->
  Z.of_nat (length sts) <= 65535 -> cmap_write hash sts = Ok bs -> Z.of_nat (length bs) <= 4294967295 ->
  (forall r b, first_same sts r r -> subtable_write r = Ok b -> readable r b) ->
  (from_bytes cmap_de bs = Ok sts <->
   forall s t, In s sts -> In t sts -> same_mapping s t ->
     st_format s = st_format t /\ st_language s = st_language t /\ st_uvs s = st_uvs t).
Proof. exact cmap_kept_iff. Qed.
(** One mapping in formats 4 and 12, as fonts usually have it: the format 12
    subtable is lost. *)
Theorem C37_own_format_refuted : forall hash, exists sts bs,
  no_collision hash sts /\ Forall ordinary sts /\ cmap_write hash sts = Ok bs
  /\ map st_format sts = [4; 12]
  /\ exists sts', from_bytes cmap_de bs = Ok sts' /\ map st_format sts' = [4; 4].
Proof.
  intros hash. exists [mkST 4 3 1 0 [(0, 3); (65, 36)] None; mkST 12 3 10 0 [(0, 3); (65, 36)] None].
  assert (W : exists b, cmap4_write 0 [(0, 3); (65, 36)] = Ok b /\ cmap_write hash [mkST 4 3 1 0 [(0, 3); (65, 36)] None; mkST 12 3 10 0 [(0, 3); (65, 36)] None]
    = Ok ([0; 0; 0; 2; 0; 3; 0; 1; 0; 0; 0; 20; 0; 3; 0; 10; 0; 0; 0; 20] ++ b)).
  { eexists. split; [vm_compute; reflexivity|]. unfold cmap_write. cbn [length].
    cbn [write_subtables st_mapping bm_get bm_insert]. rewrite Z.ltb_irrefl. vm_compute. reflexivity. }
  destruct W as (b & W1 & W). eexists. split.
  { intros s t Hs Ht _. cbn [In] in *. unfold same_mapping. destruct Hs as [<-|[<-|[]]], Ht as [<-|[<-|[]]]; reflexivity. }
  split; [apply Forall_cons; [|apply Forall_cons; [|apply Forall_nil]]; left; cbn; (split; [lia|reflexivity])|]. split; [exact W|]. split; [reflexivity|].
  vm_compute in W1. apply Ok_inj in W1. subst b. eexists. split; vm_compute; reflexivity.
Qed.
(** Format 14: every subtable of the specification within the reach of the
    reader's offsets is read as the glyphs of its variation sequences; default
    tables are ignored. *)
Theorem C37_variation_sequences_read : forall len l, 0 <= len <= 4294967295 -> uvs_fields l ->
  decodes cmap14_de (cmap14_object len l) l
  /\ forall c s, (forall g1 g2, sequence_in l c s g1 -> sequence_in l c s g2 -> g1 = g2) ->
     forall g, In ((c, s), g) (uvs_of l) <-> sequence_in l c s g.
Proof. intros len l HL F. split; [now apply cmap14_decodes|]. intros c s U g. now apply uvs_of_spec. Qed.
(** What is written is such a subtable, with the sequences of the mapping and the
    right length. *)
Theorem C37_variation_sequences_written : forall st o, sequences (sequences_of st) -> cmap14_obj (st_uvs st) = Ok o ->
  exists l, o = cmap14_object (Z.of_nat (total o)) l /\ uvs_fields l
    /\ (forall c s g, sequence_in l c s g <-> In ((c, s), g) (sequences_of st)) /\ uvs_of l = sequences_of st.
Proof.
  intros st o Q H. destruct (cmap14_obj_eq st o Q H) as (len & HO & -> & _ & F). exists (split_tables (sequences_of st)).
  split; [exact HO|]. split; [exact F|]. split; [intros c s g; apply split_sequence_in|now apply split_back].
Qed.
Definition ex37 : list subtable :=
  [mkST 4 0 3 0 [(65, 36); (66, 37)] None; mkST 14 0 5 0 [] (Some [((65, 65024), 90); ((66, 65024), 91); ((66, 65025), 92)]);
   mkST 4 3 1 0 [(65, 36); (66, 37)] None; mkST 12 3 10 0 [(0, 3); (65, 36)] None].
Example C37_example : exists bs, cmap_write (fun m => Z.of_nat (length m) + 7 * fst (hd (0, 0) m)) ex37 = Ok bs /\ from_bytes cmap_de bs = Ok ex37.
Proof. written (cmap_write (fun m => Z.of_nat (length m) + 7 * fst (hd (0, 0) m)) ex37). split; vm_compute; reflexivity. Qed.
Example C37_example_ok : no_collision (fun m => Z.of_nat (length m) + 7 * fst (hd (0, 0) m)) ex37 /\ Forall ordinary ex37
  /\ forall r b, first_same ex37 r r -> subtable_write r = Ok b -> readable r b.
Proof.
  split; [|split].
  - intros s t Hs Ht. unfold ex37, same_mapping in *. cbn [In] in Hs, Ht.
    destruct Hs as [<-|[<-|[<-|[<-|[]]]]], Ht as [<-|[<-|[<-|[<-|[]]]]]; cbn; intros; try reflexivity; lia.
  - unfold ex37. repeat apply Forall_cons; try apply Forall_nil; unfold ordinary; cbn; try (left; split; [lia|reflexivity]).
    right. repeat split; discriminate.
  - intros r b (bf & af & E & _) W. assert (IN : In r ex37) by (rewrite E; apply in_elt). clear E.
    assert (CA : char_map [(65, 36); (66, 37)]) by (split; [cbn; lia|]; repeat constructor; cbn; lia).
    assert (CB : char_map [(0, 3); (65, 36)]) by (split; [cbn; lia|]; repeat constructor; cbn; lia).
    unfold ex37 in IN. cbn [In] in IN. unfold readable, is_u16.
    destruct IN as [<-|[<-|[<-|[<-|[]]]]]; cbn [st_language st_mapping st_format] in *; (split; [lia|]).
    + split; [exact CA|]. vm_compute in W. apply Ok_inj in W. subst b. cbn. lia.
    + split; [split; [exact I|constructor]|]. vm_compute in W. apply Ok_inj in W. subst b. split; [|cbn; lia].
      unfold sequences_of. cbn [st_uvs]. split; [|repeat constructor; cbn; lia]. unfold pair_lt. repeat constructor; cbn; lia.
    + split; [exact CA|]. vm_compute in W. apply Ok_inj in W. subst b. cbn. lia.
    + split; [exact CB|]. split; [repeat constructor; cbn; lia|]. split; [eauto|]. cbn. lia.
Qed.

(** ** C38: best and reverse mapping *)
Theorem C38_best_mapping : forall sts m, get_best_mapping sts = Some m <-> exists st, best_subtable sts st /\ st_mapping st = m.
Proof. exact best_mapping. Qed.
Theorem C38_no_best_mapping : forall sts,
  get_best_mapping sts = None <-> forall p e s, In (p, e) preferences -> In s sts -> ~ under p e s.
Proof. exact best_none. Qed.
(** The mapping of a platform and encoding is that of the first such subtable. *)
Theorem C38_get_mapping : forall sts p e m, get_mapping sts p e = Some m <-> exists st, first_under sts p e st /\ st_mapping st = m.
Proof. exact get_mapping_some. Qed.
(** The reverse mapping has an entry for exactly the glyphs reached from some
    character by some Unicode subtable, with exactly these characters. *)
Theorem C38_reversed : forall sts, increasing (map fst (reversed sts)) /\
  (forall g cs, In (g, cs) (reversed sts) -> increasing cs /\ cs <> [] /\ forall c, In c cs <-> reaches sts c g)
  /\ (forall c g, reaches sts c g -> In g (map fst (reversed sts))).
Proof.
  intros sts. destruct (reversed_ok sts) as [S H]. split; [|split].
  - apply SS_increasing. unfold sorted_map, sorted_keys in S. induction S; constructor; auto.
    eapply Forall_impl; [|eassumption]. cbv beta. intros; lia.
  - intros g cs Hg. apply (In_get _ Z_strict) in Hg; [|exact S]. specialize (H g). rewrite Hg in H.
    destruct H as (H1 & H2 & H3). split; [now apply SS_increasing|]. auto.
  - intros c g R. specialize (H g). destruct (bm_get Z.ltb g (reversed sts)) as [cs|] eqn:E.
    + apply (get_In _ Z_strict) in E. exact (in_map fst _ _ E).
    + exfalso. exact (H c R).
Qed.
Theorem C38_unicode : forall st, is_unicode st = true <-> unicode_subtable st.
Proof. exact is_unicode_iff. Qed.
Theorem C38_symbol : forall st, is_symbol st = true <-> under 3 0 st.
Proof. intros st. unfold is_symbol, under. lia. Qed.
Example C38_example : get_best_mapping ex37 = Some [(0, 3); (65, 36)]
  /\ reversed (mkST 4 1 0 0 [(200, 36)] None :: mkST 4 3 1 0 [(160, 36)] None :: ex37) = [(3, [0]); (36, [65; 160]); (37, [66])].
Proof. split; reflexivity. Qed.

Print Assumptions C35_written_follows_format.
Print Assumptions C35_roundtrip_iff.
Print Assumptions C35_written_if_small.
Print Assumptions C35_up_to_6551_kept.
Print Assumptions C35_every_encoding_read.
Print Assumptions C35_never_written.
Print Assumptions C35_large_maps_refuted.
Print Assumptions C35_wrapping_sum_refuted.
Print Assumptions C36_written_iff.
Print Assumptions C36_roundtrip_iff.
Print Assumptions C36_written_follows_format.
Print Assumptions C36_other_starts_refuted.
Print Assumptions C36_every_encoding_read.
Print Assumptions C37_read_back.
Print Assumptions C37_kept_iff.
Print Assumptions C37_own_format_refuted.
Print Assumptions C37_variation_sequences_read.
Print Assumptions C37_variation_sequences_written.
Print Assumptions C38_best_mapping.
Print Assumptions C38_no_best_mapping.
Print Assumptions C38_get_mapping.
Print Assumptions C38_reversed.
Print Assumptions C38_unicode.
Print Assumptions C38_symbol.

(** C45-C47, C49, C60: substitution subtables. *)
From Coq Require Import List ZArith Lia Permutation Sorted.
Import ListNotations.
From Verif.Model Require Import MBase MTag MOffset MLayout MContext MGsub.
From Verif.Spec Require Import SBase SGlyph SOffset SLayout SContext SGsub.
From Verif.Proofs Require Import PBase PMap PGlyphFmt POffset PPart PCover PClassdef PLow PGsub PLig PContext.
Open Scope Z_scope.

(** ** C45: single substitution *)
(** Every map is written as an OpenType single substitution with the same
    mapping; format 1 exactly when the map is not empty and one difference works
    for all its glyphs. *)
Theorem C45_written : forall m, glyph_map is_u16 m -> exists o, single_write m = Ok o /\ single_obj m o /\
  (is_format 1 o <-> m <> [] /\ exists d, single_by d m).
Proof. exact single_written. Qed.
(** Every OpenType single substitution is read as its mapping, if it has format
    2 or moves no glyph, seen as a signed number, out of the range of signed
    numbers; reading any other panics. *)
Theorem C45_every_encoding_read : forall m o, increasing (map fst m) -> Forall is_u16 (map fst m) -> single_obj m o ->
  is_format 2 o \/ Forall short_move m -> decodes single_read o m.
Proof.
  intros m o Hi Hu Ho Hs. destruct (single_every m o Hi Hu Ho) as (s & D & R & _). exact (decodes_lift _ _ _ _ _ D (R Hs)).
Qed.
Theorem C45_other_panics : forall m o buf pos stk, increasing (map fst m) -> Forall is_u16 (map fst m) -> single_obj m o ->
  is_format 1 o -> ~ Forall short_move m -> stored 65536 buf pos pos o -> single_read (mkrd buf pos stk) = Panic.
Proof.
  intros m o buf pos stk Hi Hu Ho Hf Hs S. destruct (single_every m o Hi Hu Ho) as (s & D & _ & R). unfold single_read, pbind, plift.
  change (gsub_de 1) with g1_de. now rewrite (D _ _ _ S), (R Hf Hs).
Qed.
(** What was written is read back exactly when it moves no glyph so far or needs
    format 2. *)
Theorem C45_roundtrip_iff : forall m o buf pos stk, glyph_map is_u16 m -> single_write m = Ok o -> stored 65536 buf pos pos o ->
  (single_read (mkrd buf pos stk) = Ok (m, mkrd buf (pos + size o) stk) <-> ((exists d, single_by d m) -> Forall short_move m)).
Proof.
  intros m o buf pos stk Hm Hw S. destruct (single_written m Hm) as (o' & E & Ho & Hf). unfold single_write in Hw. rewrite E in Hw. apply Ok_inj in Hw. subst o'.
  assert (Hu: Forall is_u16 (map fst m)) by (apply glyph_u16, (glyph_map_keys _ _ Hm)). split.
  - intros R Hd. destruct m as [|kv m]; [constructor|]. destruct (Forall_dec short_move) with (l := kv :: m) as [Y|N]; [|exact Y|].
    { intros [l r]. unfold short_move. cbn [fst snd]. destruct (Z_le_dec (-32768) (signed r - signed l)); destruct (Z_le_dec (signed r - signed l) 32767); [left; lia|right; lia..]. }
    rewrite (C45_other_panics _ _ buf pos stk (proj1 Hm) Hu Ho) in R; [discriminate|apply Hf; split; [discriminate|exact Hd]|exact N|exact S].
  - intros H. apply (C45_every_encoding_read m o (proj1 Hm) Hu Ho); [|exact S]. destruct Ho as [c d H1 H2 H3|c H1 H2 H3]; [right; apply H; eauto|left; reflexivity].
Qed.
(** 0x7FFF to 0x8000 is written with the difference 1, and reading it panics. *)
Theorem C45_sign_boundary_refuted : exists m o out, glyph_map is_u16 m /\ single_write m = Ok o /\ to_bytes o = Ok out /\ from_bytes single_read out = Panic.
Proof.
  exists [(32767, 32768)]. eexists _, _. split; [|split; [vm_compute; reflexivity|split; [vm_compute; reflexivity|vm_compute; reflexivity]]].
  split; [exact I|]. constructor; [|constructor]. unfold is_glyph, is_u16. cbn. lia.
Qed.
Example C45_example : let m := [(3, 10); (5, 12); (40, 47)] in let m2 := [(3, 10); (5, 11)] in
  glyph_map is_u16 m /\ single_by 7 m /\ Forall short_move m /\ glyph_map is_u16 m2 /\
  rbind (single_write m) to_bytes = Ok [0;1; 0;6; 0;7; 0;1; 0;3; 0;3; 0;5; 0;40] /\
  from_bytes single_read [0;1; 0;6; 0;7; 0;1; 0;3; 0;3; 0;5; 0;40] = Ok m /\
  rbind (single_write m2) to_bytes = Ok [0;2; 0;10; 0;2; 0;10; 0;11; 0;1; 0;2; 0;3; 0;5] /\
  from_bytes single_read [0;2; 0;10; 0;2; 0;10; 0;11; 0;1; 0;2; 0;3; 0;5] = Ok m2.
Proof.
  unfold glyph_map, single_by, short_move, is_glyph, is_u16, signed. cbn [map fst snd increasing].
  repeat (split; [repeat (apply Forall_cons; [cbn; lia|]); try apply Forall_nil; try lia; try (split; [cbn; lia|repeat (apply Forall_cons; [cbn; lia|]); apply Forall_nil]); try (vm_compute; reflexivity)|]).
  vm_compute; reflexivity.
Qed.

(** ** C46: multiple and alternate substitution *)
Theorem C46_written : forall m, glyph_map glyph_list m -> exists o, multiple_obj m o /\ multiple_write m = Ok o /\ alternate_write m = Ok o.
Proof. exact @multiple_written. Qed.
Theorem C46_every_encoding_read : forall m o, increasing (map fst m) -> countable m -> Forall glyph_list (map snd m) -> multiple_obj m o ->
  decodes multiple_read o m /\ decodes alternate_read o m.
Proof.
  intros m o Hi Hn Hv Ho. destruct (multiple_every o Hi Hn Hv Ho) as [(s & D & R) (s' & D' & R')].
  split; [exact (decodes_lift _ _ _ _ _ D R)|exact (decodes_lift _ _ _ _ _ D' R')].
Qed.
Theorem C46_roundtrip : forall m, glyph_map glyph_list m -> exists o, multiple_write m = Ok o /\ alternate_write m = Ok o /\
  decodes multiple_read o m /\ decodes alternate_read o m.
Proof.
  intros m Hm. destruct (multiple_written Hm) as (o & Ho & E1 & E2). exists o. split; [exact E1|]. split; [exact E2|].
  apply C46_every_encoding_read; [apply Hm|now apply glyph_map_count in Hm|exact (glyph_map_vals _ _ Hm)|exact Ho].
Qed.
Example C46_example : let m := [(3, [10; 11; 10]); (5, [])] in glyph_map glyph_list m /\
  rbind (multiple_write m) to_bytes = Ok [0;1; 0;10; 0;2; 0;18; 0;26; 0;1; 0;2; 0;3; 0;5; 0;3; 0;10; 0;11; 0;10; 0;0] /\
  from_bytes multiple_read [0;1; 0;10; 0;2; 0;18; 0;26; 0;1; 0;2; 0;3; 0;5; 0;3; 0;10; 0;11; 0;10; 0;0] = Ok m.
Proof.
  split; [|split; vm_compute; reflexivity]. split; [cbn; lia|]. unfold is_glyph, glyph_list, countable, is_u16.
  repeat (apply Forall_cons; [cbn; split; [lia|split; [lia|repeat (apply Forall_cons; [lia|]); apply Forall_nil]]|]). apply Forall_nil.
Qed.

(** ** C47: ligatures *)
(** A map of ligatures is written as an OpenType ligature substitution with the
    same sequences, in which a shaping engine finds the longest sequence of the
    map. *)
Theorem C47_written : forall m, lig_map m -> exists o sets, ligature_write m = Ok o /\ ligs_obj sets o /\ lig_sets_ok sets /\
  increasing (map fst sets) /\ Permutation (lig_entries sets) m /\
  forall input r, shape sets input = Some r <-> longest m input r.
Proof.
  intros m Hm. destruct (lig_written m Hm) as (s & o & sets & E1 & E2 & H1 & H2 & H3 & H4 & _ & H5). exists o, sets. split; [unfold ligature_write; now rewrite E1|].
  split; [exact H1|]. split; [exact H2|]. split; [apply H3|]. auto.
Qed.
(** Every OpenType ligature substitution is read as the map of its sequences;
    where one is listed more than once, the last counts. *)
Theorem C47_every_encoding_read : forall sets o, ligs_obj sets o -> lig_sets_ok sets -> exists m, decodes ligature_read o m /\ ordered m /\
  forall k g, In (k, g) m <-> last_entry (lig_entries sets) k g.
Proof.
  intros sets o H1 H2. destruct (lig_read sets o H1 H2) as (s & m & D & R & O & L). exists m. split; [exact (decodes_lift _ _ _ _ _ D R)|]. auto.
Qed.
Theorem C47_roundtrip : forall m, lig_map m -> exists o, ligature_write m = Ok o /\ decodes ligature_read o m.
Proof.
  intros m Hm. destruct (lig_roundtrip m Hm) as (s & o & E1 & E2 & s' & D & R). exists o. split; [unfold ligature_write; now rewrite E1|]. exact (decodes_lift _ _ _ _ _ D R).
Qed.
(** A ligature of no glyphs cannot be written. *)
Theorem C47_empty_panics : forall m, In [] (map fst m) -> ligature_write m = Panic.
Proof. intros m H. unfold ligature_write. now rewrite (lig_empty_panics m H). Qed.
Definition ex_ligs : list (list Z * Z) := [([3; 4], 10); ([3; 4; 5], 11); ([3; 5], 13); ([7; 3], 12)].
Example C47_example : lig_map ex_ligs /\ longest ex_ligs [3; 4; 5; 6] (11, 3%nat) /\
  rbind (ligature_write ex_ligs) (fun o => rbind (to_bytes o) (from_bytes ligature_read)) = Ok ex_ligs.
Proof.
  split; [|split; [|vm_compute; reflexivity]].
  - split; [unfold ordered; repeat constructor|]. split; [unfold countable; cbn; lia|]. unfold sequence_ok, is_glyph, is_u16.
    repeat (apply Forall_cons; [cbn; split; [split; [lia|split; [repeat (apply Forall_cons; [lia|]); apply Forall_nil|lia]]|lia]|]). apply Forall_nil.
  - exists [3; 4; 5]. cbn [fst snd]. split; [cbn; auto|]. split; [exists [6]; reflexivity|]. split; [reflexivity|].
    intros k' g' Hin _. cbn in Hin. repeat (destruct Hin as [Hin|Hin]; [injection Hin as <- <-; cbn; lia|]). destruct Hin.
Qed.
(** Reading and writing again can change what a font does: the order of
    ligatures with the same first glyph, and which of two entries for the same
    sequence is used, are not kept. *)
Definition changes_shaping (sets : lig_sets) : Prop :=
  exists o m o' sets' input, ligs_obj sets o /\ lig_sets_ok sets /\ decodes ligature_read o m /\ ligature_write m = Ok o' /\
    ligs_obj sets' o' /\ shape sets input <> shape sets' input.
Lemma ex_cov g : is_glyph g -> cov_obj [g] (raw (word 1 ++ word 1 ++ word g)).
Proof.
  intros H. exists (word 1 ++ word 1 ++ word g). split; [reflexivity|]. split; [|left; reflexivity].
  pose proof (cov1 [g]) as C. cbn [length] in C. change (Z.of_nat 1) with 1 in C. unfold words in C. cbn [map concat] in C. rewrite app_nil_r in C. apply C; [|lia].
  constructor; [unfold is_glyph, is_u16 in *; lia|constructor].
Qed.
Theorem C47_order_refuted : changes_shaping [(3, [(10, [4]); (11, [4; 5])])].
Proof.
  set (sets := [(3, [(10, [4]); (11, [4; 5])])]). set (m := [([3; 4], 10); ([3; 4; 5], 11)]).
  assert (Ho: ligs_obj sets (raw (word 1) ++ [link (raw (word 1 ++ word 1 ++ word 3))] ++ links (map (fun s => links (map lig_obj (snd s))) sets))).
  { constructor. apply ex_cov. unfold is_glyph. lia. }
  assert (Hok: lig_sets_ok sets).
  { split; [unfold countable; cbn; lia|]. constructor; [|constructor]. unfold countable, is_u16. cbn [snd sets length]. split; [lia|].
    repeat (apply Forall_cons; [cbn; split; [lia|split; [lia|repeat (apply Forall_cons; [lia|]); apply Forall_nil]]|]). apply Forall_nil. }
  assert (Hm: lig_map m).
  { split; [unfold ordered; repeat constructor|]. split; [unfold countable; cbn; lia|]. unfold sequence_ok, is_glyph, is_u16.
    repeat (apply Forall_cons; [cbn; split; [split; [lia|split; [repeat (apply Forall_cons; [lia|]); apply Forall_nil|lia]]|lia]|]). apply Forall_nil. }
  destruct (C47_every_encoding_read _ _ Ho Hok) as (m' & D & O & L).
  assert (m' = m) as ->.
  { apply ordered_ext; [exact O|apply Hm|]. intros k g. rewrite L, last_nodup; [cbn; tauto|]. repeat constructor; cbn; intuition discriminate. }
  destruct (C47_written m Hm) as (o' & sets' & E & Ho' & _ & _ & _ & S). eexists _, m, o', sets', [3; 4; 5].
  split; [exact Ho|]. split; [exact Hok|]. split; [exact D|]. split; [exact E|]. split; [exact Ho'|].
  replace (shape sets' [3; 4; 5]) with (Some (11, 3%nat)); [vm_compute; discriminate|]. symmetry. apply S. exists [3; 4; 5]. cbn [fst snd].
  split; [cbn; auto|]. split; [exists []; reflexivity|]. split; [reflexivity|].
  intros k' g' Hin _. cbn in Hin. repeat (destruct Hin as [Hin|Hin]; [injection Hin as <- <-; cbn; lia|]). destruct Hin.
Qed.
Theorem C47_duplicate_refuted : changes_shaping [(3, [(10, [4]); (11, [4])])].
Proof.
  set (sets := [(3, [(10, [4]); (11, [4])])]). set (m := [([3; 4], 11)]).
  assert (Ho: ligs_obj sets (raw (word 1) ++ [link (raw (word 1 ++ word 1 ++ word 3))] ++ links (map (fun s => links (map lig_obj (snd s))) sets))).
  { constructor. apply ex_cov. unfold is_glyph. lia. }
  assert (Hok: lig_sets_ok sets).
  { split; [unfold countable; cbn; lia|]. constructor; [|constructor]. unfold countable, is_u16. cbn [snd sets length]. split; [lia|].
    repeat (apply Forall_cons; [cbn; split; [lia|split; [lia|repeat (apply Forall_cons; [lia|]); apply Forall_nil]]|]). apply Forall_nil. }
  assert (Hm: lig_map m).
  { split; [unfold ordered; repeat constructor|]. split; [unfold countable; cbn; lia|]. unfold sequence_ok, is_glyph, is_u16.
    repeat (apply Forall_cons; [cbn; split; [split; [lia|split; [repeat (apply Forall_cons; [lia|]); apply Forall_nil|lia]]|lia]|]). apply Forall_nil. }
  pose proof (lig_low _ _ Ho Hok) as D.
  destruct (C47_written m Hm) as (o' & sets' & E & Ho' & _ & _ & _ & S). eexists _, m, o', sets', [3; 4].
  split; [exact Ho|]. split; [exact Hok|]. split; [exact (decodes_lift _ _ _ _ _ D eq_refl)|]. split; [exact E|]. split; [exact Ho'|].
  replace (shape sets' [3; 4]) with (Some (11, 2%nat)); [vm_compute; discriminate|]. symmetry. apply S. exists [3; 4]. cbn [fst snd].
  split; [cbn; auto|]. split; [exists []; reflexivity|]. split; [reflexivity|].
  intros k' g' Hin _. cbn in Hin. repeat (destruct Hin as [Hin|Hin]; [injection Hin as <- <-; cbn; lia|]). destruct Hin.
Qed.

(** ** C49: contextual rules *)
(** Each chained rule is written as one format 3 subtable with a coverage table
    for each position and the same lookups at the same positions. *)
Theorem C49_chained_written : forall r, chained_rule_ok r -> exists ob oi oa recs, chained_write [r] = Ok [chain3_obj ob oi oa recs] /\
  Forall2 cov_obj (ch_back r) ob /\ Forall2 cov_obj (map fst (ch_input r)) oi /\ Forall2 cov_obj (ch_ahead r) oa /\
  records_ok recs /\ rule_of (map fst (ch_input r)) recs = ch_input r.
Proof.
  intros r H. destruct (chain_written r H) as (ob & oi & oa & recs & E & R). exists ob, oi, oa, recs. split; [|exact R].
  unfold chained_write. cbn [rmapM gsub_enc]. now rewrite E.
Qed.
(** Reading the subtables of a list of rules gives the rules in their order. *)
Theorem C49_chained_roundtrip : forall rs max, Forall chained_rule_ok rs -> exists os, chained_write rs = Ok os /\
  Forall2 (fun r o => decodes (chained_read max) o [r]) rs os.
Proof.
  intros rs max H. unfold chained_write. induction H as [|r rs Hr H IH]; [exists []; split; [reflexivity|constructor]|].
  destruct IH as (os & E & F). destruct (chain_roundtrip r max Hr) as (o & Eo & s & D & R). exists (o :: os). split.
  - cbn [rmapM]. rewrite (Eo : gsub_enc (G6 (chain_to_low r)) = Ok o). cbn [rbind]. now rewrite E.
  - constructor; [|exact F]. refine (decodes_lift _ _ _ (G6 s) _ _ _); [|cbn [chained_from_low]; now rewrite R].
    change (gsub_de 6) with (pbind chain_de (fun s => pret (G6 s))). now apply decodes_map.
Qed.
(** Rules of the other kind cannot be written, except one with no positions. *)
Theorem C49_unchained_written_iff : forall rs, (exists os, context_write rs = Ok os) <-> Forall (fun r => r = []) rs.
Proof.
  intros rs. unfold context_write. split.
  - intros [os E]. revert os E. induction rs as [|r rs IH]; intros os E; [constructor|]. cbn [rmapM] in E.
    destruct r as [|p r]; [|rewrite (seq_not_written (p :: r) ltac:(discriminate) : gsub_enc (G5 (seq_to_low (p :: r))) = Err) in E; discriminate].
    rewrite (seq_empty_written : gsub_enc (G5 (seq_to_low [])) = _) in E. cbn [rbind] in E.
    constructor; [reflexivity|]. destruct (rmapM _ rs) as [os'| |]; try discriminate. now apply (IH os').
  - induction 1 as [|r rs -> H [os E]]; [now exists []|]. cbn [rmapM]. rewrite (seq_empty_written : gsub_enc (G5 (seq_to_low [])) = _). cbn [rbind]. rewrite E. cbn [rbind]. eauto.
Qed.
(** Every OpenType contextual subtable is read as its rules: a format 3 table as
    one rule, *)
Theorem C49_context3_read : forall gs os ss recs max, Forall2 cov_obj gs os -> Forall2 glyph_set gs ss -> countable os -> records_ok recs ->
  decodes (context_read max) (context3_obj os recs) [rule_of ss recs].
Proof.
  intros gs os ss recs max H1 H2 H3 H4. destruct (seq3_read gs os ss recs max H1 H2 H3 H4) as (s & D & R).
  refine (decodes_lift _ _ _ (G5 s) _ _ _); [|cbn [context_from_low]; now rewrite R].
  change (gsub_de 5) with (pbind seq_de (fun s => pret (G5 s))). now apply decodes_map.
Qed.
Theorem C49_chained3_read : forall gb gi ga ob oi oa sb si sa recs max,
  Forall2 cov_obj gb ob -> Forall2 cov_obj gi oi -> Forall2 cov_obj ga oa ->
  Forall2 glyph_set gb sb -> Forall2 glyph_set gi si -> Forall2 glyph_set ga sa ->
  countable ob -> countable oi -> countable oa -> records_ok recs ->
  decodes (chained_read max) (chain3_obj ob oi oa recs) [mk_chained sb sa (rule_of si recs)].
Proof.
  intros gb gi ga ob oi oa sb si sa recs max H1 H2 H3 H4 H5 H6 H7 H8 H9 H10.
  destruct (chain3_read gb gi ga ob oi oa sb si sa recs max H1 H2 H3 H4 H5 H6 H7 H8 H9 H10) as (s & D & R).
  refine (decodes_lift _ _ _ (G6 s) _ _ _); [|cbn [chained_from_low]; now rewrite R].
  change (gsub_de 6) with (pbind chain_de (fun s => pret (G6 s))). now apply decodes_map.
Qed.
(** a format 1 table as one rule for each of its rules, with one glyph at each
    position, *)
Theorem C49_context1_read : forall g c sets max, cov_obj g c -> sets_ok unchained_ok sets ->
  decodes (context_read max) (seq1_obj c sets)
    (map (fun gr => rule_of (alone (fst gr :: fst (snd gr))) (snd (snd gr))) (listed g sets)).
Proof.
  intros g c sets max H1 H2. destruct (seq1_read g c sets max H1 H2) as (s & D & R).
  refine (decodes_lift _ _ _ (G5 s) _ _ _); [|cbn [context_from_low]; now rewrite R].
  change (gsub_de 5) with (pbind seq_de (fun s => pret (G5 s))). now apply decodes_map.
Qed.
Theorem C49_chained1_read : forall g c sets max, cov_obj g c -> sets_ok chained_ok sets ->
  decodes (chained_read max) (chain1_obj c sets)
    (map (fun gr => mk_chained (alone (back_of (snd gr))) (alone (ahead_of (snd gr)))
      (rule_of (alone (fst gr :: input_of (snd gr))) (snd (snd gr)))) (listed g sets)).
Proof.
  intros g c sets max H1 H2. destruct (chain1_read g c sets max H1 H2) as (s & D & R).
  refine (decodes_lift _ _ _ (G6 s) _ _ _); [|cbn [chained_from_low]; now rewrite R].
  change (gsub_de 6) with (pbind chain_de (fun s => pret (G6 s))). now apply decodes_map.
Qed.
(** a format 2 table as one rule for each of its rules, with the glyphs of the
    class at each position. *)
Theorem C49_context2_read : forall g c m k sets max, cov_obj g c -> classes_obj m k -> sets_ok unchained_ok sets -> is_u16 max ->
  exists rules, decodes (context_read max) (seq2_obj c k sets) rules /\
    Forall2 (fun kr rule => exists slots, Forall2 (class_slot m max) (fst kr :: fst (snd kr)) slots /\ rule = rule_of slots (snd (snd kr)))
            (listed (class_numbers sets) sets) rules.
Proof.
  intros g c m k sets max H1 H2 H3 H4. destruct (seq2_read g c m k sets max H1 H2 H3 H4) as (s & D & R). exists (seq_from_low max s). split; [|exact R].
  refine (decodes_lift _ _ _ (G5 s) _ _ _); [|reflexivity]. change (gsub_de 5) with (pbind seq_de (fun s => pret (G5 s))). now apply decodes_map.
Qed.
Theorem C49_chained2_read : forall g c mb mi ma b i a sets max, cov_obj g c -> classes_obj mb b -> classes_obj mi i -> classes_obj ma a ->
  sets_ok chained_ok sets -> is_u16 max ->
  exists rules, decodes (chained_read max) (chain2_obj c b i a sets) rules /\
    Forall2 (fun kr rule => exists sb si sa, Forall2 (class_slot mb max) (back_of (snd kr)) sb /\
              Forall2 (class_slot mi max) (fst kr :: input_of (snd kr)) si /\ Forall2 (class_slot ma max) (ahead_of (snd kr)) sa /\
              rule = mk_chained sb sa (rule_of si (snd (snd kr))))
            (listed (class_numbers sets) sets) rules.
Proof.
  intros g c mb mi ma b i a sets max H1 H2 H3 H4 H5 H6. destruct (chain2_read g c mb mi ma b i a sets max H1 H2 H3 H4 H5 H6) as (s & D & R).
  exists (chain_from_low max s). split; [|exact R].
  refine (decodes_lift _ _ _ (G6 s) _ _ _); [|reflexivity]. change (gsub_de 6) with (pbind chain_de (fun s => pret (G6 s))). now apply decodes_map.
Qed.
(** But the coverage table of format 2, which says where such a rule may start,
    is not looked at: a table that covers glyph 3 only is read as a rule that
    starts at every glyph. *)
Theorem C49_coverage_refuted : exists c, cov_obj [3] c /\
  decodes (context_read 5) (seq2_obj c None [Some [([], [(0, 9)])]]) [[([0; 1; 2; 3; 4; 5], [9])]].
Proof.
  exists (raw (word 1 ++ word 1 ++ word 3)). assert (C: cov_obj [3] (raw (word 1 ++ word 1 ++ word 3))) by (apply ex_cov; unfold is_glyph; lia). split; [exact C|].
  destruct (C49_context2_read [3] _ [] None [Some [([], [(0, 9)])]] 5 C eq_refl) as (rules & D & F).
  - split; [unfold countable; cbn; lia|]. intros l [E|[]]. injection E as <-. split; [unfold countable; cbn; lia|]. constructor; [|constructor].
    unfold unchained_ok, records_ok, countable, is_u16. cbn. repeat split; try lia; repeat constructor; cbn; lia.
  - unfold is_u16. lia.
  - assert (rules = [[([0; 1; 2; 3; 4; 5], [9])]]) as <-; [|exact D]. change (listed _ _) with [(0, (@nil Z, [(0, 9)]))] in F.
    inversion F as [|? ? ? ? (slots & Fs & ->) F2]; subst. inversion F2; subst. cbn [fst snd] in Fs. inversion Fs as [|? s ? ? Hs Fs2]; subst. inversion Fs2; subst.
    assert (s = [0; 1; 2; 3; 4; 5]) as ->; [|reflexivity]. destruct Hs as [Hi Hs]. apply sorted_set_ext; [now apply increasing_SS| |].
    + apply increasing_SS. cbn. lia.
    + intros x. rewrite Hs. cbn. split; [intros [? _]|intros Hx; split; [|tauto]]; lia.
Qed.
Definition ex_chain : chained_rule := mk_chained [[1; 2]] [[7]; [8; 9]] [([3; 4; 5], [2; 0]); ([6], []); ([6; 7], [1])].
Example C49_example : chained_rule_ok ex_chain /\ exists os out, chained_write [ex_chain] = Ok os /\ rmapM to_bytes os = Ok [out] /\
  from_bytes (chained_read 100) out = Ok [ex_chain].
Proof.
  split.
  - unfold chained_rule_ok, glyph_sets, rule_ok, glyph_sets, countable, is_glyph, is_u16. cbn -[Z.le Z.lt].
    repeat split; repeat (apply Forall_cons || apply Forall_nil || split); cbn; try lia.
  - eexists _, _. split; [vm_compute; reflexivity|]. split; [vm_compute; reflexivity|vm_compute; reflexivity].
Qed.

(** ** C60: reverse chaining substitution *)
Theorem C60_written : forall r, reverse_ok r -> exists c ob oa, reverse_write r = Ok (reverse_obj c ob oa (map snd (rv_map r))) /\
  cov_obj (map fst (rv_map r)) c /\ Forall2 cov_obj (rv_back r) ob /\ Forall2 cov_obj (rv_ahead r) oa.
Proof. exact reverse_written. Qed.
Theorem C60_every_encoding_read : forall m c gb ga ob oa sb sa, increasing (map fst m) -> cov_obj (map fst m) c -> countable m -> Forall is_u16 (map snd m) ->
  Forall2 cov_obj gb ob -> Forall2 cov_obj ga oa -> Forall2 glyph_set gb sb -> Forall2 glyph_set ga sa -> countable ob -> countable oa ->
  decodes reverse_read (reverse_obj c ob oa (map snd m)) (mk_reverse m sb sa).
Proof.
  intros m c gb ga ob oa sb sa H1 H2 H3 H4 H5 H6 H7 H8 H9 H10. destruct (reverse_every m c gb ga ob oa sb sa H1 H2 H3 H4 H5 H6 H7 H8 H9 H10) as (s & D & R).
  exact (decodes_lift _ _ _ _ _ D R).
Qed.
Theorem C60_roundtrip : forall r, reverse_ok r -> exists o, reverse_write r = Ok o /\ decodes reverse_read o r.
Proof. intros r H. destruct (reverse_roundtrip r H) as (o & E & s & D & R). exists o. split; [exact E|]. exact (decodes_lift _ _ _ _ _ D R). Qed.
Definition ex_reverse : reverse_subst := mk_reverse [(3, 30); (4, 31); (5, 39)] [[1]; [1; 2]] [[3; 4; 5]].
Example C60_example : reverse_ok ex_reverse /\ exists o out, reverse_write ex_reverse = Ok o /\ to_bytes o = Ok out /\ from_bytes reverse_read out = Ok ex_reverse.
Proof.
  split.
  - unfold reverse_ok, glyph_map, glyph_sets, countable, is_glyph, is_u16. cbn -[Z.le Z.lt].
    repeat split; repeat (apply Forall_cons || apply Forall_nil || split); cbn; try lia.
  - eexists _, _. split; [vm_compute; reflexivity|]. split; [vm_compute; reflexivity|vm_compute; reflexivity].
Qed.

Print Assumptions C45_written.
Print Assumptions C45_every_encoding_read.
Print Assumptions C45_other_panics.
Print Assumptions C45_roundtrip_iff.
Print Assumptions C45_sign_boundary_refuted.
Print Assumptions C46_written.
Print Assumptions C46_every_encoding_read.
Print Assumptions C46_roundtrip.
Print Assumptions C47_written.
Print Assumptions C47_every_encoding_read.
Print Assumptions C47_roundtrip.
Print Assumptions C47_empty_panics.
Print Assumptions C47_order_refuted.
Print Assumptions C47_duplicate_refuted.
Print Assumptions C49_chained_written.
Print Assumptions C49_chained_roundtrip.
Print Assumptions C49_unchained_written_iff.
Print Assumptions C49_context3_read.
Print Assumptions C49_chained3_read.
Print Assumptions C49_context1_read.
Print Assumptions C49_chained1_read.
Print Assumptions C49_context2_read.
Print Assumptions C49_chained2_read.
Print Assumptions C49_coverage_refuted.
Print Assumptions C60_written.
Print Assumptions C60_every_encoding_read.
Print Assumptions C60_roundtrip.

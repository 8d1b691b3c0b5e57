(** Contextual rules. *)
From Coq Require Import List ZArith Lia Bool.
Import ListNotations.
From Verif.Model Require Import MBase MMap MTag MGlyph MOffset MLayout MLow MContext MLookup MGsub.
From Verif.Spec Require Import SBase SGlyph SOffset SLayout SContext SGsub.
From Verif.Proofs Require Import PBase PCodec PMap PTag PGlyph PGlyphFmt PPoints POffset PPart PCover PClassdef PLow PGsub.
Open Scope Z_scope.

(** ** Records *)
Lemma collate_from_spec recs slots i : collate_from i slots recs = combine slots (map (attached recs) (seq i (length slots))).
Proof. revert i. induction slots as [|g slots IH]; intros i; [reflexivity|]. cbn [collate_from length seq map combine]. now rewrite IH. Qed.
Lemma collate_spec slots recs : collate slots recs = rule_of slots recs.
Proof. apply collate_from_spec. Qed.
Lemma attached_app a b i : attached (a ++ b) i = attached a i ++ attached b i.
Proof. unfold attached. now rewrite filter_app, map_app. Qed.
Lemma attached_here i ids : Z.of_nat i < 65536 -> attached (map (fun id => (u16 (Z.of_nat i), id)) ids) i = ids.
Proof.
  intros H. rewrite u16_id by lia. unfold attached. induction ids as [|a ids IH]; [reflexivity|]. cbn [map filter fst snd]. rewrite Z.eqb_refl. cbn [map snd]. now rewrite IH.
Qed.
Lemma attached_there i j ids : Z.of_nat i < 65536 -> i <> j -> attached (map (fun id => (u16 (Z.of_nat i), id)) ids) j = [].
Proof.
  intros H N. rewrite u16_id by lia. unfold attached. induction ids as [|a ids IH]; [reflexivity|]. cbn [map filter fst snd].
  replace (Z.of_nat i =? Z.of_nat j) with false by lia. exact IH.
Qed.
Lemma attached_later r i j : (j < i)%nat -> Z.of_nat (i + length r) <= 65536 -> attached (rule_records i r) j = [].
Proof.
  revert i. induction r as [|[s ids] r IH]; intros i H1 H2; [reflexivity|]. cbn [rule_records length] in *.
  rewrite attached_app, attached_there by lia. apply IH; lia.
Qed.
Lemma attached_first r i : Z.of_nat (i + length r) <= 65536 ->
  map (attached (rule_records i r)) (seq i (length r)) = map snd r.
Proof.
  revert i. induction r as [|[s ids] r IH]; intros i H; [reflexivity|]. cbn [rule_records length seq map snd] in *.
  rewrite attached_app, attached_here, attached_later by lia. rewrite app_nil_r. f_equal. rewrite <- (IH (S i)) by lia.
  apply map_ext_in. intros j Hj. apply in_seq in Hj. now rewrite attached_app, attached_there by lia.
Qed.
Lemma rule_back (r : context_rule) : countable r -> rule_of (map fst r) (rule_records 0 r) = r.
Proof.
  intros H. unfold countable in H. unfold rule_of. rewrite map_length, attached_first by (cbn [Nat.add]; lia). apply combine_fst_snd.
Qed.
Lemma rule_records_ok r i : Z.of_nat (i + length r) <= 65536 -> Forall (fun p => Forall is_u16 (snd p)) r ->
  Forall (fun x => is_u16 (fst x) /\ is_u16 (snd x)) (rule_records i r).
Proof.
  revert i. induction r as [|[s ids] r IH]; intros i H1 H2; [constructor|]. cbn [rule_records length] in *. inversion H2 as [|? ? X1 X2]; subst. apply Forall_app. split.
  - apply Forall_map. eapply Forall_impl; [|exact X1]. intros id Hid. cbn [fst snd]. split; [|exact Hid]. rewrite u16_id by lia. unfold is_u16. lia.
  - apply IH; [lia|exact X2].
Qed.
Lemma rule_records_length r i : length (rule_records i r) = length (concat (map snd r)).
Proof. revert i. induction r as [|[s ids] r IH]; intros i; [reflexivity|]. cbn [rule_records map snd concat]. now rewrite !app_length, map_length, IH. Qed.
Lemma lr_sers recs : concat (map lr_ser recs) = records_bytes recs.
Proof. unfold records_bytes, lr_ser. f_equal. apply map_ext. intros [a b]. cbn [fst snd]. now rewrite !word_u16. Qed.
Lemma reads_lr r : is_u16 (fst r) -> is_u16 (snd r) -> reads lr_de (word (fst r) ++ word (snd r)) r.
Proof.
  destruct r as [a b]. cbn [fst snd]. intros H1 H2. unfold is_u16 in *. unfold lr_de. rewrite !word_u16. eapply reads_bind; [apply reads_u16; lia|].
  apply (reads_map _ (fun b => (a, b))). apply reads_u16. lia.
Qed.
Lemma reads_records recs : records_ok recs -> reads (de_counted lr_de (length recs)) (records_bytes recs) recs.
Proof. intros [_ H]. unfold records_bytes. apply reads_counted. eapply Forall_impl; [|exact H]. intros r [H1 H2]. now apply reads_lr. Qed.
Lemma reads_count {A} (l : list A) : countable l -> reads de_u16 (word (Z.of_nat (length l))) (Z.of_nat (length l)).
Proof. intros H. unfold countable in H. rewrite word_u16. apply reads_u16. lia. Qed.
Lemma reads_crecords recs : records_ok recs -> reads (de_counted16 lr_de) (word (Z.of_nat (length recs)) ++ records_bytes recs) recs.
Proof.
  intros H. unfold de_counted16. eapply reads_bind; [apply reads_count, H|]. cbn beta. rewrite Nat2Z.id. now apply reads_records.
Qed.
Lemma reads_listed l : Forall is_u16 l -> reads (de_counted de_u16 (length l)) (words l) l.
Proof. intros H. unfold words. rewrite map_words_u. apply reads_counted. eapply Forall_impl; [|exact H]. intros z Hz. apply reads_u16. unfold is_u16 in Hz. lia. Qed.

(** ** Single rules *)
Definition seq_rule_of (r : unchained) : seq_rule :=
  mk_seq_rule (Z.of_nat (length (fst r)) + 1) (Z.of_nat (length (snd r))) (fst r) (snd r).
Definition chain_rule_of (r : chained) : chain_rule :=
  mk_chain_rule (back_of r) (Z.of_nat (length (input_of r)) + 1) (input_of r) (ahead_of r) (snd r).
Lemma unchained_read r : unchained_ok r -> decodes sr_de (unchained_obj r) (seq_rule_of r).
Proof.
  intros (H1 & H2 & H3). apply decodes_reads. unfold sr_de. rewrite word_u16. eapply reads_bind; [apply reads_u16; lia|].
  eapply reads_bind; [apply reads_count, H3|]. replace (Z.of_nat (length (fst r)) + 1 =? 0) with false by lia.
  replace (Z.to_nat (Z.of_nat (length (fst r)) + 1 - 1)) with (length (fst r)) by lia. eapply reads_bind; [now apply reads_listed|]. cbn beta. rewrite Nat2Z.id.
  apply (reads_map _ (fun x => mk_seq_rule (Z.of_nat (length (fst r)) + 1) (Z.of_nat (length (snd r))) (fst r) x)). now apply reads_records.
Qed.
Lemma chained_rule_read r : chained_ok r -> decodes cr_de (chained_obj r) (chain_rule_of r).
Proof.
  intros (H1 & H2 & H3 & H4 & H5 & H6 & H7). unfold chained_obj, counted_words. rewrite <- !raw_app. apply decodes_reads. unfold cr_de.
  eapply reads_bind; [now apply reads_words|]. rewrite <- app_assoc. rewrite (word_u16 (_ + 1)). eapply reads_bind; [apply reads_u16; lia|].
  replace (Z.of_nat (length (input_of r)) + 1 =? 0) with false by lia.
  replace (Z.to_nat (Z.of_nat (length (input_of r)) + 1 - 1)) with (length (input_of r)) by lia. eapply reads_bind; [now apply reads_listed|].
  eapply reads_bind; [now apply reads_words|].
  apply (reads_map _ (fun x => mk_chain_rule (back_of r) (Z.of_nat (length (input_of r)) + 1) (input_of r) (ahead_of r) x)). now apply reads_crecords.
Qed.
Lemma decodes_base {A} (p : parser A) l v : part p l v -> decodes (with_base p) l v.
Proof. apply decodes_part. Qed.
Lemma sets_read {R L} (enc : R -> obj) (f : R -> L) (ok : R -> Prop) (p : parser L) sets :
  (forall r, ok r -> decodes p (enc r) (f r)) -> sets_ok ok sets ->
  part (de_vec16 (set_de p)) (rule_sets enc sets) (map (option_map (fun l => map (fun r => Some (f r)) l)) sets).
Proof.
  intros Hp [Hc H]. unfold rule_sets. apply part_ovec; [|unfold countable in *; now rewrite map_length]. clear Hc.
  induction sets as [|s sets IH]; cbn [map]; constructor; [|apply IH; intros l Hl; apply H; now right]. destruct s as [l|]; cbn [option_map]; [|exact I].
  destruct (H l (or_introl eq_refl)) as [Hl Hf]. apply decodes_base. rewrite <- (map_map f Some). apply part_vec; [|unfold countable in *; now rewrite map_length].
  clear -Hp Hf. induction Hf; cbn [map]; constructor; auto.
Qed.
Lemma set_rules_of {R L} (f : R -> L) (s : option (list R)) :
  set_rules (option_map (fun l => map (fun r => Some (f r)) l) s) = map f (in_set s).
Proof. destruct s as [l|]; [|reflexivity]. cbn [set_rules option_map in_set]. induction l as [|r l IH]; [reflexivity|]. cbn [map concat app]. now rewrite IH. Qed.
Lemma listed_rules {K R L T} (key : K -> Z) (f : R -> L) (mk : Z -> L -> T) keys (sets : list (option (list R))) :
  concat (map (fun ks : K * option (list (option L)) => map (mk (key (fst ks))) (set_rules (snd ks)))
              (combine keys (map (option_map (fun l => map (fun r => Some (f r)) l)) sets)))
  = map (fun kr => mk (fst kr) (f (snd kr))) (listed (map key keys) sets).
Proof.
  unfold listed. revert sets. induction keys as [|k keys IH]; intros [|s sets]; try reflexivity. cbn [map combine concat fst snd].
  rewrite map_app, IH, set_rules_of, !map_map. reflexivity.
Qed.
Lemma opt_classes (m : classdef) o : classes_obj m o -> part (de_off16 cd_de) [olink o] (match o with Some _ => Some m | None => None end).
Proof.
  destruct o as [o|]; cbn [classes_obj].
  - intros (Hm & bs & Hne & -> & H). apply part_off16. apply decodes_reads. now apply reads_back_reads.
  - intros _. apply part_off16_null.
Qed.
Lemma classes_default (m : classdef) o : classes_obj m o -> match (match o with Some _ => Some m | None => None end) with Some x => x | None => [] end = m.
Proof. destruct o; cbn; auto. Qed.
Lemma classes_ok m o : classes_obj m o -> cmap_ok m.
Proof. destruct o as [o|]; cbn; [intros [H _]; now apply class_map_ok|intros ->; split; constructor]. Qed.
Lemma seq_map_sorted n i s : Sorted.StronglySorted Z.lt (map (fun i => s + Z.of_nat i) (seq i n)).
Proof.
  revert i. induction n as [|n IH]; intros i; cbn [seq map]; constructor; [apply IH|]. apply Forall_map. apply Forall_forall. intros j Hj. apply in_seq in Hj. lia.
Qed.
Lemma SS_filter {A} (R : A -> A -> Prop) f l : Sorted.StronglySorted R l -> Sorted.StronglySorted R (filter f l).
Proof.
  induction 1 as [|a l H IH F]; cbn [filter]; [constructor|]. destruct (f a); [|exact IH]. constructor; [exact IH|].
  rewrite Forall_forall in *. intros x Hx. apply filter_In in Hx. now apply F.
Qed.
Lemma get_glyphs_increasing m c mx : increasing (cd_get_glyphs m c mx).
Proof.
  apply SS_increasing. destruct (Z.eq_dec c 0) as [->|N]; [|now apply get_glyphs_sorted]. unfold cd_get_glyphs. change (0 =? 0) with true. cbn iota.
  apply SS_filter. apply seq_map_sorted.
Qed.
Lemma class_slot_get m mx c : cmap_ok m -> is_u16 mx -> class_slot m mx c (cd_get_glyphs m c mx).
Proof.
  intros Hm Hx. split; [apply get_glyphs_increasing|]. intros g. destruct (c =? 0) eqn:E.
  - assert (c = 0) as -> by lia. now apply get_glyphs_zero.
  - apply get_glyphs_in; [exact Hm|lia].
Qed.
Lemma class_slots m mx cs : cmap_ok m -> is_u16 mx -> Forall2 (class_slot m mx) cs (map (fun c => cd_get_glyphs m c mx) cs).
Proof. intros Hm Hx. induction cs; cbn [map]; constructor; auto. now apply class_slot_get. Qed.
Lemma class_numbers_spec {A} (l : list A) : countable l -> map (fun n => u16 (Z.of_nat n)) (seq 0 (length l)) = class_numbers l.
Proof.
  intros H. unfold countable in H. unfold class_numbers. apply map_ext_in. intros n Hn. apply in_seq in Hn. apply u16_id. lia.
Qed.

(** ** Formats 1 and 2 *)
Lemma seq1_read g c sets max : cov_obj g c -> sets_ok unchained_ok sets ->
  exists s, decodes seq_de (seq1_obj c sets) s /\
    seq_from_low max s = map (fun gr => rule_of (alone (fst gr :: fst (snd gr))) (snd (snd gr))) (listed g sets).
Proof.
  intros Hc Hs. eexists. split.
  - unfold seq_de, seq1_obj. apply decodes_format; [reflexivity|]. change (word 1) with [0; 1]. cbn iota. apply decodes_base. change [0; 1] with (word 1).
    eapply part_bind; [apply part_word; unfold is_u16; lia|]. eapply part_bind; [eapply part_cov; eassumption|].
    apply (part_map _ (fun s => SC1 1 (Some g) s)). eapply sets_read; [|exact Hs]. apply unchained_read.
  - cbn [seq_from_low cov_or_nah].
    rewrite (listed_rules (fun g => g) seq_rule_of (fun g r => collate (map (fun g => [g]) (g :: sr_input r)) (sr_records r))).
    rewrite map_id. apply map_ext. intros [k r]. cbn [fst snd seq_rule_of sr_input sr_records]. now rewrite collate_spec.
Qed.
Lemma seq2_read g c (m : classdef) k sets max : cov_obj g c -> classes_obj m k -> sets_ok unchained_ok sets -> is_u16 max ->
  exists s, decodes seq_de (seq2_obj c k sets) s /\
    Forall2 (fun kr rule => exists slots, Forall2 (class_slot m max) (fst kr :: fst (snd kr)) slots /\ rule = rule_of slots (snd (snd kr)))
            (listed (class_numbers sets) sets) (seq_from_low max s).
Proof.
  intros Hc Hk Hs Hx. eexists. split.
  - unfold seq_de, seq2_obj. apply decodes_format; [reflexivity|]. change (word 2) with [0; 2]. cbn iota. apply decodes_base. change [0; 2] with (word 2).
    eapply part_bind; [apply part_word; unfold is_u16; lia|]. change ([link c; olink k] ++ rule_sets unchained_obj sets) with ([link c] ++ [olink k] ++ rule_sets unchained_obj sets).
    eapply part_bind; [eapply part_cov; eassumption|]. eapply part_bind; [eapply opt_classes; eassumption|]. cbn beta.
    match goal with |- part (pbind _ (fun s => pret (SC2 _ _ ?k s))) _ _ => apply (part_map _ (fun s => SC2 2 (Some g) k s)) end.
    eapply sets_read; [|exact Hs]. apply unchained_read.
  - cbn [seq_from_low]. rewrite (classes_default _ _ Hk), map_length.
    rewrite (listed_rules (fun n => u16 (Z.of_nat n)) seq_rule_of (fun c r => collate (map (fun c => cd_get_glyphs m c max) (c :: sr_input r)) (sr_records r))).
    rewrite class_numbers_spec by apply Hs. induction (listed (class_numbers sets) sets) as [|[n r] l IH]; cbn [map]; constructor; [|exact IH].
    cbn [fst snd seq_rule_of sr_input sr_records]. rewrite collate_spec. exists (map (fun c0 => cd_get_glyphs m c0 max) (n :: fst r)). split; [|reflexivity].
    apply class_slots; [now apply classes_ok in Hk|exact Hx].
Qed.
Lemma chain1_read g c sets max : cov_obj g c -> sets_ok chained_ok sets ->
  exists s, decodes chain_de (chain1_obj c sets) s /\
    chain_from_low max s = map (fun gr => mk_chained (alone (back_of (snd gr))) (alone (ahead_of (snd gr)))
      (rule_of (alone (fst gr :: input_of (snd gr))) (snd (snd gr)))) (listed g sets).
Proof.
  intros Hc Hs. eexists. split.
  - unfold chain_de, chain1_obj. apply decodes_format; [reflexivity|]. change (word 1) with [0; 1]. cbn iota. apply decodes_base. change [0; 1] with (word 1).
    eapply part_bind; [apply part_word; unfold is_u16; lia|]. eapply part_bind; [eapply part_cov; eassumption|].
    apply (part_map _ (fun s => CC1 1 (Some g) s)). eapply sets_read; [|exact Hs]. apply chained_rule_read.
  - cbn [chain_from_low cov_or_nah].
    rewrite (listed_rules (fun g => g) chain_rule_of (fun g r => mk_chained (map (fun g => [g]) (cr_back r)) (map (fun g => [g]) (cr_ahead r)) (collate (map (fun g => [g]) (g :: cr_input r)) (cr_records r)))).
    rewrite map_id. apply map_ext. intros [k r]. cbn [fst snd chain_rule_of cr_input cr_records cr_back cr_ahead]. now rewrite collate_spec.
Qed.
Lemma chain2_read g c (mb mi ma : classdef) b i a sets max : cov_obj g c -> classes_obj mb b -> classes_obj mi i -> classes_obj ma a ->
  sets_ok chained_ok sets -> is_u16 max ->
  exists s, decodes chain_de (chain2_obj c b i a sets) s /\
    Forall2 (fun kr rule => exists sb si sa, Forall2 (class_slot mb max) (back_of (snd kr)) sb /\
              Forall2 (class_slot mi max) (fst kr :: input_of (snd kr)) si /\ Forall2 (class_slot ma max) (ahead_of (snd kr)) sa /\
              rule = mk_chained sb sa (rule_of si (snd (snd kr))))
            (listed (class_numbers sets) sets) (chain_from_low max s).
Proof.
  intros Hc Hb Hi Ha Hs Hx. eexists. split.
  - unfold chain_de, chain2_obj. apply decodes_format; [reflexivity|]. change (word 2) with [0; 2]. cbn iota. apply decodes_base. change [0; 2] with (word 2).
    eapply part_bind; [apply part_word; unfold is_u16; lia|].
    change ([link c; olink b; olink i; olink a] ++ rule_sets chained_obj sets) with ([link c] ++ [olink b] ++ [olink i] ++ [olink a] ++ rule_sets chained_obj sets).
    eapply part_bind; [eapply part_cov; eassumption|]. eapply part_bind; [eapply opt_classes; eassumption|].
    eapply part_bind; [eapply opt_classes; eassumption|]. eapply part_bind; [eapply opt_classes; eassumption|]. cbn beta.
    match goal with |- part (pbind _ (fun s => pret (CC2 _ _ ?b ?i ?a s))) _ _ => apply (part_map _ (fun s => CC2 2 (Some g) b i a s)) end.
    eapply sets_read; [|exact Hs]. apply chained_rule_read.
  - cbn [chain_from_low]. pose proof (classes_default _ _ Hb) as X1. pose proof (classes_default _ _ Hi) as X2. pose proof (classes_default _ _ Ha) as X3.
    unfold classdef in *. rewrite X1, X2, X3, map_length.
    rewrite (listed_rules (fun n => u16 (Z.of_nat n)) chain_rule_of (fun c r => mk_chained (map (fun c => cd_get_glyphs mb c max) (cr_back r)) (map (fun c => cd_get_glyphs ma c max) (cr_ahead r)) (collate (map (fun c => cd_get_glyphs mi c max) (c :: cr_input r)) (cr_records r)))).
    rewrite class_numbers_spec by apply Hs. induction (listed (class_numbers sets) sets) as [|[n r] l IH]; cbn [map]; constructor; [|exact IH].
    cbn [fst snd chain_rule_of cr_input cr_records cr_back cr_ahead]. rewrite collate_spec.
    eexists _, _, _. split; [|split; [|split; [|reflexivity]]]; apply class_slots; auto; eapply classes_ok; eassumption.
Qed.

(** ** Format 3 *)
Lemma cov_slots gs ss : Forall2 glyph_set gs ss -> map cov_to_slot (map Some gs) = ss.
Proof. induction 1 as [|g s gs ss H F IH]; [reflexivity|]. cbn [map]. rewrite IH. f_equal. now apply set_of_list. Qed.
Lemma part_covs_plain gs os : Forall2 cov_obj gs os -> part (de_counted de_cov (length os)) (map link os) (map Some gs).
Proof.
  intros H. rewrite <- (F2_len _ _ _ H). rewrite <- (map_length Some gs).
  replace (map link os) with (concat (map (fun o => [link o]) os)) by (clear; induction os; cbn; [reflexivity|now rewrite IHos]).
  apply part_counted2. induction H as [|g o gs os H1 H2 IH]; cbn [map]; constructor; [now apply part_cov|exact IH].
Qed.
Lemma seq3_read gs os ss recs max : Forall2 cov_obj gs os -> Forall2 glyph_set gs ss -> countable os -> records_ok recs ->
  exists s, decodes seq_de (context3_obj os recs) s /\ seq_from_low max s = [rule_of ss recs].
Proof.
  intros Hc Hg Hn Hr. eexists. split.
  - unfold seq_de, context3_obj. rewrite !raw_app, <- !app_assoc. apply decodes_format; [reflexivity|]. change (word 3) with [0; 3]. cbn iota. apply decodes_base.
    change [0; 3] with (word 3). eapply part_bind; [apply part_word; unfold is_u16; lia|].
    eapply part_bind; [apply part_word; unfold countable, is_u16 in *; lia|].
    eapply part_bind; [apply part_word; destruct Hr; unfold countable, is_u16 in *; lia|]. cbn beta. rewrite !Nat2Z.id.
    eapply part_bind; [eapply part_covs_plain; eassumption|].
    apply (part_map _ (fun r => SC3 3 (Z.of_nat (length os)) (Z.of_nat (length recs)) (map Some gs) r)). apply part_reads. now apply reads_records.
  - cbn [seq_from_low]. now rewrite (cov_slots _ _ Hg), collate_spec.
Qed.
Lemma chain3_read gb gi ga ob oi oa sb si sa recs max :
  Forall2 cov_obj gb ob -> Forall2 cov_obj gi oi -> Forall2 cov_obj ga oa ->
  Forall2 glyph_set gb sb -> Forall2 glyph_set gi si -> Forall2 glyph_set ga sa ->
  countable ob -> countable oi -> countable oa -> records_ok recs ->
  exists s, decodes chain_de (chain3_obj ob oi oa recs) s /\ chain_from_low max s = [mk_chained sb sa (rule_of si recs)].
Proof.
  intros Cb Ci Ca Gb Gi Ga Nb Ni Na Hr. eexists. split.
  - unfold chain_de, chain3_obj. apply decodes_format; [reflexivity|]. change (word 3) with [0; 3]. cbn iota. apply decodes_base. change [0; 3] with (word 3).
    eapply part_bind; [apply part_word; unfold is_u16; lia|]. do 3 (eapply part_bind; [eapply part_covs; eassumption|]).
    apply (part_map _ (fun r => CC3 3 (map Some gb) (map Some gi) (map Some ga) r)). apply part_reads. now apply reads_crecords.
  - cbn [chain_from_low]. now rewrite (cov_slots _ _ Gb), (cov_slots _ _ Gi), (cov_slots _ _ Ga), collate_spec.
Qed.
Lemma chain_written r : chained_rule_ok r -> exists ob oi oa recs, chain_enc (chain_to_low r) = Ok (chain3_obj ob oi oa recs) /\
  Forall2 cov_obj (ch_back r) ob /\ Forall2 cov_obj (map fst (ch_input r)) oi /\ Forall2 cov_obj (ch_ahead r) oa /\
  records_ok recs /\ rule_of (map fst (ch_input r)) recs = ch_input r.
Proof.
  intros (Hb & Ha & Hi & Hu & Hc). destruct (covs_enc _ Hb) as (ob & Eb & Fb). destruct (covs_enc _ Ha) as (oa & Ea & Fa). destruct (covs_enc _ Hi) as (oi & Ei & Fi).
  assert (Hn: countable (ch_input r)) by (destruct Hi as [Hi _]; unfold countable in *; now rewrite map_length in Hi).
  exists ob, oi, oa, (rule_records 0 (ch_input r)). unfold chain_to_low. cbn [chain_enc]. unfold context_rule, slot in *. rewrite Eb. cbn [rbind].
  rewrite map_map in Ei. rewrite Ei. cbn [rbind]. rewrite Ea. cbn [rbind].
  assert (Hr: records_ok (rule_records 0 (ch_input r))).
  { split; [unfold countable in *; now rewrite rule_records_length|]. apply rule_records_ok; [unfold context_rule, slot, lookup_record in *; unfold countable in Hn; lia|exact Hu]. }
  split; [|repeat split; auto; try apply Hr; now apply rule_back].
  rewrite len_word by apply Hr. rewrite lr_sers, <- word_u16. unfold chain3_obj. reflexivity.
Qed.
Lemma self_sets ss : glyph_sets ss -> Forall2 glyph_set ss ss.
Proof. intros [_ H]. induction H as [|s ss [H1 H2] H IH]; constructor; [now apply set_self|exact IH]. Qed.
Lemma chain_roundtrip r max : chained_rule_ok r -> exists o, chain_enc (chain_to_low r) = Ok o /\
  exists s, decodes chain_de o s /\ chain_from_low max s = [r].
Proof.
  intros H. destruct (chain_written r H) as (ob & oi & oa & recs & E & Fb & Fi & Fa & Hr & Hrec). eexists. split; [exact E|].
  destruct H as (Hb & Ha & Hi). destruct (chain3_read _ _ _ _ _ _ (ch_back r) (map fst (ch_input r)) (ch_ahead r) recs max Fb Fi Fa) as (s & D & Es);
    try (now apply self_sets); try exact Hr.
  - apply self_sets, Hi.
  - apply (Forall2_countable _ _ _ Fb), Hb.
  - apply (Forall2_countable _ _ _ Fi), Hi.
  - apply (Forall2_countable _ _ _ Fa), Ha.
  - exists s. split; [exact D|]. rewrite Es, Hrec. now destruct r.
Qed.
Lemma seq_not_written r : r <> [] -> seq_enc (seq_to_low r) = Err.
Proof. destruct r as [|p r]; [congruence|]. intros _. unfold seq_to_low. cbn [seq_enc plain_links map rmapM rbind]. reflexivity. Qed.
Lemma seq_empty_written : seq_enc (seq_to_low []) = Ok (context3_obj [] []).
Proof. reflexivity. Qed.

(** ** Reverse chaining *)
Lemma part_words_counted l : countable l -> Forall is_u16 l -> part de_words (counted_words l) l.
Proof. apply part_words. Qed.
Lemma reverse_every (m : list (Z * Z)) c gb ga ob oa sb sa : increasing (map fst m) -> cov_obj (map fst m) c -> countable m -> Forall is_u16 (map snd m) ->
  Forall2 cov_obj gb ob -> Forall2 cov_obj ga oa -> Forall2 glyph_set gb sb -> Forall2 glyph_set ga sa -> countable ob -> countable oa ->
  exists s, decodes g81_de (reverse_obj c ob oa (map snd m)) s /\ reverse_from_low s = Ok (mk_reverse m sb sa).
Proof.
  intros Hi Hc Hn Hv Cb Ca Gb Ga Nb Na. eexists. split.
  - unfold g81_de, reverse_obj. apply decodes_base. eapply part_bind; [apply part_word; unfold is_u16; lia|]. eapply part_bind; [eapply part_cov; eassumption|].
    do 2 (eapply part_bind; [eapply part_covs; eassumption|]). apply (part_map _ (fun s => G81 1 (Some (map fst m)) (map Some gb) (map Some ga) s)).
    apply part_words; [unfold countable in *; now rewrite map_length|exact Hv].
  - cbn [reverse_from_low cov_or_nah]. rewrite combine_fst_snd, (cov_slots _ _ Gb), (cov_slots _ _ Ga). do 2 f_equal. apply (of_list_id _ Z_strict). now apply increasing_sorted_map.
Qed.
Lemma reverse_written r : reverse_ok r -> exists c ob oa, gsub_enc (reverse_to_low r) = Ok (reverse_obj c ob oa (map snd (rv_map r))) /\
  cov_obj (map fst (rv_map r)) c /\ Forall2 cov_obj (rv_back r) ob /\ Forall2 cov_obj (rv_ahead r) oa.
Proof.
  intros (Hm & Hb & Ha). destruct (cov_link (map fst (rv_map r)) (proj1 Hm) (glyph_map_keys _ _ Hm)) as (c & Ec & Cc).
  destruct (covs_enc _ Hb) as (ob & Eb & Fb). destruct (covs_enc _ Ha) as (oa & Ea & Fa). exists c, ob, oa.
  unfold reverse_to_low. cbn [gsub_enc]. unfold slot in *. rewrite Ec. cbn [rbind]. rewrite Eb. cbn [rbind]. rewrite Ea. cbn [rbind].
  rewrite words_enc_spec by (pose proof (glyph_map_count _ _ Hm); unfold countable in *; now rewrite map_length). rewrite <- word_u16. auto.
Qed.
Lemma reverse_roundtrip r : reverse_ok r -> exists o, gsub_enc (reverse_to_low r) = Ok o /\
  exists s, decodes g81_de o s /\ reverse_from_low s = Ok r.
Proof.
  intros H. destruct (reverse_written r H) as (c & ob & oa & E & Cc & Fb & Fa). eexists. split; [exact E|]. destruct H as (Hm & Hb & Ha).
  destruct (reverse_every (rv_map r) c (rv_back r) (rv_ahead r) ob oa (rv_back r) (rv_ahead r)) as (s & D & Es); try assumption; try (now apply self_sets).
  - apply Hm.
  - now apply glyph_map_count in Hm.
  - apply (glyph_map_vals _ _ Hm).
  - apply (Forall2_countable _ _ _ Fb), Hb.
  - apply (Forall2_countable _ _ _ Fa), Ha.
  - exists s. split; [exact D|]. rewrite Es. now destruct r.
Qed.

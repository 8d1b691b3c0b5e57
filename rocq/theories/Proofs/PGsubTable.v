(** The GSUB table as a whole. *)
From Coq Require Import List ZArith Lia Bool Permutation Sorted.
Import ListNotations.
From Verif.Model Require Import MBase MMap MTag MGlyph MOffset MLayout MLow MContext MLookup MGsub.
From Verif.Spec Require Import SBase SGlyph SOffset SLayout SContext SGsub SScript SGsubTable.
From Verif.Proofs Require Import PBase PCodec PMap PTag PGlyph PGlyphFmt PPoints POffset PPart PCover PClassdef PLow PGsub PLig PContext PLookup.
Open Scope Z_scope.

Lemma plain_de t : t <> 7 -> gsub_de t = gsub_plain_de t.
Proof. intros H. unfold gsub_de. replace (t =? 7) with false by lia. reflexivity. Qed.
Lemma all_read {A S} (file : A -> obj -> Prop) (p : parser S) (from : S -> res A) l os :
  (forall a o, file a o -> exists s, decodes p o s /\ from s = Ok a) -> Forall2 file l os ->
  exists ss, Forall2 (fun o s => decodes p o s) os ss /\ rmapM from ss = Ok l.
Proof.
  intros H F. induction F as [|a o l os Ha F (ss & D & E)]; [exists []; split; [constructor|reflexivity]|].
  destruct (H a o Ha) as (s & Ds & Es). exists (s :: ss). split; [now constructor|]. cbn [rmapM]. rewrite Es. cbn [rbind]. now rewrite E.
Qed.
Lemma single_file_read m o : single_file m o -> exists s, decodes g1_de o s /\ single_from_low s = Ok m.
Proof. intros (H1 & H2 & H3 & H4). destruct (single_every m o H1 H2 H3) as (s & D & R & _). eauto. Qed.
Lemma multiple_file_read m o : multiple_file m o -> (exists s, decodes g21_de o s /\ multiple_from_low s = Ok m) /\ (exists s, decodes g31_de o s /\ alternate_from_low s = Ok m).
Proof. intros (H1 & H2 & H3 & H4). exact (multiple_every o H1 H2 H3 H4). Qed.
Lemma ligature_file_read m o : ligature_file m o -> exists s, decodes g41_de o s /\ lig_from_low s = Ok m.
Proof.
  intros (sets & H1 & H2 & H3 & H4). destruct (lig_read sets o H1 H2) as (s & m' & D & R & O & L). exists s. split; [exact D|]. rewrite R. f_equal.
  apply ordered_ext; auto. intros k g. now rewrite L, H4.
Qed.
Lemma class_slot_unique m mx c s1 s2 : class_slot m mx c s1 -> class_slot m mx c s2 -> s1 = s2.
Proof. intros [I1 H1] [I2 H2]. apply sorted_set_ext; [now apply increasing_SS..|]. intros x. now rewrite H1, H2. Qed.
Lemma class_slots_unique m mx cs s1 s2 : Forall2 (class_slot m mx) cs s1 -> Forall2 (class_slot m mx) cs s2 -> s1 = s2.
Proof. intros H. revert s2. induction H as [|c a cs s1 Ha H IH]; intros s2 H2; inversion H2; subst; [reflexivity|]. f_equal; [eapply class_slot_unique; eassumption|auto]. Qed.
Lemma F2_unique {A B} (Q : A -> B -> Prop) l r1 r2 : (forall a x y, Q a x -> Q a y -> x = y) -> Forall2 Q l r1 -> Forall2 Q l r2 -> r1 = r2.
Proof. intros H F. revert r2. induction F as [|a x l r1 Hx F IH]; intros r2 F2; inversion F2; subst; [reflexivity|]. f_equal; eauto. Qed.
Lemma context_seq_read max l o : context_file max l o -> exists s, decodes seq_de o s /\ seq_from_low max s = l.
Proof.
  intros [g c sets H1 H2|g c m k sets rules H1 H2 H3 H4 H5|gs os ss recs H1 H2 H3 H4].
  - exact (seq1_read g c sets max H1 H2).
  - destruct (seq2_read g c m k sets max H1 H2 H3 H4) as (s & D & R). exists s. split; [exact D|]. eapply F2_unique; [|exact R|exact H5]. cbn beta.
    intros a x y (s1 & F1 & ->) (s2 & F2 & ->). now rewrite (class_slots_unique _ _ _ _ _ F1 F2).
  - exact (seq3_read gs os ss recs max H1 H2 H3 H4).
Qed.
Lemma context_file_read max l o : context_file max l o -> exists s, decodes (s <-- seq_de ;; pret (G5 s)) o s /\ context_from_low max s = Ok l.
Proof.
  intros H. destruct (context_seq_read max l o H) as (s & D & R). exists (G5 s). split; [now apply decodes_map|]. cbn [context_from_low]. now rewrite R.
Qed.
Lemma chained_chain_read max l o : chained_file max l o -> exists s, decodes chain_de o s /\ chain_from_low max s = l.
Proof.
  intros [g c sets H1 H2|g c mb mi ma b i a sets rules H1 H2 H3 H4 H5 H6 H7|gb gi ga ob oi oa sb si sa recs H1 H2 H3 H4 H5 H6 H7 H8 H9 H10].
  - exact (chain1_read g c sets max H1 H2).
  - destruct (chain2_read g c mb mi ma b i a sets max H1 H2 H3 H4 H5 H6) as (s & D & R). exists s. split; [exact D|]. eapply F2_unique; [|exact R|exact H7]. cbn beta.
    intros z x y (s1 & s2 & s3 & F1 & F2 & F3 & ->) (r1 & r2 & r3 & G1 & G2 & G3 & ->).
    now rewrite (class_slots_unique _ _ _ _ _ F1 G1), (class_slots_unique _ _ _ _ _ F2 G2), (class_slots_unique _ _ _ _ _ F3 G3).
  - exact (chain3_read gb gi ga ob oi oa sb si sa recs max H1 H2 H3 H4 H5 H6 H7 H8 H9 H10).
Qed.
Lemma chained_file_read max l o : chained_file max l o -> exists s, decodes (s <-- chain_de ;; pret (G6 s)) o s /\ chained_from_low max s = Ok l.
Proof.
  intros H. destruct (chained_chain_read max l o H) as (s & D & R). exists (G6 s). split; [now apply decodes_map|]. cbn [chained_from_low]. now rewrite R.
Qed.
Lemma reverse_file_read r o : reverse_file r o -> exists s, decodes g81_de o s /\ reverse_from_low s = Ok r.
Proof. intros [m c gb ga ob oa sb sa H1 H2 H3 H4 H5 H6 H7 H8 H9 H10]. exact (reverse_every m c gb ga ob oa sb sa H1 H2 H3 H4 H5 H6 H7 H8 H9 H10). Qed.

Lemma part_sub32 {S} (p : parser S) o v : finds p o v -> part (de_sub32 p) [IRef Far32 (Some o)] v.
Proof.
  intros Hd buf base pos stk St. inversion St; subst.
  match goal with H : at_pos _ _ (be_bytes _ ?v) |- _ => rename H into Ha; rename v into w end.
  match goal with H : stored _ _ _ _ o |- _ => rename H into Ho end.
  unfold de_sub32, pbind. change (be_bytes (off_width Far32) w) with (ser_u32 w) in Ha.
  pose proof (at_pos_reads de_u32 _ _ _ _ (base :: stk) (reads_u32 w ltac:(cbn [off_width] in *; lia)) Ha) as E. rewrite E. cbn [top_of_table rd_stack rd_input rd_ptr].
  destruct (Hd _ _ (base :: stk) Ho) as [q Eq]. rewrite Eq. cbn [rd_input rd_stack rd_ptr]. reflexivity.
Qed.
Lemma extension_read t o s : 1 <= t <= 6 -> decodes (gsub_plain_de t) o s -> decodes g7_de (raw (word 1 ++ word t) ++ [IRef Far32 (Some o)]) (G7 1 t s).
Proof.
  intros Ht D. apply decodes_part. rewrite raw_app, <- app_assoc. eapply part_bind; [apply part_word; unfold is_u16; lia|].
  eapply part_bind; [apply part_word; unfold is_u16; lia|]. replace (6 <? t) with false by lia.
  apply (part_map _ (fun s => G7 1 t s)). now apply part_sub32, decodes_finds.
Qed.
Lemma rule_type max t os s : gsub_rule max t os s -> 1 <= t <= 8.
Proof. destruct 1; lia. Qed.
Lemma rmapM_map' {A B C} (f : A -> B) (h : B -> res C) l : rmapM h (map f l) = rmapM (fun a => h (f a)) l.
Proof. induction l as [|a l IH]; [reflexivity|]. cbn [map rmapM]. now rewrite IH. Qed.
Lemma gsub_rule_read max t os s : gsub_rule max t os s -> exists ss, Forall2 (fun o x => decodes (gsub_de t) o x) os ss /\ gsub_from_low max t ss = Ok s.
Proof.
  assert (Pl: forall t os s, t <> 7 -> gsub_rule max t os s -> exists ss, Forall2 (fun o x => decodes (gsub_plain_de t) o x) os ss /\ gsub_plain_from_low max t ss = Ok s).
  { intros t' os' s' Ht H'. revert Ht. destruct H' as [l o F|l o F|l o F|l o F|l o F|l o F|l o F|]; intros Ht; [..|congruence].
    - destruct (all_read _ _ _ _ _ single_file_read F) as (ss & D & E). exists ss. split; [exact D|]. cbn [gsub_plain_from_low]. now rewrite E.
    - destruct (all_read _ _ _ _ _ (fun a o H => proj1 (multiple_file_read a o H)) F) as (ss & D & E). exists ss. split; [exact D|]. cbn [gsub_plain_from_low]. now rewrite E.
    - destruct (all_read _ _ _ _ _ (fun a o H => proj2 (multiple_file_read a o H)) F) as (ss & D & E). exists ss. split; [exact D|]. cbn [gsub_plain_from_low]. now rewrite E.
    - destruct (all_read _ _ _ _ _ ligature_file_read F) as (ss & D & E). exists ss. split; [exact D|]. cbn [gsub_plain_from_low]. now rewrite E.
    - destruct (all_read _ _ _ _ _ (context_file_read max) F) as (ss & D & E). exists ss. split; [exact D|]. cbn [gsub_plain_from_low]. now rewrite E.
    - destruct (all_read _ _ _ _ _ (chained_file_read max) F) as (ss & D & E). exists ss. split; [exact D|]. cbn [gsub_plain_from_low]. now rewrite E.
    - destruct (all_read _ _ _ _ _ reverse_file_read F) as (ss & D & E). exists ss. split; [exact D|]. cbn [gsub_plain_from_low]. now rewrite E. }
  intros H. destruct (Z.eq_dec t 7) as [->|N].
  - inversion H as [| | | | | | |t' os' s' Ht Ho Hr]; subst. pose proof (rule_type _ _ _ _ Hr) as Tr. destruct (Pl t' os' s ltac:(lia) Hr) as (ss & D & E).
    exists (map (G7 1 t') ss). split.
    + clear -D Ht Tr. induction D as [|o x os ss Hd D IH]; cbn [map]; constructor; [|exact IH]. apply extension_read; [lia|exact Hd].
    + unfold gsub_from_low. cbn [Z.eqb Pos.eqb]. rewrite rmapM_map'. cbn beta iota.
      assert (R: rmapM (fun a : gsub_sub => Ok (t', a)) ss = Ok (map (fun a => (t', a)) ss)) by (clear; induction ss as [|a ss IH]; [reflexivity|]; cbn [rmapM map]; cbn [rbind]; now rewrite IH).
      rewrite R. cbn [rbind]. destruct D as [|o x os ss Hd D]; [congruence|]. cbn [map]. cbv iota beta.
      replace (forallb (fun e : Z * gsub_sub => fst e =? t') ((t', x) :: map (fun a => (t', a)) ss)) with true.
      * cbn [map snd]. rewrite map_map. cbn [snd]. rewrite map_id. exact E.
      * symmetry. apply forallb_forall. intros e [<-|He]; cbn [fst]; [lia|]. apply in_map_iff in He as (a & <- & _). cbn [fst]. lia.
  - destruct (Pl t os s N H) as (ss & D & E). exists ss. rewrite (plain_de t N). split; [exact D|]. unfold gsub_from_low. replace (t =? 7) with false by lia. exact E.
Qed.

(** ** Writing *)
Lemma all_written {A} (ok : A -> Prop) (file : A -> obj -> Prop) (low : A -> gsub_sub) l :
  (forall a, ok a -> exists o, gsub_enc (low a) = Ok o /\ file a o) -> Forall ok l ->
  exists os, Forall2 (fun s o => gsub_enc s = Ok o) (map low l) os /\ Forall2 file l os.
Proof.
  intros H F. induction F as [|a l Ha F (os & I1 & I2)]; [exists []; split; constructor|]. destruct (H a Ha) as (o & E & Fo). exists (o :: os). cbn [map]. split; constructor; auto.
Qed.
Lemma single_file_written m : glyph_map is_u16 m /\ ((exists d, single_by d m) -> Forall short_move m) -> exists o, gsub_enc (single_to_low m) = Ok o /\ single_file m o.
Proof.
  intros [Hm Hs]. destruct (single_written m Hm) as (o & E & Ho & Hf). exists o. split; [exact E|]. split; [apply Hm|].
  split; [apply glyph_u16, (glyph_map_keys _ _ Hm)|]. split; [exact Ho|]. destruct Ho as [c d H1 H2 H3|c H1 H2 H3]; [right; eauto|left; reflexivity].
Qed.
Lemma multiple_file_written m : glyph_map glyph_list m -> exists o, (gsub_enc (multiple_to_low m) = Ok o /\ multiple_file m o) /\ gsub_enc (alternate_to_low m) = Ok o.
Proof.
  intros Hm. destruct (multiple_written Hm) as (o & Ho & E1 & E2). exists o. split; [|exact E2]. split; [exact E1|]. split; [apply Hm|].
  split; [now apply glyph_map_count in Hm|]. split; [exact (glyph_map_vals _ _ Hm)|exact Ho].
Qed.
Lemma lig_file_written m : lig_map m -> exists s o, lig_to_low m = Ok s /\ gsub_enc s = Ok o /\ ligature_file m o.
Proof.
  intros Hm. destruct (lig_written m Hm) as (s & o & sets & E1 & E2 & Ho & Hok & _ & Hp & _). exists s, o. split; [exact E1|]. split; [exact E2|].
  exists sets. split; [exact Ho|]. split; [exact Hok|]. split; [apply Hm|].
  intros k g. rewrite last_nodup; [now rewrite Hp|]. rewrite (Permutation_map fst Hp). apply ordered_nodup, Hm.
Qed.
Lemma glyph_sets_count ss os : glyph_sets ss -> Forall2 cov_obj ss os -> countable os.
Proof. intros [H _] F. eapply Forall2_countable; eassumption. Qed.
Lemma chained_file_written max r : chained_rule_ok r -> exists o, gsub_enc (G6 (chain_to_low r)) = Ok o /\ chained_file max [r] o.
Proof.
  intros Hr. destruct (chain_written r Hr) as (ob & oi & oa & recs & E & F1 & F2 & F3 & Hrec & Hrule). eexists. split; [exact E|].
  destruct r as [b a i]. cbn [ch_back ch_ahead ch_input] in *. destruct Hr as (R1 & R2 & R3 & _). cbn [ch_back ch_ahead ch_input] in *. rewrite <- Hrule at 1.
  eapply chained3; [exact F1|exact F2|exact F3|now apply self_sets|now apply self_sets|now apply self_sets|exact (glyph_sets_count _ _ R1 F1)|exact (glyph_sets_count _ _ R3 F2)|exact (glyph_sets_count _ _ R2 F3)|exact Hrec].
Qed.
Lemma reverse_file_written r : reverse_ok r -> exists o, gsub_enc (reverse_to_low r) = Ok o /\ reverse_file r o.
Proof.
  intros Hr. destruct (reverse_written r Hr) as (c & ob & oa & E & H1 & H2 & H3). eexists. split; [exact E|]. destruct r as [m b a]. destruct Hr as (R1 & R2 & R3).
  cbn [rv_map rv_back rv_ahead] in *. econstructor; [apply R1|exact H1|now apply glyph_map_count in R1|exact (glyph_map_vals _ _ R1)|exact H2|exact H3|now apply self_sets..|
    exact (glyph_sets_count _ _ R2 H2)|exact (glyph_sets_count _ _ R3 H3)].
Qed.
Lemma gsub_rule_written max s : subst_ok s -> exists ss os, gsub_subtables s = Ok ss /\ Forall2 (fun s o => gsub_enc s = Ok o) ss os /\ countable ss /\
  exists s', s' = subst_normal s /\ gsub_rule max (gsub_type s) os s'.
Proof.
  intros Hs. cut (exists ss os, gsub_subtables s = Ok ss /\ Forall2 (fun s o => gsub_enc s = Ok o) ss os /\ countable ss /\ gsub_rule max (gsub_type s) os (subst_normal s)).
  { intros (ss & os & H1 & H2 & H3 & H4). exists ss, os. eauto 10. }
  revert Hs.
  assert (C: forall A B (f : A -> B) l, countable l -> countable (map f l)) by (intros A B f l; unfold countable; now rewrite map_length).
  destruct s as [l|l|l|l|l|l|l]; cbn [subst_ok gsub_subtables gsub_type subst_normal].
  - intros [Hc H]. destruct (all_written _ _ _ _ single_file_written H) as (os & E & F). exists (map single_to_low l), os. repeat split; auto. now constructor.
  - intros [Hc H]. destruct (all_written (glyph_map glyph_list) multiple_file multiple_to_low l) with (2 := H) as (os & E & F).
    { intros m Hm. destruct (multiple_file_written m Hm) as (o & Eo & _). eauto. }
    exists (map multiple_to_low l), os. repeat split; auto. now constructor.
  - intros [Hc H]. destruct (all_written (glyph_map glyph_list) multiple_file alternate_to_low l) with (2 := H) as (os & E & F).
    { intros m Hm. destruct (multiple_file_written m Hm) as (o & (_ & Eo) & E2). eauto. }
    exists (map alternate_to_low l), os. repeat split; auto. now constructor.
  - intros [Hc H]. assert (X: exists ss os, rmapM lig_to_low l = Ok ss /\ Forall2 (fun s o => gsub_enc s = Ok o) ss os /\ Forall2 ligature_file l os /\ length ss = length l).
    { clear Hc. induction H as [|m l Hm H (ss & os & I1 & I2 & I3 & I4)]; [exists [], []; repeat split; constructor|]. destruct (lig_file_written m Hm) as (s & o & E1 & E2 & E3).
      exists (s :: ss), (o :: os). split; [cbn [rmapM]; rewrite E1; cbn [rbind]; now rewrite I1|]. split; [now constructor|]. split; [now constructor|]. cbn [length]. now rewrite I4. }
    destruct X as (ss & os & E1 & E2 & E3 & E4). exists ss, os. split; [exact E1|]. split; [exact E2|]. split; [unfold countable in *; now rewrite E4|now constructor].
  - intros ->. exists [], []. repeat split; try constructor. unfold countable. cbn. lia. constructor.
  - intros [Hc H]. destruct (all_written chained_rule_ok (fun r o => chained_file max [r] o) (fun r => G6 (chain_to_low r)) (concat l) (chained_file_written max) H) as (os & E & F).
    exists (map (fun r => G6 (chain_to_low r)) (concat l)), os. repeat split; auto. constructor. clear -F. induction F; cbn [map]; constructor; auto.
  - intros [Hc H]. destruct (all_written _ _ _ _ reverse_file_written H) as (os & E & F). exists (map reverse_to_low l), os. repeat split; auto. now constructor.
Qed.
Lemma gsub_type_u16 s : is_u16 (gsub_type s).
Proof. unfold is_u16. destruct s; cbn; lia. Qed.

Lemma lig_narrow l o : lig_enc l = Ok o -> narrow o = true.
Proof. unfold lig_enc. destruct (chk_u 16 _) as [n| |]; cbn [rbind]; try discriminate. intros H. apply Ok_inj in H. subst. apply narrow_raw. Qed.
Lemma narrow_cons i l : narrow (i :: l) = item_narrow i && narrow l.
Proof. reflexivity. Qed.
Ltac step_narrow H := match type of H with
  | rbind ?e _ = Ok _ => let E := fresh "E" in destruct e eqn:E; cbn [rbind] in H; try discriminate; step_narrow H
  | _ => apply Ok_inj in H; subst end.
Lemma gsub_enc_narrow s o : gsub_enc s = Ok o -> narrow o = true.
Proof.
  intros H. destruct s; cbn [gsub_enc] in H; try discriminate.
  1-5,8: step_narrow H; rewrite ?narrow_app, ?narrow_raw, ?item_single; cbn [andb];
     repeat match goal with E : link_enc cov_enc _ = Ok _ |- _ => rewrite (link_narrow _ _ _ cov_narrow E); clear E
       | E : vec_enc cov_enc _ = Ok _ |- _ => rewrite (vec_narrow _ _ _ cov_narrow E); clear E end; cbn [andb]; rewrite ?words_narrow, ?narrow_raw; try reflexivity.
  - eapply vec_narrow; [|eassumption]. intros ? x Hx. apply Ok_inj in Hx. subst. apply words_narrow.
  - eapply vec_narrow; [|eassumption]. intros ? x Hx. apply Ok_inj in Hx. subst. apply words_narrow.
  - eapply vec_narrow; [|eassumption]. intros ? x Hx. eapply vec_narrow; [|exact Hx]. apply lig_narrow.
  - destruct s; cbn [seq_enc] in H; try discriminate. step_narrow H. apply narrow_raw.
  - destruct s; cbn [chain_enc] in H; try discriminate. step_narrow H. rewrite ?narrow_app, ?narrow_raw.
    repeat match goal with E : vec_enc cov_enc _ = Ok _ |- _ => rewrite (vec_narrow _ _ _ cov_narrow E); clear E end. reflexivity.
Qed.

Lemma gsub_written {P} (g : layout P substitution) max : gsub_ok g -> exists o, gsub_file max (gsub_normal g) o /\ short_offsets o = true /\ gsub_write g = to_bytes o.
Proof.
  intros H. destruct (layout_written gsub_enc gsub_type gsub_subtables (gsub_rule max) subst_ok (fun r r' => r' = subst_normal r) (gsub_rule_written max) gsub_type_u16 g H) as (t & o & g' & E1 & E2 & N & F).
  apply layout_same_normal in N. subst g'.
  exists o. split; [exact F|]. split; [exact (table_narrow _ _ _ gsub_enc_narrow E2)|]. unfold gsub_write. rewrite E1. cbn [rbind]. now rewrite E2.
Qed.
Lemma gsub_file_read {P} (g : layout P substitution) max o : gsub_file max g o -> part (gsub_read max) o g.
Proof.
  apply table_read. intros t os r H. destruct (gsub_rule_read max t os r H) as (ss & D & E). exists ss. split; [|exact E].
  clear -D. induction D; constructor; [now apply decodes_finds|assumption].
Qed.
Lemma gsub_roundtrip {P} (g : layout P substitution) max out : gsub_ok g -> gsub_write g = Ok out -> Z.of_nat (length out) < 2 ^ 32 ->
  from_bytes (gsub_read max) out = Ok (gsub_normal g).
Proof.
  intros H W L. destruct (gsub_written g max H) as (o & F & N & E). rewrite E in W. pose proof (to_bytes_length o out W) as Hl.
  eapply to_bytes_part; [|exact N|now apply gsub_file_read|exact W]. rewrite <- Hl. exact L.
Qed.

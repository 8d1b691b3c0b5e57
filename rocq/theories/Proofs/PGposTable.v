(** The GPOS table as a whole. *)
From Coq Require Import List ZArith Lia Bool Permutation Sorted.
Import ListNotations.
From Verif.Model Require Import MBase MMap MTag MGlyph MOffset MLayout MLow MContext MLookup MValue MGsub MGpos.
From Verif.Spec Require Import SBase SGlyph SOffset SLayout SContext SValue SGsub SScript SGsubTable SGpos SGposTable.
From Verif.Proofs Require PCmap4.
From Verif.Proofs Require Import PBase PCodec PMap PTag PGlyph PGlyphFmt PPoints POffset PPart PCover PClassdef PDevice PValue PLow PGsub PLig PContext PLookup PGsubTable PGpos PPair PAttach.
Open Scope Z_scope.

Lemma pos_plain_de t : t <> 9 -> gpos_de t = gpos_plain_de t.
Proof. intros H. unfold gpos_de. replace (t =? 9) with false by lia. reflexivity. Qed.
Lemma all_found {A S} (file : A -> obj -> Prop) (p : parser S) (from : S -> res A) l os :
  (forall a o, In a l -> file a o -> exists s, finds p o s /\ from s = Ok a) -> Forall2 file l os ->
  exists ss, Forall2 (fun o s => finds p o s) os ss /\ rmapM from ss = Ok l.
Proof.
  intros H F. induction F as [|a o l os Ha F IH]; [exists []; split; [constructor|reflexivity]|].
  destruct IH as (ss & D & E); [intros; apply H; [now right|assumption]|].
  destruct (H a o (or_introl eq_refl) Ha) as (s & Ds & Es). exists (s :: ss). split; [now constructor|]. cbn [rmapM]. rewrite Es. cbn [rbind]. now rewrite E.
Qed.
Lemma spos_found m o : spos_file m o -> exists s, finds p1_de o s /\ spos_from_low s = Ok m.
Proof. intros H. destruct (spos_low m o H) as (s & D & E). exists s. split; [now apply decodes_finds|exact E]. Qed.
Lemma curs_found m o : curs_file m o -> exists s, finds p3_de o s /\ curs_from_low s = Ok m.
Proof. intros H. destruct (curs_low m o H) as (s & D & E). exists s. split; [now apply decodes_finds|exact E]. Qed.
Lemma pcontext_found max l o : context_file max l o -> exists s, finds (s <-- seq_de ;; pret (P7 s)) o s /\ pcontext_from_low max s = Ok l.
Proof.
  intros H. destruct (context_seq_read max l o H) as (s & D & R). exists (P7 s). split; [apply decodes_finds; now apply decodes_map|]. cbn [pcontext_from_low]. now rewrite R.
Qed.
Lemma pchained_found max l o : chained_file max l o -> exists s, finds (s <-- chain_de ;; pret (P8 s)) o s /\ pchained_from_low max s = Ok l.
Proof.
  intros H. destruct (chained_chain_read max l o H) as (s & D & R). exists (P8 s). split; [apply decodes_finds; now apply decodes_map|]. cbn [pchained_from_low]. now rewrite R.
Qed.
Lemma pos_extension_read t o s : 1 <= t <= 6 -> finds (gpos_plain_de t) o s -> finds p9_de (raw (word 1 ++ word t) ++ [IRef Far32 (Some o)]) (P9 1 t s).
Proof.
  intros Ht D. apply decodes_finds. apply decodes_part. rewrite raw_app, <- app_assoc. eapply part_bind; [apply part_word; unfold is_u16; lia|].
  eapply part_bind; [apply part_word; unfold is_u16; lia|]. replace (6 <? t) with false by lia.
  apply (part_map _ (fun s => P9 1 t s)). now apply part_sub32.
Qed.
Lemma pos_rule_type max t os p : gpos_rule max t os p -> 1 <= t <= 9.
Proof. destruct 1; lia. Qed.
Lemma gpos_plain_read max t os p : t <> 9 -> pos_readable p -> gpos_rule max t os p ->
  exists ss, Forall2 (fun o x => finds (gpos_plain_de t) o x) os ss /\ gpos_plain_from_low max t ss = Ok p.
Proof.
  intros Ht Hp H. revert Ht Hp. destruct H as [l o F|l o F|l o F|l o F|l o F|l o F|l o F|l o F|]; intros Ht Hp; [..|congruence]; cbn [pos_readable] in Hp.
  - destruct (all_found _ _ _ _ _ (fun a o _ => spos_found a o) F) as (ss & D & E). exists ss. split; [exact D|]. cbn [gpos_plain_from_low]. now rewrite E.
  - destruct (all_found _ _ _ _ _ (fun a o _ => ppos_low max a o) F) as (ss & D & E). exists ss. split; [exact D|]. cbn [gpos_plain_from_low]. now rewrite E.
  - destruct (all_found _ _ _ _ _ (fun a o _ => curs_found a o) F) as (ss & D & E). exists ss. split; [exact D|]. cbn [gpos_plain_from_low]. now rewrite E.
  - destruct (all_found _ _ _ _ _ (fun a o _ => mbase_low a o) F) as (ss & D & E). exists ss. split; [exact D|]. cbn [gpos_plain_from_low]. now rewrite E.
  - rewrite Forall_forall in Hp. destruct (all_found _ _ _ _ _ (fun a o Hi => mlig_low a o (Hp a Hi)) F) as (ss & D & E). exists ss. split; [exact D|]. cbn [gpos_plain_from_low]. now rewrite E.
  - destruct Hp.
  - destruct (all_found _ _ _ _ _ (fun a o _ => pcontext_found max a o) F) as (ss & D & E). exists ss. split; [exact D|]. cbn [gpos_plain_from_low]. now rewrite E.
  - destruct (all_found _ _ _ _ _ (fun a o _ => pchained_found max a o) F) as (ss & D & E). exists ss. split; [exact D|]. cbn [gpos_plain_from_low]. now rewrite E.
Qed.
Lemma gpos_rule_read max t os p : pos_readable p -> gpos_rule max t os p -> exists ss, Forall2 (fun o x => finds (gpos_de t) o x) os ss /\ gpos_from_low max t ss = Ok p.
Proof.
  intros Hp H. destruct (Z.eq_dec t 9) as [->|N].
  - inversion H as [| | | | | | | |t' os' s' Ht Ho Hr]; subst. pose proof (pos_rule_type _ _ _ _ Hr) as Tr. destruct (gpos_plain_read max t' os' p ltac:(lia) Hp Hr) as (ss & D & E).
    exists (map (P9 1 t') ss). split.
    + clear -D Ht Tr. induction D as [|o x os ss Hd D IH]; cbn [map]; constructor; [|exact IH]. apply pos_extension_read; [lia|exact Hd].
    + unfold gpos_from_low. cbn [Z.eqb Pos.eqb]. rewrite rmapM_map'. cbn beta iota.
      assert (R: rmapM (fun a : gpos_sub => Ok (t', a)) ss = Ok (map (fun a => (t', a)) ss)) by (clear; induction ss as [|a ss IH]; [reflexivity|]; cbn [rmapM map]; cbn [rbind]; now rewrite IH).
      rewrite R. cbn [rbind]. destruct D as [|o x os ss Hd D]; [congruence|]. cbn [map]. cbv iota beta.
      replace (forallb (fun e : Z * gpos_sub => fst e =? t') ((t', x) :: map (fun a => (t', a)) ss)) with true.
      * cbn [map snd]. rewrite map_map. cbn [snd]. rewrite map_id. exact E.
      * symmetry. apply forallb_forall. intros e [<-|He]; cbn [fst]; [lia|]. apply in_map_iff in He as (a & <- & _). cbn [fst]. lia.
  - destruct (gpos_plain_read max t os p N Hp H) as (ss & D & E). exists ss. rewrite (pos_plain_de t N). split; [exact D|]. unfold gpos_from_low. replace (t =? 9) with false by lia. exact E.
Qed.

(** ** Writing *)
Lemma all_pos_written {A} (ok : A -> Prop) (same file : A -> obj -> Prop) (R : A -> A -> Prop) (low : A -> res gpos_sub) l :
  (forall a, ok a -> exists o a', (s <- low a ;; gpos_enc s) = Ok o /\ R a a' /\ file a' o) -> Forall ok l ->
  exists ss os l', rmapM low l = Ok ss /\ Forall2 (fun s o => gpos_enc s = Ok o) ss os /\ length ss = length l /\ Forall2 R l l' /\ Forall2 file l' os.
Proof.
  intros H F. induction F as [|a l Ha F (ss & os & l' & I1 & I2 & I3 & I4 & I5)]; [exists [], [], []; repeat split; constructor|].
  destruct (H a Ha) as (o & a' & E & Ra & Fo). destruct (low a) as [s| |] eqn:Es; cbn [rbind] in E; try discriminate.
  exists (s :: ss), (o :: os), (a' :: l'). split; [cbn [rmapM]; rewrite Es; cbn [rbind]; now rewrite I1|]. split; [now constructor|]. split; [cbn [length]; now rewrite I3|]. split; now constructor.
Qed.
Lemma F2_function {A B} (f : A -> B) l l' : Forall2 (fun a b => b = f a) l l' -> l' = map f l.
Proof. induction 1; cbn [map]; congruence. Qed.
Lemma rmapM_pure {A B} (f : A -> B) l : rmapM (fun a => Ok (f a)) l = Ok (map f l).
Proof. induction l as [|a l IH]; [reflexivity|]. cbn [rmapM map rbind]. now rewrite IH. Qed.
Lemma pchained_written max r : chained_rule_ok r -> exists o, gpos_enc (P8 (chain_to_low r)) = Ok o /\ chained_file max [r] o.
Proof. intros H. destruct (chained_file_written max r H) as (o & E & F). exists o. split; [exact E|exact F]. Qed.
Lemma gpos_rule_written max p : pos_ok p -> exists ss os, gpos_subtables p = Ok ss /\ Forall2 (fun s o => gpos_enc s = Ok o) ss os /\ countable ss /\
  exists p', pos_same p p' /\ gpos_rule max (gpos_type p) os p'.
Proof.
  destruct p as [l|l|l|l|l|l|l|l]; cbn [pos_ok gpos_subtables gpos_type].
  - intros [Hc H]. destruct (all_pos_written spos_ok spos_file spos_file same_single spos_to_low l) as (ss & os & l' & E1 & E2 & E3 & E4 & E5); [|exact H|].
    + intros m Hm. destruct (spos_written m Hm) as (o & m' & E & Sm & F). exists o, m'. auto.
    + exists ss, os. split; [exact E1|]. split; [exact E2|]. split; [unfold countable in *; now rewrite E3|]. exists (PSingle l'). split; now constructor.
  - intros [Hc H]. destruct (all_pos_written ppos_ok (ppos_file max) (ppos_file max) (fun m m' => m' = pairs_without_zeros m) (fun m => Ok (ppos_to_low m)) l) as (ss & os & l' & E1 & E2 & E3 & E4 & E5); [|exact H|].
    + intros m Hm. destruct (ppos_written max m Hm) as (o & E & F). exists o, (pairs_without_zeros m). auto.
    + rewrite rmapM_pure in E1. apply F2_function in E4. subst l'. exists ss, os. split; [exact E1|]. split; [exact E2|]. split; [unfold countable in *; now rewrite E3|]. eexists. split; constructor. exact E5.
  - intros [Hc H]. destruct (all_pos_written (glyph_map entry_exit_ok) curs_file curs_file (fun m m' => m' = m) (fun m => Ok (curs_to_low m)) l) as (ss & os & l' & E1 & E2 & E3 & E4 & E5); [|exact H|].
    + intros m Hm. destruct (curs_written m Hm) as (o & E & F). exists o, m. auto.
    + rewrite rmapM_pure in E1. apply (F2_function (fun m => m)) in E4. rewrite map_id in E4. subst l'. exists ss, os. split; [exact E1|]. split; [exact E2|]. split; [unfold countable in *; now rewrite E3|]. eexists. split; constructor. exact E5.
  - intros [Hc H]. destruct (all_pos_written mbase_ok mbase_file mbase_file (fun m m' => m' = mbase_kept m) mbase_to_low l) as (ss & os & l' & E1 & E2 & E3 & E4 & E5); [|exact H|].
    + intros m Hm. destruct (mbase_written m Hm) as (o & E & F). exists o, (mbase_kept m). auto.
    + apply F2_function in E4. subst l'. exists ss, os. split; [exact E1|]. split; [exact E2|]. split; [unfold countable in *; now rewrite E3|]. eexists. split; constructor. exact E5.
  - intros [Hc H]. destruct (all_pos_written mlig_ok mlig_file mlig_file (fun m m' => m' = mlig_kept m) mlig_to_low l) as (ss & os & l' & E1 & E2 & E3 & E4 & E5); [|exact H|].
    + intros m Hm. destruct (mlig_written m Hm) as (o & E & F). exists o, (mlig_kept m). auto.
    + apply F2_function in E4. subst l'. exists ss, os. split; [exact E1|]. split; [exact E2|]. split; [unfold countable in *; now rewrite E3|]. eexists. split; constructor. exact E5.
  - intros [Hc H]. destruct (all_pos_written mbase_ok mbase_file mbase_file (fun m m' => m' = mbase_kept m) mmark_to_low l) as (ss & os & l' & E1 & E2 & E3 & E4 & E5); [|exact H|].
    + intros m Hm. destruct (mmark_written m Hm) as (o & E & F). exists o, (mbase_kept m). auto.
    + apply F2_function in E4. subst l'. exists ss, os. split; [exact E1|]. split; [exact E2|]. split; [unfold countable in *; now rewrite E3|]. eexists. split; constructor. exact E5.
  - intros E0. exists [], []. rewrite E0. split; [reflexivity|]. split; [constructor|]. split; [unfold countable; cbn; lia|]. eexists. split; constructor. constructor.
  - intros [Hc H]. destruct (all_pos_written chained_rule_ok (fun r o => chained_file max [r] o) (fun r o => chained_file max [r] o) (fun m m' => m' = m) (fun r => Ok (P8 (chain_to_low r))) (concat l)) as (ss & os & l' & E1 & E2 & E3 & E4 & E5); [|exact H|].
    + intros r Hr. destruct (pchained_written max r Hr) as (o & E & F). exists o, r. auto.
    + rewrite rmapM_pure in E1. apply (F2_function (fun m => m)) in E4. rewrite map_id in E4. subst l'. exists ss, os. split; [exact E1|]. split; [exact E2|]. split; [unfold countable in *; now rewrite E3|].
      eexists. split; constructor. clear -E5. induction E5; cbn [map]; constructor; auto.
Qed.
Lemma gpos_type_u16 p : is_u16 (gpos_type p).
Proof. unfold is_u16. destruct p; cbn; lia. Qed.

(** ** Two-byte offsets only *)
Lemma dev_item_narrow o l : vr_dev o = Ok l -> narrow l = true.
Proof.
  unfold vr_dev. destruct o as [[d|]|]; intros H; step_narrow H; try reflexivity.
  all: rewrite ?narrow_cons; cbn [item_narrow]; rewrite ?narrow_raw; reflexivity.
Qed.
Lemma vr_narrow v l : vr_enc v = Ok l -> narrow l = true.
Proof.
  unfold vr_enc. intros H. step_narrow H. rewrite ?narrow_app, ?narrow_raw.
  repeat match goal with E : vr_dev _ = Ok _ |- _ => rewrite (dev_item_narrow _ _ E); clear E end.
  assert (I: forall o, narrow (vr_int o) = true) by (intros [z|]; [apply narrow_raw|reflexivity]). now rewrite !I.
Qed.
Lemma anchor_narrow a o : anchor_enc a = Ok o -> narrow o = true.
Proof. intros H. apply Ok_inj in H. subst. apply narrow_raw. Qed.
Lemma mark_array_narrow l o : mark_array_enc l = Ok o -> narrow o = true.
Proof.
  unfold mark_array_enc. intros H. step_narrow H. rewrite narrow_app, narrow_raw, group_narrow. cbn [andb]. eapply mapM_narrow; [|eassumption].
  intros r i Hi. unfold mark_enc in Hi. step_narrow Hi. change (narrow (raw (ser_u16 (fst r)) ++ [a0]) = true). rewrite narrow_app, narrow_raw, item_single. cbn [andb].
  eapply link_narrow; [|eassumption]. apply anchor_narrow.
Qed.
Lemma rows_narrow l o : rows_enc l = Ok o -> narrow o = true.
Proof.
  unfold rows_enc. intros H. step_narrow H. rewrite narrow_app, narrow_raw, group_narrow. cbn [andb]. eapply mapM_narrow; [|eassumption].
  intros r i Hi. unfold row_enc in Hi. step_narrow Hi. change (narrow a0 = true). eapply mapM_narrow; [|eassumption]. intros x y Hx. eapply link_narrow; [|exact Hx]. apply anchor_narrow.
Qed.
Lemma pair_set_narrow l o : pair_set_enc l = Ok o -> narrow o = true.
Proof. unfold pair_set_enc. intros H. step_narrow H. apply narrow_raw. Qed.
Lemma entry_exit_narrow r i : entry_exit_enc r = Ok i -> item_narrow i = true.
Proof.
  unfold entry_exit_enc. intros H. step_narrow H. change (narrow [a; a0] = true). rewrite !narrow_cons.
  rewrite (link_narrow _ _ _ anchor_narrow E), (link_narrow _ _ _ anchor_narrow E0). reflexivity.
Qed.
Lemma gpos_enc_narrow s o : gpos_enc s = Ok o -> narrow o = true.
Proof.
  intros H. destruct s; cbn [gpos_enc] in H; try discriminate.
  1-7: step_narrow H; rewrite ?narrow_app, ?narrow_raw, ?group_narrow, ?item_single; cbn [andb]; rewrite ?narrow_cons, ?narrow_raw, ?narrow_app; cbn [andb];
    repeat match goal with
    | E : link_enc cov_enc _ = Ok _ |- _ => rewrite (link_narrow _ _ _ cov_narrow E); clear E
    | E : link_enc mark_array_enc _ = Ok _ |- _ => rewrite (link_narrow _ _ _ mark_array_narrow E); clear E
    | E : link_enc rows_enc _ = Ok _ |- _ => rewrite (link_narrow _ _ _ rows_narrow E); clear E
    | E : vr_enc _ = Ok _ |- _ => rewrite (vr_narrow _ _ E); clear E
    | E : vec_enc pair_set_enc _ = Ok _ |- _ => rewrite (vec_narrow _ _ _ pair_set_narrow E); clear E
    | E : rmapM entry_exit_enc _ = Ok _ |- _ => rewrite (mapM_narrow _ _ _ entry_exit_narrow E); clear E
    end; cbn [andb]; try reflexivity.
  - match goal with E : link_enc ?f ?x = Ok ?i |- context [item_narrow ?i] => rewrite (link_narrow f x i) end; [reflexivity| |assumption].
    intros x y Hx. eapply vec_narrow; [|exact Hx]. apply rows_narrow.
  - exact (gsub_enc_narrow (G5 s) o H).
  - exact (gsub_enc_narrow (G6 s) o H).
Qed.

Lemma gpos_written {P} (g : layout P positioning) max : gpos_ok g -> exists o g', gpos_same g g' /\ gpos_file max g' o /\ short_offsets o = true /\ gpos_write g = to_bytes o.
Proof.
  intros H. destruct (layout_written gpos_enc gpos_type gpos_subtables (gpos_rule max) pos_ok pos_same (gpos_rule_written max) gpos_type_u16 g H) as (t & o & g' & E1 & E2 & N & F).
  exists o, g'. split; [exact N|]. split; [exact F|]. split; [exact (table_narrow _ _ _ gpos_enc_narrow E2)|]. unfold gpos_write. rewrite E1. cbn [rbind]. now rewrite E2.
Qed.
Lemma layout_file_readable {P} (g : layout P positioning) max o : gpos_file max g o -> gpos_readable g ->
  layout_file (fun t os p => pos_readable p /\ gpos_rule max t os p) g o.
Proof.
  intros [s so f fo os Hs Ss Hf Ff Hl Hc] Hr. econstructor; eauto. unfold gpos_readable in Hr. clear -Hl Hr.
  induction Hl as [|l o ls os (t & subs & H1 & H2) Hl IH]; [constructor|]. inversion Hr; subst. constructor; [|auto]. exists t, subs. auto.
Qed.
Lemma gpos_file_read {P} (g : layout P positioning) max o : gpos_file max g o -> gpos_readable g -> part (gpos_read max) o g.
Proof.
  intros H Hr. apply (table_read gpos_de (gpos_from_low max) (fun t os p => pos_readable p /\ gpos_rule max t os p)); [|now apply layout_file_readable].
  intros t os r [H1 H2]. exact (gpos_rule_read max t os r H1 H2).
Qed.
Lemma pos_same_readable p p' : pos_same p p' -> pos_readable p -> pos_readable p'.
Proof.
  destruct 1; cbn [pos_readable]; auto. intros H. apply Forall_map. eapply Forall_impl; [|exact H]. intros m Hm. unfold mlig_kept. cbn [ml_ligs]. now rewrite map_length.
Qed.
Lemma gpos_same_readable {P} (g g' : layout P positioning) : gpos_same g g' -> gpos_readable g -> gpos_readable g'.
Proof.
  intros (_ & _ & F). unfold gpos_readable. induction F as [|l l' ls ls' (_ & _ & H) F IH]; intros Hr; [constructor|]. inversion Hr; subst. constructor; [|auto].
  eapply pos_same_readable; eassumption.
Qed.
Lemma gpos_roundtrip {P} (g : layout P positioning) max out : gpos_ok g -> gpos_readable g -> gpos_write g = Ok out -> Z.of_nat (length out) < 2 ^ 32 ->
  exists g', gpos_same g g' /\ from_bytes (gpos_read max) out = Ok g'.
Proof.
  intros H Hr W L. destruct (gpos_written g max H) as (o & g' & Sg & F & N & E). rewrite E in W. pose proof (to_bytes_length o out W) as Hl. exists g'. split; [exact Sg|].
  eapply to_bytes_part; [|exact N|apply gpos_file_read; [exact F|now apply (gpos_same_readable g)]|exact W]. rewrite <- Hl. exact L.
Qed.

(** ** Writing again what was read back *)
Lemma simplify_twice v : vr_simplify (vr_simplify v) = vr_simplify v.
Proof. destruct v as [[[| |]|] [[| |]|] [[| |]|] [[| |]|] e f g h]; reflexivity. Qed.
Lemma ppos_low_again m : ppos_to_low (pairs_without_zeros m) = ppos_to_low m.
Proof.
  unfold ppos_to_low, pairs_without_zeros. rewrite map_map. cbn [fst snd].
  replace (map (fun x : Z * Z * (vrec * vrec) => (fst x, (vr_simplify (without_zeros (fst (snd x))), vr_simplify (without_zeros (snd (snd x)))))) m)
    with (map (fun kv : (Z * Z) * (vrec * vrec) => (fst kv, (vr_simplify (fst (snd kv)), vr_simplify (snd (snd kv))))) m); [reflexivity|].
  apply map_ext. intros kv. now rewrite !without_zeros_simplify, !simplify_twice.
Qed.
Lemma row_again ms n m : anchors_ok m -> (forall k, 0 <= k -> (k < n <-> reached ms k = true)) -> row_to_low n (kept_anchors ms m) = row_to_low n m.
Proof.
  intros [Hi Hf] Hr. unfold row_to_low. assert (Sm: sorted_map Z.ltb m) by now apply increasing_sorted_map.
  assert (Sk: sorted_map Z.ltb (kept_anchors ms m)) by (apply increasing_sorted_map; now apply increasing_filter).
  apply map_ext_in. intros k Hk. apply PCmap4.zrange_In in Hk. destruct (bm_get Z.ltb k m) as [a|] eqn:G.
  - apply (get_In Z.ltb Z_strict) in G. apply (In_get Z.ltb Z_strict); [exact Sk|]. apply kept_In. split; [exact G|]. apply Hr; lia.
  - apply (get_not_in Z.ltb Z_strict). intros v X. apply kept_In in X as [X _]. apply (In_get Z.ltb Z_strict) in X; [|exact Sm]. congruence.
Qed.
Lemma mb_again k m : mbase_ok m -> mb_to k (mbase_kept m) = mb_to k m.
Proof.
  intros [Hm Hb]. unfold mb_to, mbase_kept. cbn [mb_marks mb_bases]. destruct (marks_classes _ Hm) as (n & En & Hn & Hr). rewrite En. cbn [rbind]. rewrite !map_map. cbn [fst snd].
  do 2 f_equal. apply map_ext_in. intros [b a] Hi. cbn [snd]. apply row_again; [|exact Hr]. pose proof (proj2 Hb) as F. rewrite Forall_forall in F. exact (proj2 (F _ Hi)).
Qed.
Lemma mlig_again m : mlig_ok m -> mlig_to_low (mlig_kept m) = mlig_to_low m.
Proof.
  intros [Hm Hb]. unfold mlig_to_low, mlig_kept. cbn [ml_marks ml_ligs]. destruct (marks_classes _ Hm) as (n & En & Hn & Hr). rewrite En. cbn [rbind]. rewrite !map_map. cbn [fst snd].
  do 2 f_equal. apply map_ext_in. intros [b cs] Hi. cbn [snd]. rewrite map_map. apply map_ext_in. intros a Ha. apply row_again; [|exact Hr].
  pose proof (proj2 Hb) as F. rewrite Forall_forall in F. destruct (F _ Hi) as [_ [_ X]]. rewrite Forall_forall in X. now apply X.
Qed.
Lemma rmapM_ext_in {A B} (f g : A -> res B) l : (forall a, In a l -> f a = g a) -> rmapM f l = rmapM g l.
Proof. induction l as [|a l IH]; intros H; [reflexivity|]. cbn [rmapM]. rewrite H by now left. rewrite IH; [reflexivity|]. intros; apply H; now right. Qed.
Lemma subtables_again p p' : pos_ok p -> pos_same p p' -> gpos_subtables p' = gpos_subtables p /\ gpos_type p' = gpos_type p.
Proof.
  intros Hp Sp. destruct Sp as [l l' F|l|l|l|l|l|l|l]; (split; [|reflexivity]); cbn [gpos_subtables pos_ok] in *; try reflexivity.
  - clear Hp. induction F as [|m m' l l' Hm F IH]; [reflexivity|]. cbn [rmapM]. now rewrite IH, (same_single_low _ _ Hm).
  - rewrite map_map. f_equal. apply map_ext. intros. apply ppos_low_again.
  - rewrite rmapM_map'. apply rmapM_ext_in. intros m Hm. destruct Hp as [_ Hp]. rewrite Forall_forall in Hp. apply mb_again. now apply Hp.
  - rewrite rmapM_map'. apply rmapM_ext_in. intros m Hm. destruct Hp as [_ Hp]. rewrite Forall_forall in Hp. apply mlig_again. now apply Hp.
  - rewrite rmapM_map'. apply rmapM_ext_in. intros m Hm. destruct Hp as [_ Hp]. rewrite Forall_forall in Hp. apply mb_again. now apply Hp.
  - now rewrite Hp.
  - f_equal. f_equal. induction (concat l) as [|x y IH]; [reflexivity|]. cbn [map concat app]. rewrite IH; [reflexivity|]. destruct Hp as [Hc H]. split; [unfold countable in *; cbn [length] in Hc; lia|now inversion H].
Qed.
Lemma gpos_again {P} (g g' : layout P positioning) : gpos_ok g -> gpos_same g g' -> gpos_write g' = gpos_write g.
Proof.
  intros (_ & _ & _ & _ & Hl) (Es & Ef & F). unfold gpos_write, layout_to_low. rewrite Es, Ef.
  replace (features_to_low (map (fun f => (fst f, None)) (ly_features g))) with (features_to_low (ly_features g)) by (unfold features_to_low; rewrite map_map; reflexivity).
  match goal with |- context [rmapM ?h (ly_lookups g')] => replace (rmapM h (ly_lookups g')) with (rmapM h (ly_lookups g)); [reflexivity|] end.
  clear -Hl F. induction F as [|l l' ls ls' (E1 & E2 & E3) F IH]; [reflexivity|]. inversion Hl as [|? ? [_ Hk] Hl']; subst. cbn [rmapM].
  destruct (subtables_again _ _ Hk E3) as [X1 X2]. rewrite X1, X2, E1, E2. now rewrite IH.
Qed.
Lemma plain_no_marks max t l p : gpos_plain_from_low max t l = Ok p -> forall v, p <> PMarkToMark v.
Proof.
  unfold gpos_plain_from_low, rmap. intros H v ->.
  repeat match type of H with context [match ?x with _ => _ end] => destruct x; cbn [rbind] in H; try discriminate end.
Qed.

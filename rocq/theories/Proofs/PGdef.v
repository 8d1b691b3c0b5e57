(** The glyph definition table. *)
From Coq Require Import List ZArith Lia Bool.
Import ListNotations.
From Verif.Model Require Import MBase MMap MPacked MOffset MLayout MLow MIvs MGdef.
From Verif.Spec Require Import SBase SGlyph SPacked SOffset SLayout SContext SGsub SIvs SGdef.
From Verif.Proofs Require Import PBase PCodec PMap PGlyphFmt PPoints POffset PPart PCover PClassdef PDevice PLow PLookup PGsub PGpos PIvs.
Open Scope Z_scope.

(** ** Reading *)
Lemma classes_part m o : classes_obj m o -> part (de_off16 cd_de) [olink o] (option_map (fun _ => m) o).
Proof.
  destruct o as [o|]; cbn [classes_obj option_map]; [|intros _; apply part_off16_null].
  intros (_ & bs & N & -> & R). apply part_off16. apply decodes_reads. now apply reads_back_reads.
Qed.
Lemma classes_value {A} (f : list (Z * Z) -> list A) m o : f [] = [] -> classes_obj m o -> match option_map (fun _ => m) o with Some m => f m | None => [] end = f m.
Proof. intros E. destruct o; [reflexivity|]. cbn. intros ->. now symmetry. Qed.

(** inside a list of links the offset base is the start of the list, but only the
    form without a device table is left *)
Lemma caret_decodes c : caret_ok c -> decodes caret_de (caret_obj c) c.
Proof.
  destruct c as [z|p|z d b]; cbn [caret_ok caret_obj]; unfold caret_de.
  - intros H. apply decodes_reads. eapply reads_bind; [rewrite word_u16; apply reads_u16; lia|]. change (1 =? 1) with true. cbn iota.
    apply (reads_map _ Caret1). rewrite word_i16. apply reads_i16. lia.
  - intros H. unfold is_u16 in H. apply decodes_reads. eapply reads_bind; [rewrite word_u16; apply reads_u16; lia|]. change (2 =? 1) with false. change (2 =? 2) with true. cbn iota.
    apply (reads_map _ Caret2). rewrite word_u16. apply reads_u16. lia.
  - intros (H & -> & ->) buf pos stk S.
    assert (S': stored 65536 buf pos pos (raw ((word 3 ++ word z) ++ be_bytes 2 0))).
    { rewrite raw_app. clear -S. revert S. generalize pos at 1 3 as base. generalize pos as q. generalize (word 3 ++ word z) as l.
      induction l as [|b l IH]; intros q base S; cbn [raw map app] in *.
      - inversion S; subst. match goal with H : at_pos _ _ (be_bytes _ 0) |- _ => destruct H as (pre & post & -> & <-) end.
        change (be_bytes (off_width Off16) 0) with [0; 0]. change (be_bytes 2 0) with [0; 0]. cbn [map].
        apply st_byte; [exists pre, ([0] ++ post); split; reflexivity|].
        apply st_byte; [exists (pre ++ [0]), post; split; [now rewrite <- app_assoc|rewrite app_length; reflexivity]|]. apply st_nil. rewrite !app_length. cbn. lia.
      - inversion S; subst. apply st_byte; [assumption|]. now apply IH. }
    apply stored_raw in S'. rewrite size_app, size_raw. change (size [olink None]) with 2%nat.
    assert (R: reads caret_de ((word 3 ++ word z) ++ be_bytes 2 0) (Caret3 z None true)).
    { unfold caret_de. rewrite <- app_assoc. eapply reads_bind; [rewrite word_u16; apply reads_u16; lia|].
      change (3 =? 1) with false. change (3 =? 2) with false. change (3 =? 3) with true. cbn iota.
      eapply reads_bind; [rewrite word_i16; apply reads_i16; lia|]. apply (reads_map _ (fun d => Caret3 z d true)). exact (de_offset_null dv_de 2 (or_introl eq_refl)). }
    pose proof (at_pos_reads _ _ _ _ _ stk R S') as X. rewrite app_length in X. exact X.
Qed.
Lemma lig_decodes cs : carets_ok cs -> decodes lig_glyph_de (links (map caret_obj cs)) (map Some cs).
Proof.
  intros [Hc H]. unfold lig_glyph_de. apply decodes_part. apply part_vec; [|unfold countable in *; now rewrite map_length].
  clear Hc. induction H as [|c cs Hc H IH]; cbn [map]; constructor; [now apply caret_decodes|exact IH].
Qed.

Lemma attach_part m o : attach_file m o -> exists a, part (de_off16 attach_de) [olink o] a /\ or_empty attach_from a = Ok m.
Proof.
  destruct 1 as [|m c Hi Hn Hc Hp]; [exists None; split; [apply part_off16_null|reflexivity]|].
  exists (Some (Some (map fst m), map Some (map snd m))). split.
  - apply part_off16. unfold attach_de. apply decodes_part. eapply part_bind; [apply part_cov; exact Hc|].
    apply (part_map _ (fun ps => (Some (map fst m), ps))). apply part_vec; [|unfold countable in *; now rewrite map_length].
    clear -Hp. induction Hp as [|[g p] m [H1 H2] Hp IH]; cbn [map snd]; constructor; [|exact IH]. unfold counted_words. apply decodes_reads. now apply reads_words.
  - cbn [or_empty]. unfold attach_from. cbn [fst snd unwrap rbind].
    replace (rmapM _ _) with (Ok m). { cbn [rbind]. now rewrite of_list_increasing. }
    symmetry. clear. induction m as [|[g p] m IH]; [reflexivity|]. cbn [map combine fst snd rmapM unwrap rbind]. now rewrite IH.
Qed.
Lemma present_keys l : increasing (map fst l) -> increasing (map fst (present l)).
Proof.
  intros H. apply increasing_SS in H. apply SS_increasing. induction l as [|[g o] l IH]; [constructor|]. cbn [map fst] in H. inversion H; subst.
  assert (F: Forall (Z.lt g) (map fst (present l))).
  { rewrite Forall_forall in *. intros x Hx. apply H3. apply in_map_iff in Hx as ([k v] & <- & Hx). unfold present in Hx. apply in_concat in Hx as (y & Hy & Hx).
    apply in_map_iff in Hy as ([k2 o2] & <- & Hy). cbn [snd fst] in Hx. destruct o2; [|destruct Hx]. destruct Hx as [[= -> ->]|[]]. apply in_map_iff. now exists (k, Some v). }
  unfold present. cbn [map concat snd fst]. destruct o; cbn [app map fst]; [constructor; auto|auto].
Qed.
Lemma carets_part m o : carets_file m o -> exists a, part (de_off16 lig_carets_de) [olink o] a /\ or_empty carets_from a = Ok m.
Proof.
  destruct 1 as [|l c Hi Hn Hc Hp]; [exists None; split; [apply part_off16_null|reflexivity]|].
  exists (Some (Some (map fst l), map (fun kv => option_map (map Some) (snd kv)) l)). split.
  - apply part_off16. unfold lig_carets_de. apply decodes_part. eapply part_bind; [apply part_cov; exact Hc|].
    apply (part_map _ (fun ps => (Some (map fst l), ps))). apply part_ovec; [|unfold countable in *; now rewrite map_length].
    clear -Hp. induction l as [|[g o] l IH]; cbn [map snd]; constructor; [|apply IH; intros; eapply Hp; right; eassumption].
    destruct o as [cs|]; cbn [option_map]; [|exact I]. apply lig_decodes. apply (Hp g). now left.
  - cbn [or_empty]. unfold carets_from. cbn [fst snd cov_or_nah].
    replace (rmapM _ _) with (Ok (map (fun kv => match snd kv with Some cs => [(fst kv, cs)] | None => [] end) l)).
    { cbn [rbind]. rewrite of_list_increasing; [reflexivity|]. now apply present_keys. }
    symmetry. clear. induction l as [|[g o] l IH]; [reflexivity|]. cbn [map combine fst snd rmapM]. destruct o as [cs|]; cbn [option_map].
    + rewrite rmapM_unwrap_Some. cbn [rbind]. rewrite IH. reflexivity.
    + cbn [rbind]. rewrite IH. reflexivity.
Qed.
Lemma part_empty_links : part (de_vec32 cov_de) (links32 []) [].
Proof. apply (part_vec32 cov_de [] []); [constructor|unfold countable; cbn; lia]. Qed.
Lemma sets_part s o : sets_file s o -> part (pbind (de_off16 mark_sets_de) (fun o => plift (match o with Some fc => l <- sets_from (snd fc) ;; Ok (Some l) | None => Ok None end))) [olink o] s.
Proof.
  destruct 1 as [|f Hf].
  - eapply part_bind'; [symmetry; apply app_nil_r|apply part_off16_null|]. now apply part_lift.
  - eapply part_bind'; [symmetry; apply app_nil_r|apply part_off16|].
    + assert (R: reads mark_sets_de (word f ++ word 0) (f, [])).
      { unfold mark_sets_de. unfold is_u16 in Hf. eapply reads_bind; [rewrite word_u16; apply reads_u16; lia|]. cbn beta. apply (reads_map _ (fun cs => (f, cs))).
        unfold de_vec32, de_counted16. eapply reads_bind'; [symmetry; apply app_nil_r|rewrite word_u16; apply reads_u16; lia|]. exact (reads_pret []). }
      intros buf pos stk S. assert (S': stored 65536 buf pos pos (raw (word f ++ word 0))).
      { revert S. unfold links32. cbn [length map]. rewrite app_assoc, <- raw_app. generalize pos at 1 3 as base. generalize pos as q. change (Z.of_nat 0) with 0. generalize (word f ++ word 0) as l.
        induction l as [|b l IH]; intros q base S; cbn [raw map app] in *; [inversion S; subst; cbn [app] in *; assumption|]. inversion S; subst. apply st_byte; [assumption|]. now apply IH. }
      apply stored_raw in S'. rewrite (at_pos_reads _ _ _ _ _ stk R S'). reflexivity.
    + now apply part_lift.
Qed.
Lemma gdef_part g o : gdef_file g o -> part gdef_read o g.
Proof.
  destruct 1 as [major minor classes co attach ao carets lo marks mo sets rest H1 H2 H3 H4 H5 H6 H7].
  destruct (attach_part _ _ H4) as (a & Pa & Ea). destruct (carets_part _ _ H5) as (l & Pl & El). unfold gdef_read. rewrite raw_app, <- !app_assoc.
  eapply part_bind; [now apply part_word|]. eapply part_bind; [now apply part_word|]. cbn beta.
  eapply part_bind'; [|exact (classes_part _ _ H3)|]; [reflexivity|]. eapply part_bind'; [|exact Pa|]; [reflexivity|].
  eapply part_bind'; [|exact Pl|]; [reflexivity|]. eapply part_bind'; [|exact (classes_part _ _ H6)|]; [reflexivity|]. cbn beta.
  assert (E: (a0 <- or_empty attach_from a;;
      l0 <- or_empty carets_from l;;
      Ok {| gd_classes := match option_map (fun _ => classes) co with Some m => map (fun kv => (fst kv, class_of (snd kv))) m | None => [] end;
            gd_attach := a0; gd_carets := l0; gd_marks := match option_map (fun _ => marks) mo with Some m => m | None => [] end; gd_sets := sets; gd_ivs := None |})
    = Ok (mk_gdef (named classes) attach carets marks sets None)).
  { rewrite Ea, El. cbn [rbind]. rewrite (classes_value (fun m => map (fun kv => (fst kv, class_of (snd kv))) m) classes co eq_refl H3).
    rewrite (classes_value (fun m => m) marks mo eq_refl H6). reflexivity. }
  destruct H7 as [minor Hm|s o2 Hs|minor s o2 Hm Hs].
  - replace (1 <? minor) with false by lia. replace (2 <? minor) with false by lia.
    eapply part_bind'; [|apply part_pret|]; [reflexivity|]. eapply part_bind'; [|apply part_pret|]; [reflexivity|]. apply part_lift. exact E.
  - change (1 <? 2) with true. change (2 <? 2) with false. eapply part_bind'; [|exact (sets_part _ _ Hs)|]; [reflexivity|].
    eapply part_bind'; [|apply part_pret|]; [reflexivity|]. apply part_lift. exact E.
  - replace (1 <? minor) with true by lia. replace (2 <? minor) with true by lia. eapply part_bind'; [|exact (sets_part _ _ Hs)|]; [reflexivity|].
    eapply part_bind'; [|apply part_off32_null|]; [reflexivity|]. apply part_lift. exact E.
Qed.
Lemma gdef_stored g o buf : gdef_file g o -> stored 65536 buf 0 0 o -> from_bytes gdef_read buf = Ok g.
Proof. intros F S. unfold from_bytes, rd_new. now rewrite (gdef_part g o F _ _ _ _ S). Qed.

(** ** Writing *)
Lemma as_ranges_compact m : as_ranges m <-> cd_compact m.
Proof. unfold as_ranges, cd_compact. lia. Qed.
Lemma cd_reread m bs : class_map m -> m <> [] -> cd_ser m = Ok bs -> exists m', reread m m' /\ class_map m' /\ reads cd_de bs m' /\ bs <> [].
Proof.
  rewrite class_map_ok. intros Hm Hne H. destruct (cd_ser_cases m Hm) as [[-> E]|[(_ & [Hk Hn] & [[Hc E]|[Hc (rs & E & R1 & R2 & R3)]])|(_ & _ & E)]]; rewrite E in H; try discriminate; [now elim Hne| |].
  - apply Ok_inj in H. subst bs. exists (filled m). split; [|split; [|split; [|discriminate]]].
    + split; [|reflexivity]. intros [X|X]; [now elim Hne|]. now apply as_ranges_compact in X.
    + apply class_map_ok. now apply filled_ok.
    + destruct (cd_key_bounds m Hne Hm) as (B1 & B2 & B3 & B4).
      pose proof (reads_cd1 (first_key m) (map (class_in m) (interval (first_key m) (last_key m)))) as R. unfold is_u16 in *.
      rewrite map_length, interval_length, Z2Nat.id in R by lia.
      replace (first_key m + (last_key m - first_key m + 1) - 1) with (last_key m) in R by lia. rewrite combine_map_self in R.
      apply R; try lia. apply Forall_map. apply Forall_forall. intros g _. apply class_u16. exact (proj2 Hm).
  - exists m. split; [|split; [|split]].
    + split; [reflexivity|]. intros _ X. now rewrite as_ranges_compact in X.
    + now apply class_map_ok.
    + destruct (cd_roundtrip m bs Hm) as (m' & R & _ & I); [congruence|]. replace m with m'; [exact R|]. apply I. left. apply Ok_inj in H. now subst bs.
    + apply Ok_inj in H. subst bs. discriminate.
Qed.
Lemma classes_written m : class_map m -> writable_classes m ->
  exists m' o, classes_to m = Ok (olink o) /\ reread m m' /\ classes_obj m' o /\ item_narrow (olink o) = true.
Proof.
  intros Hm Hw. destruct m as [|kv m0].
  - exists [], None. split; [reflexivity|]. split; [split; [reflexivity|congruence]|]. split; reflexivity.
  - set (m := kv :: m0) in *. assert (Hne: m <> []) by discriminate.
    destruct (proj2 (cd_written_iff m (proj1 (class_map_ok m) Hm)) Hw) as [bs Hb].
    destruct (cd_reread m bs Hm Hne Hb) as (m' & R1 & R2 & R3 & R4). exists m', (Some (raw bs)). split; [|split; [exact R1|]; split].
    + change (link_enc cd_enc (Some m) = Ok (olink (Some (raw bs)))). cbn [link_enc]. unfold cd_enc. now rewrite Hb.
    + split; [exact R2|]. exists bs. split; [exact R4|]. split; [reflexivity|]. now apply reads_reads_back.
    + exact (narrow_raw bs).
Qed.
Lemma cov_obj_narrow g c : cov_obj g c -> item_narrow (link c) = true.
Proof. intros (bs & -> & _). exact (narrow_raw bs). Qed.
Lemma links_narrow os : (forall o, In o os -> narrow o = true) -> narrow (links os) = true.
Proof. intros H. unfold links. rewrite narrow_app, narrow_raw, group_narrow. now apply narrow_links. Qed.
Lemma map_some_snd {V} (m : list (Z * V)) : map (fun kv => Some (snd kv)) m = map Some (map snd m).
Proof. now rewrite map_map. Qed.
Lemma F2_fun {A B} (f : A -> B) l os : Forall2 (fun a o => o = f a) l os -> os = map f l.
Proof. induction 1 as [|a o l os -> F IH]; [reflexivity|]. cbn [map]. now rewrite <- IH. Qed.
Lemma attach_written m : glyph_map points_list m -> exists o, attach_to m = Ok (olink o) /\ attach_file m o /\ item_narrow (olink o) = true.
Proof.
  intros Hm. destruct m as [|kv m0]; [exists None; split; [reflexivity|]; split; [constructor|reflexivity]|]. set (m := kv :: m0) in *.
  destruct (cov_link (map fst m) (proj1 Hm) (glyph_map_keys _ _ Hm)) as (c & Ec & C). pose proof (glyph_map_count _ _ Hm) as Hn.
  assert (Hp: Forall (fun kv => points_list (snd kv)) m) by (eapply Forall_impl; [|exact (proj2 Hm)]; now intros ? []).
  assert (Ev: vec_enc (fun p => Ok (words_enc p)) (map (fun kv => Some (snd kv)) m) = Ok (links (map (fun kv => counted_words (snd kv)) m))).
  { rewrite map_some_snd. destruct (vec_enc_ok (fun p => Ok (words_enc p)) (fun p o => o = counted_words p) (map snd m)) as (os & Eo & F).
    - unfold countable in *. now rewrite map_length.
    - apply Forall_map. eapply Forall_impl; [|exact Hp]. cbn beta. intros [g p] [H1 H2]. exists (words_enc p). split; [reflexivity|]. now apply words_enc_spec.
    - rewrite Eo, (F2_fun _ _ _ F), map_map. reflexivity. }
  exists (Some ([link c] ++ links (map (fun kv => counted_words (snd kv)) m))). split; [|split].
  - change (attach_to m) with (c <- link_enc cov_enc (Some (map fst m)) ;; ps <- vec_enc (fun p => Ok (words_enc p)) (map (fun kv => Some (snd kv)) m) ;; Ok (IRef Off16 (Some ([c] ++ ps)))).
    rewrite Ec. cbn [rbind]. rewrite Ev. reflexivity.
  - constructor; auto. apply Hm.
  - change (narrow ([link c] ++ links (map (fun kv => counted_words (snd kv)) m)) = true). rewrite narrow_app. unfold narrow at 1. cbn [forallb]. rewrite (cov_obj_narrow _ _ C). cbn [andb].
    apply links_narrow. intros o Ho. apply in_map_iff in Ho as (x & <- & _). apply narrow_raw.
Qed.
Lemma caret_enc_ok c : caret_ok c -> caret_enc c = Ok (caret_obj c).
Proof.
  destruct c as [z|p|z d b]; cbn [caret_ok caret_enc caret_obj]; intros H; rewrite <- ?word_u16, <- ?word_i16; try reflexivity.
  destruct H as (_ & -> & _). rewrite <- ?word_u16, <- ?word_i16. reflexivity.
Qed.
Lemma links_olinks os : links os = olinks (map Some os).
Proof. unfold links, olinks. now rewrite map_length, map_map. Qed.
Lemma present_all (m : list (Z * list caret)) : present (map (fun kv => (fst kv, Some (snd kv))) m) = m.
Proof. unfold present. rewrite map_map. cbn [fst snd]. induction m as [|[g cs] m IH]; [reflexivity|]. cbn [map concat app fst snd]. now rewrite IH. Qed.
Lemma carets_written m : glyph_map carets_ok m -> exists o, carets_to m = Ok (olink o) /\ carets_file m o /\ item_narrow (olink o) = true.
Proof.
  intros Hm. destruct m as [|kv m0]; [exists None; split; [reflexivity|]; split; [constructor|reflexivity]|]. set (m := kv :: m0) in *.
  destruct (cov_link (map fst m) (proj1 Hm) (glyph_map_keys _ _ Hm)) as (c & Ec & C). pose proof (glyph_map_count _ _ Hm) as Hn.
  assert (Hp: Forall (fun kv => carets_ok (snd kv)) m) by (eapply Forall_impl; [|exact (proj2 Hm)]; now intros ? []).
  assert (Ev: vec_enc (fun cs => vec_enc caret_enc (map Some cs)) (map (fun kv => Some (snd kv)) m) = Ok (links (map (fun kv => links (map caret_obj (snd kv))) m))).
  { rewrite map_some_snd. destruct (vec_enc_ok (fun cs => vec_enc caret_enc (map Some cs)) (fun cs o => o = links (map caret_obj cs)) (map snd m)) as (os & Eo & F).
    - unfold countable in *. now rewrite map_length.
    - apply Forall_map. eapply Forall_impl; [|exact Hp]. cbn beta. intros [g cs] [H1 H2]. cbn [snd] in *.
      destruct (vec_enc_ok caret_enc (fun c o => o = caret_obj c) cs H1) as (os & Eo & F).
      + eapply Forall_impl; [|exact H2]. intros x Hx. exists (caret_obj x). split; [now apply caret_enc_ok|reflexivity].
      + exists (links os). split; [exact Eo|]. now rewrite (F2_fun _ _ _ F).
    - rewrite Eo, (F2_fun _ _ _ F), map_map. reflexivity. }
  exists (Some ([link c] ++ links (map (fun kv => links (map caret_obj (snd kv))) m))). split; [|split].
  - change (carets_to m) with (c <- link_enc cov_enc (Some (map fst m)) ;; ls <- vec_enc (fun cs => vec_enc caret_enc (map Some cs)) (map (fun kv => Some (snd kv)) m) ;; Ok (IRef Off16 (Some ([c] ++ ls)))).
    rewrite Ec. cbn [rbind]. rewrite Ev. reflexivity.
  - pose proof (carets_some (map (fun kv => (fst kv, Some (snd kv))) m) c) as X. rewrite present_all in X. rewrite !map_map in X. cbn [fst snd option_map] in X.
    rewrite links_olinks, map_map. apply X.
    + exact (proj1 Hm).
    + unfold countable in *. now rewrite map_length.
    + exact C.
    + intros g cs Hi. apply in_map_iff in Hi as ([k v] & E & Hi). injection E as -> ->. rewrite Forall_forall in Hp. exact (Hp _ Hi).
  - change (narrow ([link c] ++ links (map (fun kv => links (map caret_obj (snd kv))) m)) = true). rewrite narrow_app. unfold narrow at 1. cbn [forallb]. rewrite (cov_obj_narrow _ _ C). cbn [andb].
    apply links_narrow. intros o Ho. apply in_map_iff in Ho as (x & <- & _). apply links_narrow. intros o Ho. apply in_map_iff in Ho as (y & <- & _).
    destruct y; cbn [caret_obj]; rewrite ?narrow_app, ?narrow_raw; reflexivity.
Qed.
Lemma sets_written s : s = None \/ s = Some [] -> exists o, sets_to s = Ok (olink o) /\ sets_file s o /\ item_narrow (olink o) = true.
Proof.
  intros [->| ->]; [exists None; split; [reflexivity|]; split; [constructor|reflexivity]|].
  exists (Some (raw (word 1) ++ links32 [])). split; [reflexivity|]. split; [constructor; unfold is_u16; lia|reflexivity].
Qed.
Lemma gdef_written g : gdef_ok g -> exists o g', gdef_enc g = Ok o /\ gdef_file g' o /\ gdef_reread g g' /\ narrow o = true.
Proof.
  intros (H1 & H2 & H3 & H4 & H5 & H6 & H7 & H8).
  destruct (classes_written _ H1 H2) as (cm & co & Ec & Rc & Fc & Nc). destruct (attach_written _ H3) as (ao & Ea & Fa & Na).
  destruct (carets_written _ H4) as (lo & El & Fl & Nl). destruct (classes_written _ H5 H6) as (mm & mo & Em & Rm & Fm & Nm).
  destruct (sets_written _ H7) as (so & Es & Fs & Ns).
  exists (raw (word 1 ++ word 2) ++ [olink co; olink ao; olink lo; olink mo] ++ [olink so]), (mk_gdef (named cm) (gd_attach g) (gd_carets g) mm (gd_sets g) None).
  split; [|split; [|split]].
  - unfold gdef_enc. unfold numbered in *. rewrite Ec. cbn [rbind]. rewrite Ea. cbn [rbind]. rewrite El. cbn [rbind]. rewrite Em. cbn [rbind]. rewrite Es. cbn [rbind]. rewrite H8. rewrite <- !word_u16. reflexivity.
  - constructor; auto; try (unfold is_u16; lia). now constructor.
  - split; [now exists cm|]. cbn. auto.
  - rewrite !narrow_app, narrow_raw. cbn [andb]. unfold narrow. cbn [forallb]. now rewrite Nc, Na, Nl, Nm, Ns.
Qed.
Lemma gdef_roundtrip g out : gdef_ok g -> gdef_write g = Ok out -> Z.of_nat (length out) < 2 ^ 32 -> exists g', from_bytes gdef_read out = Ok g' /\ gdef_reread g g'.
Proof.
  intros H W L. destruct (gdef_written g H) as (o & g' & E & F & R & N). exists g'. split; [|exact R]. unfold gdef_write in W. rewrite E in W. cbn [rbind] in W.
  apply (gdef_stored g' o out F). rewrite (to_bytes_length _ _ W) in L. apply to_bytes_readable; auto.
Qed.
Lemma named_numbered m : named (numbered m) = m.
Proof. unfold named, numbered. rewrite map_map. cbn [fst snd]. induction m as [|[g c] m IH]; [reflexivity|]. cbn [map fst snd]. rewrite IH. now destruct c. Qed.
Lemma named_keys m : map fst (named m) = map fst m.
Proof. unfold named. now rewrite map_map. Qed.
Lemma numbered_keys m : map fst (numbered m) = map fst m.
Proof. unfold numbered. now rewrite map_map. Qed.
Lemma as_ranges_dec m : as_ranges m \/ ~ as_ranges m.
Proof. unfold as_ranges. lia. Qed.
Lemma reread_keys m m' : reread m m' -> map fst m' = map fst m -> kept m.
Proof.
  intros [H1 H2] E. destruct m as [|kv m0] eqn:Em; [now left|]. rewrite <- Em in *. assert (Hne: m <> []) by (subst m; discriminate). clear Em.
  destruct (as_ranges_dec m) as [R|R]; [right; now left|]. right. right. rewrite (H2 Hne R), map_map in E. cbn [fst] in E. rewrite map_id in E. now symmetry.
Qed.
Lemma reread_kept m m' : class_map m -> reread m m' -> kept m -> m' = m.
Proof.
  rewrite class_map_ok. intros Hm [H1 H2] [K|[K|K]]; [auto|auto|]. destruct m as [|kv m0] eqn:Em; [auto|]. rewrite <- Em in *. assert (Hne: m <> []) by (subst m; discriminate). clear Em.
  destruct (as_ranges_dec m) as [R|R]; [auto|]. rewrite (H2 Hne R). now apply filled_gapless.
Qed.
Lemma reread_same m m' : class_map m -> reread m m' -> (m' = m <-> kept m).
Proof. intros Hm R. split; [|now apply reread_kept]. intros ->. now apply (reread_keys m m). Qed.
Lemma gdef_same g g' : gdef_ok g -> gdef_reread g g' -> (g' = g <-> kept (numbered (gd_classes g)) /\ kept (gd_marks g)).
Proof.
  intros (H1 & H2 & H3 & H4 & H5 & H6 & H7 & H8) ((m & R & E) & E2 & E3 & R4 & E5 & E6). split.
  - intros ->. split; [|now apply (reread_same _ (gd_marks g))]. apply (reread_keys _ m R). rewrite numbered_keys, E, named_keys. reflexivity.
  - intros [K1 K2]. apply reread_kept in R; auto. apply reread_kept in R4; auto. subst m. rewrite named_numbered in E. destruct g, g'; cbn in *. congruence.
Qed.
Lemma gdef_roundtrip_iff g out : gdef_ok g -> gdef_write g = Ok out -> Z.of_nat (length out) < 2 ^ 32 ->
  (from_bytes gdef_read out = Ok g <-> kept (numbered (gd_classes g)) /\ kept (gd_marks g)).
Proof.
  intros H W L. destruct (gdef_roundtrip g out H W L) as (g' & E & R). rewrite <- (gdef_same g g' H R), E. split; [intros X; now injection X|now intros ->].
Qed.
(** what a glyph's class becomes *)
Lemma find_named m g : find (fun kv => fst kv =? g) (named m) = option_map (fun kv => (fst kv, class_of (snd kv))) (find (fun kv => fst kv =? g) m).
Proof. induction m as [|[k c] m IH]; [reflexivity|]. cbn [named map find fst snd]. destruct (k =? g); [reflexivity|exact IH]. Qed.
Lemma gdef_gap g out x : gdef_ok g -> gdef_write g = Ok out -> Z.of_nat (length out) < 2 ^ 32 ->
  ~ as_ranges (numbered (gd_classes g)) -> first_key (numbered (gd_classes g)) <= x <= last_key (numbered (gd_classes g)) -> ~ In x (map fst (gd_classes g)) ->
  exists g', from_bytes gdef_read out = Ok g' /\ In (x, BaseGlyph) (gd_classes g').
Proof.
  intros H W L NR Hx Hn. destruct (gdef_roundtrip g out H W L) as (g' & E & ((m & R & Ec) & _)). exists g'. split; [exact E|]. rewrite Ec.
  destruct (gd_classes g) as [|kv cs] eqn:Eg; [elim NR; unfold as_ranges; cbn; lia|]. rewrite <- Eg in *.
  assert (Hne: numbered (gd_classes g) <> []) by (rewrite Eg; discriminate). rewrite (proj2 R Hne NR). unfold named. rewrite map_map. cbn [fst snd].
  apply in_map_iff. exists x. split.
  - f_equal. replace (class_in (numbered (gd_classes g)) x) with 0; [reflexivity|]. unfold class_in.
    destruct (find _ _) as [[k v]|] eqn:Ef; [|reflexivity]. apply find_some in Ef as [I Q0]. cbn [fst] in Q0. apply Z.eqb_eq in Q0. subst k. elim Hn.
    rewrite <- numbered_keys. now apply (in_map fst) in I.
  - unfold interval. apply in_map_iff. exists (Z.to_nat (x - first_key (numbered (gd_classes g)))). split; [lia|]. apply in_seq. lia.
Qed.
(** a caret with a device table that was not read from a file *)
Lemma vec_enc_fails {A} (enc : A -> res obj) l a : In (Some a) l -> (forall b, enc a <> Ok b) -> forall o, vec_enc enc l <> Ok o.
Proof.
  intros Hi Hf o H. unfold vec_enc in H. destruct (rmapM (link_enc enc) l) as [is| |] eqn:E; try discriminate. revert E. apply (rmapM_fails _ _ _ Hi).
  intros b Hb. cbn [link_enc] in Hb. destruct (enc a) as [x| |] eqn:Ea; try discriminate. now apply (Hf x).
Qed.
Lemma device_caret g x cs z d : In (x, cs) (gd_carets g) -> In (Caret3 z (Some d) false) cs -> forall out, gdef_write g <> Ok out.
Proof.
  intros Hx Hc out H. assert (X: forall i, carets_to (gd_carets g) <> Ok i).
  { intros i E. unfold carets_to in E. destruct (gd_carets g) as [|kv m]; [destruct Hx|]. destruct (link_enc cov_enc _) as [c| |]; try discriminate. cbn [rbind] in E.
    destruct (vec_enc _ _) as [ls| |] eqn:Ev; try discriminate. revert Ev. apply (vec_enc_fails _ _ cs).
    - apply in_map_iff. exists (x, cs). auto.
    - intros b. apply (vec_enc_fails _ _ (Caret3 z (Some d) false)); [now apply in_map|discriminate]. }
  unfold gdef_write, gdef_enc in H. destruct (classes_to _) as [a| |]; try discriminate. cbn [rbind] in H. destruct (attach_to _) as [b| |]; try discriminate. cbn [rbind] in H.
  destruct (carets_to _) as [c| |] eqn:E; try discriminate. now elim (X c).
Qed.

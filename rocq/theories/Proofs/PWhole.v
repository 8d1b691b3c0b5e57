(** Edited tables are saved as what is written for them, and found again. *)
From Coq Require Import QArith Lia.
From Verif.Model Require Import MBase MTag MMap MFont MFixed MTables MMetrics MGlyph MGlyf MStore MPost MCmap MCli MWhole.
From Verif.Model Require MAvar MGdef MMath MName MStat MLookup MGsub MGpos.
From Verif.Spec Require Import SBase SFont STables SGlyf SStore SCli SWhole.
From Verif.Proofs Require Import PBase PTag PMap PFont PStore PSave PLoad PCli.
From Verif.Proofs Require PTables PCompile PCodec.
From Verif.Props Require TCmap TPost TAvar TName TTables TGdef TStat TLookup TGposTable.
Open Scope Z_scope.

Lemma records_length file trs : forall m m', load_records file trs m = Ok m' ->
  Forall (fun td => (length (snd td) <= length file)%nat) m -> Forall (fun td => (length (snd td) <= length file)%nat) m'.
Proof.
  induction trs as [|tr trs IH]; intros m m' E F; cbn [load_records] in E; [injection E as <-; exact F|].
  destruct (_ <? _); [discriminate|]. refine (IH _ _ E _).
  assert (X: (length (firstn (Z.to_nat (tr_length tr)) (skipn (Z.to_nat (tr_offset tr)) file)) <= length file)%nat).
  { rewrite firstn_length, skipn_length. lia. }
  revert X. generalize (firstn (Z.to_nat (tr_length tr)) (skipn (Z.to_nat (tr_offset tr)) file)) as d. generalize (tr_tag tr) as k. clear - F.
  intros k d X. induction F as [|[k' d'] m H F IH]; cbn [bm_insert]; [constructor; auto|].
  destruct (lex_ltb k k'); [constructor; [exact X|constructor; auto]|]. destruct (lex_ltb k' k); constructor; auto.
Qed.
Lemma table_length file v m t d : from_bytes font_read_raw file = Ok (v, m) -> bm_get lex_ltb t m = Some d -> (length d <= length file)%nat.
Proof.
  intros E G. apply (get_In _ lex_strict) in G.
  assert (F: Forall (fun td => (length (snd td) <= length file)%nat) m); [|rewrite Forall_forall in F; exact (F _ G)].
  revert E. unfold from_bytes, font_read_raw, pbind.
  destruct (de_u32 _) as [[sv r1]| |]; try discriminate.
  destruct (de_u16 _) as [[? r2]| |]; try discriminate.
  destruct (de_u16 _) as [[? r3]| |]; try discriminate.
  destruct (de_u16 _) as [[? r4]| |]; try discriminate.
  destruct (de_u16 _) as [[? r5]| |]; try discriminate.
  destruct (sfnt_version_of sv); [|discriminate].
  destruct (de_counted _ _ _) as [[trs r6]| |]; try discriminate.
  unfold plift, pret. destruct (load_records _ _ _) as [m'| |] eqn:E; try discriminate.
  intros [= _ <-]. eapply records_length; [exact E|]. constructor.
Qed.

Section Generic.
Context {T : Type} (K : codecs T).

Lemma kept_in_store v s file s' tag : good_store K s -> font_write K v s = (Ok file, s') ->
  ~ rebuilt_tag s tag -> ~ In tag [TAG_GPOS; TAG_GSUB] -> contents s tag <> None -> contents s' tag = contents s tag.
Proof.
  intros Hg E Hn Hl Hc.
  destruct (font_write_spec K v s file s' (good_inv _ _ Hg) E) as (s1 & tabs & E1 & E2 & I1 & _).
  destruct (gsub_gpos_spec K _ _ I1 E2) as (_ & O2 & _). rewrite O2 by exact Hl.
  destruct (compile_spec K _ _ (good_inv _ _ Hg) E1) as [_ [[_ S]|(R & gs & out & loca & is32 & h & _ & _ & Hv1 & _ & A & B & C & D & O)]].
  - symmetry. apply S.
  - destruct (list_eq_dec Z.eq_dec tag TAG_hhea) as [->|Nh].
    + destruct (contents s TAG_hmtx) eqn:Em; [|now rewrite D].
      exfalso. apply Hn. split; [exact R|]. right. split; [reflexivity|]. congruence.
    + apply O. intros X. apply Hn. split; [exact R|]. left. cbn in X |- *. destruct X as [X|[X|[X|[X|[]]]]]; try tauto; congruence.
Qed.
Lemma edited_saved v s file s' : (v = SFNT_TRUETYPE \/ v = SFNT_OPENTYPE) -> good_store K s ->
  font_write K v s = (Ok file, s') -> Z.of_nat (length file) < 2 ^ 32 -> Forall is_byte file ->
  forall tag l, contents s tag = Some (Typed l) -> ~ rebuilt_tag s tag -> ~ In tag [TAG_GPOS; TAG_GSUB] ->
  exists d, ser_loaded K l = Ok d /\ saved_as file tag d.
Proof.
  intros Hv Hg E Hsz HB tag l Hl Hn Hx.
  pose proof (kept_in_store v s file s' tag Hg E Hn Hx ltac:(congruence)) as X. rewrite Hl in X.
  destruct (font_write_spec K v s file s' (good_inv _ _ Hg) E) as (s1 & tabs & _ & _ & _ & _ & _ & _ & _ & Hw & _).
  destruct (Hw _ _ X) as (d & Hd & _). exists d. split; [exact Hd|].
  exact (sane_written K v s file s' Hv Hg E Hsz HB tag _ d X Hd).
Qed.
Lemma layout_saved v s file s' : (v = SFNT_TRUETYPE \/ v = SFNT_OPENTYPE) -> good_store K s ->
  font_write K v s = (Ok file, s') -> Z.of_nat (length file) < 2 ^ 32 -> Forall is_byte file ->
  forall tag l, contents s tag = Some (Typed l) -> In tag [TAG_GPOS; TAG_GSUB] ->
  exists x m d, sel_other l = Some x /\ has_value K s TAG_maxp (LMaxp m) /\ ser_layout K tag x (num_glyphs m) = Ok d /\ saved_as file tag d.
Proof.
  intros Hv Hg E Hsz HB tag l Hl Hx.
  destruct (font_write_spec K v s file s' (good_inv _ _ Hg) E) as (s1 & tabs & E1 & E2 & I1 & _).
  destruct (gsub_gpos_spec K _ _ I1 E2) as (_ & _ & _ & m & Hm & L).
  assert (X: forall t, In t [TAG_GPOS; TAG_GSUB; TAG_maxp] -> contents s1 t = contents s t).
  { destruct (compile_spec K _ _ (good_inv _ _ Hg) E1) as [_ [[_ S]|(R & gs & out & loca & is32 & h & _ & _ & Hv1 & _ & A & B & C & D & O)]].
    - intros t _. symmetry. apply S.
    - intros t Ht. apply O. destruct Ht as [<-|[<-|[<-|[]]]]; cbn; intros [Y|[Y|[Y|[Y|[]]]]]; discriminate. }
  assert (Hl1: contents s1 tag = Some (Typed l)) by (rewrite X; [exact Hl|cbn in Hx |- *; tauto]).
  destruct (L tag l Hx Hl1) as (x & d & Sx & Sd & C). exists x, m, d. split; [exact Sx|]. split; [|split; [exact Sd|]].
  - unfold has_value in *. rewrite X in Hm by (cbn; tauto). exact Hm.
  - exact (sane_written K v s file s' Hv Hg E Hsz HB tag _ d C eq_refl).
Qed.

(** Just loaded: nothing but head and loca has been looked at. *)
Lemma loaded_items file v m s : from_bytes font_read_raw file = Ok (v, m) -> font_load K file = Ok (v, s) ->
  (forall t, t <> TAG_head -> t <> TAG_loca -> st_get t s = option_map Unloaded (bm_get lex_ltb t m)) /\
  (forall d h l idx, bm_get lex_ltb TAG_head m = Some d -> from_bytes de_head_tbl d = Ok h -> bm_get lex_ltb TAG_loca m = Some l ->
     from_bytes (de_loca (hd_indexToLocFormat h =? 1)) l = Ok idx -> st_get TAG_loca s = Some (Loaded (mk_table (Some l) (LLoca idx)))).
Proof.
  intros E L. unfold font_load in L. rewrite E in L. cbn [rbind] in L.
  destruct (loader_finish K (loader_add m)) as [[u| |] s1] eqn:F; try discriminate. injection L as <-.
  unfold loader_finish, sbind in F. rewrite (load_here K TAG_head) in F. rewrite get_loader in F.
  destruct (bm_get lex_ltb TAG_head m) as [d|] eqn:Eh; cbn [option_map] in F.
  - rewrite des3_self in F by apply head_self.
    change (des0 K TAG_head d) with (rmap (@LHead T) (from_bytes de_head_tbl d)) in F.
    destruct (from_bytes de_head_tbl d) as [h| |] eqn:Ed; cbn [rmap rbind fst] in F; try discriminate.
    rewrite load_here in F. rewrite st_get_set in F. destruct (list_eq_dec Z.eq_dec TAG_loca TAG_head); [discriminate|].
    rewrite get_loader in F. destruct (bm_get lex_ltb TAG_loca m) as [l|] eqn:El; cbn [option_map] in F.
    + rewrite des3_loca in F. unfold typed_by, sbind, get_by, load_by in F. rewrite st_get_set in F.
      destruct (list_eq_dec Z.eq_dec TAG_head TAG_head) as [_|]; [|congruence]. rewrite st_get_set in F.
      destruct (list_eq_dec Z.eq_dec TAG_head TAG_head) as [_|]; [|congruence].
      cbn [tb_loaded sel_head] in F. unfold need, slift in F.
      destruct (from_bytes (de_loca _) l) as [idx| |] eqn:Ei; cbn [rmap rbind] in F; try discriminate. injection F as <- <-. split.
      * intros t N1 N2. rewrite !st_get_set. destruct (list_eq_dec Z.eq_dec t TAG_loca); [congruence|]. destruct (list_eq_dec Z.eq_dec t TAG_head); [congruence|]. apply get_loader.
      * intros d' h' l' idx' [= <-] Hd [= <-] Hi. rewrite Ed in Hd. injection Hd as <-. rewrite Ei in Hi. injection Hi as <-.
        rewrite st_get_set. now destruct (list_eq_dec Z.eq_dec TAG_loca TAG_loca).
    + injection F as <- <-. split; [|discriminate]. intros t N1 N2. rewrite !st_get_set. destruct (list_eq_dec Z.eq_dec t TAG_head); [congruence|]. apply get_loader.
  - split; [|discriminate]. intros t N1 N2. rewrite load_here in F. rewrite get_loader in F.
    destruct (bm_get lex_ltb TAG_loca m) as [l|] eqn:El; cbn [option_map] in F.
    + rewrite des3_loca in F. unfold typed_by, sbind, get_by, load_by in F. rewrite !get_loader, Eh in F. cbn [option_map] in F. rewrite !get_loader, Eh in F. discriminate.
    + injection F as <- <-. apply get_loader.
Qed.
Lemma finds_plain file v m s tag d l : Forall is_byte file -> from_bytes font_read_raw file = Ok (v, m) -> font_load K file = Ok (v, s) ->
  self_contained tag -> bm_get lex_ltb tag m = Some d -> des0 K tag d = Ok l -> finds K s tag l.
Proof.
  intros HB E L Hs Hd Hl. destruct (load_outcome K _ _ _ HB E) as (_ & _ & H). destruct (H _ _ L) as (_ & G & C).
  pose proof (lookup_self K tag s (good_inv _ _ G) Hs) as X. rewrite C, Hd in X. cbn [option_map] in X. rewrite Hl in X.
  unfold finds. destruct (ts_get K tag s) as [[[t|]| |] s']; cbn in X; try discriminate. exists t, s'. split; [reflexivity|]. congruence.
Qed.
Lemma finds_layout file v m s tag d x dm mx : from_bytes font_read_raw file = Ok (v, m) -> font_load K file = Ok (v, s) ->
  In tag [TAG_GPOS; TAG_GSUB] -> bm_get lex_ltb tag m = Some d ->
  bm_get lex_ltb TAG_maxp m = Some dm -> from_bytes de_maxp dm = Ok mx -> parse_layout K tag (num_glyphs mx) d = Ok x ->
  finds K s tag (LOther tag x).
Proof.
  intros E L Ht Hd Hm Dm Px. destruct (loaded_items _ _ _ _ E L) as [I _].
  assert (N: tag <> TAG_head /\ tag <> TAG_loca) by (destruct Ht as [<-|[<-|[]]]; split; discriminate).
  pose proof (I tag (proj1 N) (proj2 N)) as It. pose proof (I TAG_maxp ltac:(discriminate) ltac:(discriminate)) as Im. rewrite Hd in It. rewrite Hm in Im. cbn [option_map] in It, Im.
  assert (D: exists s', des3 K tag d s = (Ok (LOther tag x), s')).
  { assert (D1: des3 K tag d s = des1 K tag d s) by (destruct Ht as [<-|[<-|[]]]; reflexivity). rewrite D1. unfold des1.
    assert (D2: tag_in tag [TAG_GPOS; TAG_GSUB] = true) by (now apply tag_in_iff). rewrite D2.
    unfold typed_by, sbind, get_by, load_by. rewrite Im. unfold des0s, slift. change (des0 K TAG_maxp dm) with (rmap (@LMaxp T) (from_bytes de_maxp dm)). rewrite Dm. cbn [rmap].
    rewrite st_get_set. destruct (list_eq_dec Z.eq_dec TAG_maxp TAG_maxp); [|congruence]. cbn [tb_loaded sel_maxp]. unfold need, slift. rewrite Px. cbn [rmap]. eauto. }
  destruct D as [s' D]. unfold finds, ts_get, get_by, load_by. rewrite It, D. rewrite st_get_set. destruct (list_eq_dec Z.eq_dec tag tag); [|congruence]. eauto.
Qed.
Lemma finds_glyf file v m s gs : from_bytes font_read_raw file = Ok (v, m) -> font_load K file = Ok (v, s) -> glyf_is m gs -> finds K s TAG_glyf (LGlyf gs).
Proof.
  intros E L (idx & d & (h & lo & (hd & Hh & Dh) & Hlo & Dlo) & Hd & Dg). unfold bytes_of in *. destruct (loaded_items _ _ _ _ E L) as [I Il].
  pose proof (I TAG_glyf ltac:(discriminate) ltac:(discriminate)) as It. rewrite Hd in It. cbn [option_map] in It.
  pose proof (Il hd h lo idx Hh Dh Hlo Dlo) as X.
  assert (D: des3 K TAG_glyf d s = (Ok (LGlyf gs), s)).
  { change (des3 K TAG_glyf d s) with (sbind (typed_by (des1 K) TAG_loca sel_loca) (fun o => sbind (need o) (fun l => slift (rmap (@LGlyf T) (de_glyf d l)))) s).
    unfold typed_by, sbind, get_by, load_by. rewrite X. cbn iota beta. rewrite X. cbn [tb_loaded sel_loca]. unfold need, slift. rewrite Dg. reflexivity. }
  unfold finds, ts_get, get_by, load_by. rewrite It, D. rewrite st_get_set. destruct (list_eq_dec Z.eq_dec TAG_glyf TAG_glyf); [|congruence]. eauto.
Qed.
End Generic.

Lemma rb_from {A} (p : parser A) bs x : reads_back p bs x -> from_bytes p bs = Ok x.
Proof. intros H. specialize (H [] [] (rd_stack (rd_new bs))). cbn [app length] in H. rewrite app_nil_r in H. unfold from_bytes, rd_new in *. cbn [rd_stack] in H. now rewrite H. Qed.
Lemma head_comes_back w x : length w = 4%nat -> Forall is_byte w -> head_tbl_ok x ->
  exists y, from_bytes de_head_tbl (with_adjustment w (ser_head_tbl x)) = Ok y /\ readjusted x y.
Proof.
  intros Lw Bw Hx. set (y := mk_head_tbl (hd_majorVersion x) (hd_minorVersion x) (hd_fontRevision x) (be_value w)
    (hd_magicNumber x) (hd_flags x) (hd_unitsPerEm x) (hd_created x) (hd_modified x)
    (hd_xMin x) (hd_yMin x) (hd_xMax x) (hd_yMax x) (hd_macStyle x) (hd_lowestRecPPEM x)
    (hd_fontDirectionHint x) (hd_indexToLocFormat x) (hd_glyphDataFormat x)).
  assert (Bw': Forall byte w) by (now apply PCodec.is_byte_byte).
  assert (Ey: with_adjustment w (ser_head_tbl x) = ser_head_tbl y).
  { unfold with_adjustment, ser_head_tbl, y. cbn [hd_majorVersion hd_minorVersion hd_fontRevision hd_checksumAdjustment
    hd_magicNumber hd_flags hd_unitsPerEm hd_created hd_modified hd_xMin hd_yMin hd_xMax hd_yMax hd_macStyle hd_lowestRecPPEM
    hd_fontDirectionHint hd_indexToLocFormat hd_glyphDataFormat concat].
    set (R := ser_u32 (hd_magicNumber x) ++ _).
    assert (Hw: ser_u32 (be_value w) = w) by (unfold ser_u32; change (ser_prim U32) with (be_bytes 4); rewrite <- Lw; now apply be_bytes_value).
    rewrite Hw. exact (adjust_parts w (ser_u16 (hd_majorVersion x) ++ ser_u16 (hd_minorVersion x) ++ ser_fixed (hd_fontRevision x)) (ser_u32 (hd_checksumAdjustment x)) R eq_refl eq_refl). }
  assert (Hy: head_tbl_ok y).
  { unfold head_tbl_ok, y in *. cbn [hd_majorVersion hd_minorVersion hd_fontRevision hd_checksumAdjustment
    hd_magicNumber hd_flags hd_unitsPerEm hd_created hd_modified hd_xMin hd_yMin hd_xMax hd_yMax hd_macStyle hd_lowestRecPPEM
    hd_fontDirectionHint hd_indexToLocFormat hd_glyphDataFormat] in *.
    pose proof (be_value_range w Bw') as X. rewrite Lw in X.
    assert (in_range U32 (be_value w)) by (unfold in_range; cbn in *; lia). tauto. }
  exists y. split; [|reflexivity]. rewrite Ey. apply (from_read _ _ _ (PTables.reads_head_tbl y Hy)).
Qed.

Lemma loc_format_ok h f : head_tbl_ok h -> (0 <=? f) && (f <=? 1) = true -> head_tbl_ok (set_loc_format h f).
Proof.
  intros H Hf. assert (Xf: in_range I16 f) by (unfold in_range; cbn; lia). revert H Xf. clear Hf. unfold head_tbl_ok, set_loc_format.
  cbn [hd_majorVersion hd_minorVersion hd_fontRevision hd_checksumAdjustment
    hd_magicNumber hd_flags hd_unitsPerEm hd_created hd_modified hd_xMin hd_yMin hd_xMax hd_yMax hd_macStyle hd_lowestRecPPEM
    hd_fontDirectionHint hd_indexToLocFormat hd_glyphDataFormat]. tauto.
Qed.

Section Loads.
Context {T : Type} (K : codecs T).
Lemma file_version v s file s' : (v = SFNT_TRUETYPE \/ v = SFNT_OPENTYPE) -> good_store K s ->
  font_write K v s = (Ok file, s') -> Z.of_nat (length file) < 2 ^ 32 -> Forall is_byte file ->
  exists m, from_bytes font_read_raw file = Ok (v, m).
Proof.
  intros Hv Hg E Hsz HB. destruct (write_tabs K v s file s' Hg E) as (tabs & PT & Inc & Ef).
  destruct (save_load_bytes v tabs file Hv PT Inc Ef Hsz HB) as (w & _ & Hr). eauto.
Qed.
Lemma saved_loads v s file s' h : (v = SFNT_TRUETYPE \/ v = SFNT_OPENTYPE) -> good_store K s ->
  font_write K v s = (Ok file, s') -> Z.of_nat (length file) < 2 ^ 32 -> Forall is_byte file ->
  has_value K s TAG_head (LHead h) -> head_tbl_ok h -> exists s2, font_load K file = Ok (v, s2).
Proof.
  intros Hv Hg E Hsz HB Vh Hh. destruct (file_version v s file s' Hv Hg E Hsz HB) as (m & Er).
  assert (X: exists d h', saved_as file TAG_head d /\ from_bytes de_head_tbl d = Ok h').
  { destruct (font_write_spec K v s file s' (good_inv _ _ Hg) E) as (s1 & tabs & E1 & E2 & I1 & _).
    destruct (gsub_gpos_spec K _ _ I1 E2) as (_ & O2 & _).
    destruct (compile_spec K _ _ (good_inv _ _ Hg) E1) as [_ [[_ S]|(R & gs & out & loca & is32 & h1 & _ & _ & Hv1 & _ & A & B & C & D & O)]].
    - assert (Ec: contents s' TAG_head = contents s TAG_head).
      { rewrite O2 by (cbn; intros [X|[X|[]]]; discriminate). symmetry. apply S. }
      destruct Vh as [Vh|(d & Vh & Dh)]; rewrite <- Ec in Vh.
      + exists (ser_head_tbl h), h. split; [|exact (from_read _ _ _ (PTables.reads_head_tbl h Hh))].
        eapply sane_written with (c := Typed (LHead h)); eauto.
      + exists d, h. split; [eapply sane_written with (c := Raw d); eauto|].
        change (rmap (@LHead T) (from_bytes de_head_tbl d) = Ok (LHead h)) in Dh. destruct (from_bytes de_head_tbl d); try discriminate. now injection Dh as ->.
    - assert (Eh: h1 = h).
      { destruct Vh as [Vh|(d & Vh & Dh)], Hv1 as [V1|(d1 & V1 & D1)]; rewrite Vh in V1; try discriminate.
        - now injection V1.
        - injection V1 as <-. rewrite Dh in D1. now injection D1. }
      subst h1. exists (ser_head_tbl (set_loc_format h (if is32 then 1 else 0))), (set_loc_format h (if is32 then 1 else 0)). split.
      + eapply sane_written with (c := Typed (LHead _)); eauto; [|reflexivity].
        rewrite O2 by (cbn; intros [X|[X|[]]]; discriminate). exact C.
      + exact (from_read _ _ _ (PTables.reads_head_tbl _ (loc_format_ok h (if is32 then 1 else 0) Hh ltac:(destruct is32; reflexivity)))). }
  destruct X as (d & h' & (v1 & m1 & w & Er1 & Lw & G) & Dh). rewrite Er in Er1. injection Er1 as <- <-. rewrite adjusted_head in G.
  destruct (head_readjusted w d h' Lw Dh) as [_ (h2 & D2)].
  destruct (load_outcome K _ _ _ HB Er) as (HE & HP & H).
  destruct (font_load K file) as [[v1 s2]| |] eqn:Lf.
  - destruct (H _ _ eq_refl) as (-> & _). eauto.
  - exfalso. destruct (proj1 HE eq_refl) as [(d' & H1 & H2)|[H1 H2]]; congruence.
  - exfalso. destruct (proj1 HP eq_refl) as (d' & H1 & H2); congruence.
Qed.
End Loads.

Section Library.
Context {P : Type} (other : MName.charset -> MName.coder) (fragment : list Z -> further P -> list Z) (hash : cmapping -> Z).
Notation K := (library other fragment hash).

Lemma written_back tag l d : keepable other hash l -> right_kind tag l -> self_contained tag -> tag <> TAG_head ->
  ser_loaded K l = Ok d -> Z.of_nat (length d) < 2 ^ 32 -> exists l', des0 K tag d = Ok l' /\ comes_back l l'.
Proof.
  intros H R Hs Nh E Hsz. destruct l as [x|x|x|x|x|x|t x|x]; cbn [keepable right_kind ser_loaded] in *.
  - congruence.
  - subst tag. injection E as <-. exists (LHhea x). split; [|reflexivity].
    change (des0 K TAG_hhea (ser_hhea x)) with (rmap (@LHhea (known (further P))) (from_bytes de_hhea (ser_hhea x))). now rewrite (rb_from _ _ _ (TTables.C42_hhea x H)).
  - subst tag. destruct (TTables.C42_maxp x H) as (bs & Eb & Rb). rewrite Eb in E. injection E as ->. exists (LMaxp x). split; [|reflexivity].
    change (des0 K TAG_maxp d) with (rmap (@LMaxp (known (further P))) (from_bytes de_maxp d)). now rewrite (rb_from _ _ _ Rb).
  - destruct H.
  - destruct H.
  - discriminate.
  - destruct R as [-> R]. destruct x as [sts|p|g|v|x]; [..|destruct x as [maps|v|v|f|g|mt|rs|o|v|t|g|g]]; try (now destruct H); destruct H as [-> H].
    + change (ser_loaded K (LOther TAG_cmap (KCmap sts)) = Ok d) in E. cbn in E. destruct H as (H1 & H2 & H3 & H4).
      destruct (TCmap.C37_read_back hash sts d H1 H2 H3 E ltac:(lia) H4) as (sts' & D & F). exists (LOther TAG_cmap (KCmap sts')). split; [|exists sts'; auto].
      change (des0 K TAG_cmap d) with (rmap (LOther TAG_cmap) (rmap (@KCmap (further P)) (from_bytes cmap_de d))). now rewrite D.
    + cbn in E. destruct H as (H1 & H2). destruct (TPost.C41_roundtrip_iff p H1) as (b & Eb & Ib).
      { intros names En. rewrite En in H2. apply H2. }
      rewrite Eb in E. injection E as ->. exists (LOther TAG_post (KPost p)). split; [|reflexivity].
      change (des0 K TAG_post d) with (rmap (LOther TAG_post) (rmap (@KPost (further P)) (from_bytes post_de d))). rewrite (proj2 Ib); [reflexivity|].
      destruct (po_glyphnames p); tauto.
    + cbn in E. destruct (TTables.C42_gasp g H) as (bs & Eb & Rb). rewrite Eb in E. injection E as ->. exists (LOther TAG_gasp (KGasp g)). split; [|reflexivity].
      change (des0 K TAG_gasp d) with (rmap (LOther TAG_gasp) (rmap (@KGasp (further P)) (from_bytes de_gasp d))). now rewrite (rb_from _ _ _ Rb).
    + cbn in E. destruct H as [H1 H2]. destruct (TAvar.C39_roundtrip maps H1 H2) as (bs & maps' & Eb & Rb & F). rewrite Eb in E. injection E as ->.
      exists (LOther TAG_avar (KRest (FAvar maps'))). split; [|exists (FAvar maps'); split; [reflexivity|exists maps'; auto]].
      change (des0 K TAG_avar d) with (rmap (LOther TAG_avar) (rmap (@KRest (further P)) (rmap FAvar (from_bytes MAvar.avar_de d)))). now rewrite (rb_from _ _ _ Rb).
    + cbn in E. injection E as <-. exists (LOther TAG_cvt (KRest (FCvt v))). split; [|eexists; split; reflexivity].
      change (des0 K TAG_cvt (ser_cvt v)) with (rmap (LOther TAG_cvt) (rmap (@KRest (further P)) (rmap FCvt (from_bytes de_cvt (ser_cvt v))))). now rewrite (TTables.C42_cvt v H).
    + cbn in E. injection E as <-. exists (LOther TAG_fpgm (KRest (FFpgm v))). split; [|eexists; split; reflexivity].
      change (des0 K TAG_fpgm (ser_fpgm v)) with (rmap (LOther TAG_fpgm) (rmap (@KRest (further P)) (rmap FFpgm (from_bytes de_fpgm (ser_fpgm v))))). now rewrite (TTables.C42_fpgm_prep v H).
    + cbn in E. destruct H as (H1 & (ps & H2) & H3 & H4). destruct (TTables.C42_fvar f ps H1 H2 H3 H4) as (bs & Eb & Rb). rewrite Eb in E. injection E as ->.
      specialize (Rb []). rewrite app_nil_r in Rb. eexists. split; [|eexists; split; reflexivity].
      change (des0 K TAG_fvar d) with (rmap (LOther TAG_fvar) (rmap (@KRest (further P)) (rmap FFvar (from_bytes de_fvar d)))). now rewrite Rb.
    + cbn in E. destruct (TGdef.C65_roundtrip g d H E Hsz) as (g' & D & F). exists (LOther TAG_GDEF (KRest (FGdef g'))). split; [|exists (FGdef g'); split; [reflexivity|exists g'; auto]].
      change (des0 K TAG_GDEF d) with (rmap (LOther TAG_GDEF) (rmap (@KRest (further P)) (rmap FGdef (from_bytes MGdef.gdef_read d)))). now rewrite D.
    + cbn in E. destruct H as (H1 & H2 & H3). destruct (TName.C40_roundtrip other rs H1 H2 H3) as (b & Eb & D). rewrite Eb in E. injection E as ->.
      exists (LOther TAG_name (KRest (FName rs))). split; [|eexists; split; reflexivity].
      change (des0 K TAG_name d) with (rmap (LOther TAG_name) (rmap (@KRest (further P)) (rmap FName (from_bytes (MName.name_de other) d)))). now rewrite D.
    + change (Ok (ser_os2 o) = Ok d) in E. apply Ok_inj in E. subst d. exists (LOther TAG_OS2 (KRest (FOs2 o))). split; [|eexists; split; reflexivity].
      change (des0 K TAG_OS2 (ser_os2 o)) with (rmap (LOther TAG_OS2) (rmap (@KRest (further P)) (rmap FOs2 (from_bytes de_os2 (ser_os2 o))))). now rewrite (rb_from _ _ _ (TTables.C42_os2 o H)).
    + cbn in E. injection E as <-. exists (LOther TAG_prep (KRest (FPrep v))). split; [|eexists; split; reflexivity].
      change (des0 K TAG_prep (ser_fpgm v)) with (rmap (LOther TAG_prep) (rmap (@KRest (further P)) (rmap FPrep (from_bytes de_fpgm (ser_fpgm v))))). now rewrite (TTables.C42_fpgm_prep v H).
    + cbn in E. pose proof (TStat.C66_roundtrip t d H E) as D. exists (LOther TAG_STAT (KRest (FStat (SStat.reloaded t)))). split; [|eexists; split; reflexivity].
      change (des0 K TAG_STAT d) with (rmap (LOther TAG_STAT) (rmap (@KRest (further P)) (rmap FStat (from_bytes MStat.stat_read d)))). now rewrite D.
    + destruct Hs. cbn. tauto.
    + destruct Hs. cbn. tauto.
  - injection E as <-. exists (LUnknown x). split; [|reflexivity]. unfold des0.
    assert (N: forall c, In c (TAG_head :: TAG_hhea :: TAG_maxp :: dependent_tags ++ plain_tags) -> MTag.bytes_eqb tag c = false).
    { intros c Hc. destruct (MTag.bytes_eqb tag c) eqn:Eb; [|reflexivity]. apply PTag.bytes_eqb_eq in Eb. subst c. contradiction. }
    rewrite (N TAG_head), (N TAG_hhea), (N TAG_maxp) by (cbn; tauto).
    destruct (tag_in tag plain_tags) eqn:Et; [|reflexivity]. apply tag_in_iff in Et. destruct R. do 3 right. apply in_or_app. now right.
Qed.

Lemma typed_kind s tag (l : loaded (known (further P))) : good_store K s -> contents s tag = Some (Typed l) -> right_kind tag l.
Proof.
  intros Hg Hc. pose proof (good_inv _ _ Hg) as [_ Hk]. unfold contents in Hc.
  destruct (bm_get lex_ltb tag s) as [[d|t]|] eqn:E; cbn in Hc; try discriminate.
  destruct (Hk _ _ E) as [R _]. destruct (tb_raw t); [discriminate|]. now injection Hc as <-.
Qed.
Lemma load_same file v2 s2 v m : Forall is_byte file -> font_load K file = Ok (v2, s2) -> from_bytes font_read_raw file = Ok (v, m) -> v2 = v.
Proof. intros HB L E. destruct (load_outcome K _ _ _ HB E) as (_ & _ & H). now destruct (H _ _ L). Qed.
Lemma plain_survives v s file s' v2 s2 tag l : (v = SFNT_TRUETYPE \/ v = SFNT_OPENTYPE) -> good_store K s ->
  font_write K v s = (Ok file, s') -> Z.of_nat (length file) < 2 ^ 32 -> Forall is_byte file -> font_load K file = Ok (v2, s2) ->
  contents s tag = Some (Typed l) -> self_contained tag -> ~ rebuilt_tag s tag -> keepable other hash l ->
  exists l', finds K s2 tag l' /\ comes_back l l'.
Proof.
  intros Hv Hg E Hsz HB L Hc Hs Hn Hk.
  destruct (edited_saved K v s file s' Hv Hg E Hsz HB tag l Hc Hn) as (d & Ed & (v' & m & w & Er & Lw & G)).
  { intros [X|[X|[]]]; apply Hs; rewrite <- X; cbn; tauto. }
  pose proof (load_same _ _ _ _ _ HB L Er) as ->. pose proof (typed_kind s tag l Hg Hc) as R.
  destruct (list_eq_dec Z.eq_dec tag TAG_head) as [->|Nh].
  - destruct l as [x|x|x|x|x|x|t x|x]; cbn [right_kind] in R; try discriminate R.
    2: { destruct R as [_ R]. apply tag_in_iff in R. discriminate R. }
    2: { exfalso. apply R. now left. }
    cbn [ser_loaded] in Ed. apply Ok_inj in Ed. subst d. rewrite adjusted_head in G.
    destruct (head_comes_back w x Lw) as (y & Dy & Ry); [exact (adjustment_bytes file v' m w _ HB Er G)|exact Hk|].
    exists (LHead y). split; [|exists y; auto]. apply (finds_plain K file v' m s2 TAG_head _ _ HB Er L Hs G).
    change (rmap (@LHead (known (further P))) (from_bytes de_head_tbl (with_adjustment w (ser_head_tbl x))) = Ok (LHead y)). now rewrite Dy.
  - rewrite adjusted_other in G by exact Nh. pose proof (table_length _ _ _ _ _ Er G) as Ld.
    destruct (written_back tag l d Hk R Hs Nh Ed ltac:(lia)) as (l' & D & C). exists l'. split; [|exact C].
    exact (finds_plain K file v' m s2 tag d l' HB Er L Hs G D).
Qed.
Lemma maxp_readable v s file s' m v' : (v = SFNT_TRUETYPE \/ v = SFNT_OPENTYPE) -> good_store K s ->
  font_write K v s = (Ok file, s') -> Z.of_nat (length file) < 2 ^ 32 -> Forall is_byte file ->
  from_bytes font_read_raw file = Ok (v', m) ->
  (forall x, contents s TAG_maxp = Some (Typed (LMaxp x)) -> maxp_ok x) ->
  exists dm mx, bm_get lex_ltb TAG_maxp m = Some dm /\ from_bytes de_maxp dm = Ok mx.
Proof.
  intros Hv Hg E Hsz HB Er Hok. destruct (maxp_saved K v s file s' Hv Hg E Hsz HB) as (c & d & Hc & Hd & (v1 & m1 & w & Er1 & Lw & G)).
  rewrite Er in Er1. injection Er1 as <- <-. rewrite adjusted_other in G by discriminate. exists d.
  destruct (font_write_spec K v s file s' (good_inv _ _ Hg) E) as (s1 & tabs & E1 & E2 & I1 & _).
  destruct (gsub_gpos_spec K _ _ I1 E2) as (_ & _ & _ & mx & Hm & _).
  assert (X: contents s1 TAG_maxp = contents s TAG_maxp).
  { destruct (compile_spec K _ _ (good_inv _ _ Hg) E1) as [_ [[_ S]|(R & gs & out & loca & is32 & h & _ & _ & Hv1 & _ & A & B & C & D & O)]].
    - symmetry. apply S.
    - apply O. cbn. intros [Y|[Y|[Y|[Y|[]]]]]; discriminate. }
  unfold has_value in Hm. rewrite X, Hc in Hm. destruct Hm as [Hm|(d' & Hm & Dm)].
  - injection Hm as ->. cbn [written ser_loaded] in Hd. pose proof (Hok mx Hc) as Om. destruct (TTables.C42_maxp mx Om) as (bs & Eb & Rb).
    rewrite Eb in Hd. injection Hd as ->. exists mx. split; [exact G|]. exact (rb_from _ _ _ Rb).
  - injection Hm as ->. cbn [written] in Hd. injection Hd as ->. exists mx. split; [exact G|].
    change (rmap (@LMaxp (known (further P))) (from_bytes de_maxp d) = Ok (LMaxp mx)) in Dm. destruct (from_bytes de_maxp d); try discriminate. now injection Dm as ->.
Qed.
Lemma layout_survives v s file s' v2 s2 tag l : (v = SFNT_TRUETYPE \/ v = SFNT_OPENTYPE) -> good_store K s ->
  font_write K v s = (Ok file, s') -> Z.of_nat (length file) < 2 ^ 32 -> Forall is_byte file -> font_load K file = Ok (v2, s2) ->
  contents s tag = Some (Typed l) -> In tag [TAG_GPOS; TAG_GSUB] -> keepable other hash l ->
  (forall x, contents s TAG_maxp = Some (Typed (LMaxp x)) -> maxp_ok x) ->
  exists l', finds K s2 tag l' /\ comes_back l l'.
Proof.
  intros Hv Hg E Hsz HB L Hc Ht Hk Hm.
  destruct (layout_saved K v s file s' Hv Hg E Hsz HB tag l Hc Ht) as (x & m0 & d & Sx & _ & Ed & (v' & m & w & Er & Lw & G)).
  assert (Nh: tag <> TAG_head) by (destruct Ht as [<-|[<-|[]]]; discriminate).
  rewrite adjusted_other in G by exact Nh. pose proof (table_length _ _ _ _ _ Er G) as Ld. pose proof (load_same _ _ _ _ _ HB L Er) as ->.
  destruct (maxp_readable v s file s' m v' Hv Hg E Hsz HB Er Hm) as (dm & mx & Gm & Dm).
  pose proof (typed_kind s tag l Hg Hc) as R.
  destruct l as [y|y|y|y|y|y|t y|y]; cbn [sel_other] in Sx; try discriminate Sx. injection Sx as ->. cbn [right_kind] in R. destruct R as [-> _].
  cbn [keepable] in Hk.
  destruct x as [sts|p|g|gv|x]; [..|destruct x as [maps|vs|vs|f|g|mt|rs|o|vs|t|g|g]]; try (now destruct Hk); destruct Hk as [Et Hk]; subst tag;
    try (destruct Ht as [X|[X|[]]]; discriminate X).
  - destruct Hk as (H1 & out & W). change (ser_rules fragment TAG_GSUB (FGsub g) = Ok d) in Ed. unfold ser_rules in Ed. rewrite W in Ed. injection Ed as ->.
    exists (LOther TAG_GSUB (KRest (FGsub (SGsubTable.gsub_normal g)))). split; [|eexists; split; reflexivity].
    apply (finds_layout K file v' m s2 TAG_GSUB d _ dm mx Er L Ht G Gm Dm).
    change (rmap (@KRest (further P)) (rmap FGsub (from_bytes (MGsub.gsub_read (num_glyphs mx)) d)) = Ok (KRest (FGsub (SGsubTable.gsub_normal g)))).
    now rewrite (TLookup.C61_roundtrip P g (num_glyphs mx) d H1 W ltac:(lia)).
  - destruct Hk as (H1 & H2 & out & W). change (ser_rules fragment TAG_GPOS (FGpos g) = Ok d) in Ed. unfold ser_rules in Ed. rewrite W in Ed. injection Ed as ->.
    destruct (TGposTable.C62_roundtrip P g (num_glyphs mx) d H1 H2 W ltac:(lia)) as (g' & D & Sg & _).
    exists (LOther TAG_GPOS (KRest (FGpos g'))). split; [|exists (FGpos g'); split; [reflexivity|exists g'; auto]].
    apply (finds_layout K file v' m s2 TAG_GPOS d _ dm mx Er L Ht G Gm Dm).
    change (rmap (@KRest (further P)) (rmap FGpos (from_bytes (MGpos.gpos_read (num_glyphs mx)) d)) = Ok (KRest (FGpos g'))). now rewrite D.
Qed.
Lemma glyf_survives v s file s' v2 s2 gs : (v = SFNT_TRUETYPE \/ v = SFNT_OPENTYPE) -> good_store K s ->
  font_write K v s = (Ok file, s') -> Z.of_nat (length file) < 2 ^ 32 -> Forall is_byte file -> font_load K file = Ok (v2, s2) ->
  contents s TAG_glyf = Some (Typed (LGlyf gs)) -> Forall glyph_fine gs ->
  (forall h, has_value K s TAG_head (LHead h) -> head_tbl_ok h) ->
  exists l', finds K s2 TAG_glyf l' /\ comes_back (LGlyf gs) l'.
Proof.
  intros Hv Hg E Hsz HB L Hc Hf Hh.
  destruct (PSave.glyf_saved K v s file s' gs Hv Hg E Hsz HB Hc) as (out & loca & is32 & h & Ec & Vh & (v1 & m & w1 & Er & Lw1 & G1) & (v3 & m3 & w3 & Er3 & _ & G3) & (v4 & m4 & w & Er4 & Lw & G4)).
  rewrite Er in Er3, Er4. injection Er3 as <- <-. injection Er4 as <- <-. rewrite adjusted_other in G1, G3 by discriminate. rewrite adjusted_head in G4.
  pose proof (load_same _ _ _ _ _ HB L Er) as ->.
  destruct (saved_outlines file v1 m w gs out loca is32 h HB Er Lw Ec G1 G3 G4 Hf (Hh h Vh)) as (gs' & Gi & Sm).
  exists (LGlyf gs'). split; [|exists gs'; auto]. exact (finds_glyf K file v1 m s2 gs' Er L Gi).
Qed.
End Library.

(** ** Names *)
Lemma one_of_iff tag names : one_of tag names <-> tag_in tag (map ascii_bytes names) = true.
Proof.
  rewrite tag_in_iff, in_map_iff. unfold one_of, named. split; intros (n & A & B); exists n; auto.
Qed.
Lemma kind_iff T tag (l : loaded T) : right_kind tag l <-> kind_named tag l.
Proof.
  destruct l as [x|x|x|x|x|x|t x|x]; cbn [right_kind kind_named]; try (split; intros H; exact H).
  - rewrite one_of_iff. split; intros [-> H]; (split; [reflexivity|]).
    + repeat destruct H as [<-|H]; try destruct H; reflexivity.
    + apply tag_in_iff in H. apply tag_in_iff.
      repeat destruct H as [<-|H]; try destruct H; reflexivity.
  - rewrite one_of_iff. split; intros H N; apply H.
    + apply tag_in_iff in N. apply tag_in_iff. repeat destruct N as [<-|N]; try destruct N; reflexivity.
    + repeat destruct N as [<-|N]; try destruct N; reflexivity.
Qed.
Lemma found_kind T (K : codecs T) s tag l : good_store K s -> finds K s tag l -> kind_named tag l.
Proof.
  intros G (t & s' & E & <-). apply kind_iff.
  destruct (quiet_ok K _ _ _ _ (quiet_ts_get K tag) (good_inv K s G) E) as [[_ I] _].
  unfold ts_get, get_by in E. destruct (load_by (des3 K) tag s) as [[u| |] s1] eqn:E1; try discriminate E.
  injection E as E <-. destruct (st_get tag s1) as [[d|t1]|] eqn:E2; try discriminate E. injection E as ->.
  exact (proj1 (I _ _ E2)).
Qed.

Lemma bytes_eqb_named tag t : MTag.bytes_eqb tag t = true -> tag = t.
Proof. apply PTag.bytes_eqb_eq. Qed.
Lemma library_type {P} other fragment hash tag d s (l : loaded (known (further P))) s' :
  des3 (library other fragment hash) tag d s = (Ok l, s') -> type_named tag l.
Proof.
  intros E. split; [apply kind_iff; exact (proj1 (proj2 (des3_ok (library other fragment hash) tag d) _ _ _ E))|].
  destruct l as [x|x|x|x|x|x|t x|x]; try exact I.
  unfold des3 in E. destruct (MTag.bytes_eqb tag TAG_gvar) eqn:Eg.
  { apply bytes_eqb_named in Eg. subst tag.
    apply sbind_ok in E as (o & s1 & _ & E). apply sbind_ok in E as (g & s2 & _ & E). apply slift_ok in E as [E _].
    destruct (rmapM gvar_coords_and_ends g) as [ce| |]; try discriminate E. cbn [rbind] in E.
    apply rmap_ok in E as (a & E & X). injection X as -> ->. cbn [parse_gvar library MCli.K] in E.
    apply rmap_ok in E as (b & _ & ->). reflexivity. }
  unfold des2 in E. destruct (MTag.bytes_eqb tag TAG_glyf).
  { apply sbind_ok in E as (o & s1 & _ & E). apply sbind_ok in E as (g & s2 & _ & E). apply slift_ok in E as [E _].
    apply rmap_ok in E as (a & E & X). discriminate X. }
  unfold des1 in E. destruct (tag_in tag [TAG_GPOS; TAG_GSUB]) eqn:Er.
  { apply sbind_ok in E as (o & s1 & _ & E). apply sbind_ok in E as (g & s2 & _ & E). apply slift_ok in E as [E _].
    apply rmap_ok in E as (a & E & X). injection X as -> ->. cbn [parse_layout library MCli.K] in E.
    apply rmap_ok in E as (b & E & ->). cbn [parse_layout further_codecs] in E. unfold parse_rules in E.
    destruct (MTag.bytes_eqb tag TAG_GSUB) eqn:Es.
    - apply rmap_ok in E as (c & _ & ->). exact (bytes_eqb_named _ _ Es).
    - apply rmap_ok in E as (c & _ & ->). apply tag_in_iff in Er. destruct Er as [<-|[<-|[]]]; [reflexivity|discriminate Es]. }
  destruct (MTag.bytes_eqb tag TAG_hmtx).
  { apply sbind_ok in E as (o & s1 & _ & E). apply sbind_ok in E as (g & s2 & _ & E). apply slift_ok in E as [E _].
    apply rmap_ok in E as (a & E & X). discriminate X. }
  destruct (MTag.bytes_eqb tag TAG_loca).
  { apply sbind_ok in E as (o & s1 & _ & E). apply sbind_ok in E as (g & s2 & _ & E). apply slift_ok in E as [E _].
    apply rmap_ok in E as (a & E & X). discriminate X. }
  apply slift_ok in E as [E _]. unfold des0 in E.
  destruct (MTag.bytes_eqb tag TAG_head); [apply rmap_ok in E as (a & E & X); discriminate X|].
  destruct (MTag.bytes_eqb tag TAG_hhea); [apply rmap_ok in E as (a & E & X); discriminate X|].
  destruct (MTag.bytes_eqb tag TAG_maxp); [apply rmap_ok in E as (a & E & X); discriminate X|].
  destruct (tag_in tag plain_tags); [|discriminate E].
  apply rmap_ok in E as (a & E & X). injection X as -> ->. cbn [parse_plain library MCli.K] in E.
  destruct (bytes_eqb tag TAG_cmap) eqn:E1; [apply rmap_ok in E as (b & _ & ->); exact (proj1 (PPost.bytes_eqb_eq _ _) E1)|].
  destruct (bytes_eqb tag TAG_post) eqn:E2; [apply rmap_ok in E as (b & _ & ->); exact (proj1 (PPost.bytes_eqb_eq _ _) E2)|].
  destruct (bytes_eqb tag TAG_gasp) eqn:E3; [apply rmap_ok in E as (b & _ & ->); exact (proj1 (PPost.bytes_eqb_eq _ _) E3)|].
  apply rmap_ok in E as (b & E & ->). cbn [parse_plain further_codecs] in E. unfold parse_further in E.
  repeat match type of E with (if ?c then _ else _) = _ => let H := fresh "H" in destruct c eqn:H;
    [apply rmap_ok in E as (z & _ & ->); exact (bytes_eqb_named _ _ H)|] end.
  discriminate E.
Qed.
Lemma raw_type {P} other fragment hash s tag d (l : loaded (known (further P))) :
  finds (library other fragment hash) (ts_insert_raw tag d s) tag l -> type_named tag l.
Proof.
  intros (t & s' & E & <-). unfold ts_get, get_by, load_by in E. 
  assert (G : st_get tag (@ts_insert_raw (known (further P)) tag d s) = Some (Unloaded d)).
  { unfold ts_insert_raw. rewrite st_get_set. now destruct (list_eq_dec Z.eq_dec tag tag). }
  rewrite G in E.
  destruct (des3 (library other fragment hash) tag d (ts_insert_raw tag d s)) as [[l0| |] s1] eqn:D; try discriminate E.
  rewrite st_get_set in E. destruct (list_eq_dec Z.eq_dec tag tag); [|congruence].
  injection E as <- _. cbn [tb_loaded]. exact (library_type other fragment hash _ _ _ _ _ D).
Qed.

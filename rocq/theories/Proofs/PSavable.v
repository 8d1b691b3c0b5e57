(** Exactly when a table set can be saved. *)
From Coq Require Import Sorted.
From Verif.Proofs Require Import PBase PTag PMap PFont PStore PSave.
From Verif.Model Require Import MTag MMap MFont MTables MMetrics MGlyph MGlyf MStore.
From Verif.Spec Require Import SBase SReader SFont SStore SSavable.

Lemma head_long h : (12 <= length (ser_head_tbl h))%nat.
Proof. unfold ser_head_tbl. cbn [concat]. rewrite !app_length. unfold ser_u16, ser_u32, ser_prim. rewrite !be_bytes_length. cbn [prim_width]. lia. Qed.

Section Savable.
Context {T : Type} (K : codecs T).
Implicit Types (s : store T).

Definition finish (v : Z) : sop (T:=T) (list Z) :=
  sbind (compile_gsub_gpos K) (fun _ s => (font_to_bytes v (map (fun ti => (fst ti, write_item K (snd ti))) s), s)).

Lemma same_keys s s' : inv K s -> inv K s' -> (forall t, contents s t <> None <-> contents s' t <> None) ->
  map fst s = map fst s'.
Proof.
  intros Hi Hi' H.
  assert (E: map (fun k => (k, tt)) (map fst s) = map (fun k => (k, tt)) (map fst s')).
  { apply (sorted_map_ext lex_ltb lex_strict).
    - unfold sorted_map. rewrite map_map. cbn [fst]. rewrite map_id. apply Hi.
    - unfold sorted_map. rewrite map_map. cbn [fst]. rewrite map_id. apply Hi'.
    - intros t. specialize (H t). unfold contents in H.
      assert (G: forall m : store T, bm_get lex_ltb t (map (fun k => (k, tt)) (map fst m)) = option_map (fun _ => tt) (bm_get lex_ltb t m)).
      { clear. induction m as [|[k i] m IH]; [reflexivity|]. cbn [map bm_get fst].
        destruct (lex_ltb t k || lex_ltb k t); [apply IH|reflexivity]. }
      rewrite !G. destruct (bm_get lex_ltb t s), (bm_get lex_ltb t s'); cbn [option_map] in *; try reflexivity.
      + exfalso. apply (proj1 H); [discriminate|reflexivity].
      + exfalso. apply (proj2 H); [discriminate|reflexivity]. }
  apply (f_equal (map fst)) in E. rewrite !map_map in E. exact E.
Qed.

Lemma layout_run tag n s : In tag [TAG_GPOS; TAG_GSUB] -> inv K s ->
  (forall c, contents s tag = Some c -> exists d, bytes_for K n tag c d) ->
  exists s', compile_layout K tag n s = (Ok tt, s').
Proof.
  intros Ht Hi Hw. unfold compile_layout. destruct (serialized tag s) eqn:Es; [eauto|].
  apply serialized_iff in Es as [l Hl]. destruct (Hw _ Hl) as (d & Hd). cbn [bytes_for] in Hd.
  rewrite (proj2 (tag_in_iff _ _) Ht) in Hd. destruct Hd as (x & -> & Hx).
  unfold contents in Hl. destruct (bm_get lex_ltb tag s) as [[d'|t]|] eqn:E; cbn in Hl; try discriminate.
  destruct (tb_raw t); [discriminate|]. injection Hl as Hl.
  assert (G: st_get tag s = Some (Loaded t)) by exact E.
  unfold sbind, unwrap_s, typed, typed_by, sbind, get_by, load_by. rewrite G, G, Hl. cbn [sel_other].
  unfold slift. rewrite Hx. unfold smodify. eauto.
Qed.

Lemma kinds s tag l : inv K s -> contents s tag = Some (Typed l) -> right_kind tag l.
Proof.
  intros [_ Hk] Hc. unfold contents in Hc. destruct (get tag s) as [[d|t]|] eqn:E; cbn in Hc; try discriminate.
  destruct (Hk _ _ E) as [R _]. destruct (tb_raw t); [discriminate|]. injection Hc as <-. exact R.
Qed.

Definition printables s := forall t, contents s t <> None -> printable_tag t.

Lemma finish_iff v s : inv K s -> printables s ->
  (exists file s', finish v s = (Ok file, s')) <->
  exists m, has_value K s TAG_maxp (LMaxp m) /\ all_written K (num_glyphs m) s (fun _ => True) /\ Z.of_nat (length s) < 4096.
Proof.
  intros Hi Hp. split.
  - intros (file & s' & E). unfold finish in E. apply sbind_ok in E as ([] & s2 & E2 & E). injection E as E <-.
    destruct (gsub_gpos_spec K _ _ Hi E2) as (I2 & O2 & R2 & m & Hm & L2).
    assert (N2: forall t, contents s t = None -> contents s2 t = None).
    { intros t Ht. destruct (tag_in t [TAG_GPOS; TAG_GSUB]) eqn:Et.
      - apply tag_in_iff in Et. revert Et Ht E2 Hi. clear. intros Et Ht E2 I1.
        unfold compile_gsub_gpos in E2.
        apply sbind_ok in E2 as (om & sa & Ea & E2). apply unwrap_s_ok in Ea.
        pose proof (quiet_ok K _ _ _ _ (quiet_typed_acc K TAG_maxp sel_maxp) I1 Ea) as [Ia Sa].
        apply sbind_ok in E2 as (m & sb & Eb & E2). apply slift_ok in Eb as [_ ->].
        apply sbind_ok in E2 as ([] & sc & Ec & E2).
        destruct (layout_spec K _ _ _ _ Ia Ec) as (Ic & Oc & Pc). destruct (layout_spec K _ _ _ _ Ic E2) as (Id & Od & Pd).
        rewrite (Sa t) in Ht. destruct Et as [<-|[<-|[]]].
        + rewrite Ht in Pc. rewrite Od by discriminate. exact Pc.
        + assert (Y: contents sc TAG_GSUB = None) by (rewrite Oc by discriminate; exact Ht). now rewrite Y in Pd.
      - rewrite O2; [exact Ht|]. intros X. apply tag_in_iff in X. congruence. }
    destruct (font_to_bytes_written _ _ _ E) as [tabs Ht]. rewrite Ht in E.
    change (map (fun td => (fst td, Ok (snd td))) tabs) with (map okd tabs) in E.
    destruct (font_to_bytes_inv _ _ _ E) as [Hn Hh].
    assert (Hk: map fst s = map fst s2).
    { apply same_keys; try assumption. intros t. split; intros H.
      - destruct (contents s t) as [[d|l]|] eqn:Ec; [rewrite (R2 _ _ Ec); discriminate| |congruence].
        destruct (tag_in t [TAG_GPOS; TAG_GSUB]) eqn:Et.
        + apply tag_in_iff in Et. destruct (L2 t l Et Ec) as (x & d & _ & _ & ->). discriminate.
        + rewrite O2; [congruence|]. intros X. apply tag_in_iff in X. congruence.
      - intros X. now apply N2 in X. }
    exists m. split; [exact Hm|]. split.
    + assert (W: forall t c, contents s2 t = Some c -> exists d, written K c = Ok d /\ (t = TAG_head -> (12 <= length d)%nat)).
      { intros t c Hc. unfold contents in Hc. destruct (get t s2) as [i|] eqn:Ei; [|discriminate]. injection Hc as <-.
        apply get_In in Ei; [|apply lex_strict].
        assert (Hin: In (t, write_item K i) (map (fun td => (fst td, Ok (snd td))) tabs)).
        { rewrite <- Ht. apply in_map_iff. exists (t, i). auto. }
        apply in_map_iff in Hin as ([t' d] & Heq & Hin). cbn [fst snd] in Heq. injection Heq as -> Hd.
        exists d. rewrite <- write_item_content. split; [now rewrite Hd|]. intros ->.
        rewrite forallb_forall in Hh. specialize (Hh _ Hin). unfold head_ok in Hh. cbn [fst snd] in Hh.
        change (bytes_eqb TAG_head TAG_head) with true in Hh. cbn [negb orb] in Hh. now apply Nat.leb_le. }
      intros t c _ Hc. destruct c as [d|l].
      * exists d. split; [reflexivity|]. intros Hth. destruct (W _ _ (R2 _ _ Hc)) as (d' & Hd' & Hl). injection Hd' as <-. now apply Hl.
      * cbn [bytes_for]. destruct (tag_in t [TAG_GPOS; TAG_GSUB]) eqn:Et.
        -- apply tag_in_iff in Et. destruct (L2 t l Et Hc) as (x & d & Hx & Hs & _). exists d. split.
           ++ exists x. split; [|exact Hs]. pose proof (kinds _ _ _ Hi Hc) as Rk. destruct l; cbn in Hx; try discriminate.
              destruct Rk as [-> _]. congruence.
           ++ intros ->. destruct Et as [X|[X|[]]]; discriminate.
        -- apply (W t (Typed l)). rewrite O2; [exact Hc|]. intros X. apply tag_in_iff in X. congruence.
    + apply (f_equal (@length _)) in Hk. apply (f_equal (@length _)) in Ht. rewrite !map_length in *. lia.
  - intros (m & Hm & Hw & Hn).
    destruct (typed_total K TAG_maxp sel_maxp s (LMaxp m) m Hi maxp_self Hm eq_refl) as (s1 & E1 & I1 & S1).
    destruct (layout_run TAG_GPOS (num_glyphs m) s1) as [s2 E2]; [cbn; tauto|exact I1| |].
    { intros c Hc. rewrite <- (S1 TAG_GPOS) in Hc. destruct (Hw _ _ I Hc) as (d & Hd & _). eauto. }
    destruct (layout_spec K _ _ _ _ I1 E2) as (I2 & O2 & P2).
    destruct (layout_run TAG_GSUB (num_glyphs m) s2) as [s3 E3]; [cbn; tauto|exact I2| |].
    { intros c Hc. rewrite O2 in Hc by discriminate. rewrite <- (S1 TAG_GSUB) in Hc. destruct (Hw _ _ I Hc) as (d & Hd & _). eauto. }
    assert (Eg: compile_gsub_gpos K s = (Ok tt, s3)).
    { unfold compile_gsub_gpos, sbind at 1, unwrap_s. rewrite E1. unfold unwrap, slift, sbind. now rewrite E2, E3. }
    destruct (gsub_gpos_spec K _ _ Hi Eg) as (I3 & O3 & R3 & m' & Hm' & L3).
    assert (m' = m) as ->.
    { unfold has_value in *. destruct Hm as [A|(d & A & B)], Hm' as [A'|(d' & A' & B')]; congruence. }
    assert (N3: forall t, contents s t = None -> contents s3 t = None).
    { intros t Ht. destruct (tag_in t [TAG_GPOS; TAG_GSUB]) eqn:Et.
      - apply tag_in_iff in Et. destruct (layout_spec K _ _ _ _ I2 E3) as (_ & Od & Pd).
        rewrite (S1 t) in Ht. destruct Et as [<-|[<-|[]]].
        + rewrite Ht in P2. rewrite Od by discriminate. exact P2.
        + assert (Y: contents s2 TAG_GSUB = None) by (rewrite O2 by discriminate; exact Ht). now rewrite Y in Pd.
      - rewrite O3; [exact Ht|]. intros X. apply tag_in_iff in X. congruence. }
    assert (Hc3: forall t c, contents s3 t = Some c -> exists d, written K c = Ok d /\ (t = TAG_head -> (12 <= length d)%nat)).
    { intros t c Hc. destruct (contents s t) as [c0|] eqn:Ec; [|rewrite (N3 _ Ec) in Hc; discriminate].
      destruct (Hw _ _ I Ec) as (d & Hd & Hl). destruct c0 as [d0|l].
      - rewrite (R3 _ _ Ec) in Hc. injection Hc as <-. cbn in Hd. subst d0. exists d. split; [reflexivity|exact Hl].
      - cbn [bytes_for] in Hd. destruct (tag_in t [TAG_GPOS; TAG_GSUB]) eqn:Et.
        + apply tag_in_iff in Et. destruct (L3 t l Et Ec) as (x & d' & _ & _ & X). rewrite X in Hc. injection Hc as <-.
          exists d'. split; [reflexivity|]. intros ->. destruct Et as [Y|[Y|[]]]; discriminate.
        + rewrite O3, Ec in Hc by (intros X; apply tag_in_iff in X; congruence). injection Hc as <-.
          exists d. split; [exact Hd|exact Hl]. }
    assert (Hk: map fst s = map fst s3).
    { apply same_keys; try assumption. intros t. split; intros H.
      - destruct (contents s t) as [[d|l]|] eqn:Ec; [rewrite (R3 _ _ Ec); discriminate| |congruence].
        destruct (tag_in t [TAG_GPOS; TAG_GSUB]) eqn:Et.
        + apply tag_in_iff in Et. destruct (L3 t l Et Ec) as (x & d & _ & _ & ->). discriminate.
        + rewrite O3; [congruence|]. intros X. apply tag_in_iff in X. congruence.
      - intros X. now apply N3 in X. }
    set (tabs := map (fun ti => (fst ti, match write_item K (snd ti) with Ok d => d | _ => [] end)) s3).
    assert (W: forall t i, In (t, i) s3 -> exists d, write_item K i = Ok d /\ (t = TAG_head -> (12 <= length d)%nat)).
    { intros t i Hin. apply (In_get lex_ltb lex_strict _ _ _ (proj1 I3)) in Hin.
      destruct (Hc3 t (content_of i)) as (d & Hd & Hl); [unfold contents; now rewrite Hin|].
      exists d. now rewrite write_item_content. }
    assert (Et: map (fun ti => (fst ti, write_item K (snd ti))) s3 = map okd tabs).
    { unfold tabs. rewrite map_map. apply map_ext_in. intros [t i] Hin. unfold okd. cbn [fst snd].
      destruct (W t i Hin) as (d & -> & _). reflexivity. }
    assert (Hf: map fst tabs = map fst s3) by (unfold tabs; rewrite map_map; reflexivity).
    destruct (font_to_bytes_ok v tabs) as [E4 _].
    + apply sorted_nodup. unfold sorted_map. rewrite Hf. exact (proj1 I3).
    + apply Forall_forall. intros td Htd. apply (in_map fst) in Htd. rewrite Hf, <- Hk in Htd.
      apply keys_iff in Htd. apply Hp in Htd. apply Htd.
    + unfold tabs. rewrite map_length. apply (f_equal (@length _)) in Hk. rewrite !map_length in Hk. lia.
    + apply forallb_forall. intros [t d] Hin. unfold tabs in Hin. apply in_map_iff in Hin as ([t' i] & [= -> Hd] & Hin).
      unfold head_ok. cbn [fst snd]. destruct (bytes_eqb t TAG_head) eqn:Eh; [|reflexivity].
      apply bytes_eqb_eq in Eh. destruct (W t i Hin) as (d' & E' & Hl). rewrite E' in Hd. subst d'.
      cbn [negb orb]. apply Nat.leb_le. now apply Hl.
    + eexists. exists s3. unfold finish, sbind. rewrite Eg, Et, E4. reflexivity.
Qed.

Lemma good_printables s : good_store K s -> printables s.
Proof. intros Hg t. apply (good_printable K _ Hg). Qed.

(** Nothing to rebuild. *)
Lemma savable_iff v s : good_store K s -> ~ rebuilds s ->
  (exists file s', font_write K v s = (Ok file, s')) <->
  exists m, has_value K s TAG_maxp (LMaxp m) /\ all_written K (num_glyphs m) s (fun _ => True) /\ Z.of_nat (length s) < 4096.
Proof.
  intros Hg Hr. rewrite <- (finish_iff v s (good_inv K _ Hg) (good_printables _ Hg)).
  unfold font_write. unfold sbind at 1. rewrite (compile_quiet K) by (auto using good_inv). reflexivity.
Qed.

(** ** An edited glyf table *)
(** The lookup of hmtx depends on its own entry and on what hhea holds. *)
Lemma hmtx_lookup s s' : inv K s -> inv K s' -> st_get TAG_hmtx s = st_get TAG_hmtx s' ->
  contents s TAG_hhea = contents s' TAG_hhea ->
  fst (ts_get K TAG_hmtx s) = fst (ts_get K TAG_hmtx s').
Proof.
  intros Hi Hi' Hm Hh. unfold ts_get, get_by, load_by. rewrite <- Hm.
  destruct (st_get TAG_hmtx s) as [[d|t]|] eqn:E; [|now rewrite E, <- Hm|now rewrite E, <- Hm].
  assert (D: fst (des3 K TAG_hmtx d s) = fst (des3 K TAG_hmtx d s')).
  { change (fst (sbind (typed_by (des0s K) TAG_hhea sel_hhea) (fun o => sbind (need o) (fun h =>
      slift (rmap (@LHmtx T) (from_bytes (de_hmtx (hh_numberOfHMetrics h)) d)))) s) =
      fst (sbind (typed_by (des0s K) TAG_hhea sel_hhea) (fun o => sbind (need o) (fun h =>
      slift (rmap (@LHmtx T) (from_bytes (de_hmtx (hh_numberOfHMetrics h)) d)))) s')).
    assert (V: fst (typed_by (des0s K) TAG_hhea sel_hhea s) = fst (typed_by (des0s K) TAG_hhea sel_hhea s')).
    { pose proof (lookup_self K TAG_hhea s Hi hhea_self) as L. pose proof (lookup_self K TAG_hhea s' Hi' hhea_self) as L'.
      rewrite Hh in L. rewrite <- L' in L. clear - L. unfold typed_by, sbind.
      change (get_by (des0s K) TAG_hhea) with (ts_get K TAG_hhea).
      destruct (ts_get K TAG_hhea s) as [[[t|]| |] s1], (ts_get K TAG_hhea s') as [[[t'|]| |] s1'];
        cbn [fst rmap option_map] in L; try discriminate; try reflexivity.
      injection L as ->. destruct (sel_hhea (tb_loaded t')); reflexivity. }
    unfold sbind. destruct (typed_by (des0s K) TAG_hhea sel_hhea s) as [[o| |] s1], (typed_by (des0s K) TAG_hhea sel_hhea s') as [[o'| |] s1'];
      cbn [fst] in V; try discriminate; try reflexivity.
    injection V as ->. destruct o' as [h|]; reflexivity. }
  destruct (des3 K TAG_hmtx d s) as [[l| |] s1], (des3 K TAG_hmtx d s') as [[l'| |] s1']; cbn [fst] in D |- *; try discriminate; try reflexivity.
  injection D as ->. rewrite !st_get_set. reflexivity.
Qed.

(** Looking a table up that needs no other leaves the other entries alone. *)
Lemma frame_self tag u s : self_contained tag -> u <> tag -> st_get u (snd (ts_get K tag s)) = st_get u s.
Proof.
  intros Hs Hu. unfold ts_get, get_by, load_by. destruct (st_get tag s) as [[d|t]|] eqn:E; [|reflexivity|reflexivity].
  rewrite (des3_self K tag d s Hs). destruct (des0 K tag d); cbn [snd]; try reflexivity.
  rewrite st_get_set. destruct (list_eq_dec Z.eq_dec u tag); [congruence|reflexivity].
Qed.

Lemma typed_snd {A} tag (sel : loaded T -> option A) s : snd (typed K tag sel s) = snd (ts_get K tag s).
Proof.
  unfold typed, typed_by, sbind. change (get_by (des3 K) tag s) with (ts_get K tag s).
  destruct (ts_get K tag s) as [[[t|]| |] s1]; try reflexivity. destruct (sel (tb_loaded t)); reflexivity.
Qed.
Lemma frame_typed {A} tag (sel : loaded T -> option A) u s r s' : self_contained tag -> u <> tag ->
  typed K tag sel s = (r, s') -> st_get u s' = st_get u s.
Proof. intros Hs Hu E. pose proof (typed_snd tag sel s) as X. rewrite E in X. cbn [snd] in X. subst s'. now apply frame_self. Qed.

Lemma typed_glyf s gs : contents s TAG_glyf = Some (Typed (LGlyf gs)) -> typed K TAG_glyf sel_glyf s = (Ok (Some gs), s).
Proof.
  intros Hl. unfold contents in Hl. destruct (bm_get lex_ltb TAG_glyf s) as [[d'|t]|] eqn:E; cbn in Hl; try discriminate.
  destruct (tb_raw t); [discriminate|]. injection Hl as Hl.
  assert (G: st_get TAG_glyf s = Some (Loaded t)) by exact E.
  unfold typed, typed_by, sbind, get_by, load_by. rewrite G, G, Hl. reflexivity.
Qed.

Definition prepared (out loca : list Z) s := ts_insert_raw TAG_loca loca (ts_insert_raw TAG_glyf out s).
Lemma prepared_other out loca s u : u <> TAG_loca -> u <> TAG_glyf ->
  st_get u (prepared out loca s) = st_get u s.
Proof.
  intros H1 H2. unfold prepared, ts_insert_raw. rewrite !st_get_set.
  destruct (list_eq_dec Z.eq_dec u TAG_loca); [congruence|]. destruct (list_eq_dec Z.eq_dec u TAG_glyf); congruence.
Qed.
Lemma entry_contents s s' u : st_get u s = st_get u s' -> contents s u = contents s' u.
Proof. unfold contents, st_get. now intros ->. Qed.
Lemma entry_value s s' u l : contents s u = contents s' u -> has_value K s u l -> has_value K s' u l.
Proof. unfold has_value. now intros ->. Qed.

Lemma compile_iff s gs : inv K s -> contents s TAG_glyf = Some (Typed (LGlyf gs)) ->
  ((exists s', compile_glyf_loca_maxp K s = (Ok tt, s')) <->
   exists out loca is32 m h, compile_glyf gs = Ok (out, loca, is32) /\ has_value K s TAG_maxp (LMaxp m) /\
     has_value K s TAG_head (LHead h) /\ Z.of_nat (length gs) < 65536 /\ metrics_countable K s) /\
  forall s', compile_glyf_loca_maxp K s = (Ok tt, s') -> (contents s' TAG_hhea = None <-> contents s TAG_hhea = None).
Proof.
  intros Hi Hgl.
  assert (Es: serialized TAG_glyf s && serialized TAG_loca s && serialized TAG_maxp s = false).
  { replace (serialized TAG_glyf s) with false; [reflexivity|]. symmetry. apply serialized_iff. eauto. }
  assert (Back: forall s', compile_glyf_loca_maxp K s = (Ok tt, s') ->
    (exists out loca is32 m h, compile_glyf gs = Ok (out, loca, is32) /\ has_value K s TAG_maxp (LMaxp m) /\
     has_value K s TAG_head (LHead h) /\ Z.of_nat (length gs) < 65536 /\ metrics_countable K s) /\
    (contents s' TAG_hhea = None <-> contents s TAG_hhea = None)).
  { intros s' E. unfold compile_glyf_loca_maxp in E. rewrite Es in E.
    apply sbind_ok in E as (o & s1 & E1 & E). apply unwrap_s_ok in E1.
    rewrite (typed_glyf s gs Hgl) in E1. injection E1 as <- <-.
    apply sbind_ok in E as ([[out loca] is32] & s2 & E2 & E). apply slift_ok in E2 as [Ec ->].
    apply sbind_ok in E as ([] & s3 & E3 & E). apply smod_ok in E3. subst s3.
    apply sbind_ok in E as ([] & s4 & E4 & E). apply smod_ok in E4.
    change (s4 = prepared out loca s) in E4. subst s4.
    assert (I4: inv K (prepared out loca s)) by (apply inv_raw, inv_raw, Hi).
    apply sbind_ok in E as (om & s5 & E5 & E). apply unwrap_s_ok in E5.
    pose proof (quiet_ok K _ _ _ _ (quiet_typed_acc K TAG_maxp sel_maxp) I4 E5) as [I5 S5].
    pose proof (typed_self K _ _ _ _ _ I4 maxp_self E5) as V5.
    apply sbind_ok in E as (m & s6 & E6 & E). apply slift_ok in E6 as [E6 ->]. apply unwrap_ok in E6. subst om.
    apply sbind_ok in E as (n & s7 & E7 & E). apply slift_ok in E7 as [E7 ->]. apply unwrap_ok in E7.
    apply sbind_ok in E as (oh & s8 & E8 & E). apply unwrap_s_ok in E8.
    pose proof (quiet_ok K _ _ _ _ (quiet_typed_acc K TAG_head sel_head) I5 E8) as [I8 S8].
    pose proof (typed_self K _ _ _ _ _ I5 head_self E8) as V8.
    apply sbind_ok in E as (h & s9 & E9 & E). apply slift_ok in E9 as [E9 ->]. apply unwrap_ok in E9. subst oh.
    apply sbind_ok in E as ([] & s10 & E10 & E). apply smod_ok in E10.
    assert (I10: inv K s10) by (subst s10; apply inv_typed; [exact I8|reflexivity]).
    apply sbind_ok in E as (ohm & s11 & E11 & E). apply unwrap_s_ok in E11.
    pose proof (quiet_ok K _ _ _ _ (quiet_typed_acc K TAG_hmtx sel_hmtx) I10 E11) as [I11 S11].
    destruct (typed_value K _ _ _ _ _ E11) as [_ V11].
    assert (F10: forall u, u <> TAG_head -> u <> TAG_maxp -> u <> TAG_loca -> u <> TAG_glyf -> st_get u s10 = st_get u s).
    { intros u N1 N2 N3 N4. subst s10. unfold ts_insert_typed, ts_insert. rewrite st_get_set.
      destruct (list_eq_dec Z.eq_dec u TAG_head); [congruence|].
      rewrite (frame_typed _ _ _ _ _ _ head_self N1 E8), (frame_typed _ _ _ _ _ _ maxp_self N2 E5). now apply prepared_other. }
    assert (Ch: contents s11 TAG_hhea = contents s TAG_hhea).
    { rewrite <- (S11 TAG_hhea). apply entry_contents, F10; discriminate. }
    assert (Cm: contents s10 TAG_hmtx = contents s TAG_hmtx) by (apply entry_contents, F10; discriminate).
    assert (L: fst (ts_get K TAG_hmtx s10) = fst (ts_get K TAG_hmtx s)).
    { apply hmtx_lookup; try assumption; [|apply entry_contents]; apply F10; discriminate. }
    assert (Hm: has_value K s TAG_maxp (LMaxp m)).
    { destruct V5 as (l & Hl & Sl). destruct l; inversion Sl; subst.
      apply (entry_value (prepared out loca s)); [|exact Hl]. apply entry_contents, prepared_other; discriminate. }
    assert (Hh: has_value K s TAG_head (LHead h)).
    { destruct V8 as (l & Hl & Sl). destruct l; inversion Sl; subst.
      apply (entry_value s5); [|exact Hl]. rewrite <- (S5 TAG_head). apply entry_contents, prepared_other; discriminate. }
    assert (Hn: Z.of_nat (length gs) < 65536).
    { unfold try_u in E7. destruct ((0 <=? Z.of_nat (length gs)) && (Z.of_nat (length gs) <? 2 ^ 16)) eqn:X; [|discriminate]. lia. }
    assert (Q: metrics_countable K s /\ (contents s' TAG_hhea = None <-> contents s TAG_hhea = None)).
    { destruct ohm as [ms|].
      2: { apply slift_ok in E as [_ ->]. rewrite Ch. split; [|tauto]. left. apply get_none in V11. congruence. }
      destruct V11 as (t & G & Sel). destruct (tb_loaded t) eqn:Et; try discriminate Sel. injection Sel as ->.
      apply sbind_ok in E as (k & s12 & E12 & E). apply slift_ok in E12 as [E12 ->].
      apply sbind_ok in E as (ohh & s13 & E13 & E). apply unwrap_s_ok in E13.
      pose proof (quiet_ok K _ _ _ _ (quiet_typed_acc K TAG_hhea sel_hhea) I11 E13) as [I13 S13].
      pose proof (typed_self K _ _ _ _ _ I11 hhea_self E13) as V13.
      rewrite L in G. destruct ohh as [hh|].
      - destruct V13 as (l & Hl & Sl). destruct l; inversion Sl; subst.
        apply (entry_value s11 s) in Hl; [|exact Ch]. split.
        + right. exists t, ms, k. repeat (split; [assumption|]). right. eauto.
        + apply smod_ok in E. subst s'. rewrite contents_typed. unfold set_of.
          destruct (list_eq_dec Z.eq_dec TAG_hhea TAG_hhea); [|congruence].
          split; [discriminate|]. intros X. destruct Hl as [Y|(d & Y & _)]; congruence.
      - rewrite Ch in V13. split.
        + right. exists t, ms, k. repeat (split; [assumption|]). now left.
        + apply slift_ok in E as [_ ->]. rewrite <- (S13 TAG_hhea), Ch. tauto. }
    split; [|apply Q]. exists out, loca, is32, m, h. repeat (split; [assumption|]). apply Q. }
  split; [|intros s' E; now apply Back]. split; [intros [s' E]; now apply Back in E|].
  intros (out & loca & is32 & m & h & Hc & Hm & Hh & Hn & Hmc).
  unfold compile_glyf_loca_maxp. rewrite Es.
  unfold sbind at 1, unwrap_s at 1. rewrite (typed_glyf s gs Hgl).
  unfold sbind at 1, slift at 1. rewrite Hc.
  unfold sbind at 1, smodify at 1. unfold sbind at 1, smodify at 1. fold (prepared out loca s).
  assert (I4: inv K (prepared out loca s)) by (apply inv_raw, inv_raw, Hi).
  destruct (typed_total K TAG_maxp sel_maxp (prepared out loca s) (LMaxp m) m I4 maxp_self) as (s5 & E5 & I5 & S5); [|reflexivity|].
  { apply (entry_value s); [|exact Hm]. symmetry. apply entry_contents, prepared_other; discriminate. }
  unfold sbind at 1, unwrap_s at 1. rewrite E5. unfold sbind at 1, slift at 1, unwrap at 1.
  unfold sbind at 1, slift at 1. unfold try_u.
  replace ((0 <=? Z.of_nat (length gs)) && (Z.of_nat (length gs) <? 2 ^ 16)) with true by lia. unfold unwrap at 1.
  destruct (typed_total K TAG_head sel_head s5 (LHead h) h I5 head_self) as (s8 & E8 & I8 & S8); [|reflexivity|].
  { apply (entry_value s); [|exact Hh]. rewrite <- (S5 TAG_head). symmetry. apply entry_contents, prepared_other; discriminate. }
  unfold sbind at 1, unwrap_s at 1. rewrite E8. unfold sbind at 1, slift at 1, unwrap at 1.
  unfold sbind at 1, smodify at 1.
  set (s10 := ts_insert_typed TAG_head _ s8).
  assert (I10: inv K s10) by (apply inv_typed; [exact I8|reflexivity]).
  assert (F10: forall u, u <> TAG_head -> u <> TAG_maxp -> u <> TAG_loca -> u <> TAG_glyf -> st_get u s10 = st_get u s).
  { intros u N1 N2 N3 N4. unfold s10, ts_insert_typed, ts_insert. rewrite st_get_set.
    destruct (list_eq_dec Z.eq_dec u TAG_head); [congruence|].
    rewrite (frame_typed _ _ _ _ _ _ head_self N1 E8), (frame_typed _ _ _ _ _ _ maxp_self N2 E5). now apply prepared_other. }
  clearbody s10. destruct Hmc as [Hmc|(t & ms & n & G & Et & En & Hhh)].
  - unfold sbind at 1, unwrap_s at 1. rewrite (typed_absent K); [unfold slift; eauto|].
    rewrite <- Hmc. apply entry_contents, F10; discriminate.
  - assert (G10: fst (ts_get K TAG_hmtx s10) = Ok (Some t)).
    { rewrite <- G. apply hmtx_lookup; try assumption; [|apply entry_contents]; apply F10; discriminate. }
    assert (E11: exists s11, typed K TAG_hmtx sel_hmtx s10 = (Ok (Some ms), s11)).
    { unfold typed, typed_by, sbind. change (get_by (des3 K) TAG_hmtx s10) with (ts_get K TAG_hmtx s10).
      destruct (ts_get K TAG_hmtx s10) as [r s11]. cbn [fst] in G10. subst r. rewrite Et. unfold slift. cbn. eauto. }
    destruct E11 as [s11 E11].
    pose proof (quiet_ok K _ _ _ _ (quiet_typed_acc K TAG_hmtx sel_hmtx) I10 E11) as [I11 S11].
    assert (Ch: contents s11 TAG_hhea = contents s TAG_hhea).
    { rewrite <- (S11 TAG_hhea). apply entry_contents, F10; discriminate. }
    unfold sbind at 1, unwrap_s at 1. rewrite E11. unfold sbind at 1, slift at 1. rewrite En.
    unfold sbind at 1, unwrap_s at 1. destruct Hhh as [Hhh|[hh Hhh]].
    + rewrite (typed_absent K) by congruence. unfold slift. eauto.
    + destruct (typed_total K TAG_hhea sel_hhea s11 (LHhea hh) hh I11 hhea_self) as (s13 & E13 & _); [|reflexivity|].
      { apply (entry_value s); [now symmetry|exact Hhh]. }
      rewrite E13. unfold smodify. eauto.
Qed.

Lemma savable_glyf_iff v s gs : good_store K s -> contents s TAG_glyf = Some (Typed (LGlyf gs)) ->
  (exists file s', font_write K v s = (Ok file, s')) <->
  exists m h out loca is32, has_value K s TAG_maxp (LMaxp m) /\ has_value K s TAG_head (LHead h) /\
    compile_glyf gs = Ok (out, loca, is32) /\ Z.of_nat (length gs) < 65536 /\ metrics_countable K s /\
    all_written K (num_glyphs m) s (fun t => ~ In t [TAG_glyf; TAG_loca; TAG_head]) /\
    Z.of_nat (length s) + gains_loca s < 4096.
Proof.
  intros Hg Hgl. pose proof (good_inv K _ Hg) as Hi.
  destruct (compile_iff s gs Hi Hgl) as [Hc Hhh].
  assert (R: rebuilds s).
  { split; [congruence|]. exists TAG_glyf, (LGlyf gs). split; [now left|exact Hgl]. }
  assert (Key: forall s1, compile_glyf_loca_maxp K s = (Ok tt, s1) ->
    inv K s1 /\ printables s1 /\ Z.of_nat (length s1) = Z.of_nat (length s) + gains_loca s /\
    contents s1 TAG_maxp = contents s TAG_maxp /\
    forall n, all_written K n s1 (fun _ => True) <-> all_written K n s (fun t => ~ In t [TAG_glyf; TAG_loca; TAG_head])).
  { intros s1 E. destruct (compile_spec K _ _ Hi E) as [I1 [[N _]|(_ & gs' & out & loca & is32 & h & _ & _ & Hv1 & _ & A & B & C & D & O)]]; [now destruct N|].
    specialize (Hhh _ E).
    assert (Hd0: contents s TAG_head <> None) by (destruct Hv1 as [X|(d & X & _)]; congruence).
    assert (Pr: printables s1).
    { intros t Ht. pose proof (good_printable K _ Hg) as P. destruct (tag_in t [TAG_glyf; TAG_loca; TAG_head; TAG_hhea]) eqn:Et.
      - apply tag_in_iff in Et. destruct Et as [<-|[<-|[<-|[<-|[]]]]]; split; try reflexivity; repeat constructor; cbn; discriminate.
      - apply P. rewrite <- O; [exact Ht|]. intros Y. apply tag_in_iff in Y. congruence. }
    assert (Len: Z.of_nat (length s1) = Z.of_nat (length s) + gains_loca s).
    { set (s0 := match contents s TAG_loca with None => ts_insert_raw TAG_loca [] s | Some _ => s end).
      assert (I0: inv K s0) by (unfold s0; destruct (contents s TAG_loca); [exact Hi|now apply inv_raw]).
      assert (Hk: map fst s1 = map fst s0).
      { apply same_keys; try assumption. intros t.
        assert (X: contents s0 t <> None <-> (t = TAG_loca \/ contents s t <> None)).
        { unfold s0. destruct (contents s TAG_loca) eqn:El.
          - split; [now right|]. intros [->|Y]; [congruence|exact Y].
          - rewrite contents_raw. unfold set_of. destruct (list_eq_dec Z.eq_dec t TAG_loca); [|tauto].
            split; [now left|discriminate]. }
        rewrite X. destruct (tag_in t [TAG_glyf; TAG_loca; TAG_head; TAG_hhea]) eqn:Et.
        - apply tag_in_iff in Et. destruct Et as [<-|[<-|[<-|[<-|[]]]]].
          + rewrite A, Hgl. split; [now right|discriminate].
          + rewrite B. split; [now left|discriminate].
          + rewrite C. split; [now right|discriminate].
          + split; [intros Y; right; tauto|]. intros [Y|Y]; [discriminate|tauto].
        - rewrite O by (intros Y; apply tag_in_iff in Y; congruence). split; [now right|].
          intros [->|Y]; [discriminate Et|exact Y]. }
      apply (f_equal (@length _)) in Hk. rewrite !map_length in Hk. rewrite Hk. unfold s0, gains_loca.
      destruct (contents s TAG_loca) eqn:El; [lia|].
      assert (Gl: forall m : store T, contents m TAG_loca = None -> Z.of_nat (length (ts_insert_raw TAG_loca [] m)) = Z.of_nat (length m) + 1).
      { clear. unfold ts_insert_raw, st_set, contents. induction m as [|[k i] m IH]; [reflexivity|].
        cbn [bm_get bm_insert]. destruct (lex_ltb TAG_loca k) eqn:E1; [cbn [List.length]; lia|].
        destruct (lex_ltb k TAG_loca) eqn:E2; cbn [orb]; [|discriminate]. intros H. cbn [List.length]. specialize (IH H). lia. }
      now apply Gl. }
    assert (Cm: contents s1 TAG_maxp = contents s TAG_maxp).
    { apply O. intros X. apply tag_in_iff in X. discriminate. }
    repeat (split; [assumption|]). intros n. split.
    - intros W t c Ht Hct. destruct (list_eq_dec Z.eq_dec t TAG_hhea) as [->|N].
      + destruct c as [d|l]; [exists d; split; [reflexivity|discriminate]|].
        pose proof (kinds _ _ _ Hi Hct) as Rk. cbn [bytes_for]. change (tag_in TAG_hhea [TAG_GPOS; TAG_GSUB]) with false. cbv iota.
        destruct l; cbn [right_kind] in Rk; try discriminate Rk.
        * eexists. split; [reflexivity|discriminate].
        * destruct Rk as [_ Rk]. apply tag_in_iff in Rk. discriminate.
        * exfalso. apply Rk. cbn. tauto.
      + apply (W t c I). rewrite O; [exact Hct|]. intros Y. apply Ht. cbn in Y |- *. intuition congruence.
    - intros W t c _ Hct. destruct (tag_in t [TAG_glyf; TAG_loca; TAG_head; TAG_hhea]) eqn:Et.
      + apply tag_in_iff in Et. destruct Et as [<-|[<-|[<-|[<-|[]]]]].
        * rewrite A in Hct. injection Hct as <-. eexists. split; [reflexivity|discriminate].
        * rewrite B in Hct. injection Hct as <-. eexists. split; [reflexivity|discriminate].
        * rewrite C in Hct. injection Hct as <-. eexists. split; [reflexivity|]. intros _. 
          match goal with |- (_ <= length (ser_head_tbl ?x))%nat => idtac end. apply head_long.
        * destruct c as [d|l]; [exists d; split; [reflexivity|discriminate]|].
          pose proof (kinds _ _ _ I1 Hct) as Rk. cbn [bytes_for]. change (tag_in TAG_hhea [TAG_GPOS; TAG_GSUB]) with false. cbv iota.
          destruct l; cbn [right_kind] in Rk; try discriminate Rk.
          -- eexists. split; [reflexivity|discriminate].
          -- destruct Rk as [_ Rk]. apply tag_in_iff in Rk. discriminate.
          -- exfalso. apply Rk. cbn. tauto.
      + apply (W t c).
        * intros Y. assert (Z0: tag_in t [TAG_glyf; TAG_loca; TAG_head; TAG_hhea] = true) by (apply tag_in_iff; cbn in Y |- *; tauto). congruence.
        * rewrite <- O; [exact Hct|]. intros Y. apply tag_in_iff in Y. congruence. }
  unfold font_write. fold (finish v). split.
  - intros (file & s' & E). apply sbind_ok in E as ([] & s1 & E1 & E2).
    destruct (Key s1 E1) as (I1 & Pr & Len & Cm & Wr).
    destruct (proj1 Hc (ex_intro _ s1 E1)) as (out & loca & is32 & m & h & Ec & Hm & Hh & Hn & Hmc).
    destruct (proj1 (finish_iff v s1 I1 Pr)) as (m' & Hm' & Hw & Hl); [eauto|].
    apply (entry_value s1 s) in Hm'; [|exact Cm].
    assert (m' = m) as ->.
    { unfold has_value in *. destruct Hm as [A|(d & A & B)], Hm' as [A'|(d' & A' & B')]; congruence. }
    exists m, h, out, loca, is32. repeat (split; [assumption|]). split; [now apply Wr|lia].
  - intros (m & h & out & loca & is32 & Hm & Hh & Ec & Hn & Hmc & Hw & Hl).
    destruct (proj2 Hc) as [s1 E1]; [exists out, loca, is32, m, h; tauto|].
    destruct (Key s1 E1) as (I1 & Pr & Len & Cm & Wr).
    destruct (proj2 (finish_iff v s1 I1 Pr)) as (file & s' & E).
    { exists m. split; [apply (entry_value s); [now symmetry|exact Hm]|]. split; [now apply Wr|lia]. }
    exists file, s'. unfold sbind at 1. rewrite E1. exact E.
Qed.
End Savable.

(** Saving a table set. *)
From Coq Require Import Sorted.
From Verif.Proofs Require Import PBase PTag PMap PFont PStore.
From Verif.Model Require Import MTag MMap MFont MTables MMetrics MGlyph MGlyf MStore.
From Verif.Spec Require Import SBase SReader SFont SStore.

Section Save.
Context {T : Type} (K : codecs T).
Implicit Types (s : store T).

Lemma unwrap_s_ok {A} (x : sop A) s a s' : @unwrap_s T A x s = (Ok a, s') -> x s = (Ok a, s').
Proof. unfold unwrap_s. destruct (x s) as [[b| |] s1]; congruence. Qed.
Lemma quiet_typed_acc {A} tag (sel : loaded T -> option A) : quiet K (typed K tag sel).
Proof. apply quiet_typed, des3_ok. Qed.
Lemma quiet_ok {A} (x : sop A) s a s' : quiet K x -> inv K s -> x s = (Ok a, s') -> inv K s' /\ same s s'.
Proof. intros Hq Hi E. specialize (Hq s Hi). now rewrite E in Hq. Qed.

(** The value returned by a typed accessor is that of the table itself. *)
Lemma typed_value {A} tag (sel : loaded T -> option A) s o s' : typed K tag sel s = (Ok o, s') ->
  rmap (option_map tb_loaded) (fst (ts_get K tag s)) = Ok match o with None => None | Some _ =>
     match fst (ts_get K tag s) with Ok (Some t) => Some (tb_loaded t) | _ => None end end /\
  match o with
  | None => fst (ts_get K tag s) = Ok None
  | Some a => exists t, fst (ts_get K tag s) = Ok (Some t) /\ sel (tb_loaded t) = Some a
  end.
Proof.
  unfold typed, typed_by, sbind. change (get_by (des3 K) tag s) with (ts_get K tag s).
  destruct (ts_get K tag s) as [[[t|]| |] s1]; cbn [fst rmap option_map]; try discriminate.
  - destruct (sel (tb_loaded t)) eqn:E; unfold slift; [|discriminate]. intros [= <- <-]. split; [reflexivity|]. eauto.
  - unfold slift. intros [= <- <-]. auto.
Qed.

Lemma get_none tag s : fst (ts_get K tag s) = Ok None -> contents s tag = None.
Proof.
  unfold ts_get, get_by, load_by, contents. change (get tag s) with (st_get tag s).
  destruct (st_get tag s) as [[d|t]|] eqn:E; [| |reflexivity].
  - destruct (des3 K tag d s) as [[l| |] s1]; cbn [fst]; try discriminate.
    rewrite st_get_set. destruct (list_eq_dec Z.eq_dec tag tag); [discriminate|congruence].
  - rewrite E. discriminate.
Qed.
Lemma get_some tag s t : fst (ts_get K tag s) = Ok (Some t) -> contents s tag <> None.
Proof.
  unfold ts_get, get_by, load_by, contents. change (get tag s) with (st_get tag s).
  destruct (st_get tag s) as [[d|t']|] eqn:E; try (intros; discriminate). rewrite E. discriminate.
Qed.
Lemma get_typed tag s l t : contents s tag = Some (Typed l) -> fst (ts_get K tag s) = Ok (Some t) -> tb_loaded t = l.
Proof.
  unfold ts_get, get_by, load_by, contents. change (get tag s) with (st_get tag s).
  destruct (st_get tag s) as [[d|t']|] eqn:E; try discriminate. rewrite E. cbn [option_map content_of fst].
  destruct (tb_raw t'); [discriminate|]. intros [= <-] [= <-]. reflexivity.
Qed.

Lemma typed_self {A} tag (sel : loaded T -> option A) s o s' : inv K s -> self_contained tag ->
  typed K tag sel s = (Ok o, s') ->
  match o with
  | None => contents s tag = None
  | Some a => exists l, has_value K s tag l /\ sel l = Some a
  end.
Proof.
  intros Hi Hs E. pose proof (lookup_self K tag s Hi Hs) as L. destruct (typed_value tag sel s o s' E) as [_ V].
  destruct o as [a|].
  - destruct V as (t & G & Hsel). rewrite G in L. cbn [rmap option_map] in L. exists (tb_loaded t). split; [|exact Hsel].
    unfold has_value. destruct (contents s tag) as [[d|l]|]; [|left; congruence|discriminate].
    right. exists d. split; [reflexivity|]. destruct (des0 K tag d); inversion L. reflexivity.
  - now apply get_none.
Qed.

Lemma serialized_iff tag s : serialized tag s = false <-> exists l, contents s tag = Some (Typed l).
Proof.
  unfold serialized, contents. change (get tag s) with (st_get tag s).
  destruct (st_get tag s) as [[d|t]|]; cbn [option_map content_of].
  - split; [discriminate|]. intros [l H]. discriminate.
  - destruct (tb_raw t); split; try discriminate.
    + intros [l' H]. discriminate.
    + intros _. eauto.
    + reflexivity.
  - split; [discriminate|]. intros [l H]. discriminate.
Qed.

Lemma head_self : self_contained TAG_head. Proof. apply not_dep. reflexivity. Qed.
Lemma hhea_self : self_contained TAG_hhea. Proof. apply not_dep. reflexivity. Qed.
Lemma maxp_self : self_contained TAG_maxp. Proof. apply not_dep. reflexivity. Qed.

Lemma smod_ok (f : store T -> store T) s a s' : smodify f s = (Ok a, s') -> s' = f s.
Proof. unfold smodify. now intros [= _ <-]. Qed.
Lemma unwrap_ok {A} (o : option A) a : unwrap o = Ok a -> o = Some a.
Proof. destruct o; cbn; congruence. Qed.

Definition set_of {A} (m : list Z -> A) tag (a : A) : list Z -> A :=
  fun t => if list_eq_dec Z.eq_dec t tag then a else m t.

Lemma contents_raw s tag d t : contents (ts_insert_raw tag d s) t = set_of (contents s) tag (Some (Raw d)) t.
Proof. unfold ts_insert_raw, set_of. now rewrite contents_set. Qed.
Lemma contents_typed s tag l t : contents (ts_insert_typed tag l s) t = set_of (contents s) tag (Some (Typed l)) t.
Proof. unfold ts_insert_typed, ts_insert, set_of. now rewrite contents_set. Qed.
Lemma inv_raw s tag d : inv K s -> inv K (ts_insert_raw tag d s).
Proof. intros H. apply inv_set; [exact H|]. discriminate. Qed.
Lemma inv_typed s tag l : inv K s -> right_kind tag l -> inv K (ts_insert_typed tag l s).
Proof. intros H Hk. apply inv_set; [exact H|]. intros t [= <-]. split; [exact Hk|]. discriminate. Qed.

Lemma rebuilds_dec s : rebuilds s \/ ~ rebuilds s.
Proof.
  unfold rebuilds. destruct (contents s TAG_glyf) eqn:E; [|right; intros [H _]; congruence].
  destruct (serialized TAG_glyf s) eqn:E1, (serialized TAG_loca s) eqn:E2, (serialized TAG_maxp s) eqn:E3;
   try (left; split; [discriminate|]; apply serialized_iff in E1 as [l Hl]; exists TAG_glyf, l; split; [now left|exact Hl]);
   try (left; split; [discriminate|]; apply serialized_iff in E2 as [l Hl]; exists TAG_loca, l; split; [right; now left|exact Hl]);
   try (left; split; [discriminate|]; apply serialized_iff in E3 as [l Hl]; exists TAG_maxp, l; split; [do 2 right; now left|exact Hl]).
  right. intros [_ (tag & l & Hi & Hc)].
  assert (serialized tag s = false) by (apply serialized_iff; eauto).
  destruct Hi as [<-|[<-|[<-|[]]]]; congruence.
Qed.

Definition sel_eq {A} (sel : loaded T -> option A) (f : A -> loaded T) := forall l a, sel l = Some a -> l = f a.

(** The outcome of rebuilding. *)
Lemma compile_spec s s' : inv K s -> compile_glyf_loca_maxp K s = (Ok tt, s') -> inv K s' /\
  ((~ rebuilds s /\ same s s') \/
   (rebuilds s /\ exists gs out loca is32 h,
      (forall l, contents s TAG_glyf = Some (Typed l) -> l = LGlyf gs) /\
      compile_glyf gs = Ok (out, loca, is32) /\ has_value K s TAG_head (LHead h) /\ contents s TAG_maxp <> None /\
      contents s' TAG_glyf = Some (Raw out) /\ contents s' TAG_loca = Some (Raw loca) /\
      contents s' TAG_head = Some (Typed (LHead (set_loc_format h (if is32 : bool then 1 else 0)))) /\
      (contents s TAG_hmtx = None -> contents s' TAG_hhea = contents s TAG_hhea) /\
      (forall t, ~ In t [TAG_glyf; TAG_loca; TAG_head; TAG_hhea] -> contents s' t = contents s t))).
Proof.
  intros Hi E. unfold compile_glyf_loca_maxp in E.
  destruct (serialized TAG_glyf s && serialized TAG_loca s && serialized TAG_maxp s) eqn:Es.
  { injection E as <-. split; [exact Hi|]. left. split; [|apply same_refl].
    intros [_ (tag & l & Hin & Hc)]. assert (serialized tag s = false) by (apply serialized_iff; eauto).
    apply andb_true_iff in Es as [Es E3]. apply andb_true_iff in Es as [E1 E2].
    destruct Hin as [<-|[<-|[<-|[]]]]; congruence. }
  apply sbind_ok in E as (o & s1 & E1 & E). apply unwrap_s_ok in E1.
  pose proof (quiet_ok _ _ _ _ (quiet_typed_acc TAG_glyf sel_glyf) Hi E1) as [I1 S1].
  destruct (typed_value _ _ _ _ _ E1) as [_ V1]. destruct o as [gs|].
  2: { apply slift_ok in E as [_ ->]. split; [exact I1|]. left. split; [|exact S1].
       intros [Hg _]. now apply get_none in V1. }
  destruct V1 as (tg & G1 & Sel1).
  assert (R: rebuilds s).
  { destruct (rebuilds_dec s) as [R|N]; [exact R|]. exfalso. apply N. split; [now apply get_some in G1|].
    apply andb_false_iff in Es as [Es|Es]; [apply andb_false_iff in Es as [Es|Es]|];
      apply serialized_iff in Es as [l Hl].
    - exists TAG_glyf, l. split; [now left|exact Hl].
    - exists TAG_loca, l. split; [right; now left|exact Hl].
    - exists TAG_maxp, l. split; [do 2 right; now left|exact Hl]. }
  apply sbind_ok in E as ([[out loca] is32] & s2 & E2 & E). apply slift_ok in E2 as [Ec ->].
  apply sbind_ok in E as ([] & s3 & E3 & E). apply smod_ok in E3. subst s3.
  apply sbind_ok in E as ([] & s4 & E4 & E). apply smod_ok in E4. subst s4.
  apply sbind_ok in E as (om & s5 & E5 & E). apply unwrap_s_ok in E5.
  set (s4 := ts_insert_raw TAG_loca loca (ts_insert_raw TAG_glyf out s1)) in E5.
  assert (I4: inv K s4) by (apply inv_raw, inv_raw, I1).
  pose proof (quiet_ok _ _ _ _ (quiet_typed_acc TAG_maxp sel_maxp) I4 E5) as [I5 S5].
  pose proof (typed_self _ _ _ _ _ I4 maxp_self E5) as V5.
  apply sbind_ok in E as (m & s6 & E6 & E). apply slift_ok in E6 as [E6 ->]. apply unwrap_ok in E6. subst om.
  apply sbind_ok in E as (n & s7 & E7 & E). apply slift_ok in E7 as [_ ->].
  apply sbind_ok in E as (oh & s8 & E8 & E). apply unwrap_s_ok in E8.
  pose proof (quiet_ok _ _ _ _ (quiet_typed_acc TAG_head sel_head) I5 E8) as [I8 S8].
  pose proof (typed_self _ _ _ _ _ I5 head_self E8) as V8.
  apply sbind_ok in E as (h & s9 & E9 & E). apply slift_ok in E9 as [E9 ->]. apply unwrap_ok in E9. subst oh.
  apply sbind_ok in E as ([] & s10 & E10 & E). apply smod_ok in E10.
  set (nh := LHead (set_loc_format h (if is32 then 1 else 0))) in E10.
  assert (I10: inv K s10) by (subst s10; apply inv_typed; [exact I8|reflexivity]).
  apply sbind_ok in E as (ohm & s11 & E11 & E). apply unwrap_s_ok in E11.
  pose proof (quiet_ok _ _ _ _ (quiet_typed_acc TAG_hmtx sel_hmtx) I10 E11) as [I11 S11].
  destruct (typed_value _ _ _ _ _ E11) as [_ V11].
  (* contents after the head insertion *)
  assert (C4: forall t, contents s4 t = set_of (set_of (contents s) TAG_glyf (Some (Raw out))) TAG_loca (Some (Raw loca)) t).
  { intros t. unfold s4. rewrite contents_raw. unfold set_of at 1 2. rewrite contents_raw. unfold set_of. rewrite (S1 t). reflexivity. }
  assert (C11: forall t, contents s11 t = set_of (contents s4) TAG_head (Some (Typed nh)) t).
  { intros t. rewrite <- (S11 t). subst s10. rewrite contents_typed. unfold set_of. now rewrite <- (S8 t), <- (S5 t). }
  assert (Hv: has_value K s TAG_head (LHead h)).
  { destruct V8 as (l & Hl & Sl). destruct l; inversion Sl; subst.
    assert (X: contents s5 TAG_head = contents s TAG_head) by (rewrite <- (S5 TAG_head), C4; reflexivity).
    unfold has_value in *. now rewrite X in Hl. }
  assert (Hm: contents s TAG_maxp <> None).
  { destruct V5 as (l & Hl & _). intros X.
    assert (Y: contents s4 TAG_maxp = contents s TAG_maxp) by (rewrite C4; reflexivity).
    unfold has_value in Hl. rewrite Y, X in Hl. destruct Hl as [?|(d & ? & _)]; discriminate. }
  assert (Hgs: forall l, contents s TAG_glyf = Some (Typed l) -> l = LGlyf gs).
  { intros l Hl. apply (get_typed _ _ _ _ Hl) in G1. subst l.
    destruct (tb_loaded tg); cbn in Sel1; try discriminate. now injection Sel1 as ->. }
  assert (Oth: forall sf, (forall t, t <> TAG_hhea -> contents sf t = contents s11 t) ->
     contents sf TAG_glyf = Some (Raw out) /\ contents sf TAG_loca = Some (Raw loca) /\ contents sf TAG_head = Some (Typed nh) /\
     (forall t, ~ In t [TAG_glyf; TAG_loca; TAG_head; TAG_hhea] -> contents sf t = contents s t)).
  { intros sf Hsf. repeat split.
    1-3: rewrite Hsf by discriminate; rewrite C11; unfold set_of; cbn [list_eq_dec]; try rewrite C4; reflexivity.
    intros t Ht. rewrite Hsf by (intros ->; apply Ht; cbn; tauto). rewrite C11. unfold set_of at 1.
    destruct (list_eq_dec Z.eq_dec t TAG_head) as [->|]; [exfalso; apply Ht; cbn; tauto|]. rewrite C4. unfold set_of.
    destruct (list_eq_dec Z.eq_dec t TAG_loca) as [->|]; [exfalso; apply Ht; cbn; tauto|].
    destruct (list_eq_dec Z.eq_dec t TAG_glyf) as [->|]; [exfalso; apply Ht; cbn; tauto|]. reflexivity. }
  assert (Chh: contents s11 TAG_hhea = contents s TAG_hhea) by (rewrite C11; unfold set_of; cbn; now rewrite C4).
  assert (Chm: contents s10 TAG_hmtx = contents s TAG_hmtx) by (rewrite (S11 TAG_hmtx), C11; unfold set_of; cbn; now rewrite C4).
  assert (Fin: forall sf, inv K sf -> (forall t, t <> TAG_hhea -> contents sf t = contents s11 t) ->
     (contents s TAG_hmtx = None -> contents sf TAG_hhea = contents s TAG_hhea) ->
     inv K sf /\ ((~ rebuilds s /\ same s sf) \/ (rebuilds s /\ exists gs out loca is32 h,
      (forall l, contents s TAG_glyf = Some (Typed l) -> l = LGlyf gs) /\
      compile_glyf gs = Ok (out, loca, is32) /\ has_value K s TAG_head (LHead h) /\ contents s TAG_maxp <> None /\
      contents sf TAG_glyf = Some (Raw out) /\ contents sf TAG_loca = Some (Raw loca) /\
      contents sf TAG_head = Some (Typed (LHead (set_loc_format h (if is32 : bool then 1 else 0)))) /\
      (contents s TAG_hmtx = None -> contents sf TAG_hhea = contents s TAG_hhea) /\
      (forall t, ~ In t [TAG_glyf; TAG_loca; TAG_head; TAG_hhea] -> contents sf t = contents s t)))).
  { intros sf If Hsf Hh. destruct (Oth sf Hsf) as (A & B & C & D). split; [exact If|]. right. split; [exact R|].
    exists gs, out, loca, is32, h. repeat (split; [assumption|]). assumption. }
  destruct ohm as [ms|].
  2: { apply slift_ok in E as [_ ->]. apply Fin; [exact I11|auto|]. intros _. exact Chh. }
  destruct V11 as (tm & G11 & _).
  assert (Hne: contents s TAG_hmtx <> None) by (rewrite <- Chm; now apply get_some in G11).
  apply sbind_ok in E as (k & s12 & E12 & E). apply slift_ok in E12 as [_ ->].
  apply sbind_ok in E as (ohh & s13 & E13 & E). apply unwrap_s_ok in E13.
  pose proof (quiet_ok _ _ _ _ (quiet_typed_acc TAG_hhea sel_hhea) I11 E13) as [I13 S13].
  destruct ohh as [hh|].
  - apply smod_ok in E. subst s'. apply Fin.
    + apply inv_typed; [exact I13|reflexivity].
    + intros t Ht. rewrite contents_typed. unfold set_of. destruct (list_eq_dec Z.eq_dec t TAG_hhea); [congruence|].
      symmetry. apply S13.
    + congruence.
  - apply slift_ok in E as [_ ->]. apply Fin; [exact I13| |congruence]. intros t _. symmetry. apply S13.
Qed.

Lemma layout_spec tag n s s' : inv K s -> compile_layout K tag n s = (Ok tt, s') -> inv K s' /\
  (forall t, t <> tag -> contents s' t = contents s t) /\
  (match contents s tag with
   | Some (Typed l) => exists x d, sel_other l = Some x /\ ser_layout K tag x n = Ok d /\ contents s' tag = Some (Raw d)
   | c => contents s' tag = c
   end).
Proof.
  intros Hi E. unfold compile_layout in E. destruct (serialized tag s) eqn:Es.
  - injection E as <-. split; [exact Hi|]. split; [reflexivity|].
    destruct (contents s tag) as [[d|l]|] eqn:Ec; try reflexivity.
    assert (serialized tag s = false) by (apply serialized_iff; eauto). congruence.
  - apply serialized_iff in Es as [l Hl]. rewrite Hl.
    apply sbind_ok in E as (o & s1 & E1 & E). apply unwrap_s_ok in E1.
    pose proof (quiet_ok _ _ _ _ (quiet_typed_acc tag sel_other) Hi E1) as [I1 S1].
    destruct (typed_value _ _ _ _ _ E1) as [_ V1]. destruct o as [x|].
    + destruct V1 as (t & G & Sx). apply sbind_ok in E as (d & s2 & E2 & E). apply slift_ok in E2 as [E2 ->]. apply smod_ok in E. subst s'. split; [now apply inv_raw|]. split.
      * intros u Hu. rewrite contents_raw. unfold set_of. destruct (list_eq_dec Z.eq_dec u tag); [congruence|]. symmetry. apply S1.
      * exists x, d. rewrite (get_typed _ _ _ _ Hl G) in Sx. split; [exact Sx|]. split; [exact E2|]. rewrite contents_raw. unfold set_of.
        destruct (list_eq_dec Z.eq_dec tag tag); congruence.
    + exfalso. apply get_none in V1. congruence.
Qed.

Lemma gsub_gpos_spec s s' : inv K s -> compile_gsub_gpos K s = (Ok tt, s') -> inv K s' /\
  (forall t, ~ In t [TAG_GPOS; TAG_GSUB] -> contents s' t = contents s t) /\
  (forall t d, contents s t = Some (Raw d) -> contents s' t = Some (Raw d)) /\
  exists m, has_value K s TAG_maxp (LMaxp m) /\
    forall t l, In t [TAG_GPOS; TAG_GSUB] -> contents s t = Some (Typed l) ->
      exists x d, sel_other l = Some x /\ ser_layout K t x (num_glyphs m) = Ok d /\ contents s' t = Some (Raw d).
Proof.
  intros Hi E. unfold compile_gsub_gpos in E.
  apply sbind_ok in E as (om & s1 & E1 & E). apply unwrap_s_ok in E1.
  pose proof (quiet_ok _ _ _ _ (quiet_typed_acc TAG_maxp sel_maxp) Hi E1) as [I1 S1].
  pose proof (typed_self _ _ _ _ _ Hi maxp_self E1) as V1.
  apply sbind_ok in E as (m & s2 & E2 & E). apply slift_ok in E2 as [E2 ->]. apply unwrap_ok in E2. subst om.
  apply sbind_ok in E as ([] & s3 & E3 & E).
  destruct (layout_spec _ _ _ _ I1 E3) as (I3 & O3 & P3).
  destruct (layout_spec _ _ _ _ I3 E) as (I4 & O4 & P4).
  assert (X3: contents s3 TAG_GSUB = contents s TAG_GSUB) by (rewrite O3 by discriminate; symmetry; apply S1).
  assert (X4: contents s' TAG_GPOS = contents s3 TAG_GPOS) by (apply O4; discriminate).
  rewrite <- (S1 TAG_GPOS) in P3. rewrite X3 in P4.
  split; [exact I4|]. split; [|split].
  - intros t Ht. rewrite O4, O3; [symmetry; apply S1| |]; intros ->; apply Ht; cbn; tauto.
  - intros t d Hd. destruct (list_eq_dec Z.eq_dec t TAG_GSUB) as [->|N1]; [now rewrite Hd in P4|].
    rewrite O4 by exact N1. destruct (list_eq_dec Z.eq_dec t TAG_GPOS) as [->|N2]; [now rewrite Hd in P3|].
    rewrite O3 by exact N2. rewrite <- (S1 t). exact Hd.
  - exists m. split.
    + destruct V1 as (l & Hl & Sl). destruct l; inversion Sl; now subst.
    + intros t l [<-|[<-|[]]] Hl.
      * rewrite Hl in P3. destruct P3 as (x & d & A & B & C). exists x, d. split; [exact A|]. split; [exact B|]. now rewrite X4.
      * rewrite Hl in P4. exact P4.
Qed.

Lemma write_item_content i : write_item K i = written K (content_of i).
Proof. destruct i as [d|t]; cbn; [reflexivity|]. now destruct (tb_raw t). Qed.

(** The tables written to the file. *)
Lemma write_tables_ok tabs pos hp out ot r : write_tables tabs pos hp out ot = Ok r ->
  exists tabs', tabs = map (fun td => (fst td, Ok (snd td))) tabs'.
Proof.
  revert pos hp out ot. induction tabs as [|[t w] tabs IH]; intros pos hp out ot; cbn [write_tables]; [exists []; reflexivity|].
  destruct w as [d| |]; cbn [rbind]; try discriminate.
  destruct (bytes_eqb t TAG_head).
  - destruct (splice d 8 [0; 0; 0; 0]) as [d'| |]; cbn [rbind]; try discriminate. intros H. apply IH in H as [tabs' ->].
    exists ((t, d) :: tabs'). reflexivity.
  - cbn [rbind]. intros H. apply IH in H as [tabs' ->]. exists ((t, d) :: tabs'). reflexivity.
Qed.
Lemma font_to_bytes_written v tabs file : font_to_bytes v tabs = Ok file ->
  exists tabs', tabs = map (fun td => (fst td, Ok (snd td))) tabs'.
Proof.
  unfold font_to_bytes. destruct (try_u 16 _); cbn [unwrap rbind]; try discriminate.
  destruct (get_search_range z 16) as [[[? ?] ?]| |]; cbn [rbind]; try discriminate.
  destruct (write_tables _ _ _ _ _) as [[[? ?] ?]| |] eqn:E; cbn [rbind]; try discriminate.
  intros _. now apply write_tables_ok in E.
Qed.

Lemma font_write_spec v s file s' : inv K s -> font_write K v s = (Ok file, s') ->
  exists s1 tabs, compile_glyf_loca_maxp K s = (Ok tt, s1) /\ compile_gsub_gpos K s1 = (Ok tt, s') /\
    inv K s1 /\ inv K s' /\
    font_to_bytes v (map (fun td => (fst td, Ok (snd td))) tabs) = Ok file /\
    sorted_map lex_ltb tabs /\
    (forall t, bm_get lex_ltb t tabs <> None <-> contents s' t <> None) /\
    (forall t c, contents s' t = Some c -> exists d, written K c = Ok d /\ bm_get lex_ltb t tabs = Some d) /\
    (forall t d, In (t, d) tabs -> exists c, contents s' t = Some c /\ written K c = Ok d) /\
    map fst tabs = map fst s'.
Proof.
  intros Hi E. unfold font_write in E.
  apply sbind_ok in E as ([] & s1 & E1 & E). apply sbind_ok in E as ([] & s2 & E2 & E).
  injection E as E <-. destruct (compile_spec _ _ Hi E1) as [I1 _].
  destruct (gsub_gpos_spec _ _ I1 E2) as [I2 _].
  destruct (font_to_bytes_written _ _ _ E) as [tabs Ht]. rewrite Ht in E.
  assert (Hf: map fst tabs = map fst s2).
  { apply (f_equal (map fst)) in Ht. rewrite !map_map in Ht. cbn [fst] in Ht. symmetry. exact Ht. }
  assert (Hs: sorted_map lex_ltb tabs) by (unfold sorted_map; rewrite Hf; apply I2).
  assert (Hg: forall t, bm_get lex_ltb t tabs =
     match get t s2 with Some i => match write_item K i with Ok d => Some d | _ => None end | None => None end).
  { intros t. clear - Ht. revert tabs Ht. induction s2 as [|[k i] s2 IH]; intros [|[k' d] tabs] Ht; try discriminate; [reflexivity|].
    cbn [map fst snd] in Ht. injection Ht as -> Hw Ht. cbn [bm_get].
    destruct (lex_ltb t k' || lex_ltb k' t); [now apply IH|]. now rewrite Hw. }
  assert (Hw: forall t i, get t s2 = Some i -> exists d, write_item K i = Ok d).
  { intros t i Hti. apply get_In in Hti; [|apply lex_strict].
    assert (Hin: In (t, write_item K i) (map (fun td => (fst td, Ok (snd td))) tabs)).
    { rewrite <- Ht. apply in_map_iff. exists (t, i). auto. }
    apply in_map_iff in Hin as ([t' d] & [= _ Hd] & _). exists d. now rewrite <- Hd. }
  exists s1, tabs. repeat (split; [assumption|]). split; [|split; [|split]].
  - intros t. rewrite Hg. unfold contents. destruct (get t s2) as [i|] eqn:Ei; [|tauto].
    destruct (Hw t i Ei) as [d Hd]. rewrite Hd. cbn. split; discriminate.
  - intros t c Hc. unfold contents in Hc. rewrite Hg. destruct (get t s2) as [i|] eqn:Ei; [|discriminate].
    destruct (Hw t i Ei) as [d Hd]. injection Hc as <-. exists d. rewrite <- write_item_content, Hd. auto.
  - intros t d Hin. apply (In_get lex_ltb lex_strict _ _ _ Hs) in Hin. rewrite Hg in Hin. unfold contents.
    destruct (get t s2) as [i|] eqn:Ei; [|discriminate]. exists (content_of i). split; [reflexivity|].
    rewrite <- write_item_content. destruct (write_item K i); congruence.
  - exact Hf.
Qed.

(** ** Well-formedness *)
Lemma good_inv s : good_store K s -> inv K s.
Proof.
  intros [Hs Hf]. split; [now apply sorted_increasing|]. intros tag t Hg.
  apply get_In in Hg; [|apply lex_strict]. rewrite Forall_forall in Hf. apply Hf in Hg. apply Hg.
Qed.
Definition printable_keys s : Prop := forall t, contents s t <> None -> printable_tag t.
Lemma good_printable s : good_store K s -> printable_keys s.
Proof.
  intros [_ Hf] t Ht. apply keys_iff in Ht. apply in_map_iff in Ht as (x & <- & Hx).
  rewrite Forall_forall in Hf. now apply Hf.
Qed.
Lemma inv_good s : inv K s -> printable_keys s -> good_store K s.
Proof.
  intros [Hs Hg] Hp. split; [now apply sorted_increasing|]. apply Forall_forall. intros [t i] Hin.
  pose proof (In_get lex_ltb lex_strict _ _ _ Hs Hin) as G. cbn [fst snd]. split.
  - apply Hp. unfold contents. now rewrite G.
  - destruct i; [exact I|]. now apply Hg.
Qed.
Lemma run_good ops : forall s, good_store K s -> Forall (op_ok K) ops ->
  good_store K (snd (run K ops s)) /\
  forall t, contents (snd (run K ops s)) t = fold_left (fun m o => spec_step o m) ops (contents s) t.
Proof.
  induction ops as [|o ops IH]; intros s Hg Ho; [split; [exact Hg|reflexivity]|]. inversion Ho; subst. cbn [run fold_left].
  pose proof (step_spec K o s (good_inv _ Hg) H1) as H. destruct (step K o s) as [v s1]. destruct H as (I1 & _ & E).
  assert (G1: good_store K s1).
  { apply inv_good; [exact I1|]. intros t Ht. rewrite E in Ht. pose proof (good_printable _ Hg) as P.
    destruct o; cbn [spec_step] in Ht; try (now apply P); unfold upd in Ht; destruct (list_eq_dec Z.eq_dec t tag) as [->|]; try (now apply P).
    all: try (now elim Ht); try exact H1; try apply H1. }
  destruct (IH s1 G1 H2) as [G2 E2]. destruct (run K ops s1) as [vs s2]. cbn [snd] in *. split; [exact G2|].
  intros t. rewrite E2. clear - E. revert t. generalize dependent (contents s1). generalize (spec_step o (contents s)).
  induction ops as [|o' ops IH]; intros m m' E t; cbn [fold_left]; [apply E|]. apply IH. now apply spec_step_ext.
Qed.

Lemma printable_after v s file s' : good_store K s -> font_write K v s = (Ok file, s') -> printable_keys s'.
Proof.
  intros Hg E. destruct (font_write_spec v s file s' (good_inv _ Hg) E) as (s1 & tabs & E1 & E2 & I1 & I2 & Ef & Hs & _ & Hw & Hin & Hk).
  intros t Ht. destruct (gsub_gpos_spec _ _ I1 E2) as (_ & O2 & R2 & m & _ & L2).
    assert (H1: contents s1 t <> None).
    { intros X. assert (N: ~ In t [TAG_GPOS; TAG_GSUB] \/ In t [TAG_GPOS; TAG_GSUB]).
      { destruct (tag_in t [TAG_GPOS; TAG_GSUB]) eqn:Et; [right; now apply tag_in_iff|left]. intros Y. apply tag_in_iff in Y. congruence. }
      destruct N as [N|N]; [rewrite (O2 t N) in Ht; congruence|].
      (* an absent table stays absent *)
      clear - E2 I1 X Ht N. unfold compile_gsub_gpos in E2.
      apply sbind_ok in E2 as (om & sa & Ea & E2). apply unwrap_s_ok in Ea.
      pose proof (quiet_ok _ _ _ _ (quiet_typed_acc TAG_maxp sel_maxp) I1 Ea) as [Ia Sa].
      apply sbind_ok in E2 as (m & sb & Eb & E2). apply slift_ok in Eb as [_ ->].
      apply sbind_ok in E2 as ([] & sc & Ec & E2).
      destruct (layout_spec _ _ _ _ Ia Ec) as (Ic & Oc & Pc). destruct (layout_spec _ _ _ _ Ic E2) as (Id & Od & Pd).
      rewrite (Sa t) in X. destruct N as [<-|[<-|[]]].
      - rewrite X in Pc. rewrite Od in Ht by discriminate. congruence.
      - assert (Y: contents sc TAG_GSUB = None) by (rewrite Oc by discriminate; exact X). rewrite Y in Pd. congruence. }
    pose proof (good_printable _ Hg) as P.
    destruct (compile_spec _ _ (good_inv _ Hg) E1) as [_ [[_ S]|(R & gs & out & loca & is32 & h & _ & _ & Hv1 & _ & A & B & C & _ & O)]].
    - apply P. rewrite (S t). exact H1.
    - destruct (tag_in t [TAG_glyf; TAG_loca; TAG_head; TAG_hhea]) eqn:Et.
      + apply tag_in_iff in Et. destruct Et as [<-|[<-|[<-|[<-|[]]]]]; split; try reflexivity; repeat constructor; cbn; discriminate.
      + apply P. rewrite <- O; [exact H1|]. intros Y. apply tag_in_iff in Y. congruence.
Qed.

Lemma sane_written v s file s' : (v = SFNT_TRUETYPE \/ v = SFNT_OPENTYPE) -> good_store K s ->
  font_write K v s = (Ok file, s') -> Z.of_nat (length file) < 2 ^ 32 -> Forall is_byte file ->
  forall tag c d, contents s' tag = Some c -> written K c = Ok d -> saved_as file tag d.
Proof.
  intros Hv Hg E Hsz HB tag c d Hc Hd.
  destruct (font_write_spec v s file s' (good_inv _ Hg) E) as (s1 & tabs & E1 & E2 & I1 & I2 & Ef & Hs & _ & Hw & Hin & Hk).
  pose proof (printable_after _ _ _ _ Hg E) as P.
  assert (PT: ptabs tabs).
  { apply Forall_forall. intros [t x] Hx. cbn [fst]. apply P. destruct (Hin t x Hx) as (c' & Hc' & _). congruence. }
  destruct (save_load_bytes v tabs file Hv PT (proj2 (sorted_tags_spec tabs) Hs) Ef Hsz HB) as (w & Hlw & Hr).
  exists v, (map (adjusted w) tabs), w. split; [exact Hr|]. split; [exact Hlw|].
  destruct (Hw tag c Hc) as (d' & Hd' & Hget). rewrite Hd in Hd'. injection Hd' as <-.
  revert Hget. clear. induction tabs as [|[t x] tabs IH]; cbn [bm_get map]; [discriminate|].
  rewrite (surjective_pairing (adjusted w (t, x))), adjusted_fst. cbn [fst bm_get].
  destruct (lex_ltb tag t || lex_ltb t tag) eqn:Et; [apply IH|]. intros [= ->].
  apply (eq_case lex_ltb lex_strict) in Et. now subst.
Qed.

Lemma write_tabs v s file s' : good_store K s -> font_write K v s = (Ok file, s') ->
  exists tabs, ptabs tabs /\ tags_increasing (map fst tabs) /\ font_to_bytes v (map okd tabs) = Ok file.
Proof.
  intros Hg E. destruct (font_write_spec v s file s' (good_inv _ Hg) E) as (s1 & tabs & E1 & E2 & I1 & I2 & Ef & Hs & _ & Hw & Hin & Hk).
  exists tabs. split; [|split; [now apply sorted_tags_spec|exact Ef]].
  apply Forall_forall. intros [t x] Hx. cbn [fst]. apply (printable_after _ _ _ _ Hg E). destruct (Hin t x Hx) as (c' & Hc' & _). congruence.
Qed.

Lemma untouched v s file s' : good_store K s -> font_write K v s = (Ok file, s') ->
  forall tag d, contents s tag = Some (Raw d) -> ~ rebuilt_tag s tag -> contents s' tag = Some (Raw d).
Proof.
  intros Hg E tag d Hd Hn.
  destruct (font_write_spec v s file s' (good_inv _ Hg) E) as (s1 & tabs & E1 & E2 & I1 & _).
  destruct (gsub_gpos_spec _ _ I1 E2) as (_ & _ & R2 & _). apply R2.
  destruct (compile_spec _ _ (good_inv _ Hg) E1) as [_ [[_ S]|(R & gs & out & loca & is32 & h & _ & _ & Hv1 & _ & A & B & C & D & O)]].
  - now rewrite <- (S tag).
  - destruct (list_eq_dec Z.eq_dec tag TAG_hhea) as [->|Nh].
    + destruct (contents s TAG_hmtx) eqn:Em; [|now rewrite D].
      exfalso. apply Hn. split; [exact R|]. right. split; [reflexivity|]. congruence.
    + rewrite O; [exact Hd|]. intros X. apply Hn. split; [exact R|]. left. cbn in X |- *. tauto || (destruct X as [X|[X|[X|[X|[]]]]]; try tauto; congruence).
Qed.

Lemma unmodified_saved v s file s' : (v = SFNT_TRUETYPE \/ v = SFNT_OPENTYPE) -> good_store K s ->
  font_write K v s = (Ok file, s') -> Z.of_nat (length file) < 2 ^ 32 -> Forall is_byte file ->
  forall tag d, contents s tag = Some (Raw d) -> ~ rebuilt_tag s tag -> saved_as file tag d.
Proof.
  intros Hv Hg E Hsz HB tag d Hd Hn.
  apply (sane_written v s file s' Hv Hg E Hsz HB tag (Raw d) d); [|reflexivity]. eapply untouched; eauto.
Qed.

Lemma maxp_saved v s file s' : (v = SFNT_TRUETYPE \/ v = SFNT_OPENTYPE) -> good_store K s ->
  font_write K v s = (Ok file, s') -> Z.of_nat (length file) < 2 ^ 32 -> Forall is_byte file ->
  exists c d, contents s TAG_maxp = Some c /\ written K c = Ok d /\ saved_as file TAG_maxp d.
Proof.
  intros Hv Hg E Hsz HB.
  destruct (font_write_spec v s file s' (good_inv _ Hg) E) as (s1 & tabs & E1 & E2 & I1 & _ & _ & _ & _ & Hw & _).
  destruct (gsub_gpos_spec _ _ I1 E2) as (_ & O2 & _ & m & Hm & _).
  assert (X: contents s1 TAG_maxp = contents s TAG_maxp).
  { destruct (compile_spec _ _ (good_inv _ Hg) E1) as [_ [[_ S]|(R & gs & out & loca & is32 & h & _ & _ & Hv1 & _ & A & B & C & D & O)]].
    - symmetry. apply S.
    - apply O. cbn. intros [Y|[Y|[Y|[Y|[]]]]]; discriminate. }
  assert (Y: contents s' TAG_maxp = contents s TAG_maxp).
  { rewrite O2; [exact X|]. cbn. intros [Z0|[Z0|[]]]; discriminate. }
  assert (exists c, contents s TAG_maxp = Some c) as [c Hc].
  { rewrite <- X. destruct Hm as [->|(d & -> & _)]; eauto. }
  rewrite <- Y in Hc. destruct (Hw _ _ Hc) as (d & Hd & _). exists c, d. rewrite <- Y. split; [exact Hc|]. split; [exact Hd|].
  eapply sane_written; eauto.
Qed.

Lemma glyf_saved v s file s' gs : (v = SFNT_TRUETYPE \/ v = SFNT_OPENTYPE) -> good_store K s ->
  font_write K v s = (Ok file, s') -> Z.of_nat (length file) < 2 ^ 32 -> Forall is_byte file ->
  contents s TAG_glyf = Some (Typed (LGlyf gs)) ->
  exists out loca is32 h, compile_glyf gs = Ok (out, loca, is32) /\ has_value K s TAG_head (LHead h) /\
    saved_as file TAG_glyf out /\ saved_as file TAG_loca loca /\
    saved_as file TAG_head (ser_head_tbl (set_loc_format h (if is32 : bool then 1 else 0))).
Proof.
  intros Hv Hg E Hsz HB Hgl.
  destruct (font_write_spec v s file s' (good_inv _ Hg) E) as (s1 & tabs & E1 & E2 & I1 & _).
  destruct (gsub_gpos_spec _ _ I1 E2) as (_ & O2 & _).
  assert (R: rebuilds s).
  { split; [congruence|]. exists TAG_glyf, (LGlyf gs). split; [now left|exact Hgl]. }
  destruct (compile_spec _ _ (good_inv _ Hg) E1) as [_ [[N _]|(_ & gs' & out & loca & is32 & h & Hl & Hc & Hv1 & _ & A & B & C & D & O)]]; [now destruct N|].
  specialize (Hl _ Hgl). injection Hl as <-. exists out, loca, is32, h. split; [exact Hc|]. split; [exact Hv1|].
  assert (Q: forall t, In t [TAG_glyf; TAG_loca; TAG_head] -> contents s' t = contents s1 t).
  { intros t Ht. apply O2. destruct Ht as [<-|[<-|[<-|[]]]]; cbn; intros [Y|[Y|[]]]; discriminate. }
  split; [|split].
  - eapply sane_written with (c := Raw out); eauto. rewrite Q; [exact A|cbn; tauto].
  - eapply sane_written with (c := Raw loca); eauto. rewrite Q; [exact B|cbn; tauto].
  - eapply sane_written with (c := Typed (LHead _)); eauto; [|reflexivity]. rewrite Q; [exact C|cbn; tauto].
Qed.

(** ** What cannot be saved *)
Lemma not_saved v s tag l : good_store K s -> contents s tag = Some (Typed l) -> ser_loaded K l = Panic ->
  ~ In tag [TAG_glyf; TAG_GPOS; TAG_GSUB; TAG_head; TAG_hhea] -> (tag = TAG_loca -> contents s TAG_glyf = None) ->
  forall file s', font_write K v s <> (Ok file, s').
Proof.
  intros Hg Hc Hp Hn Hl file s' E.
  destruct (font_write_spec v s file s' (good_inv _ Hg) E) as (s1 & tabs & E1 & E2 & I1 & _ & _ & _ & _ & Hw & _).
  destruct (gsub_gpos_spec _ _ I1 E2) as (_ & O2 & _).
  assert (X: contents s' tag = contents s tag).
  { rewrite O2 by (intros X; apply Hn; cbn in X |- *; tauto).
    destruct (compile_spec _ _ (good_inv _ Hg) E1) as [_ [[_ S]|(R & gs' & out & loca & is32 & h & _ & _ & Hv1 & _ & A & B & C & D & O)]].
    - symmetry. apply S.
    - apply O. intros Y. cbn in Y. destruct Y as [Y|[Y|[Y|[Y|[]]]]].
      + apply Hn. cbn. tauto.
      + apply (proj1 R). auto.
      + apply Hn. cbn. tauto.
      + apply Hn. cbn. tauto. }
  rewrite Hc in X. destruct (Hw _ _ X) as (d & Hd & _). cbn in Hd. congruence.
Qed.
Lemma unsavable v s tag l : good_store K s -> contents s tag = Some (Typed l) ->
  In tag [TAG_hmtx; TAG_gvar; TAG_MATH] \/ tag = TAG_loca /\ contents s TAG_glyf = None ->
  forall file s', font_write K v s <> (Ok file, s').
Proof.
  intros Hg Hc Ht. pose proof (good_inv _ Hg) as [_ Hk].
  assert (R: right_kind tag l).
  { unfold contents in Hc. destruct (get tag s) as [[d|t]|] eqn:E; cbn in Hc; try discriminate.
    destruct (Hk _ _ E) as [R _]. destruct (tb_raw t); [discriminate|]. injection Hc as <-. exact R. }
  assert (P: ser_loaded K l = Panic).
  { destruct l as [x|x|x|x|x|x|t x|x]; cbn [right_kind ser_loaded] in *; try reflexivity.
    all: try (exfalso; subst tag; destruct Ht as [[X|[X|[X|[]]]]|[X _]]; discriminate).
    - destruct R as [-> R]. destruct Ht as [[<-|[<-|[<-|[]]]]|[-> _]]; try reflexivity;
        exfalso; apply tag_in_iff in R; discriminate.
    - exfalso. apply R. destruct Ht as [[<-|[<-|[<-|[]]]]|[-> _]]; cbn; tauto. }
  apply (not_saved v s tag l Hg Hc P).
  - intros X. destruct Ht as [[<-|[<-|[<-|[]]]]|[-> _]]; apply tag_in_iff in X; discriminate.
  - intros ->. destruct Ht as [[X|[X|[X|[]]]]|[_ X]]; try discriminate. exact X.
Qed.
Lemma no_maxp v s : good_store K s -> contents s TAG_maxp = None -> forall file s', font_write K v s <> (Ok file, s').
Proof.
  intros Hg Hm file s' E.
  destruct (font_write_spec v s file s' (good_inv _ Hg) E) as (s1 & tabs & E1 & E2 & I1 & _).
  destruct (gsub_gpos_spec _ _ I1 E2) as (_ & _ & _ & m & Hv1 & _).
  destruct (compile_spec _ _ (good_inv _ Hg) E1) as [_ [[_ S]|(R & gs' & out & loca & is32 & h & _ & _ & _ & M & _)]].
  - rewrite (S TAG_maxp) in Hm. destruct Hv1 as [H|(d & H & _)]; congruence.
  - congruence.
Qed.

(** ** A font nobody edited *)
Lemma typed_total {A} tag (sel : loaded T -> option A) s l a : inv K s -> self_contained tag -> has_value K s tag l ->
  sel l = Some a -> exists s', typed K tag sel s = (Ok (Some a), s') /\ inv K s' /\ same s s'.
Proof.
  intros Hi Hs Hv Ha. pose proof (lookup_self K tag s Hi Hs) as L. pose proof (quiet_ts_get K tag s Hi) as Q.
  assert (L': rmap (option_map tb_loaded) (fst (ts_get K tag s)) = Ok (Some l)).
  { rewrite L. destruct Hv as [->|(d & -> & ->)]; reflexivity. }
  unfold typed, typed_by, sbind. change (get_by (des3 K) tag s) with (ts_get K tag s).
  destruct (ts_get K tag s) as [[[t|]| |] s1]; cbn [fst snd rmap option_map] in *; try discriminate.
  injection L' as ->. rewrite Ha. unfold slift. exists s1. split; [reflexivity|exact Q].
Qed.

Lemma typed_absent {A} tag (sel : loaded T -> option A) s : contents s tag = None ->
  typed K tag sel s = (Ok None, s).
Proof.
  intros H. unfold contents in H. assert (G: st_get tag s = None) by (unfold st_get; destruct (get tag s); [discriminate|reflexivity]).
  unfold typed, typed_by, sbind, get_by, load_by. rewrite G, G. reflexivity.
Qed.

Lemma compile_quiet s : inv K s -> ~ rebuilds s -> compile_glyf_loca_maxp K s = (Ok tt, s).
Proof.
  intros Hi Hn. unfold compile_glyf_loca_maxp.
  destruct (serialized TAG_glyf s && serialized TAG_loca s && serialized TAG_maxp s) eqn:E; [reflexivity|].
  destruct (contents s TAG_glyf) as [c|] eqn:Eg.
  - exfalso. apply Hn. split; [congruence|]. apply andb_false_iff in E as [E|E]; [apply andb_false_iff in E as [E|E]|];
      apply serialized_iff in E as [l Hl]; [exists TAG_glyf|exists TAG_loca|exists TAG_maxp]; exists l; (split; [cbn; tauto|exact Hl]).
  - unfold sbind, unwrap_s. rewrite (typed_absent _ _ _ Eg). reflexivity.
Qed.

Lemma write_plain v s m m0 : good_store K s -> sorted_map lex_ltb m -> ~ rebuilds s ->
  (forall t l, contents s t = Some (Typed l) -> ~ In t [TAG_GPOS; TAG_GSUB]) ->
  (forall t, match contents s t with
             | None => bm_get lex_ltb t m = None
             | Some c => exists d, bm_get lex_ltb t m = Some d /\ written K c = Ok d
             end) -> has_value K s TAG_maxp (LMaxp m0) ->
  exists s', font_write K v s = (font_to_bytes v (map okd m), s').
Proof.
  intros Hg Hsm Hr Hl Hm Hx. pose proof (good_inv _ Hg) as Hi.
  destruct (typed_total TAG_maxp sel_maxp s (LMaxp m0) m0 Hi maxp_self Hx eq_refl) as (s1 & E1 & I1 & S1).
  assert (Ser: forall t, In t [TAG_GPOS; TAG_GSUB] -> serialized t s1 = true).
  { intros t Ht. destruct (serialized t s1) eqn:E; [reflexivity|]. apply serialized_iff in E as [l E].
    rewrite <- (S1 t) in E. now apply Hl in E. }
  exists s1. unfold font_write, sbind. rewrite compile_quiet by assumption.
  unfold compile_gsub_gpos, sbind, unwrap_s. rewrite E1. cbn [unwrap].
  unfold slift. cbv beta iota. unfold compile_layout. rewrite !Ser by (cbn; tauto). cbv iota.
  f_equal. f_equal. apply (sorted_map_ext lex_ltb lex_strict).
  - unfold sorted_map. rewrite map_map. apply I1.
  - unfold sorted_map. rewrite map_map. exact Hsm.
  - intros t. specialize (Hm t). rewrite (S1 t) in Hm. unfold contents in Hm. clear - Hm.
    assert (G1: bm_get lex_ltb t (map (fun ti => (fst ti, write_item K (snd ti))) s1) = option_map (write_item K) (get t s1)).
    { clear. induction s1 as [|[k i] s1 IH]; [reflexivity|]. cbn [map bm_get fst snd] in *.
      destruct (lex_ltb t k || lex_ltb k t) eqn:E; [|reflexivity]. apply IH. }
    assert (G2: bm_get lex_ltb t (map okd m) = option_map Ok (bm_get lex_ltb t m)).
    { clear. induction m as [|[k i] m IH]; [reflexivity|]. cbn [map bm_get okd fst snd].
      destruct (lex_ltb t k || lex_ltb k t) eqn:E; [|reflexivity]. apply IH. }
    rewrite G1, G2. destruct (get t s1) as [i|]; cbn [option_map] in *.
    + destruct Hm as (d & -> & Hd). cbn. f_equal. now rewrite write_item_content.
    + now rewrite Hm.
Qed.

Lemma write_raw v s m m0 : good_store K s -> sorted_map lex_ltb m ->
  (forall t, contents s t = option_map Raw (bm_get lex_ltb t m)) -> has_value K s TAG_maxp (LMaxp m0) ->
  exists s', font_write K v s = (font_to_bytes v (map okd m), s').
Proof.
  intros Hg Hsm Hm Hx.
  assert (N: forall t l, contents s t <> Some (Typed l)) by (intros t l; rewrite Hm; destruct (bm_get lex_ltb t m); discriminate).
  apply (write_plain v s m m0 Hg Hsm).
  - intros (_ & t & l & _ & H). now apply N in H.
  - intros t l H. now apply N in H.
  - intros t. rewrite Hm. destruct (bm_get lex_ltb t m); cbn; eauto.
  - exact Hx.
Qed.

(** Savability of a font with edited, independent tables. *)
Lemma written_tabs s : good_store K s -> (forall t c, contents s t = Some c -> exists d, written K c = Ok d) ->
  exists m, sorted_map lex_ltb m /\ length m = length s /\ map fst m = map fst s /\
    (forall t, match contents s t with
             | None => bm_get lex_ltb t m = None
             | Some c => exists d, bm_get lex_ltb t m = Some d /\ written K c = Ok d
             end).
Proof.
  intros Hg Hw. pose proof (good_inv _ Hg) as [Hs _].
  exists (map (fun ti => (fst ti, match write_item K (snd ti) with Ok d => d | _ => [] end)) s).
  split; [unfold sorted_map; rewrite map_map; exact Hs|]. split; [apply map_length|]. split; [rewrite map_map; reflexivity|].
  intros t. specialize (Hw t). unfold contents in *.
  assert (G1: bm_get lex_ltb t (map (fun ti => (fst ti, match write_item K (snd ti) with Ok d => d | _ => [] end)) s) =
     option_map (fun i => match write_item K i with Ok d => d | _ => [] end) (get t s)).
  { clear. induction s as [|[k i] s1 IH]; [reflexivity|]. cbn [map bm_get fst snd] in *.
    destruct (lex_ltb t k || lex_ltb k t) eqn:E; [|reflexivity]. apply IH. }
  rewrite G1. destruct (get t s) as [i|]; cbn [option_map] in *; [|reflexivity].
  destruct (Hw _ eq_refl) as [d Hd]. exists d. rewrite write_item_content, Hd. auto.
Qed.
Lemma savable v s m0 : good_store K s -> ~ rebuilds s ->
  (forall t l, contents s t = Some (Typed l) -> ~ In t [TAG_GPOS; TAG_GSUB]) ->
  (forall t c, contents s t = Some c -> exists d, written K c = Ok d /\ (t = TAG_head -> (12 <= length d)%nat)) ->
  has_value K s TAG_maxp (LMaxp m0) -> Z.of_nat (length s) < 4096 ->
  exists file s', font_write K v s = (Ok file, s').
Proof.
  intros Hg Hr Hl Hw Hx Hn.
  destruct (written_tabs s Hg) as (m & Hs & Hlen & Hfst & Hm); [intros t c H; destruct (Hw t c H) as (d & ? & _); eauto|].
  destruct (write_plain v s m m0 Hg Hs Hr Hl Hm Hx) as [s' E].
  destruct (font_to_bytes_ok v m) as [E2 _].
  - now apply sorted_nodup.
  - apply Forall_forall. intros td Htd. apply (in_map fst) in Htd. rewrite Hfst in Htd.
    apply keys_iff in Htd. apply (good_printable _ Hg) in Htd. apply Htd.
  - now rewrite Hlen.
  - apply forallb_forall. intros [t d] Hin. unfold head_ok. cbn [fst snd].
    destruct (bytes_eqb t TAG_head) eqn:Et; [|reflexivity].
    apply (In_get lex_ltb lex_strict _ _ _ Hs) in Hin. specialize (Hm t). specialize (Hw t).
    destruct (contents s t) as [c|]; [|congruence]. destruct Hm as (d' & Hd' & Hw'). destruct (Hw c eq_refl) as (d'' & Hw'' & Hlen12).
    rewrite Hd' in Hin. injection Hin as ->. rewrite Hw' in Hw''. injection Hw'' as <-.
    apply bytes_eqb_eq in Et. specialize (Hlen12 Et). change ((12 <=? length d)%nat = true). apply Nat.leb_le. exact Hlen12.
  - rewrite E2 in E. eauto.
Qed.
End Save.

(** Which tables of an opened font abort when they are read. *)
From Coq Require Import String List ZArith Bool Lia.
Import ListNotations.
From Verif.Model Require Import MBase MTag MMap MFont MTables MMetrics MGlyph MGlyf MStore MCmap MCli MWhole MGvar MIup.
From Verif.Model Require MName MPost.
From Verif.Spec Require Import SBase SReader SFont SStore SWhole SCalm SStop SOutline SGvarStop SOpen SOrder SAll.
From Verif.Proofs Require Import PBase PMap PStore PSave PLoad POpen POrder PStop POutline PGvarStop PCalm.
Open Scope Z_scope.

Lemma hhea_count d h : Forall is_byte d -> from_bytes de_hhea d = Ok h -> 0 <= hh_numberOfHMetrics h.
Proof.
  intros B. unfold from_bytes, de_hhea, rd_new. prims.
  do 17 (match goal with |- context [pbind (de_prim ?t) _ (mkrd d ?k ?st)] =>
    destruct (prim_at t d k st B) as [(? & _ & E)|(_ & E)]; [rewrite (bind_at _ _ _ _ _ E)|rewrite (bind_err _ _ _ E); discriminate]; clear E end).
  match goal with |- context [pbind (de_prim ?t) _ (mkrd d ?k ?st)] =>
    destruct (prim_at t d k st B) as [(n & N & E)|(_ & E)]; [rewrite (bind_at _ _ _ _ _ E)|rewrite (bind_err _ _ _ E); discriminate]; clear E end.
  unfold pret. intros H. injection H as <-. cbn [hh_numberOfHMetrics]. destruct N as (bs & _ & _ & R). unfold in_range in R. cbn in R. lia.
Qed.

Section All.
Context {P : Type} (other : MName.charset -> MName.coder) (fragment : list Z -> further P -> list Z) (hash : cmapping -> Z).
Notation L := (library other fragment hash).

(** Opening only loads. *)
Lemma opened {T} (K : codecs T) m s : loader_finish K (loader_add m) = (Ok tt, s) -> ext K (loader_add m) s.
Proof.
  intros H. unfold loader_finish, sbind in H.
  destruct (load_eq K (loader_add m) (loader_add m) TAG_head (ext_refl K _)) as (s1 & X1 & E1 & _). rewrite E1 in H.
  destruct (load_eq K (loader_add m) s1 TAG_loca X1) as (s2 & X2 & E2 & _). rewrite E2 in H.
  destruct (rmap (fun _ => tt) (SOrder.lookup K (loader_add m) TAG_head)); [|discriminate..]. injection H as _ <-. exact X2.
Qed.
Context (s : store (known (further P))).
Lemma panic_raw t : SOrder.lookup L s t = Panic -> exists d, st_get t s = Some (Unloaded d).
Proof. rewrite lookup_cases. destruct (st_get t s) as [[d|tb]|]; [eauto|discriminate..]. Qed.
Lemma self_lookup t d : self_contained t -> st_get t s = Some (Unloaded d) ->
  (SOrder.lookup L s t = Panic <-> fst (ts_get L t (ts_insert_raw t d s)) = Panic).
Proof.
  intros S E. rewrite get_raw by exact S. rewrite lookup_cases, E, des3_self by exact S. cbn [fst]. now rewrite rmap_panic.
Qed.
Lemma via_panic {A} t u (des : list Z -> list Z -> sop (loaded (known (further P)))) (sel : loaded (known (further P)) -> option A) mk f d :
  st_get t s = Some (Unloaded d) -> (forall d s, des u d s = des3 L u d s) -> des3 L t d s = via des u sel f s ->
  (forall a, sel (mk a) = Some a) -> (forall l, right_kind u l -> exists a, l = mk a) -> inv L s ->
  (SOrder.lookup L s t = Panic <-> SOrder.lookup L s u = Panic \/ exists tb a, SOrder.lookup L s u = Ok (Some tb) /\ tb_loaded tb = mk a /\ f a = Panic).
Proof.
  intros E Hd Hv Hs Hk I. rewrite lookup_cases, E, rmap_panic, Hv, (via_eq L) by exact Hd. cbn [fst].
  destruct (SOrder.lookup L s u) as [[tb|]| |] eqn:El.
  - assert (R: right_kind u (tb_loaded tb)).
    { destruct (load_eq L s s u (ext_refl L s)) as (s' & _ & E' & V). specialize (V _ El). cbn beta iota in V.
      pose proof (quiet_load L (des3 L) u (des3_ok L) s I) as [I' _]. unfold load_if_needed in E'. rewrite E' in I'. cbn [snd] in I'.
      destruct I' as [_ G]. exact (proj1 (G u tb V)). }
    destruct (Hk _ R) as (a & Ea). rewrite Ea, Hs. split.
    + intros X. right. exists tb, a. auto.
    + intros [X|(tb' & a' & X & Y & Z)]; [discriminate|]. injection X as <-. rewrite Ea in Y. apply (f_equal sel) in Y. rewrite !Hs in Y. congruence.
  - split; [discriminate|]. intros [X|(tb' & a' & X & _)]; discriminate.
  - split; [discriminate|]. intros [X|(tb' & a' & X & _)]; discriminate.
  - split; auto.
Qed.

(** Lookups of the tables in a font of which nothing is loaded. *)
Context (I : inv L s) (HB : forall t d, st_get t s = Some (Unloaded d) -> Forall is_byte d) (HU : forall t tb, st_get t s <> Some (Loaded tb)).
Notation lookup := (SOrder.lookup L s).
Notation bad := (table_bad L s).

Lemma hmtx_iff d : st_get TAG_hmtx s = Some (Unloaded d) -> lookup TAG_hhea <> Panic ->
  (lookup TAG_hmtx = Panic <-> exists h, gives L s "hhea" (LHhea h) /\ hh_numberOfHMetrics h = 0).
Proof using I HB HU.
  intros E N. rewrite (via_panic TAG_hmtx TAG_hhea (des0s L) sel_hhea (@LHhea _) (fun h => rmap (@LHmtx _) (from_bytes (de_hmtx (hh_numberOfHMetrics h)) d)) d E); try reflexivity; [| |exact I].
  2:{ intros l H. destruct l; cbn [right_kind] in H; first [eexists; reflexivity|exfalso; first [discriminate H|destruct H as [_ H]; vm_compute in H; intuition discriminate|apply H; vm_compute; tauto]]. }
  assert (NN: forall tb h, lookup TAG_hhea = Ok (Some tb) -> tb_loaded tb = LHhea h -> 0 <= hh_numberOfHMetrics h).
  { intros tb h Hl Ht. rewrite lookup_cases in Hl. destruct (st_get TAG_hhea s) as [[e|tb']|] eqn:Eh; [|destruct (HU _ _ Eh)|discriminate].
    rewrite des3_self in Hl by exact self_hhea. cbn [fst] in Hl. change (des0 L TAG_hhea e) with (rmap (@LHhea (known (further P))) (from_bytes de_hhea e)) in Hl.
    destruct (from_bytes de_hhea e) as [h'| |] eqn:Er; try discriminate. cbn in Hl. injection Hl as <-. cbn in Ht. injection Ht as <-.
    exact (hhea_count e h' (HB _ _ Eh) Er). }
  split.
  - intros [X|(tb & h & X & Y & Z)]; [contradiction|]. exists h. split; [exists TAG_hhea, tb; split; [reflexivity|auto]|]. rewrite rmap_panic in Z.
    apply (hmtx_aborts _ d) in Z; [exact Z|exact (NN _ _ X Y)|exact (HB _ _ E)].
  - intros (h & (tg & tb & -> & X & Y) & Z). right. exists tb, h. split; [exact X|]. split; [exact Y|]. rewrite rmap_panic. apply hmtx_aborts; [lia|exact (HB _ _ E)|exact Z].
Qed.
Lemma loca_iff d : st_get TAG_loca s = Some (Unloaded d) -> (lookup TAG_loca = Panic <-> lookup TAG_head = Panic).
Proof using I HB.
  intros E. rewrite (via_panic TAG_loca TAG_head (des0s L) sel_head (@LHead _) (fun h => rmap (@LLoca _) (from_bytes (de_loca (hd_indexToLocFormat h =? 1)) d)) d E); try reflexivity; [| |exact I].
  2:{ intros l H. destruct l; cbn [right_kind] in H; first [eexists; reflexivity|exfalso; first [discriminate H|destruct H as [_ H]; vm_compute in H; intuition discriminate|apply H; vm_compute; tauto]]. }
  split; [|auto]. intros [X|(tb & h & _ & _ & Z)]; [exact X|]. rewrite rmap_panic in Z. destruct (calm_never _ _ _ (calm_loca False _) (HB _ _ E) Z).
Qed.
Lemma glyf_iff d : st_get TAG_glyf s = Some (Unloaded d) ->
  (lookup TAG_glyf = Panic <-> lookup TAG_loca = Panic \/ exists locs i off gs, gives L s "loca" (LLoca locs) /\
     nth_error locs i = Some (Some off) /\ glyph_bad d (Z.to_nat off) /\ de_glyf d (firstn i locs) = Ok gs).
Proof using I HB.
  intros E. rewrite (via_panic TAG_glyf TAG_loca (des1 L) sel_loca (@LLoca _) (fun l => rmap (@LGlyf _) (de_glyf d l)) d E); try reflexivity; [| |exact I].
  2:{ intros l H. destruct l; cbn [right_kind] in H; first [eexists; reflexivity|exfalso; first [discriminate H|destruct H as [_ H]; vm_compute in H; intuition discriminate|apply H; vm_compute; tauto]]. }
  split; (intros [X|X]; [left; exact X|right]).
  - destruct X as (tb & l & X & Y & Z). rewrite rmap_panic, (glyf_stops d l (HB _ _ E)) in Z. destruct Z as (i & off & gs & Z).
    exists l, i, off, gs. split; [exists TAG_loca, tb; split; [reflexivity|auto]|exact Z].
  - destruct X as (l & i & off & gs & (tg & tb & -> & X & Y) & Z). exists tb, l. split; [exact X|]. split; [exact Y|].
    rewrite rmap_panic, (glyf_stops d l (HB _ _ E)). eauto.
Qed.
Lemma gvar_iff d : st_get TAG_gvar s = Some (Unloaded d) ->
  (lookup TAG_gvar = Panic <-> lookup TAG_glyf = Panic \/ exists gs, gives L s "glyf" (LGlyf gs) /\
     (rmapM gvar_coords_and_ends gs = Panic \/ exists outlines, rmapM gvar_coords_and_ends gs = Ok outlines /\ gvar_bad outlines d)).
Proof using I HB.
  intros E. rewrite (via_panic TAG_gvar TAG_glyf (des2 L) sel_glyf (@LGlyf _)
    (fun g => ce <- rmapM gvar_coords_and_ends g ;; rmap (LOther TAG_gvar) (parse_gvar L ce d)) d E); try reflexivity; [| |exact I].
  2:{ intros l H. destruct l; cbn [right_kind] in H; first [eexists; reflexivity|exfalso; first [discriminate H|destruct H as [_ H]; vm_compute in H; intuition discriminate|apply H; vm_compute; tauto]]. }
  assert (C: forall gs, (ce <- rmapM gvar_coords_and_ends gs ;; rmap (LOther TAG_gvar) (parse_gvar L ce d)) = Panic <->
    rmapM gvar_coords_and_ends gs = Panic \/ exists outlines, rmapM gvar_coords_and_ends gs = Ok outlines /\ gvar_bad outlines d).
  { intros gs. destruct (rmapM gvar_coords_and_ends gs) as [ce| |]; cbn [rbind].
    - rewrite rmap_panic. change (parse_gvar L ce d) with (rmap (@KGvar (further P)) (from_bytes (gvar_de ce) d)).
      rewrite rmap_panic, (gvar_stops ce d (HB _ _ E)). split; [eauto|]. intros [X|(o & X & Y)]; [discriminate|]. injection X as <-. exact Y.
    - split; [discriminate|]. intros [X|(o & X & _)]; discriminate.
    - split; auto. }
  split; (intros [X|X]; [left; exact X|right]).
  - destruct X as (tb & g & X & Y & Z). exists g. split; [exists TAG_glyf, tb; split; [reflexivity|auto]|]. now apply C.
  - destruct X as (g & (tg & tb & -> & X & Y) & Z). exists tb, g. split; [exact X|]. split; [exact Y|]. now apply C.
Qed.

Lemma safe t : one_of t calm_names \/ ~ one_of t table_names -> lookup t <> Panic.
Proof using HB.
  intros H X. destruct (panic_raw t X) as (d & E). apply (self_lookup t d) in X; [|clear -H|exact E].
  - exact (get_safe other fragment hash t d s (HB _ _ E) H X).
  - intros D. destruct H as [(n & Hn & ->)|H].
    + unfold calm_names in Hn. cbn [In] in Hn. repeat (destruct Hn as [<-|Hn]; [vm_compute in D; intuition discriminate|]). exact Hn.
    + apply H. unfold dependent_tags in D. cbn [In] in D. clear H.
      destruct D as [<-|[<-|[<-|[<-|[<-|[<-|[]]]]]]];
        [exists "GPOS"%string|exists "GSUB"%string|exists "hmtx"%string|exists "loca"%string|exists "glyf"%string|exists "gvar"%string];
        (split; [vm_compute; tauto|reflexivity]).
Qed.
Lemma head_iff d : st_get TAG_head s = Some (Unloaded d) -> (lookup TAG_head = Panic <-> head_bad d).
Proof using HB. intros E. rewrite (self_lookup TAG_head d ltac:(now apply self_by) E). exact (get_head other fragment hash d s (HB _ _ E)). Qed.
Lemma fvar_iff d : st_get TAG_fvar s = Some (Unloaded d) -> (lookup TAG_fvar = Panic <-> fvar_bad d).
Proof using HB. intros E. rewrite (self_lookup TAG_fvar d ltac:(now apply self_by) E). exact (get_fvar other fragment hash d s (HB _ _ E)). Qed.
Lemma name_iff d : st_get TAG_name s = Some (Unloaded d) -> (lookup TAG_name = Panic <-> name_bad d).
Proof using HB. intros E. rewrite (self_lookup TAG_name d ltac:(now apply self_by) E). exact (get_name other fragment hash d s (HB _ _ E)). Qed.
Lemma post_iff d : st_get TAG_post s = Some (Unloaded d) -> (lookup TAG_post = Panic <-> post_bad d).
Proof using HB. intros E. rewrite (self_lookup TAG_post d ltac:(now apply self_by) E). exact (get_post other fragment hash d s (HB _ _ E)). Qed.
Lemma cmap_iff d : st_get TAG_cmap s = Some (Unloaded d) -> (lookup TAG_cmap = Panic <-> cmap_bad d).
Proof using HB. intros E. rewrite (self_lookup TAG_cmap d ltac:(now apply self_by) E). exact (get_cmap other fragment hash d s (HB _ _ E)). Qed.

Definition some_bad := exists t d, st_get t s = Some (Unloaded d) /\ bad t d.
Lemma head_some : lookup TAG_head = Panic -> some_bad.
Proof using HB.
  intros X. destruct (panic_raw _ X) as (d & E). exists TAG_head, d. split; [exact E|]. left. split; [reflexivity|]. now apply head_iff.
Qed.
Lemma loca_some : lookup TAG_loca = Panic -> some_bad.
Proof using HB I. intros X. destruct (panic_raw _ X) as (d & E). apply head_some. now apply (loca_iff d E). Qed.
Lemma glyf_some : lookup TAG_glyf = Panic -> some_bad.
Proof using HB I.
  intros X. destruct (panic_raw _ X) as (d & E). destruct (proj1 (glyf_iff d E) X) as [Y|Y]; [now apply loca_some|].
  exists TAG_glyf, d. split; [exact E|]. do 6 right. left. split; [reflexivity|exact Y].
Qed.
Lemma gvar_some : lookup TAG_gvar = Panic -> some_bad.
Proof using HB I.
  intros X. destruct (panic_raw _ X) as (d & E). destruct (proj1 (gvar_iff d E) X) as [Y|Y]; [now apply glyf_some|].
  exists TAG_gvar, d. split; [exact E|]. do 7 right. split; [reflexivity|exact Y].
Qed.
Lemma hhea_safe : lookup TAG_hhea <> Panic.
Proof using HB. apply safe. left. exists "hhea"%string. split; [vm_compute; tauto|reflexivity]. Qed.
Lemma all_iff : (exists t, ~ one_of t not_described /\ lookup t = Panic) <-> some_bad.
Proof using HB I HU.
  split.
  - intros (t & N & X). destruct (in_dec (list_eq_dec Z.eq_dec) t (map MPost.ascii_bytes table_names)) as [Hi|Hn].
    2:{ exfalso. apply (safe t); [right|exact X]. intros (n & H & ->). apply Hn. now apply in_map. }
    apply in_map_iff in Hi as (n & <- & Hi).
    assert (C: ~ In n calm_names) by (intros C; apply (safe (MPost.ascii_bytes n)); [left; exists n; split; [exact C|reflexivity]|exact X]).
    assert (D: ~ In n not_described) by (intros D; apply N; exists n; split; [exact D|reflexivity]). clear N.
    unfold table_names in Hi. cbn [In] in Hi.
    destruct (panic_raw _ X) as (d & E).
    repeat (destruct Hi as [<-|Hi]; [first [exfalso; apply C; vm_compute; tauto | exfalso; apply D; vm_compute; tauto | clear C D] |]); [..|destruct Hi].
    + apply (cmap_iff d E) in X. exists TAG_cmap, d. split; [exact E|]. do 4 right. left. split; [reflexivity|exact X].
    + apply (fvar_iff d E) in X. exists TAG_fvar, d. split; [exact E|]. right. left. split; [reflexivity|exact X].
    + exact (glyf_some X).
    + exact (gvar_some X).
    + exact (head_some X).
    + apply (hmtx_iff d E hhea_safe) in X. exists TAG_hmtx, d. split; [exact E|]. do 5 right. left. split; [reflexivity|exact X].
    + exact (loca_some X).
    + apply (name_iff d E) in X. exists TAG_name, d. split; [exact E|]. do 2 right. left. split; [reflexivity|exact X].
    + apply (post_iff d E) in X. exists TAG_post, d. split; [exact E|]. do 3 right. left. split; [reflexivity|exact X].
  - intros (t & d & E & B). exists t.
    assert (U: forall n, ~ In n not_described -> In n table_names -> ~ one_of (MPost.ascii_bytes n) not_described).
    { clear. intros n Hn Ht (n' & Hn' & En). unfold table_names in Ht. cbn [In] in Ht. unfold not_described in *. cbn [In] in Hn, Hn'.
      repeat (destruct Ht as [<-|Ht]; [repeat (destruct Hn' as [<-|Hn']; [first [discriminate En|apply Hn; tauto]|]); destruct Hn'|]). destruct Ht. }
    destruct B as [[-> B]|[[-> B]|[[-> B]|[[-> B]|[[-> B]|[[-> B]|[[-> B]|[-> B]]]]]]]]; (split; [apply U; [cbn; intuition discriminate|vm_compute; tauto]|]).
    + now apply (head_iff d E).
    + now apply (fvar_iff d E).
    + now apply (name_iff d E).
    + now apply (post_iff d E).
    + now apply (cmap_iff d E).
    + now apply (hmtx_iff d E hhea_safe).
    + apply (glyf_iff d E). now right.
    + apply (gvar_iff d E). now right.
Qed.
End All.

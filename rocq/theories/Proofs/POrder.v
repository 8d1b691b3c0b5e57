From Coq Require Import List ZArith Lia.
From Verif.Model Require Import MBase MTag MMap MFont MTables MMetrics MGlyph MGlyf MStore.
From Verif.Spec Require Import SBase SFont SStore SOrder.
From Verif.Proofs Require Import PBase PMap PTag PStore.

Section Order.
Context {T : Type} (K : codecs T).
Notation lookup := (lookup K).

(** [s'] is [s] after some tables were loaded. *)
Definition ext (s s' : store T) : Prop := forall t, st_get t s' = st_get t s \/
  exists d tb, st_get t s = Some (Unloaded d) /\ st_get t s' = Some (Loaded tb) /\ lookup s t = Ok (Some tb).
Lemma ext_refl s : ext s s.
Proof. intros t. now left. Qed.

Lemma lookup_cases s t : lookup s t =
  match st_get t s with
  | None => Ok None
  | Some (Loaded tb) => Ok (Some tb)
  | Some (Unloaded d) => rmap (fun l => Some (mk_table (Some d) l)) (fst (des3 K t d s))
  end.
Proof.
  unfold SOrder.lookup, ts_get, get_by, load_by. destruct (st_get t s) as [[d|tb]|] eqn:E.
  - destruct (des3 K t d s) as [[l| |] s1]; cbn [fst rmap]; try reflexivity.
    rewrite st_get_set. destruct (list_eq_dec Z.eq_dec t t); [reflexivity|congruence].
  - now rewrite E.
  - now rewrite E.
Qed.
Lemma load_fst s t : fst (load_if_needed K t s) = rmap (fun _ => tt) (lookup s t).
Proof.
  rewrite lookup_cases. unfold load_if_needed, load_by. destruct (st_get t s) as [[d|tb]|]; try reflexivity.
  destruct (des3 K t d s) as [[l| |] s1]; reflexivity.
Qed.
Lemma load_snd s t : snd (load_if_needed K t s) = snd (ts_get K t s).
Proof.
  unfold load_if_needed, ts_get, get_by. now destruct (load_by (des3 K) t s) as [[[]| |] s1].
Qed.
(** What parsing gives depends only on lookups ... *)
Definition steady (t : list Z) : Prop := forall s s' d, ext s s' -> fst (des3 K t d s') = fst (des3 K t d s).
(** ... and only loads tables. *)
Definition gentle (t : list Z) : Prop := forall s d, ext s (snd (des3 K t d s)).

Lemma steady_lookup t s s' : steady t -> ext s s' -> lookup s' t = lookup s t.
Proof.
  intros H E. destruct (E t) as [Es|(d & tb & E1 & E2 & E3)].
  - rewrite !lookup_cases, Es. destruct (st_get t s) as [[d|tb]|]; try reflexivity. now rewrite (H s s' d E).
  - rewrite (lookup_cases s'), E2, E3. reflexivity.
Qed.
Lemma gentle_get t s : gentle t -> ext s (snd (ts_get K t s)).
Proof.
  intros H. pose proof (lookup_cases s t) as L. unfold ts_get, get_by, load_by.
  destruct (st_get t s) as [[d|tb]|] eqn:E; [|apply ext_refl..].
  specialize (H s d). destruct (des3 K t d s) as [[l| |] s1]; cbn [fst snd rmap] in *; try exact H.
  intros u. rewrite st_get_set. destruct (list_eq_dec Z.eq_dec u t) as [->|N]; [|apply H].
  right. exists d, (mk_table (Some d) l). auto.
Qed.

Lemma get_by_same des des' t s : (forall d s, des t d s = des' t d s) -> get_by des t s = @get_by T des' t s.
Proof. intros H. unfold get_by, load_by. destruct (st_get t s) as [[d|tb]|]; try reflexivity. now rewrite H. Qed.

(** A parser that first looks one other table up. *)
Definition via {A} (des : list Z -> list Z -> sop (loaded T)) u (sel : loaded T -> option A) (f : A -> res (loaded T)) : sop (loaded T) :=
  sbind (typed_by des u sel) (fun o => sbind (need o) (fun a => slift (f a))).
Lemma via_eq {A} des u (sel : loaded T -> option A) f s : (forall d s, des u d s = des3 K u d s) ->
  via des u sel f s = (match lookup s u with
                       | Ok (Some t) => match sel (tb_loaded t) with Some a => f a | None => Panic end
                       | Ok None => Err | Err => Err | Panic => Panic
                       end, snd (ts_get K u s)).
Proof.
  intros H. unfold via, typed_by, sbind, SOrder.lookup, ts_get. rewrite (get_by_same des (des3 K) u s H).
  destruct (get_by (des3 K) u s) as [[[t|]| |] s1]; cbn [fst snd]; try reflexivity.
  destruct (sel (tb_loaded t)); reflexivity.
Qed.
Lemma via_steady {A} t des u (sel : loaded T -> option A) (f : list Z -> A -> res (loaded T)) :
  (forall d s, des u d s = des3 K u d s) -> (forall d s, des3 K t d s = via des u sel (f d) s) ->
  steady u -> gentle u -> steady t /\ gentle t.
Proof.
  intros H H2 Su Gu. split.
  - intros s s' d E. rewrite !H2, !via_eq by exact H. cbn [fst]. now rewrite (steady_lookup u s s' Su E).
  - intros s d. rewrite H2, via_eq by exact H. cbn [snd]. now apply gentle_get.
Qed.
Lemma self_steady t : self_contained t -> steady t /\ gentle t.
Proof.
  intros H. split.
  - intros s s' d _. now rewrite !des3_self.
  - intros s d. rewrite des3_self by exact H. apply ext_refl.
Qed.
Lemma self_head : self_contained TAG_head. Proof. intros H. cbn in H. intuition discriminate. Qed.
Lemma self_maxp : self_contained TAG_maxp. Proof. intros H. cbn in H. intuition discriminate. Qed.
Lemma self_hhea : self_contained TAG_hhea. Proof. intros H. cbn in H. intuition discriminate. Qed.

Lemma all_steady t : steady t /\ gentle t.
Proof.
  assert (Sh := self_steady _ self_head). assert (Sm := self_steady _ self_maxp). assert (Se := self_steady _ self_hhea).
  assert (Sl: steady TAG_loca /\ gentle TAG_loca).
  { refine (via_steady TAG_loca (des0s K) TAG_head sel_head
      (fun d h => rmap LLoca (from_bytes (de_loca (hd_indexToLocFormat h =? 1)) d)) _ _ (proj1 Sh) (proj2 Sh)); reflexivity. }
  assert (Sg: steady TAG_glyf /\ gentle TAG_glyf).
  { refine (via_steady TAG_glyf (des1 K) TAG_loca sel_loca (fun d l => rmap LGlyf (de_glyf d l)) _ _ (proj1 Sl) (proj2 Sl)); reflexivity. }
  destruct (in_dec (list_eq_dec Z.eq_dec) t dependent_tags) as [I|N]; [|now apply self_steady].
  cbn [dependent_tags In] in I. destruct I as [<-|[<-|[<-|[<-|[<-|[<-|[]]]]]]].
  - refine (via_steady TAG_GPOS (des0s K) TAG_maxp sel_maxp
      (fun d m => rmap (LOther TAG_GPOS) (parse_layout K TAG_GPOS (num_glyphs m) d)) _ _ (proj1 Sm) (proj2 Sm)); reflexivity.
  - refine (via_steady TAG_GSUB (des0s K) TAG_maxp sel_maxp
      (fun d m => rmap (LOther TAG_GSUB) (parse_layout K TAG_GSUB (num_glyphs m) d)) _ _ (proj1 Sm) (proj2 Sm)); reflexivity.
  - refine (via_steady TAG_hmtx (des0s K) TAG_hhea sel_hhea
      (fun d h => rmap LHmtx (from_bytes (de_hmtx (hh_numberOfHMetrics h)) d)) _ _ (proj1 Se) (proj2 Se)); reflexivity.
  - exact Sl.
  - exact Sg.
  - refine (via_steady TAG_gvar (des2 K) TAG_glyf sel_glyf
      (fun d g => ce <- rmapM gvar_coords_and_ends g ;; rmap (LOther TAG_gvar) (parse_gvar K ce d)) _ _ (proj1 Sg) (proj2 Sg)); reflexivity.
Qed.
Lemma ext_lookup s s' t : ext s s' -> lookup s' t = lookup s t.
Proof. apply steady_lookup, all_steady. Qed.
Lemma ext_trans s1 s2 s3 : ext s1 s2 -> ext s2 s3 -> ext s1 s3.
Proof.
  intros A B t. destruct (A t) as [Ea|(d & tb & E1 & E2 & E3)]; destruct (B t) as [Eb|(d' & tb' & F1 & F2 & F3)].
  - left. congruence.
  - right. exists d', tb'. rewrite <- (ext_lookup s1 s2 t A). repeat split; congruence.
  - right. exists d, tb. repeat split; congruence.
  - congruence.
Qed.
Lemma load_ext s t : ext s (snd (load_if_needed K t s)).
Proof. rewrite load_snd. apply gentle_get, all_steady. Qed.
Lemma load_eq s0 s t : ext s0 s -> exists s', ext s0 s' /\ load_if_needed K t s = (rmap (fun _ => tt) (lookup s0 t), s') /\
  forall o, lookup s0 t = Ok o -> st_get t s' = match o with Some tb => Some (Loaded tb) | None => None end.
Proof.
  intros E. exists (snd (load_if_needed K t s)). split; [eapply ext_trans; [exact E|apply load_ext]|]. split.
  - rewrite <- (ext_lookup s0 s t E), <- load_fst. now destruct (load_if_needed K t s).
  - intros o. rewrite <- (ext_lookup s0 s t E), lookup_cases. unfold load_if_needed, load_by.
    destruct (st_get t s) as [[d|tb]|] eqn:Eg.
    + destruct (des3 K t d s) as [[l| |] s1]; cbn [fst snd rmap]; try discriminate. intros [= <-].
      rewrite st_get_set. destruct (list_eq_dec Z.eq_dec t t); [reflexivity|congruence].
    + intros [= <-]. exact Eg.
    + intros [= <-]. exact Eg.
Qed.
(** Loaded tables stay loaded. *)
Lemma ext_loaded s s' t tb : ext s s' -> st_get t s = Some (Loaded tb) -> st_get t s' = Some (Loaded tb).
Proof. intros E H. destruct (E t) as [->|(d & tb' & E1 & _)]; [exact H|congruence]. Qed.

Lemma each_eq s0 : forall tags s, ext s0 s ->
  ext s0 (snd (load_each K tags s)) /\ ext s (snd (load_each K tags s)) /\
  ((exists t, In t tags /\ lookup s0 t = Panic) -> fst (load_each K tags s) = Panic) /\
  ((forall t, In t tags -> lookup s0 t <> Panic) -> fst (load_each K tags s) = Ok tt /\
     forall t tb, In t tags -> lookup s0 t = Ok (Some tb) -> st_get t (snd (load_each K tags s)) = Some (Loaded tb)).
Proof.
  induction tags as [|t tags IH]; intros s E; cbn [load_each].
  - split; [exact E|]. split; [apply ext_refl|]. split; [intros (t & [] & _)|]. intros _. split; [reflexivity|intros t tb []].
  - destruct (load_eq s0 s t E) as (s' & E' & El & Hv). pose proof (load_ext s t) as Es. rewrite El in *. cbn [snd] in Es.
    destruct (IH s' E') as (A & B & C & D). assert (B2: ext s (snd (load_each K tags s'))) by (eapply ext_trans; eassumption).
    destruct (lookup s0 t) as [o| |] eqn:Eo; cbn [rmap].
    + split; [exact A|]. split; [exact B2|]. split.
      * intros (u & [->|Hu] & Hp); [congruence|]. apply C. eauto.
      * intros H. destruct D as [D1 D2]; [intros u Hu; apply H; now right|]. split; [exact D1|].
        intros u tb [->|Hu] Ht; [|now apply D2]. rewrite Eo in Ht. injection Ht as ->.
        eapply ext_loaded; [exact B|]. now rewrite (Hv _ eq_refl).
    + split; [exact A|]. split; [exact B2|]. split.
      * intros (u & [->|Hu] & Hp); [congruence|]. apply C. eauto.
      * intros H. destruct D as [D1 D2]; [intros u Hu; apply H; now right|]. split; [exact D1|].
        intros u tb [->|Hu] Ht; [congruence|now apply D2].
    + cbn [fst snd]. split; [exact E'|]. split; [exact Es|]. split; [reflexivity|].
      intros H. destruct (H t (or_introl eq_refl) Eo).
Qed.

(** Loading tables one after the other, giving up at the first failure. *)
Fixpoint load_all (tags : list (list Z)) : sop unit :=
  match tags with
  | [] => slift (Ok tt)
  | t :: tags' => sbind (load_if_needed K t) (fun _ => load_all tags')
  end.
Lemma all_eq s0 : forall tags s, ext s0 s ->
  ext s0 (snd (load_all tags s)) /\
  (fst (load_all tags s) = Ok tt <-> Forall (readable K s0) tags) /\
  (fst (load_all tags s) = Err <-> first_failure K s0 tags Err) /\
  (fst (load_all tags s) = Panic <-> first_failure K s0 tags Panic).
Proof.
  induction tags as [|t tags IH]; intros s E; cbn [load_all].
  - cbn. split; [exact E|]. split; [split; auto|]. split; (split; [discriminate|intros (b & u & a & H & _); now destruct b]).
  - destruct (load_eq s0 s t E) as (s' & E' & El & _). unfold sbind. rewrite El.
    assert (Nf: forall r, (forall o, lookup s0 t <> Ok o) -> r = lookup s0 t <-> first_failure K s0 (t :: tags) r).
    { intros r Hn. split.
      - intros ->. exists [], t, tags. auto.
      - intros (b & u & a & H & Hb & Hu). destruct b as [|b0 b]; injection H as <- _; [now symmetry|].
        inversion Hb as [|? ? [o Ho] _]; subst. destruct (Hn o Ho). }
    destruct (lookup s0 t) as [o| |] eqn:Eo; cbn [rmap].
    + destruct (IH s' E') as (A & B & C & D). split; [exact A|].
      assert (Fc: forall r, (r = Err \/ r = Panic) -> first_failure K s0 tags r <-> first_failure K s0 (t :: tags) r).
      { intros r Hr. split.
        - intros (b & u & a & H & Hb & Hu). exists (t :: b), u, a. subst tags. repeat split; auto. constructor; [now exists o|exact Hb].
        - intros (b & u & a & H & Hb & Hu). destruct b as [|b0 b].
          + injection H as <- _. rewrite Eo in Hu. destruct Hr; congruence.
          + injection H as <- ->. exists b, u, a. inversion Hb; subst. auto. }
      rewrite <- (Fc Err), <- (Fc Panic) by auto. split; [|split; assumption]. rewrite B. split.
      * intros H. constructor; [now exists o|exact H].
      * intros H. now inversion H.
    + cbn [fst snd]. split; [exact E'|]. split; [|split].
      * split; [discriminate|]. intros H. inversion H as [|? ? [o Ho] _]; subst. congruence.
      * rewrite <- Nf by discriminate. split; auto.
      * rewrite <- Nf by discriminate. split; discriminate.
    + cbn [fst snd]. split; [exact E'|]. split; [|split].
      * split; [discriminate|]. intros H. inversion H as [|? ? [o Ho] _]; subst. congruence.
      * rewrite <- Nf by discriminate. split; discriminate.
      * rewrite <- Nf by discriminate. split; auto.
Qed.

Lemma ext_present s s' t : ext s s' -> (st_get t s' = None <-> st_get t s = None).
Proof. intros E. destruct (E t) as [->|(d & tb & -> & -> & _)]; [tauto|]. split; discriminate. Qed.
Lemma get_key (s : store T) t i : st_get t s = Some i -> In t (ts_keys s).
Proof.
  unfold st_get, ts_keys. intros H. apply (get_In _ lex_strict) in H. exact (in_map fst _ _ H).
Qed.
Lemma fully_eq s : fully_deserialize K s =
  sbind (load_all (insisted s)) (fun _ s => load_each K (ts_keys s) s) s.
Proof.
  pose proof (fun s2 => ext_present s s2 TAG_glyf) as P. unfold fully_deserialize, insisted, ts_contains, contents.
  change (bm_get lex_ltb TAG_glyf s) with (st_get TAG_glyf s).
  destruct (st_get TAG_glyf s); cbn [option_map app load_all]; unfold sbind, slift;
    pose proof (load_ext s TAG_head) as X1; destruct (load_if_needed K TAG_head s) as [[[]| |] s1]; try reflexivity; cbn [snd] in X1;
    pose proof (load_ext s1 TAG_maxp) as X2; destruct (load_if_needed K TAG_maxp s1) as [[[]| |] s2]; try reflexivity; cbn [snd] in X2;
    pose proof (P s2 (ext_trans _ _ _ X1 X2)) as [P1 P2]; destruct (st_get TAG_glyf s2); try (exfalso; (discriminate (P1 eq_refl) || discriminate (P2 eq_refl))).
  - destruct (load_if_needed K TAG_loca s2) as [[[]| |] s3]; try reflexivity.
    destruct (load_if_needed K TAG_glyf s3) as [[[]| |] s4]; reflexivity.
  - reflexivity.
Qed.
Lemma fully_cases s :
  ext s (snd (fully_deserialize K s)) /\
  (fst (fully_deserialize K s) = Ok tt <-> Forall (readable K s) (insisted s) /\ forall t, lookup s t <> Panic) /\
  (fst (fully_deserialize K s) = Err <-> first_failure K s (insisted s) Err) /\
  (fst (fully_deserialize K s) = Panic <-> first_failure K s (insisted s) Panic \/
     Forall (readable K s) (insisted s) /\ exists t, lookup s t = Panic) /\
  (fst (fully_deserialize K s) = Ok tt -> forall t tb, lookup s t = Ok (Some tb) ->
     st_get t (snd (fully_deserialize K s)) = Some (Loaded tb)).
Proof.
  rewrite fully_eq. unfold sbind. destruct (all_eq s (insisted s) s (ext_refl s)) as (A & B & C & D).
  destruct (load_all (insisted s) s) as [r s1]; cbn [fst snd] in *.
  assert (Key: forall t, lookup s t <> Ok None -> In t (ts_keys s1)).
  { intros t Ht. destruct (st_get t s1) as [i|] eqn:Eg; [eapply get_key; exact Eg|].
    exfalso. apply (proj1 (ext_present s s1 t A)) in Eg. apply Ht. rewrite lookup_cases, Eg. reflexivity. }
  destruct r as [[]| |]; cbn [fst snd].
  - pose proof (proj1 B eq_refl) as Fr. destruct (each_eq s (ts_keys s1) s1 A) as (F1 & F2 & F3 & F4).
    assert (NE: ~ first_failure K s (insisted s) Err) by (intros H; apply C in H; discriminate).
    assert (NP: ~ first_failure K s (insisted s) Panic) by (intros H; apply D in H; discriminate).
    assert (Cs: (exists t, In t (ts_keys s1) /\ lookup s t = Panic) \/ forall t, In t (ts_keys s1) -> lookup s t <> Panic).
    { clear. induction (ts_keys s1) as [|k l IH]; [right; intros t []|].
      destruct (lookup s k) eqn:E.
      1,2: destruct IH as [(t & H1 & H2)|H]; [left; exists t; split; [now right|exact H2]|right; intros t [<-|Ht]; [congruence|now apply H]].
      left. exists k. split; [now left|exact E]. }
    split; [exact F1|]. destruct Cs as [(t & H1 & H2)|H].
    + rewrite (F3 (ex_intro _ t (conj H1 H2))). split; [|split; [|split]].
      * split; [discriminate|]. intros [_ H]. now destruct (H t).
      * split; [discriminate|tauto].
      * split; [|reflexivity]. intros _. right. eauto.
      * discriminate.
    + destruct (F4 H) as [G1 G2]. rewrite G1.
      assert (H': forall t, lookup s t <> Panic) by (intros t Hp; apply (H t); [apply Key; congruence|exact Hp]).
      split; [|split; [|split]].
      * split; [auto|reflexivity].
      * split; [discriminate|tauto].
      * split; [discriminate|]. intros [Hx|[_ [t Hx]]]; [tauto|now destruct (H' t)].
      * intros _ t tb Ht. apply G2; [apply Key; congruence|exact Ht].
  - split; [exact A|]. pose proof (proj1 C eq_refl) as Fe.
    assert (NR: ~ Forall (readable K s) (insisted s)) by (intros H; apply B in H; discriminate).
    split; [split; [discriminate|tauto]|]. split; [tauto|]. split; [|discriminate].
    split; [discriminate|]. intros [H|H]; [apply D in H; discriminate|tauto].
  - split; [exact A|]. pose proof (proj1 D eq_refl) as Fe.
    assert (NR: ~ Forall (readable K s) (insisted s)) by (intros H; apply B in H; discriminate).
    split; [split; [discriminate|tauto]|]. split; [|split; [tauto|discriminate]].
    split; [discriminate|]. intros H; apply C in H; discriminate.
Qed.
Lemma step_ext o s : lookup_only o -> ext s (snd (step K o s)).
Proof.
  destruct o; intros H; try (now destruct H); cbn [step snd]; try apply ext_refl.
  - pose proof (gentle_get tag s (proj2 (all_steady tag))) as G. now destruct (ts_get K tag s).
  - apply fully_cases.
Qed.
Lemma run_ext ops : forall s, Forall lookup_only ops -> ext s (snd (run K ops s)).
Proof.
  induction ops as [|o ops IH]; intros s H; [apply ext_refl|]. inversion H as [|? ? H1 H2]; subst. cbn [run].
  pose proof (step_ext o s H1) as E. destruct (step K o s) as [v s1]. cbn [snd] in E. specialize (IH s1 H2).
  destruct (run K ops s1) as [vs s2]. cbn [snd] in *. eapply ext_trans; eassumption.
Qed.

(** ** Tables elsewhere do not matter *)
Definition local (t : list Z) : Prop := forall s s', (forall u, In u (t :: needs t) -> st_get u s' = st_get u s) -> lookup s' t = lookup s t.
Lemma via_local {A} t des u (sel : loaded T -> option A) (f : list Z -> A -> res (loaded T)) :
  (forall d s, des u d s = des3 K u d s) -> (forall d s, des3 K t d s = via des u sel (f d) s) ->
  needs t = u :: needs u -> local u -> local t.
Proof.
  intros H H2 Hn Lu s s' E. rewrite !lookup_cases, (E t (or_introl eq_refl)). destruct (st_get t s) as [[d|tb]|]; try reflexivity.
  rewrite !H2, !via_eq by exact H. cbn [fst]. rewrite (Lu s s'); [reflexivity|]. intros v Hv. apply E. right. now rewrite Hn.
Qed.
Lemma self_local t : self_contained t -> local t.
Proof.
  intros H s s' E. rewrite !lookup_cases, (E t (or_introl eq_refl)). destruct (st_get t s) as [[d|tb]|]; try reflexivity.
  now rewrite !des3_self.
Qed.
Lemma all_local t : local t.
Proof.
  assert (Ll: local TAG_loca).
  { refine (via_local TAG_loca (des0s K) TAG_head sel_head
      (fun d h => rmap LLoca (from_bytes (de_loca (hd_indexToLocFormat h =? 1)) d)) _ _ _ (self_local _ self_head)); reflexivity. }
  assert (Lg: local TAG_glyf).
  { refine (via_local TAG_glyf (des1 K) TAG_loca sel_loca (fun d l => rmap LGlyf (de_glyf d l)) _ _ _ Ll); reflexivity. }
  destruct (in_dec (list_eq_dec Z.eq_dec) t dependent_tags) as [I|N]; [|now apply self_local].
  cbn [dependent_tags In] in I. destruct I as [<-|[<-|[<-|[<-|[<-|[<-|[]]]]]]].
  - refine (via_local TAG_GPOS (des0s K) TAG_maxp sel_maxp
      (fun d m => rmap (LOther TAG_GPOS) (parse_layout K TAG_GPOS (num_glyphs m) d)) _ _ _ (self_local _ self_maxp)); reflexivity.
  - refine (via_local TAG_GSUB (des0s K) TAG_maxp sel_maxp
      (fun d m => rmap (LOther TAG_GSUB) (parse_layout K TAG_GSUB (num_glyphs m) d)) _ _ _ (self_local _ self_maxp)); reflexivity.
  - refine (via_local TAG_hmtx (des0s K) TAG_hhea sel_hhea
      (fun d h => rmap LHmtx (from_bytes (de_hmtx (hh_numberOfHMetrics h)) d)) _ _ _ (self_local _ self_hhea)); reflexivity.
  - exact Ll.
  - exact Lg.
  - refine (via_local TAG_gvar (des2 K) TAG_glyf sel_glyf
      (fun d g => ce <- rmapM gvar_coords_and_ends g ;; rmap (LOther TAG_gvar) (parse_gvar K ce d)) _ _ _ Lg); reflexivity.
Qed.
Lemma step_local t o s : leaves_alone (t :: needs t) o -> lookup (snd (step K o s)) t = lookup s t.
Proof.
  intros H. destruct o as [u tb|u d|u| | | | |];
    try (apply ext_lookup, step_ext; exact I); cbn [step snd leaves_alone] in *; apply all_local; intros v Hv.
  - unfold ts_insert. rewrite st_get_set. destruct (list_eq_dec Z.eq_dec v u); [congruence|reflexivity].
  - unfold ts_insert_raw. rewrite st_get_set. destruct (list_eq_dec Z.eq_dec v u); [congruence|reflexivity].
  - unfold ts_remove, st_get. cbn [snd]. apply get_remove_other; [apply lex_strict|congruence].
Qed.
Lemma run_local t ops : forall s, Forall (leaves_alone (t :: needs t)) ops -> lookup (snd (run K ops s)) t = lookup s t.
Proof.
  induction ops as [|o ops IH]; intros s H; [reflexivity|]. inversion H as [|? ? H1 H2]; subst. cbn [run].
  pose proof (step_local t o s H1) as E. destruct (step K o s) as [v s1]. cbn [snd] in E. specialize (IH s1 H2).
  destruct (run K ops s1) as [vs s2]. cbn [snd] in *. congruence.
Qed.
End Order.

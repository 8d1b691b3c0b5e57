(** The table set. *)
From Coq Require Import Sorted.
From Verif.Proofs Require Import PBase PTag PMap PFont.
From Verif.Model Require Import MTag MMap MFont MTables MMetrics MGlyph MGlyf MStore.
From Verif.Spec Require Import SBase SReader SFont SStore.

Notation get := (bm_get lex_ltb).
Section Store.
Context {T : Type} (K : codecs T).
Implicit Types (s : store T).

Lemma st_get_set tag tag' i s :
  st_get tag' (st_set tag i s) = if list_eq_dec Z.eq_dec tag' tag then Some i else st_get tag' s.
Proof.
  unfold st_get, st_set. destruct (list_eq_dec Z.eq_dec tag' tag) as [->|N].
  - apply get_insert_same, lex_strict.
  - apply get_insert_other; [apply lex_strict|congruence].
Qed.

Definition inv s : Prop :=
  sorted_map lex_ltb s /\ forall tag t, get tag s = Some (Loaded t) -> genuine K tag t.
Definition same s s' : Prop := forall tag, contents s tag = contents s' tag.
Definition quiet {A} (x : sop A) : Prop := forall s, inv s -> inv (snd (x s)) /\ same s (snd (x s)).

Lemma same_refl s : same s s. Proof. intros tag; reflexivity. Qed.
Lemma same_trans s1 s2 s3 : same s1 s2 -> same s2 s3 -> same s1 s3.
Proof. intros H1 H2 tag. now rewrite H1. Qed.

Lemma quiet_slift {A} (x : res A) : quiet (slift x).
Proof. intros s H. split; [exact H|apply same_refl]. Qed.
Lemma quiet_bind {A B} (x : sop A) (f : A -> sop B) : quiet x -> (forall a, quiet (f a)) -> quiet (sbind x f).
Proof.
  intros Hx Hf s Hs. unfold sbind. specialize (Hx s Hs). destruct (x s) as [[a| |] s1]; cbn [snd] in *; auto.
  destruct Hx as [I1 S1]. destruct (Hf a s1 I1) as [I2 S2]. split; [exact I2|]. now apply same_trans with s1.
Qed.
Lemma quiet_need {A} (o : option A) : quiet (@need T A o).
Proof. destruct o; apply quiet_slift. Qed.
Lemma quiet_unwrap {A} (x : sop A) : quiet x -> quiet (unwrap_s x).
Proof. intros Hx s Hs. unfold unwrap_s. specialize (Hx s Hs). destruct (x s) as [[a| |] s1]; exact Hx. Qed.

Lemma inv_set s tag i : inv s -> (forall t, i = Loaded t -> genuine K tag t) -> inv (st_set tag i s).
Proof.
  intros [Hs Hg] Hi. split; [apply insert_sorted; [apply lex_strict|exact Hs]|].
  intros tag' t. change (get tag' (st_set tag i s)) with (st_get tag' (st_set tag i s)). rewrite st_get_set.
  destruct (list_eq_dec Z.eq_dec tag' tag) as [->|N]; [intros [= ->]; now apply Hi|apply Hg].
Qed.
Lemma contents_set s tag i tag' :
  contents (st_set tag i s) tag' = if list_eq_dec Z.eq_dec tag' tag then Some (content_of i) else contents s tag'.
Proof.
  unfold contents. change (get tag' (st_set tag i s)) with (st_get tag' (st_set tag i s)). rewrite st_get_set.
  now destruct (list_eq_dec Z.eq_dec tag' tag).
Qed.

Definition des_ok (des : list Z -> list Z -> sop (loaded T)) : Prop :=
  forall tag data, quiet (des tag data) /\
    forall s l s', des tag data s = (Ok l, s') -> genuine K tag (mk_table (Some data) l).

Lemma quiet_load des tag : des_ok des -> quiet (load_by des tag).
Proof.
  intros Hd s Hs. unfold load_by. destruct (st_get tag s) as [[data|t]|] eqn:E; [|split; [exact Hs|apply same_refl]|split; [exact Hs|apply same_refl]].
  destruct (Hd tag data) as [Hq Hg]. specialize (Hq s Hs). specialize (Hg s).
  destruct (des tag data s) as [[l| |] s1]; cbn [snd] in *; auto.
  destruct Hq as [I1 S1]. split.
  - apply inv_set; [exact I1|]. intros t [= <-]. now apply (Hg l s1).
  - intros tag'. rewrite contents_set. cbn [content_of tb_raw]. destruct (list_eq_dec Z.eq_dec tag' tag) as [->|N]; [|apply S1].
    unfold contents. change (get tag s) with (st_get tag s). rewrite E. reflexivity.
Qed.
Lemma quiet_get des tag : des_ok des -> quiet (get_by des tag).
Proof.
  intros Hd s Hs. unfold get_by. pose proof (quiet_load des tag Hd s Hs) as H.
  destruct (load_by des tag s) as [[[]| |] s1]; exact H.
Qed.
Lemma quiet_typed {A} des tag (sel : loaded T -> option A) : des_ok des -> quiet (typed_by des tag sel).
Proof.
  intros Hd. apply quiet_bind; [now apply quiet_get|]. intros [t|]; [|apply quiet_slift].
  destruct (sel (tb_loaded t)); apply quiet_slift.
Qed.

Lemma tag_in_iff tag l : tag_in tag l = true <-> In tag l.
Proof.
  unfold tag_in. rewrite existsb_exists. split.
  - intros (x & Hx & He). apply bytes_eqb_eq in He. now subst.
  - intros H. exists tag. split; [exact H|]. now apply bytes_eqb_eq.
Qed.

(* generic facts on tags: decide membership in the constant lists *)
Ltac tag_case tag c :=
  let E := fresh "E" in destruct (bytes_eqb tag c) eqn:E;
  [apply bytes_eqb_eq in E; subst tag|].

Lemma des0_genuine tag data l : ~ In tag dependent_tags -> des0 K tag data = Ok l ->
  genuine K tag (mk_table (Some data) l).
Proof.
  intros Hn H. split; cbn [tb_loaded tb_raw].
  - unfold des0 in H.
    tag_case tag TAG_head.
    { destruct (from_bytes de_head_tbl data); inversion H. reflexivity. }
    tag_case tag TAG_hhea.
    { destruct (from_bytes de_hhea data); inversion H. reflexivity. }
    tag_case tag TAG_maxp.
    { destruct (from_bytes de_maxp data); inversion H. reflexivity. }
    destruct (tag_in tag plain_tags) eqn:Ep.
    { apply tag_in_iff in Ep. destruct (parse_plain K tag data); inversion H. split; [reflexivity|]. do 3 right. exact Ep. }
    injection H as <-. cbn [right_kind]. intros Hi.
    assert (Hr: forall c, bytes_eqb tag c = false -> tag <> c).
    { intros c Hc ->. assert (bytes_eqb c c = true) by now apply bytes_eqb_eq. congruence. }
    destruct Hi as [Hi|[Hi|[Hi|Hi]]].
    1-3: symmetry in Hi; now apply Hr in Hi.
    apply in_app_or in Hi as [Hi|Hi]; [now apply Hn|]. apply tag_in_iff in Hi. congruence.
  - intros d [= <-] _. exact H.
Qed.

Definition dep_kind tag (l : loaded T) data : In tag dependent_tags -> right_kind tag l ->
  genuine K tag (mk_table (Some data) l).
Proof. intros Hi Hk. split; [exact Hk|]. intros d _ Hs. now destruct Hs. Qed.

Lemma des0s_ok_on tag data : ~ In tag dependent_tags -> quiet (des0s K tag data) /\
    forall s l s', des0s K tag data s = (Ok l, s') -> genuine K tag (mk_table (Some data) l).
Proof.
  intros Hn. split; [apply quiet_slift|]. intros s l s' H. unfold des0s, slift in H. injection H as H _.
  now apply des0_genuine.
Qed.

(* The auxiliary loaders are only used on particular tags; [fix_des] makes them
   total in a harmless way. *)
Lemma quiet_load_on des tag :
  (forall data, quiet (des tag data) /\
    forall s l s', des tag data s = (Ok l, s') -> genuine K tag (mk_table (Some data) l)) ->
  quiet (load_by des tag).
Proof.
  intros Hd.
  set (des' := fun t d => if list_eq_dec Z.eq_dec t tag then des t d else (slift Err : sop (loaded T))).
  assert (Hd': des_ok des').
  { intros t d. unfold des'. destruct (list_eq_dec Z.eq_dec t tag) as [->|]; [apply Hd|].
    split; [apply quiet_slift|]. intros s l s' H. unfold slift in H. discriminate. }
  assert (E: forall s, load_by des tag s = load_by des' tag s).
  { intros s. unfold load_by, des'. destruct (list_eq_dec Z.eq_dec tag tag); [|congruence]. reflexivity. }
  intros s Hs. rewrite E. now apply quiet_load.
Qed.
Lemma quiet_typed_on {A} des tag (sel : loaded T -> option A) :
  (forall data, quiet (des tag data) /\
    forall s l s', des tag data s = (Ok l, s') -> genuine K tag (mk_table (Some data) l)) ->
  quiet (typed_by des tag sel).
Proof.
  intros Hd. apply quiet_bind; [|intros [t|]; [destruct (sel (tb_loaded t))|]; apply quiet_slift].
  intros s Hs. unfold get_by. pose proof (quiet_load_on des tag Hd s Hs) as H.
  destruct (load_by des tag s) as [[[]| |] s1]; exact H.
Qed.

Lemma not_dep tag : tag_in tag dependent_tags = false -> ~ In tag dependent_tags.
Proof. intros H Hi. apply tag_in_iff in Hi. congruence. Qed.

Lemma sbind_ok {A B} (x : sop A) (f : A -> sop B) s b s' : sbind x f s = (Ok b, s') ->
  exists a s1, x s = (Ok a, s1) /\ f a s1 = (Ok b, s').
Proof. unfold sbind. destruct (x s) as [[a| |] s1]; try discriminate. eauto. Qed.
Lemma rmap_ok {A B} (f : A -> B) (x : res A) b : rmap f x = Ok b -> exists a, x = Ok a /\ b = f a.
Proof. destruct x; try discriminate. intros [= <-]. eauto. Qed.
Lemma slift_ok {A} (x : res A) s a s' : slift x s = (Ok a, s') -> x = Ok a /\ s' = s.
Proof. unfold slift. now intros [= -> ->]. Qed.
Lemma need_ok {A} (o : option A) s a s' : @need T A o s = (Ok a, s') -> o = Some a /\ s' = s.
Proof. destruct o; cbn [need]; intros H; apply slift_ok in H as [H ->]; [injection H as ->; auto|discriminate]. Qed.

Lemma des1_ok : forall tag data, ~ In tag [TAG_glyf; TAG_gvar] -> quiet (des1 K tag data) /\
    forall s l s', des1 K tag data s = (Ok l, s') -> genuine K tag (mk_table (Some data) l).
Proof.
  intros tag data Hn. unfold des1.
  destruct (tag_in tag [TAG_GPOS; TAG_GSUB]) eqn:E1.
  { apply tag_in_iff in E1. split.
    - apply quiet_bind; [apply quiet_typed_on; intros; apply des0s_ok_on, not_dep; reflexivity|].
      intros o. apply quiet_bind; [apply quiet_need|]. intros; apply quiet_slift.
    - intros s l s' H. apply sbind_ok in H as (o & s1 & _ & H). apply sbind_ok in H as (m & s2 & _ & H).
      apply slift_ok in H as [H _]. apply rmap_ok in H as (x & _ & ->). apply dep_kind.
      + destruct E1 as [<-|[<-|[]]]; [now left|right; now left].
      + cbn [right_kind]. split; [reflexivity|]. destruct E1 as [<-|[<-|[]]]; [now left|right; now left]. }
  tag_case tag TAG_hmtx.
  { split.
    - apply quiet_bind; [apply quiet_typed_on; intros; apply des0s_ok_on, not_dep; reflexivity|].
      intros o. apply quiet_bind; [apply quiet_need|]. intros; apply quiet_slift.
    - intros s l s' H. apply sbind_ok in H as (o & s1 & _ & H). apply sbind_ok in H as (m & s2 & _ & H).
      apply slift_ok in H as [H _]. apply rmap_ok in H as (x & _ & ->). apply dep_kind; [|reflexivity].
      do 2 right. now left. }
  tag_case tag TAG_loca.
  { split.
    - apply quiet_bind; [apply quiet_typed_on; intros; apply des0s_ok_on, not_dep; reflexivity|].
      intros o. apply quiet_bind; [apply quiet_need|]. intros; apply quiet_slift.
    - intros s l s' H. apply sbind_ok in H as (o & s1 & _ & H). apply sbind_ok in H as (m & s2 & _ & H).
      apply slift_ok in H as [H _]. apply rmap_ok in H as (x & _ & ->). apply dep_kind; [|reflexivity].
      do 3 right. now left. }
  apply des0s_ok_on. intros Hi. unfold dependent_tags in Hi. cbn [In] in Hi.
  assert (Hr: forall c, bytes_eqb tag c = false -> c <> tag).
  { intros c Hc <-. assert (bytes_eqb c c = true) by now apply bytes_eqb_eq. congruence. }
  destruct Hi as [Hi|[Hi|[Hi|[Hi|[Hi|[Hi|[]]]]]]].
  - assert (In tag [TAG_GPOS; TAG_GSUB]) as X by (now left). apply tag_in_iff in X. congruence.
  - assert (In tag [TAG_GPOS; TAG_GSUB]) as X by (right; now left). apply tag_in_iff in X. congruence.
  - now apply (Hr TAG_hmtx).
  - now apply (Hr TAG_loca).
  - apply Hn. now left.
  - apply Hn. right. now left.
Qed.

Lemma des2_ok : forall tag data, tag <> TAG_gvar -> quiet (des2 K tag data) /\
    forall s l s', des2 K tag data s = (Ok l, s') -> genuine K tag (mk_table (Some data) l).
Proof.
  intros tag data Hn. unfold des2. tag_case tag TAG_glyf.
  { split.
    - apply quiet_bind; [apply quiet_typed_on; intros; apply des1_ok; intros [X|[X|[]]]; discriminate|].
      intros o. apply quiet_bind; [apply quiet_need|]. intros; apply quiet_slift.
    - intros s l s' H. apply sbind_ok in H as (o & s1 & _ & H). apply sbind_ok in H as (m & s2 & _ & H).
      apply slift_ok in H as [H _]. apply rmap_ok in H as (x & _ & ->). apply dep_kind; [|reflexivity].
      do 4 right. now left. }
  apply des1_ok. intros [<-|[X|[]]]; [|congruence].
  assert (bytes_eqb TAG_glyf TAG_glyf = true) by now apply bytes_eqb_eq. congruence.
Qed.

Lemma des3_ok : des_ok (des3 K).
Proof.
  intros tag data. unfold des3. tag_case tag TAG_gvar.
  { split.
    - apply quiet_bind; [apply quiet_typed_on; intros; apply des2_ok; discriminate|].
      intros o. apply quiet_bind; [apply quiet_need|]. intros; apply quiet_slift.
    - intros s l s' H. apply sbind_ok in H as (o & s1 & _ & H). apply sbind_ok in H as (m & s2 & _ & H).
      apply slift_ok in H as [H _]. destruct (rmapM gvar_coords_and_ends m); try discriminate. cbn [rbind] in H.
      apply rmap_ok in H as (x & _ & ->). apply dep_kind; [do 5 right; now left|].
      split; [reflexivity|]. do 2 right. now left. }
  apply des2_ok. intros ->. assert (bytes_eqb TAG_gvar TAG_gvar = true) by now apply bytes_eqb_eq. congruence.
Qed.

Lemma quiet_load_if tag : quiet (load_if_needed K tag).
Proof. apply quiet_load, des3_ok. Qed.
Lemma quiet_ts_get tag : quiet (ts_get K tag).
Proof. apply quiet_get, des3_ok. Qed.
Lemma quiet_load_each tags : quiet (load_each K tags).
Proof.
  induction tags as [|t tags IH]; [apply quiet_slift|]. intros s Hs. cbn [load_each].
  pose proof (quiet_load_if t s Hs) as [I1 S1]. destruct (load_if_needed K t s) as [[[]| |] s1]; cbn [snd] in *; auto.
  - destruct (IH s1 I1) as [I2 S2]. split; [exact I2|]. now apply same_trans with s1.
  - destruct (IH s1 I1) as [I2 S2]. split; [exact I2|]. now apply same_trans with s1.
Qed.
Lemma quiet_fully : quiet (fully_deserialize K).
Proof.
  unfold fully_deserialize. apply quiet_bind; [apply quiet_load_if|intros _].
  apply quiet_bind; [apply quiet_load_if|intros _]. apply quiet_bind.
  - intros s Hs. destruct (ts_contains TAG_glyf s); [|split; [exact Hs|apply same_refl]].
    revert s Hs. apply (quiet_bind (load_if_needed K TAG_loca)); [apply quiet_load_if|intros _; apply quiet_load_if].
  - intros _ s Hs. now apply quiet_load_each.
Qed.

Lemma self_not tag c : self_contained tag -> In c dependent_tags -> bytes_eqb tag c = false.
Proof.
  intros H Hc. destruct (bytes_eqb tag c) eqn:E; [|reflexivity]. apply bytes_eqb_eq in E. subst. now destruct H.
Qed.
Lemma des3_self tag data s : self_contained tag -> des3 K tag data s = (des0 K tag data, s).
Proof.
  intros H. unfold des3, des2, des1. pose proof (self_not tag) as N.
  rewrite (N TAG_gvar), (N TAG_glyf), (N TAG_hmtx), (N TAG_loca) by (try exact H; cbn; tauto).
  destruct (tag_in tag [TAG_GPOS; TAG_GSUB]) eqn:E; [|reflexivity].
  apply tag_in_iff in E. destruct H. destruct E as [<-|[<-|[]]]; cbn; tauto.
Qed.

Lemma lookup_self tag s : inv s -> self_contained tag ->
  rmap (option_map tb_loaded) (fst (ts_get K tag s)) =
  match contents s tag with
  | None => Ok None
  | Some (Typed l) => Ok (Some l)
  | Some (Raw d) => rmap Some (des0 K tag d)
  end.
Proof.
  intros Hi Hs. unfold ts_get, get_by, load_by, contents. change (get tag s) with (st_get tag s).
  destruct (st_get tag s) as [[data|t]|] eqn:E; cbn [option_map content_of].
  - rewrite des3_self by exact Hs. destruct (des0 K tag data) as [l| |]; cbn [fst rmap]; [|reflexivity|reflexivity].
    rewrite st_get_set. destruct (list_eq_dec Z.eq_dec tag tag); [reflexivity|congruence].
  - rewrite E. cbn [fst rmap option_map]. destruct (tb_raw t) eqn:Er; [|reflexivity].
    destruct Hi as [_ Hg]. destruct (Hg tag t E) as [_ Hp]. rewrite (Hp _ Er Hs). reflexivity.
  - rewrite E. reflexivity.
Qed.

Lemma sorted_increasing (l : list (list Z)) : sorted_keys lex_ltb l <-> tags_increasing l.
Proof.
  split.
  - intros H. induction H as [|a l H IH F]; intros i j x y Hij Hx Hy; [destruct i; discriminate|].
    destruct j as [|j]; [lia|]. destruct i as [|i].
    + injection Hx as <-. rewrite Forall_forall in F. apply F. now apply nth_error_In with j.
    + apply (IH i j x y); [lia|exact Hx|exact Hy].
  - induction l as [|a l IH]; intros H; [constructor|]. constructor.
    + apply IH. intros i j x y Hij Hx Hy. apply (H (S i) (S j)); auto. lia.
    + apply Forall_forall. intros x Hx. apply In_nth_error in Hx as [n Hn]. apply (H 0%nat (S n)); auto. lia.
Qed.

Lemma keys_iff s t : In t (map fst s) <-> contents s t <> None.
Proof.
  unfold contents. split.
  - intros H E. apply in_map_iff in H as ([k v] & <- & Hin). cbn [fst] in E.
    destruct (get k s) eqn:G; [discriminate|]. clear E.
    induction s as [|[k' v'] s IH]; [inversion Hin|]. cbn [bm_get] in G.
    destruct (lex_ltb k k' || lex_ltb k' k) eqn:Ek; [|discriminate].
    destruct Hin as [[= -> ->]|Hin]; [|now apply IH].
    rewrite (st_irrefl _ lex_strict) in Ek. discriminate.
  - intros H. destruct (get t s) as [i|] eqn:G; [|now destruct H].
    apply get_In in G; [|apply lex_strict]. apply in_map_iff. exists (t, i). auto.
Qed.

Lemma shows_ext (m m' : map_t T) o v : (forall t, m t = m' t) -> shows K m o v -> shows K m' o v.
Proof.
  intros E. destruct o; cbn [shows]; auto.
  - now rewrite E.
  - intros (b & H1 & H2). exists b. now rewrite <- E.
  - intros (l & H1 & H2 & H3). exists l. split; [exact H1|split; [exact H2|]]. intros t. rewrite <- E. apply H3.
  - now rewrite E.
Qed.
Lemma spec_step_ext o (m m' : map_t T) : (forall t, m t = m' t) -> forall t, spec_step o m t = spec_step o m' t.
Proof.
  intros E t. destruct o; cbn [spec_step]; auto; unfold upd; destruct (list_eq_dec Z.eq_dec t tag); auto.
Qed.
Lemma spec_run_ext ops : forall (m m' : map_t T) vs, (forall t, m t = m' t) -> spec_run K ops m vs -> spec_run K ops m' vs.
Proof.
  induction ops as [|o ops IH]; intros m m' [|v vs] E; cbn [spec_run]; auto.
  intros [H1 H2]. split; [now apply shows_ext with m|]. apply (IH (spec_step o m)); [|exact H2]. now apply spec_step_ext.
Qed.

Lemma contents_remove s tag t : sorted_map lex_ltb s ->
  contents (bm_remove lex_ltb tag s) t = if list_eq_dec Z.eq_dec t tag then None else contents s t.
Proof.
  intros Hs. unfold contents. destruct (list_eq_dec Z.eq_dec t tag) as [->|N].
  - rewrite get_remove_same; [reflexivity|apply lex_strict|exact Hs].
  - rewrite get_remove_other; [reflexivity|apply lex_strict|congruence].
Qed.

Lemma step_spec o s : inv s -> op_ok K o ->
  let '(v, s') := step K o s in
  inv s' /\ shows K (contents s) o v /\ forall t, contents s' t = spec_step o (contents s) t.
Proof.
  intros Hi Ho. destruct o; cbn [step].
  - destruct Ho as [_ Ho]. split; [apply inv_set; [exact Hi|]; intros t' [= <-]; exact Ho|]. split; [reflexivity|].
    intros t'. unfold ts_insert. rewrite contents_set. reflexivity.
  - split; [apply inv_set; [exact Hi|]; discriminate|]. split; [reflexivity|].
    intros t'. unfold ts_insert_raw. rewrite contents_set. reflexivity.
  - cbn [ts_remove snd]. destruct Hi as [Hs Hg]. split; [split|split; [reflexivity|]].
    + apply remove_sorted; try apply lex_strict; exact Hs.
    + intros t' x Hx. destruct (list_eq_dec Z.eq_dec t' tag) as [->|N].
      * rewrite get_remove_same in Hx; [discriminate|apply lex_strict|exact Hs].
      * rewrite (get_remove_other lex_ltb lex_strict tag t' s) in Hx by congruence. now apply Hg.
    + intros t'. now apply contents_remove.
  - pose proof (quiet_ts_get tag s Hi) as [I S]. pose proof (lookup_self tag s Hi) as L.
    destruct (ts_get K tag s) as [r s']. cbn [fst snd] in *. split; [exact I|]. split.
    + cbn [shows]. intros Hs. eexists. split; [reflexivity|]. now apply L.
    + intros t. symmetry. apply S.
  - pose proof (quiet_fully s Hi) as [I S]. split; [exact I|]. split; [reflexivity|]. intros t. symmetry. apply S.
  - split; [exact Hi|]. split; [|reflexivity]. exists (ts_contains tag s). split; [reflexivity|].
    unfold ts_contains, contents, st_get. destruct (get tag s); cbn; split; congruence.
  - split; [exact Hi|]. split; [|reflexivity]. exists (ts_keys s). split; [reflexivity|]. split.
    + apply sorted_increasing. apply Hi.
    + intros t. apply keys_iff.
  - split; [exact Hi|]. split; [|reflexivity]. cbn [shows]. f_equal. unfold write_table, contents, st_get.
    destruct (get tag s) as [[d|t]|]; cbn; try reflexivity. destruct (tb_raw t); reflexivity.
Qed.

Lemma run_spec ops : forall s, inv s -> Forall (op_ok K) ops ->
  spec_run K ops (contents s) (fst (run K ops s)).
Proof.
  induction ops as [|o ops IH]; intros s Hi Ho; [exact I|]. inversion Ho; subst. cbn [run].
  pose proof (step_spec o s Hi H1) as H. destruct (step K o s) as [v s1]. destruct H as (I1 & Sh & E).
  specialize (IH s1 I1 H2). destruct (run K ops s1) as [vs s2]. cbn [fst spec_run] in *. split; [exact Sh|].
  apply (spec_run_ext ops (contents s1)); [exact E|exact IH].
Qed.
End Store.

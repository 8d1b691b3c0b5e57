(** Script lists, feature lists, lookup lists and the GSUB/GPOS table. *)
From Coq Require Import List ZArith Lia Bool Permutation Sorted.
Import ListNotations.
From Verif.Model Require Import MBase MMap MTag MGlyph MOffset MLayout MLow MContext MLookup MGsub.
From Verif.Spec Require Import SBase SGlyph SOffset SLayout SContext SGsub SScript SGsubTable.
From Verif.Proofs Require Import PBase PCodec PMap PTag PGlyph PGlyphFmt PPoints POffset PPart PCover PClassdef PLow PGsub PLig PContext.
Open Scope Z_scope.

(** ** Maps by tag *)
Lemma in_of_list' {V} es k (g : V) : In (k, g) (bm_of_list lex_ltb es) <-> last_entry es k g.
Proof.
  assert (G: bm_get lex_ltb k (bm_of_list lex_ltb es) = Some g <-> last_entry es k g).
  { unfold bm_of_list. rewrite (get_fold_insert _ lex_strict). cbn [bm_get]. unfold last_entry. induction es as [|[k1 g1] es IH] using rev_ind.
    - cbn. split; [discriminate|]. intros (a & b & E & _). destruct a; discriminate.
    - rewrite rev_app_distr. cbn [rev app find fst snd]. destruct (lex_ltb k k1 || lex_ltb k1 k) eqn:E; cbn [negb].
      + assert (N: k <> k1) by (intros ->; rewrite (st_irrefl _ lex_strict) in E; discriminate). rewrite IH. split.
        * intros (a & b & -> & Hb). exists a, (b ++ [(k1, g1)]). split; [now rewrite <- app_assoc|]. rewrite map_app, in_app_iff. cbn. intuition congruence.
        * intros (a & b & Eq & Hb). destruct b as [|[k2 g2] b _] using rev_ind; [apply app_inj_tail in Eq as [_ Eq]; injection Eq as -> ->; congruence|].
          rewrite app_comm_cons, app_assoc in Eq. apply app_inj_tail in Eq as [-> _]. exists a, b. split; [reflexivity|]. intros X. apply Hb. rewrite map_app, in_app_iff. now left.
      + apply (eq_case _ lex_strict) in E. subst k1. split.
        * intros [= ->]. exists es, []. split; [reflexivity|easy].
        * intros (a & b & Eq & Hb). destruct b as [|[k2 g2] b _] using rev_ind; [now apply app_inj_tail in Eq as [_ [= ->]]|].
          rewrite app_comm_cons, app_assoc in Eq. apply app_inj_tail in Eq as [_ [= -> ->]]. elim Hb. rewrite map_app, in_app_iff. right. now left. }
  rewrite <- G. split; [apply (In_get _ lex_strict), (of_list_sorted _ lex_strict)|apply (get_In _ lex_strict)].
Qed.
Lemma map_of_list {V} (l : list (list Z * V)) : map_of l (bm_of_list lex_ltb l).
Proof. split; [apply (of_list_sorted _ lex_strict)|]. intros t v. apply in_of_list'. Qed.
Lemma map_of_self {V} (m : list (list Z * V)) : ordered m -> bm_of_list lex_ltb m = m.
Proof. apply (of_list_id _ lex_strict). Qed.
Lemma insert_map_values {K V W} (ltb : K -> K -> bool) (f : V -> W) k v m :
  map (fun kv => (fst kv, f (snd kv))) (bm_insert ltb k v m) = bm_insert ltb k (f v) (map (fun kv => (fst kv, f (snd kv))) m).
Proof. induction m as [|[a b] m IH]; [reflexivity|]. cbn [bm_insert map fst snd]. destruct (ltb k a); [reflexivity|]. destruct (ltb a k); [|reflexivity]. cbn [map fst snd]. now rewrite IH. Qed.
Lemma of_list_map_values {K V W} (ltb : K -> K -> bool) (f : V -> W) l :
  bm_of_list ltb (map (fun kv => (fst kv, f (snd kv))) l) = map (fun kv => (fst kv, f (snd kv))) (bm_of_list ltb l).
Proof.
  unfold bm_of_list. change (@nil (K * W)) with (map (fun kv : K * V => (fst kv, f (snd kv))) []) at 1. generalize (@nil (K * V)).
  induction l as [|[k v] l IH]; intros m; [reflexivity|]. cbn [map fold_left fst snd]. rewrite <- insert_map_values. apply IH.
Qed.

(** ** Records *)
Lemma tag_ser t : is_tag t -> ser_tag t = t.
Proof. intros H. apply ser_tag_id. now apply valid_tag_bytes. Qed.
Lemma part_tag t : is_tag t -> part de_tag (raw t) t.
Proof. intros H. apply part_reads. rewrite <- (tag_ser t H) at 1. now apply reads_tag. Qed.
Lemma part_records {A B} (is_obj : A -> obj -> Prop) (p : parser B) (f : A -> B) l os : records_of is_obj l os ->
  (forall a o, is_obj a o -> decodes p o (f a)) -> countable os ->
  part (de_counted16 (record_de p)) (records os) (map (fun r => (fst r, Some (f (snd r)))) l).
Proof.
  intros H Hp Hc. unfold de_counted16, records. eapply part_bind; [apply part_word; unfold countable, is_u16 in *; lia|]. apply part_group. rewrite Nat2Z.id.
  replace (length os) with (length (map (fun r : list Z * A => (fst r, Some (f (snd r)))) l)) by (rewrite map_length; eapply F2_len; exact H).
  replace (map tagged os) with (concat (map (fun o => [tagged o]) os)) by (clear; induction os; cbn; [reflexivity|now rewrite IHos]).
  apply part_counted2. clear Hc. unfold records_of in H. induction H as [|[t a] [t' o] l os (E & Ht & Ho) H IH]; cbn [map]; constructor; [|exact IH].
  cbn [fst snd] in *. subst t'. unfold tagged. cbn [fst snd]. apply part_group. unfold record_de. eapply part_bind; [now apply part_tag|].
  apply (part_map _ (fun o => (t, o))). apply part_off16. now apply Hp.
Qed.
Lemma records_written {A B} (is_obj : A -> obj -> Prop) (enc : B -> res obj) (f : A -> B) (l : list (list Z * A)) : countable l ->
  Forall (fun r => is_tag (fst r) /\ exists o, enc (f (snd r)) = Ok o /\ is_obj (snd r) o) l ->
  exists os, records_enc enc (map (fun r => (fst r, Some (f (snd r)))) l) = Ok (records os) /\ records_of is_obj l os /\ countable os.
Proof.
  intros Hc H. assert (X: exists os, rmapM (record_enc enc) (map (fun r : list Z * A => (fst r, Some (f (snd r)))) l) = Ok (map tagged os) /\ records_of is_obj l os).
  { clear Hc. induction H as [|[t a] l (Ht & o & E & Ho) H IH]; [exists []; split; [reflexivity|constructor]|]. destruct IH as (os & E2 & F).
    exists ((t, o) :: os). split; [|constructor; cbn [fst snd]; auto]. cbn [fst snd] in *. cbn [map rmapM fst snd]. unfold record_enc at 1. cbn [fst snd link_enc]. rewrite E. cbn [rbind].
    rewrite E2. cbn [rbind]. unfold tagged at 2. cbn [fst snd]. now rewrite (tag_ser t Ht). }
  destruct X as (os & E & F). assert (Co: countable os) by (unfold countable in *; now rewrite <- (F2_len _ _ _ F)). exists os. split; [|auto].
  unfold records_enc. rewrite E. cbn [rbind]. rewrite map_length. rewrite (F2_len _ _ _ F). rewrite len_word by exact Co. reflexivity.
Qed.

(** ** Scripts *)
Definition langsys_low_of (order : Z) (l : langsys) : langsys_low :=
  mk_langsys_low order (match lg_required l with Some r => r | None => 65535 end) (lg_features l).
Lemma langsys_read l o : langsys_obj l o -> exists order, decodes langsys_de o (langsys_low_of order l) /\ langsys_from_low (langsys_low_of order l) = l.
Proof.
  intros [order Ho (Hr & Hc & Hf)]. exists order. split.
  - unfold counted_words. rewrite <- raw_app. apply decodes_reads. unfold langsys_de. rewrite <- app_assoc, (word_u16 order).
    eapply reads_bind; [apply reads_u16; unfold is_u16 in Ho; lia|]. rewrite (word_u16 (match _ with Some _ => _ | None => _ end)).
    eapply reads_bind; [apply reads_u16; destruct (lg_required l); lia|].
    apply (reads_map _ (fun f => mk_langsys_low order (match lg_required l with Some r => r | None => 65535 end) f)). now apply reads_words.
  - unfold langsys_from_low, langsys_low_of. cbn [lw_required lw_features]. destruct l as [[r|] f]; cbn [lg_required lg_features] in *; [|reflexivity].
    replace (r =? 65535) with false by lia. reflexivity.
Qed.
Lemma map_u16_id l : Forall is_u16 l -> map u16 l = l.
Proof. induction 1 as [|x l H H2 IH]; [reflexivity|]. cbn [map]. rewrite IH, u16_id; [reflexivity|unfold is_u16 in H; lia]. Qed.
Lemma langsys_written l : langsys_ok l -> exists o, langsys_enc (langsys_to_low l) = Ok o /\ langsys_obj l o.
Proof.
  intros H. pose proof H as (Hr & Hc & Hf). unfold langsys_to_low, langsys_enc. cbn [lw_order lw_required lw_features]. eexists. split; [reflexivity|].
  rewrite map_u16_id by exact Hf. rewrite words_enc_spec by exact Hc. rewrite u16_id by (destruct (lg_required l); lia). rewrite <- !word_u16.
  constructor; [unfold is_u16; lia|exact H].
Qed.
Definition same_usize (l : langsys) : Prop :=
  match lg_required l with Some r => 0 <= r | None => True end /\ Forall (fun f => 0 <= f) (lg_features l).
Lemma langsys_iff l : same_usize l ->
  (langsys_from_low (langsys_to_low l) = l <-> match lg_required l with Some r => r < 65535 | None => True end /\ Forall (fun f => f < 65536) (lg_features l)).
Proof.
  destruct l as [q f]. unfold same_usize, langsys_from_low, langsys_to_low. cbn [lg_required lg_features lw_required lw_features]. intros [Hq Hf].
  assert (M: map u16 f = f <-> Forall (fun f => f < 65536) f).
  { induction Hf as [|a f Ha Hf IH]; [split; constructor|]. cbn [map]. unfold u16 at 1, wrap_u. change (2 ^ 16) with 65536. rewrite Forall_cons_iff, <- IH. split.
    - intros [= E1 E2]. split; [lia|exact E2].
    - intros [E1 E2]. rewrite E2. f_equal. lia. }
  rewrite <- M. unfold u16 at 1 2, wrap_u. change (2 ^ 16) with 65536. split.
  - intros E. injection E as E1 E2. split; [|exact E2]. destruct q as [r|]; [|exact I]. destruct (r mod 65536 =? 65535) eqn:E; [discriminate|]. injection E1 as E1. lia.
  - intros [E1 E2]. rewrite E2. destruct q as [r|]; [|reflexivity]. rewrite Z.mod_small by lia. replace (r =? 65535) with false by lia. reflexivity.
Qed.

Lemma Forall2_choose {A B C} (P : A -> B -> Prop) (Q : A -> B -> C -> Prop) l1 l2 : Forall2 P l1 l2 -> (forall a b, P a b -> exists c, Q a b c) ->
  exists l3, Forall2 (fun ab c => Q (fst ab) (snd ab) c) (combine l1 l2) l3.
Proof.
  intros H HQ. induction H as [|a b l1 l2 H H2 (l3 & IH)]; [exists []; constructor|]. destruct (HQ a b H) as (c & Hc). exists (c :: l3). now constructor.
Qed.
(** reading records whose targets are converted afterwards *)
Lemma part_records_ex {A B} (is_obj : A -> obj -> Prop) (p : parser B) (back : B -> res A) l os : records_of is_obj l os ->
  (forall a o, is_obj a o -> exists b, decodes p o b /\ back b = Ok a) -> countable os ->
  exists lb, part (de_counted16 (record_de p)) (records os) (map (fun r => (fst r, Some (snd r))) lb) /\
    Forall2 (fun b a => fst b = fst a /\ back (snd b) = Ok (snd a)) lb l.
Proof.
  intros H Hp Hc. assert (X: exists lb, records_of (fun b o => decodes p o b) lb os /\ Forall2 (fun b a => fst b = fst a /\ back (snd b) = Ok (snd a)) lb l).
  { clear Hc. unfold records_of in *. induction H as [|[t a] [t' o] l os (E & Ht & Ho) H (lb & IH1 & IH2)]; [exists []; split; constructor|]. cbn [fst snd] in *. subst t'.
    destruct (Hp a o Ho) as (b & D & R). exists ((t, b) :: lb). split; constructor; cbn [fst snd]; auto. }
  destruct X as (lb & H1 & H2). exists lb. split; [|exact H2]. apply (part_records (fun b o => decodes p o b) p (fun b => b) lb os H1); auto.
Qed.
Lemma langs_from lb ls m : Forall2 (fun b a => fst b = fst a /\ Ok (langsys_from_low (snd b)) = Ok (snd a)) lb ls ->
  langs_from_low (map (fun r => (fst r, Some (snd r))) lb) m = Ok (fold_left (fun m kv => bm_insert lex_ltb (fst kv) (snd kv) m) ls m).
Proof.
  intros H. revert m. induction H as [|[t b] [t' a] lb ls (E & R) H IH]; intros m; [reflexivity|]. cbn [map langs_from_low fst snd unwrap rbind fold_left] in *.
  subst t'. injection R as <-. apply IH.
Qed.
Definition shown_script (f : script_file) : script := mk_script (fst f) (bm_of_list lex_ltb (snd f)).
Lemma part_optional {A B} (is_obj : A -> obj -> Prop) (p : parser B) (back : B -> res A) a o : opt_obj is_obj a o ->
  (forall a o, is_obj a o -> exists b, decodes p o b /\ back b = Ok a) ->
  exists b, part (de_off16 p) [olink o] b /\ match b, a with Some b, Some a => back b = Ok a | None, None => True | _, _ => False end.
Proof.
  intros H Hp. destruct a as [a|], o as [o|]; cbn [opt_obj] in H; try contradiction.
  - destruct (Hp a o H) as (b & D & R). exists (Some b). split; [now apply part_off16|exact R].
  - exists None. split; [apply part_off16_null|exact I].
Qed.
Lemma langsys_read' l o : langsys_obj l o -> exists b, decodes langsys_de o b /\ Ok (langsys_from_low b) = Ok l.
Proof. intros H. destruct (langsys_read l o H) as (order & D & R). exists (langsys_low_of order l). now rewrite R. Qed.
Lemma script_read f o : script_obj f o -> exists s, decodes script_de o s /\ script_from_low s = Ok (shown_script f).
Proof.
  intros [d os Hd Hr Hc]. destruct (part_optional langsys_obj langsys_de (fun b => Ok (langsys_from_low b)) (fst f) d Hd langsys_read') as (b & Pb & Rb).
  destruct (part_records_ex langsys_obj langsys_de (fun b => Ok (langsys_from_low b)) (snd f) os Hr langsys_read' Hc) as (lb & Pl & Rl).
  exists (mk_script_low b (map (fun r => (fst r, Some (snd r))) lb)). split.
  - apply decodes_part. change (olink d :: records os) with ([olink d] ++ records os). eapply part_bind; [exact Pb|].
    apply (part_map _ (fun r => mk_script_low b r)). exact Pl.
  - unfold script_from_low. cbn [sl_records sl_default]. rewrite (langs_from _ _ [] Rl). cbn [rbind]. unfold shown_script. do 2 f_equal.
    destruct b as [b|], (fst f) as [a|]; try contradiction; [|reflexivity]. cbn [option_map]. now injection Rb as ->.
Qed.
Lemma scripts_from lb l m : Forall2 (fun b a => fst b = fst a /\ script_from_low (snd b) = Ok (snd a)) lb l ->
  scripts_from_low' (map (fun r => (fst r, Some (snd r))) lb) m = Ok (fold_left (fun m kv => bm_insert lex_ltb (fst kv) (snd kv) m) l m).
Proof.
  intros H. revert m. induction H as [|[t b] [t' a] lb l (E & R) H IH]; intros m; [reflexivity|]. cbn [map scripts_from_low' fst snd unwrap rbind fold_left] in *.
  subst t'. rewrite R. cbn [rbind]. apply IH.
Qed.
Lemma scripts_every l o : scripts_obj l o -> exists s, decodes scripts_de o s /\
  scripts_from_low s = Ok (bm_of_list lex_ltb (map (fun kv => (fst kv, shown_script (snd kv))) l)).
Proof.
  intros [os Hr Hc].
  assert (Hr': records_of (fun s o => exists b, decodes script_de o b /\ script_from_low b = Ok s) (map (fun kv => (fst kv, shown_script (snd kv))) l) os).
  { unfold records_of in *. clear Hc. induction Hr as [|[t a] [t' x] l os (E & Ht & Ho) H IH]; cbn [map]; constructor; [|exact IH]. cbn [fst snd] in *. split; [exact E|].
    split; [exact Ht|]. now apply script_read. }
  destruct (part_records_ex _ script_de script_from_low _ os Hr' (fun a o H => H) Hc) as (lb & Pl & Rl).
  eexists. split; [apply decodes_part; exact Pl|]. unfold scripts_from_low. now rewrite (scripts_from _ _ [] Rl).
Qed.
Lemma shows_shown l : shows_scripts l (bm_of_list lex_ltb (map (fun kv => (fst kv, shown_script (snd kv))) l)).
Proof.
  exists (bm_of_list lex_ltb l). split; [apply map_of_list|]. rewrite of_list_map_values.
  induction (bm_of_list lex_ltb l) as [|[t f] m IH]; cbn [map]; constructor; [|exact IH]. cbn [fst snd]. split; [reflexivity|]. split; [reflexivity|apply map_of_list].
Qed.
Lemma script_written s : match sc_default s with Some l => langsys_ok l | None => True end ->
  ordered (sc_langs s) -> countable (sc_langs s) -> Forall (fun tl => is_tag (fst tl) /\ langsys_ok (snd tl)) (sc_langs s) ->
  exists o, script_enc (script_to_low s) = Ok o /\ script_obj (script_in_file s) o.
Proof.
  intros Hd Ho Hc Hf. unfold script_enc, script_to_low. cbn [sl_default sl_records].
  destruct (records_written langsys_obj langsys_enc langsys_to_low (sc_langs s) Hc) as (os & E & R & C).
  { eapply Forall_impl; [|exact Hf]. intros [t l] [H1 H2]. split; [exact H1|]. now apply langsys_written. }
  rewrite E. destruct s as [[d|] ls]; cbn [sc_default sc_langs option_map link_enc] in *.
  - destruct (langsys_written d Hd) as (od & Ed & Od). rewrite Ed. cbn [rbind]. eexists. split; [reflexivity|]. apply (script_obj1 _ (Some od)); auto.
  - cbn [rbind]. eexists. split; [reflexivity|]. apply (script_obj1 _ None); auto.
Qed.
Lemma records_map {A B} (is_obj : B -> obj -> Prop) (f : A -> B) l os :
  records_of (fun a o => is_obj (f a) o) l os -> records_of is_obj (map (fun kv => (fst kv, f (snd kv))) l) os.
Proof. unfold records_of. induction 1 as [|[t a] [t' o] l os (E & Ht & Ho) H IH]; cbn [map]; constructor; cbn [fst snd] in *; auto. Qed.
Lemma scripts_written m : scripts_ok m -> exists o, scripts_enc (scripts_to_low m) = Ok o /\ scripts_obj (scripts_in_file m) o.
Proof.
  intros (Ho & Hc & Hf). unfold scripts_enc, scripts_to_low.
  destruct (records_written (fun s o => script_obj (script_in_file s) o) script_enc script_to_low m Hc) as (os & E & R & C).
  { eapply Forall_impl; [|exact Hf]. intros [t s] (H1 & H2 & H3 & H4 & H5). split; [exact H1|]. now apply script_written. }
  exists (records os). split; [exact E|]. constructor; [|exact C]. now apply records_map.
Qed.
Lemma scripts_back m : scripts_ok m -> bm_of_list lex_ltb (map (fun kv => (fst kv, shown_script (snd kv))) (scripts_in_file m)) = m.
Proof.
  intros (Ho & Hc & Hf). rewrite of_list_map_values. unfold scripts_in_file. rewrite of_list_map_values, map_map. cbn [fst snd]. rewrite (map_of_self m Ho).
  transitivity (map (fun x : list Z * script => x) m); [|apply map_id]. apply map_ext_in. intros [t s] Hin. cbn [fst snd]. f_equal. unfold shown_script, script_in_file. cbn [fst snd].
  rewrite Forall_forall in Hf. specialize (Hf _ Hin). cbn [snd] in Hf. rewrite map_of_self by apply Hf. now destruct s.
Qed.

(** ** Features *)
Lemma feature_read l o : feature_obj l o -> exists b, decodes feature_de o b /\ Ok (snd b) = Ok l.
Proof.
  intros [params Hp Hc Hf]. exists (params, l). split; [|reflexivity]. unfold counted_words. rewrite <- raw_app. apply decodes_reads. unfold feature_de. rewrite (word_u16 params).
  eapply reads_bind; [apply reads_u16; unfold is_u16 in Hp; lia|]. apply (reads_map _ (fun l => (params, l))). now apply reads_words.
Qed.
Lemma features_from {P} lb l : Forall2 (fun b a : list Z * _ => fst b = fst a /\ Ok (snd (snd b : feature_low)) = Ok (snd a)) lb l ->
  @features_from_low P (map (fun r => (fst r, Some (snd r))) lb) = Ok (map (fun f => (f, None)) l).
Proof.
  unfold features_from_low. induction 1 as [|[t b] [t' a] lb l (E & R) H IH]; [reflexivity|]. cbn [map rmapM fst snd unwrap rbind] in *. subst t'. injection R as <-.
  now rewrite IH.
Qed.
Lemma features_every {P} l o : features_obj l o -> exists s, decodes features_de o s /\ @features_from_low P s = Ok (map (fun f => (f, None)) l).
Proof.
  intros [os Hr Hc]. destruct (part_records_ex feature_obj feature_de (fun b => Ok (snd b)) l os Hr feature_read Hc) as (lb & Pl & Rl).
  eexists. split; [apply decodes_part; exact Pl|]. exact (features_from lb l Rl).
Qed.
Lemma features_written {P} (l : features P) : countable l -> Forall (fun f => feature_ok (fst f)) l ->
  exists o, features_enc (features_to_low l) = Ok o /\ features_obj (map fst l) o.
Proof.
  intros Hc Hf. unfold features_enc, features_to_low.
  destruct (records_written feature_obj feature_enc (fun x => (0, map u16 x)) (map fst l)) as (os & E & R & C).
  - unfold countable in *. now rewrite map_length.
  - apply Forall_map. eapply Forall_impl; [|exact Hf]. intros [[t x] p] (H1 & H2 & H3). cbn [fst snd] in *. split; [exact H1|]. unfold feature_enc. cbn [fst snd].
    eexists. split; [reflexivity|]. rewrite map_u16_id by exact H3. rewrite words_enc_spec by exact H2. rewrite <- word_u16. constructor; auto. unfold is_u16. lia.
  - rewrite map_map in E. exists (records os). split; [exact E|]. now constructor.
Qed.

(** ** Lookups *)
Lemma part_sub {S} (p : parser S) o v : finds p o v -> part (de_sub p) [link o] v.
Proof.
  intros Hd buf base pos stk St. unfold link in St. inversion St; subst.
  match goal with H : at_pos _ _ (be_bytes _ ?v) |- _ => rename H into Ha; rename v into w end.
  match goal with H : stored _ _ _ _ o |- _ => rename H into Ho end.
  unfold de_sub, pbind. change (be_bytes (off_width Off16) w) with (ser_u16 w) in Ha.
  pose proof (at_pos_reads de_u16 _ _ _ _ (base :: stk) (reads_u16 w ltac:(cbn [off_width] in *; lia)) Ha) as E. rewrite E. cbn [top_of_table rd_stack rd_input rd_ptr].
  destruct (Hd _ _ (base :: stk) Ho) as [q Eq]. rewrite Eq. cbn [rd_input rd_stack rd_ptr]. reflexivity.
Qed.
Lemma contains_16 f : contains f 16 = has_set f.
Proof.
  unfold contains, has_set. destruct (Z.testbit f 4) eqn:E.
  - apply Z.eqb_eq. apply Z.bits_inj'. intros n Hn. rewrite Z.land_spec. change 16 with (2 ^ 4). rewrite Z.pow2_bits_eqb by lia. destruct (4 =? n) eqn:En; [|now rewrite andb_false_r].
    assert (n = 4) as -> by lia. now rewrite E.
  - apply Z.eqb_neq. intros X. assert (Y: Z.testbit (Z.land f 16) 4 = Z.testbit 16 4) by now rewrite X. rewrite Z.land_spec, E in Y. discriminate.
Qed.
Lemma lookup_read {S} (de : Z -> parser S) t flags set subs o vs : lookup_obj t flags set subs o -> Forall2 (fun o v => finds (de t) o v) subs vs ->
  decodes (lookup_de de) o (mk_lookup_low t flags vs set).
Proof.
  intros [Ht Hf Hc Hs] H. apply decodes_part. rewrite raw_app, <- app_assoc. unfold links. rewrite <- !app_assoc.
  eapply part_bind; [now apply part_word|]. eapply part_bind; [now apply part_word|].
  eapply part_bind; [apply part_word; unfold countable, is_u16 in *; lia|]. eapply part_bind.
  - apply part_group. rewrite Nat2Z.id. replace (length subs) with (length vs) by (symmetry; eapply F2_len; exact H).
    replace (map link subs) with (concat (map (fun o => [link o]) subs)) by (clear; induction subs; cbn; [reflexivity|now rewrite IHsubs]).
    apply part_counted2. clear -H. induction H; cbn [map]; constructor; [now apply part_sub|exact IHForall2].
  - apply (part_map _ (fun m => mk_lookup_low t flags vs m)). rewrite contains_16. destruct set as [m|].
    + destruct Hs as [Hm ->]. apply (part_map _ (fun m => Some m)). now apply part_word.
    + rewrite Hs. apply part_pret.
Qed.
Lemma subs_written {S} (enc : S -> res obj) ss : Forall (fun s => exists o, enc s = Ok o) ss ->
  exists os, rmapM (fun s => b <- enc s ;; Ok (IRef Off16 (Some b))) ss = Ok (map link os) /\ Forall2 (fun s o => enc s = Ok o) ss os.
Proof.
  induction 1 as [|s ss (o & E) H (os & E2 & F)]; [exists []; split; [reflexivity|constructor]|]. exists (o :: os). split; [|now constructor].
  cbn [rmapM map]. rewrite E. cbn [rbind]. rewrite E2. reflexivity.
Qed.
Lemma lookup_written {S} (enc : S -> res obj) t flags ss set os : is_u16 t -> is_u16 flags -> countable ss ->
  match set with Some m => is_u16 m /\ has_set flags = true | None => has_set flags = false end ->
  Forall2 (fun s o => enc s = Ok o) ss os ->
  exists o, lookup_enc enc (mk_lookup_low t flags ss set) = Ok o /\ lookup_obj t flags set os o.
Proof.
  intros Ht Hf Hc Hs F. unfold lookup_enc. cbn [lk_subs lk_type lk_flag lk_set].
  destruct (subs_written enc ss) as (os' & E & F'). { clear -F. induction F; constructor; eauto. }
  assert (os' = os) as ->. { clear -F F'. revert os F. induction F' as [|s o ss os' H H2 IH]; intros os F; inversion F; subst; [reflexivity|]. f_equal; [congruence|auto]. }
  rewrite E. cbn [rbind]. eexists. split; [reflexivity|]. rewrite (F2_len _ _ _ F) in *. assert (Co: countable os) by (eapply Forall2_countable; eassumption).
  rewrite len_word by exact Co. rewrite contains_16. rewrite <- !word_u16.
  replace (raw (word t ++ word flags ++ word (Z.of_nat (length os))) ++ [IGroup (map link os)] ++ raw (if has_set flags then match set with Some m => ser_u16 m | None => [] end else []))
    with (raw (word t ++ word flags) ++ links os ++ raw (match set with Some m => word m | None => [] end)).
  - now constructor.
  - unfold links. rewrite !raw_app, <- !app_assoc. do 4 f_equal. destruct set as [m|]; [destruct Hs as [_ ->]; now rewrite word_u16|now rewrite Hs].
Qed.

(** ** Tables *)
Lemma ordered_ext' {V} (m1 m2 : list (list Z * V)) : ordered m1 -> ordered m2 -> (forall k g, In (k, g) m1 <-> In (k, g) m2) -> m1 = m2.
Proof.
  intros H1 H2 H. apply (sorted_map_ext _ lex_strict _ _ H1 H2). intros k. destruct (bm_get lex_ltb k m1) as [g|] eqn:E1.
  - apply (get_In _ lex_strict) in E1. apply H in E1. symmetry. now apply (In_get _ lex_strict).
  - destruct (bm_get lex_ltb k m2) as [g|] eqn:E2; [|reflexivity]. apply (get_In _ lex_strict) in E2. apply H in E2.
    apply (In_get _ lex_strict _ _ _ H1) in E2. congruence.
Qed.
Lemma map_of_unique {V} (l m : list (list Z * V)) : map_of l m -> m = bm_of_list lex_ltb l.
Proof. intros [O H]. destruct (map_of_list l) as [O' H']. apply ordered_ext'; auto. intros k g. now rewrite H, H'. Qed.
Lemma shows_unique l m : shows_scripts l m -> m = bm_of_list lex_ltb (map (fun kv => (fst kv, shown_script (snd kv))) l).
Proof.
  intros (m' & Hm & F). apply map_of_unique in Hm. rewrite of_list_map_values, <- Hm. clear Hm. induction F as [|[t f] [t' s] m' m (E & D & H) F IH]; [reflexivity|].
  cbn [map fst snd] in *. rewrite <- IH. f_equal. apply map_of_unique in H. unfold shown_script. destruct s as [d ls]. cbn [sc_default sc_langs] in *. now subst.
Qed.
Lemma Forall2_in_l {A B} (R : A -> B -> Prop) l1 l2 a : Forall2 R l1 l2 -> In a l1 -> exists b, In b l2 /\ R a b.
Proof. induction 1 as [|x y l1 l2 H H2 IH]; intros Hin; [destruct Hin|]. destruct Hin as [->|Hin]; [exists y; split; [now left|exact H]|]. destruct (IH Hin) as (b & Hb & Rb). exists b. split; [now right|exact Rb]. Qed.
Lemma F2_flip {A B} (R : A -> B -> Prop) l1 l2 : Forall2 R l1 l2 -> Forall2 (fun b a => R a b) l2 l1.
Proof. induction 1; constructor; auto. Qed.
Section Table.
  Context {P S R : Type} (enc : S -> res obj) (de : Z -> parser S) (subs : Z -> list S -> res R)
    (typ : R -> Z) (subtables : R -> res (list S)) (rule : Z -> list obj -> R -> Prop) (ok : R -> Prop) (same : R -> R -> Prop).
  Hypothesis rule_read : forall t os r, rule t os r -> exists ss, Forall2 (fun o s => finds (de t) o s) os ss /\ subs t ss = Ok r.
  Lemma table_read (g : layout P R) o : layout_file rule g o ->
    part (t <-- table_de de ;; plift (layout_from_low subs t)) o g.
  Proof.
    intros [s so f fo os Hs Ss Hf Ff Hl Hc]. destruct (scripts_every s so Hs) as (ss & Ds & Rs). destruct (@features_every P f fo Hf) as (ff & Df & Rf).
    assert (X: exists lows, Forall2 (fun o l => decodes (lookup_de de) o l) os lows /\
      rmapM (fun l : lookup_low S => r <- subs (lk_type l) (lk_subs l) ;; Ok (mk_lookup (lk_flag l) (lk_set l) r)) lows = Ok (ly_lookups g)).
    { clear -Hl rule_read. induction Hl as [|l o ls os (t & sb & Ho & Hr) Hl (lows & I1 & I2)]; [exists []; split; [constructor|reflexivity]|].
      destruct (rule_read _ _ _ Hr) as (vs & D & E). exists (mk_lookup_low t (lu_flags l) vs (lu_set l) :: lows). split.
      - constructor; [|exact I1]. eapply lookup_read; eassumption.
      - cbn [rmapM lk_type lk_subs lk_flag lk_set]. rewrite E. cbn [rbind]. rewrite I2. cbn [rbind]. now destruct l. }
    destruct X as (lows & Hd & Hr).
    assert (Dl: decodes (lookups_de de) (links os) (map Some lows)) by (apply decodes_part; now apply part_vec).
    assert (Pt: part (_ <-- de_u16 ;; _ <-- de_u16 ;; s <-- de_off16 scripts_de ;; f <-- de_off16 features_de ;; l <-- de_off16 (lookups_de de) ;;
       pret (mk_table_low s f l)) (table_obj so fo os) (mk_table_low (Some ss) (Some ff) (Some (map Some lows)))).
    { unfold table_obj. rewrite raw_app, <- app_assoc. eapply part_bind; [apply part_word; unfold is_u16; lia|]. eapply part_bind; [apply part_word; unfold is_u16; lia|].
      change [link so; link fo; link (links os)] with ([link so] ++ [link fo] ++ [link (links os)]). eapply part_bind; [apply part_off16; exact Ds|].
      eapply part_bind; [apply part_off16; exact Df|]. apply (part_map _ (fun l => mk_table_low (Some ss) (Some ff) l)). apply part_off16. exact Dl. }
    assert (Pt2: part (table_de de) (table_obj so fo os) (mk_table_low (Some ss) (Some ff) (Some (map Some lows)))).
    { intros buf base pos stk St. pose proof St as St2. unfold table_obj in St2. apply stored_app in St2 as [St2 _]. apply stored_raw in St2.
      pose proof (peek_at buf pos (base :: stk) _ St2) as Pk. change (length (word 1 ++ word 0)) with 4%nat in Pk. change (word 1 ++ word 0) with [0; 1; 0; 0] in Pk.
      unfold table_de. rewrite Pk. exact (Pt _ _ _ _ St). }
    intros buf base pos stk St. unfold pbind at 1. rewrite (Pt2 _ _ _ _ St). unfold plift.
    unfold layout_from_low. cbn [tl_lookups tl_scripts tl_features].
    replace (concat (map (fun o => match o with Some l => [l] | None => [] end) (map Some lows))) with lows by (clear; induction lows; cbn; [reflexivity|congruence]).
    rewrite Hr. cbn [rbind]. rewrite Rs. cbn [rbind]. rewrite Rf. cbn [rbind]. rewrite <- (shows_unique _ _ Ss), <- Ff. now destruct g.
  Qed.
  Hypothesis rule_written : forall r, ok r -> exists ss os, subtables r = Ok ss /\ Forall2 (fun s o => enc s = Ok o) ss os /\ countable ss /\ exists r', same r r' /\ rule (typ r) os r'.
  Hypothesis typ_u16 : forall r, is_u16 (typ r).
  Lemma layout_written (g : layout P R) : layout_ok ok g -> exists t o g', layout_to_low typ subtables g = Ok t /\ table_enc enc t = Ok o /\
    layout_same same g g' /\ layout_file rule g' o.
  Proof.
    intros (Hs & Hc & Hf & Hlc & Hl). destruct (scripts_written _ Hs) as (so & Es & Os). destruct (features_written _ Hc Hf) as (fo & Ef & Of).
    assert (X: exists tl os ls',
      rmapM (fun l => ss <- subtables (lu_rule l) ;; Ok (Some (mk_lookup_low (typ (lu_rule l)) (lu_flags l) ss (lu_set l)))) (ly_lookups g) = Ok (map Some tl) /\
      Forall2 (fun l o => lookup_enc enc l = Ok o) tl os /\
      Forall2 (lookup_same same) (ly_lookups g) ls' /\
      Forall2 (fun l o => exists t subs, lookup_obj t (lu_flags l) (lu_set l) subs o /\ rule t subs (lu_rule l)) ls' os).
    { clear -Hl rule_written typ_u16. induction Hl as [|l ls [[F1 F2] Hk] Hl IH].
      - exists [], [], []. repeat split; constructor.
      - destruct IH as (tl & os & ls' & I1 & I2 & I4 & I3). destruct (rule_written _ Hk) as (ss & so & E1 & E2 & E3 & r' & E5 & E4).
        destruct (lookup_written enc (typ (lu_rule l)) (lu_flags l) ss (lu_set l) so) as (o & W1 & W2); auto.
        exists (mk_lookup_low (typ (lu_rule l)) (lu_flags l) ss (lu_set l) :: tl), (o :: os), (mk_lookup (lu_flags l) (lu_set l) r' :: ls').
        split. { cbn [rmapM map]. rewrite E1. cbn [rbind]. now rewrite I1. }
        split; [now constructor|]. split; [constructor; [now repeat split|exact I4]|]. constructor; [|exact I3]. cbn [lu_flags lu_set lu_rule]. eauto. }
    destruct X as (tl & os & ls' & X1 & X2 & X4 & X3).
    assert (Co: countable os). { eapply Forall2_countable; [exact X3|]. unfold countable in *. now rewrite <- (F2_len _ _ _ X4). }
    exists (mk_table_low (Some (scripts_to_low (ly_scripts g))) (Some (features_to_low (ly_features g))) (Some (map Some tl))), (table_obj so fo os),
      (mk_layout ls' (ly_scripts g) (map (fun f => (fst f, None)) (ly_features g))).
    split. { unfold layout_to_low. now rewrite X1. }
    split.
    - unfold table_enc. cbn [tl_scripts tl_features tl_lookups link_enc]. rewrite Es. cbn [rbind]. rewrite Ef. cbn [rbind]. unfold lookups_enc.
      destruct (vec_enc_ok (lookup_enc enc) (fun l o => lookup_enc enc l = Ok o) tl) as (os2 & V1 & V2).
      { unfold countable in *. now rewrite (F2_len _ _ _ X2). }
      { clear -X2. induction X2; constructor; eauto. }
      assert (os2 = os) as ->. { clear -X2 V2. revert os X2. induction V2 as [|s o ss os' H H2 IH]; intros os F; inversion F; subst; [reflexivity|]. f_equal; [congruence|auto]. }
      rewrite V1. cbn [rbind]. rewrite <- !word_u16. reflexivity.
    - split; [now repeat split|]. econstructor; cbn [ly_scripts ly_features ly_lookups]; [exact Os| |exact Of| |exact X3|exact Co].
      + rewrite <- (scripts_back _ Hs) at 2. apply shows_shown.
      + now rewrite map_map.
  Qed.

End Table.
Lemma layout_same_normal {P R} (normal : R -> R) (g g' : layout P R) : layout_same (fun r r' => r' = normal r) g g' -> g' = layout_normal normal g.
Proof.
  intros (H1 & H2 & H3). destruct g as [ls s f], g' as [ls' s' f']. cbn [ly_lookups ly_scripts ly_features] in *. subst. unfold layout_normal. cbn [ly_lookups ly_scripts ly_features]. f_equal.
  induction H3 as [|l l' ls ls' (E1 & E2 & E3) H IH]; [reflexivity|]. cbn [map]. rewrite <- IH. f_equal. destruct l' as [fl st r]. cbn [lu_flags lu_set lu_rule] in *. now subst.
Qed.

(** Offsets of two bytes only *)
Lemma narrow_app a b : narrow (a ++ b) = narrow a && narrow b.
Proof. apply forallb_app. Qed.
Lemma narrow_raw bs : narrow (raw bs) = true.
Proof. unfold raw. induction bs; [reflexivity|]. cbn. exact IHbs. Qed.
Lemma narrow_links os : (forall o, In o os -> narrow o = true) -> narrow (map link os) = true.
Proof. induction os as [|o os IH]; intros H; [reflexivity|]. cbn [map forallb narrow]. unfold narrow in *. cbn [forallb link item_narrow]. rewrite (H o (or_introl eq_refl)). apply IH. intros; apply H; now right. Qed.
Lemma link_narrow {A} (e : A -> res obj) a i : (forall a o, e a = Ok o -> narrow o = true) -> link_enc e a = Ok i -> item_narrow i = true.
Proof. intros He. destruct a as [a|]; cbn [link_enc]; [|intros [= <-]; reflexivity]. destruct (e a) as [o| |] eqn:E; cbn [rbind]; try discriminate. intros [= <-]. exact (He _ _ E). Qed.
Lemma mapM_narrow {A} (f : A -> res item) l is : (forall a i, f a = Ok i -> item_narrow i = true) -> rmapM f l = Ok is -> narrow is = true.
Proof.
  intros Hf. revert is. induction l as [|a l IH]; intros is; cbn [rmapM]; [intros [= <-]; reflexivity|]. destruct (f a) as [i| |] eqn:E; cbn [rbind]; try discriminate.
  destruct (rmapM f l) as [is'| |]; cbn [rbind]; try discriminate. intros [= <-]. unfold narrow. cbn [forallb]. rewrite (Hf _ _ E). now apply IH.
Qed.
Lemma group_narrow l : narrow [IGroup l] = narrow l.
Proof. unfold narrow. cbn [forallb item_narrow]. apply andb_true_r. Qed.
Ltac nar := repeat (rewrite narrow_app || rewrite narrow_raw || rewrite group_narrow); cbn [andb].
Lemma vec_narrow {A} (e : A -> res obj) l is : (forall a o, e a = Ok o -> narrow o = true) -> vec_enc e l = Ok is -> narrow is = true.
Proof.
  intros He. unfold vec_enc. destruct (rmapM (link_enc e) l) as [x| |] eqn:E; cbn [rbind]; try discriminate. intros Hi; apply Ok_inj in Hi; subst; nar.
  eapply mapM_narrow; [|exact E]. intros a i. now apply link_narrow.
Qed.
Lemma cov_narrow g o : cov_enc g = Ok o -> narrow o = true.
Proof. unfold cov_enc. destruct (cov_ser g); cbn [rbind]; try discriminate. intros Hi; apply Ok_inj in Hi; subst. apply narrow_raw. Qed.
Lemma item_single i : narrow [i] = item_narrow i.
Proof. unfold narrow. cbn [forallb]. apply andb_true_r. Qed.
Lemma words_narrow l : narrow (words_enc l) = true.
Proof. apply narrow_raw. Qed.
Lemma records_narrow {A} (e : A -> res obj) l is : (forall a o, e a = Ok o -> narrow o = true) -> records_enc e l = Ok is -> narrow is = true.
Proof.
  intros He. unfold records_enc. destruct (rmapM (record_enc e) l) as [x| |] eqn:E; cbn [rbind]; try discriminate. intros Hi; apply Ok_inj in Hi; subst; nar.
  eapply mapM_narrow; [|exact E]. intros [t a] i. unfold record_enc. cbn [fst snd]. destruct (link_enc e a) as [k| |] eqn:Ek; cbn [rbind]; try discriminate.
  intros Hi; apply Ok_inj in Hi; subst. rewrite <- item_single. nar. rewrite item_single. eapply link_narrow; eassumption.
Qed.
Lemma langsys_narrow l o : langsys_enc l = Ok o -> narrow o = true.
Proof. unfold langsys_enc. intros Hi; apply Ok_inj in Hi; subst; nar. apply words_narrow. Qed.
Lemma script_narrow s o : script_enc s = Ok o -> narrow o = true.
Proof.
  unfold script_enc. destruct (link_enc langsys_enc (sl_default s)) as [d| |] eqn:Ed; cbn [rbind]; try discriminate.
  destruct (records_enc langsys_enc (sl_records s)) as [r| |] eqn:Er; cbn [rbind]; try discriminate. intros Hi; apply Ok_inj in Hi; subst. unfold narrow. cbn [forallb].
  rewrite (link_narrow _ _ _ langsys_narrow Ed). exact (records_narrow _ _ _ langsys_narrow Er).
Qed.
Lemma scripts_narrow s o : scripts_enc s = Ok o -> narrow o = true.
Proof. apply records_narrow, script_narrow. Qed.
Lemma feature_narrow s o : feature_enc s = Ok o -> narrow o = true.
Proof. unfold feature_enc. intros Hi; apply Ok_inj in Hi; subst; nar. apply words_narrow. Qed.
Lemma features_narrow s o : features_enc s = Ok o -> narrow o = true.
Proof. apply records_narrow, feature_narrow. Qed.
Lemma lookup_narrow {S} (enc : S -> res obj) l o : (forall s o, enc s = Ok o -> narrow o = true) -> lookup_enc enc l = Ok o -> narrow o = true.
Proof.
  intros He. unfold lookup_enc. match goal with |- rbind (rmapM ?f ?l) _ = _ -> _ => destruct (rmapM f l) as [x| |] eqn:E end; cbn [rbind]; try discriminate. intros Hi; apply Ok_inj in Hi; subst.
  rewrite !narrow_app, group_narrow, !narrow_raw. cbn [andb]. rewrite andb_true_r. eapply mapM_narrow; [|exact E]. intros s i. cbn beta.
  destruct (enc s) as [b| |] eqn:Eb; cbn [rbind]; try discriminate. intros Hi; apply Ok_inj in Hi; subst. exact (He _ _ Eb).
Qed.
Lemma table_narrow {S} (enc : S -> res obj) t o : (forall s o, enc s = Ok o -> narrow o = true) -> table_enc enc t = Ok o -> narrow o = true.
Proof.
  intros He. unfold table_enc. destruct (link_enc scripts_enc _) as [s| |] eqn:E1; cbn [rbind]; try discriminate.
  destruct (link_enc features_enc _) as [f| |] eqn:E2; cbn [rbind]; try discriminate.
  destruct (link_enc (lookups_enc enc) _) as [l| |] eqn:E3; cbn [rbind]; try discriminate. intros Hi; apply Ok_inj in Hi; subst.
  rewrite narrow_app, narrow_raw. cbn [andb]. unfold narrow. cbn [forallb]. rewrite (link_narrow _ _ _ scripts_narrow E1), (link_narrow _ _ _ features_narrow E2). cbn [andb].
  assert (Hl: forall a b, lookups_enc enc a = Ok b -> narrow b = true) by (intros a b; apply vec_narrow; intros x y; now apply lookup_narrow).
  now rewrite (link_narrow _ _ _ Hl E3).
Qed.
(** a table that starts at the beginning of the data *)
Lemma to_bytes_part {A} (p : parser A) o v out : Z.of_nat (total o) < 2 ^ 32 -> narrow o = true -> part p o v -> to_bytes o = Ok out -> from_bytes p out = Ok v.
Proof.
  intros Ht Hn Hp H. unfold from_bytes, rd_new. rewrite (Hp _ _ _ _ (to_bytes_readable o out Ht (or_introl Hn) H)). reflexivity.
Qed.

(** cmap tables *)
From Coq Require Import Lia Sorting.Sorted.
From Verif.Model Require Import MBase MMap MFont MLayout MOffset MCmap.
From Verif.Spec Require Import SBase SGlyph SLayout SOffset SCmap SCmapTable.
From Verif.Proofs Require Import PBase PMap PGlyphFmt PCover PClassdef PFont POffset PPart PLow PPoints PGsub PCmap4 PCmap12.

(** ** The best mapping *)
Lemma get_mapping_some sts p e m : get_mapping sts p e = Some m <-> exists st, first_under sts p e st /\ st_mapping st = m.
Proof.
  unfold first_under. induction sts as [|s sts IH]; cbn [get_mapping].
  { split; [discriminate|]. intros (st & (b & a & E & _) & _). now destruct b. }
  destruct ((st_platform s =? p) && (st_encoding s =? e))%bool eqn:E.
  - split.
    + intros [= <-]. exists s. split; [|reflexivity]. exists [], sts. unfold under. split; [reflexivity|]. split; [lia|constructor].
    + intros (st & (b & a & Eq & U & F) & <-). destruct b as [|x b]; cbn [app] in Eq; injection Eq as -> ->; [reflexivity|].
      inversion F as [|? ? F1 _]; subst. exfalso. apply F1. unfold under. lia.
  - rewrite IH. split; intros (st & (b & a & Eq & U & F) & M); exists st; (split; [|exact M]).
    + exists (s :: b), a. split; [cbn [app]; now rewrite Eq|]. split; [exact U|]. constructor; [|exact F]. unfold under. lia.
    + destruct b as [|x b]; cbn [app] in Eq; injection Eq as -> ->; [unfold under in U; lia|].
      inversion F; subst. exists b, a. auto.
Qed.
Lemma get_mapping_none sts p e : get_mapping sts p e = None <-> forall s, In s sts -> ~ under p e s.
Proof.
  induction sts as [|s sts IH]; cbn [get_mapping]; [split; [intros _ s []|reflexivity]|].
  destruct ((st_platform s =? p) && (st_encoding s =? e))%bool eqn:E.
  - split; [discriminate|]. intros H. exfalso. apply (H s (or_introl eq_refl)). unfold under. lia.
  - rewrite IH. split; [intros H x [<-|Hx]; [unfold under; lia|now apply H]|]. intros H x Hx. apply H. now right.
Qed.
Lemma best_of_some sts m : forall l, best_of sts l = Some m <->
  exists better p e worse, l = better ++ (p, e) :: worse
    /\ (exists st, first_under sts p e st /\ st_mapping st = m)
    /\ forall p' e' s, In (p', e') better -> In s sts -> ~ under p' e' s.
Proof.
  induction l as [|[p e] l IH]; cbn [best_of].
  { split; [discriminate|]. intros (b & p & e & w & E & _). now destruct b. }
  destruct (get_mapping sts p e) as [m'|] eqn:G.
  - split.
    + intros [= ->]. exists [], p, e, l. split; [reflexivity|]. split; [now apply get_mapping_some|intros ? ? ? []].
    + intros (b & p1 & e1 & w & E & S & N). destruct b as [|x b]; cbn [app] in E; [injection E as <- <- <-|injection E as <- ->].
      * apply get_mapping_some in S. rewrite S in G. now symmetry.
      * exfalso. apply get_mapping_some in G as (st & (b1 & a1 & -> & U & _) & _).
        apply (N p e st (or_introl eq_refl)); [apply in_elt|exact U].
  - rewrite IH. split; intros (b & p1 & e1 & w & E & S & N).
    + exists ((p, e) :: b), p1, e1, w. split; [now rewrite E|]. split; [exact S|].
      intros p' e' s [[= <- <-]|Hin] Hs; [now apply (proj1 (get_mapping_none sts p e) G)|now apply N].
    + destruct b as [|x b]; cbn [app] in E; [injection E as <- <- <-|injection E as <- ->].
      * apply get_mapping_some in S. rewrite S in G. discriminate.
      * exists b, p1, e1, w. split; [reflexivity|]. split; [exact S|]. intros p' e' s Hin. apply N. now right.
Qed.
Lemma best_mapping sts m : get_best_mapping sts = Some m <-> exists st, best_subtable sts st /\ st_mapping st = m.
Proof.
  unfold get_best_mapping, best_subtable. rewrite best_of_some. unfold preferences, best_order. split.
  - intros (b & p & e & w & E & (st & F & M) & N). exists st. split; [|exact M]. exists b, p, e, w. auto.
  - intros (st & (b & p & e & w & E & F & N) & M). exists b, p, e, w. split; [exact E|]. split; [eauto|exact N].
Qed.
Lemma best_none sts : get_best_mapping sts = None <-> forall p e s, In (p, e) preferences -> In s sts -> ~ under p e s.
Proof.
  unfold get_best_mapping, preferences, best_order. generalize [(3, 10); (0, 6); (0, 4); (3, 1); (0, 3); (0, 2); (0, 1); (0, 0)].
  induction l as [|[p e] l IH]; cbn [best_of]; [split; [intros _ ? ? ? []|reflexivity]|].
  destruct (get_mapping sts p e) as [m'|] eqn:G.
  - split; [discriminate|]. intros H. exfalso. apply get_mapping_some in G as (st & (b1 & a1 & -> & U & _) & _).
    apply (H p e st (or_introl eq_refl)); [apply in_elt|exact U].
  - rewrite IH. split.
    + intros H p' e' s [[= <- <-]|Hin] Hs; [now apply (proj1 (get_mapping_none sts p e) G)|now apply H].
    + intros H p' e' s Hin. apply H. now right.
Qed.

(** ** The reverse mapping *)
Lemma is_unicode_iff st : is_unicode st = true <-> unicode_subtable st.
Proof. unfold is_unicode, unicode_subtable. lia. Qed.

Definition rev_ok (P : Z -> Z -> Prop) (m : list (Z * list Z)) : Prop :=
  sorted_map Z.ltb m /\ forall g,
    match bm_get Z.ltb g m with
    | Some s => StronglySorted Z.lt s /\ s <> [] /\ forall c, In c s <-> P c g
    | None => forall c, ~ P c g
    end.
Lemma rev_insert_ok P m c g : rev_ok P m -> rev_ok (fun c' g' => P c' g' \/ (c' = c /\ g' = g)) (rev_insert m (c, g)).
Proof.
  intros [S H]. unfold rev_insert. cbn [fst snd]. split; [apply (insert_sorted _ Z_strict); exact S|]. intros g'.
  rewrite (get_insert _ Z_strict). destruct ((g <? g') || (g' <? g))%bool eqn:E.
  - specialize (H g'). destruct (bm_get Z.ltb g' m) as [s|].
    + destruct H as (H1 & H2 & H3). split; [exact H1|]. split; [exact H2|]. intros c'. rewrite H3. split; [tauto|]. intros [?|[? ?]]; [assumption|lia].
    + intros c' [?|[? ?]]; [now apply (H c')|lia].
  - assert (g' = g) as -> by lia. specialize (H g). destruct (bm_get Z.ltb g m) as [s|].
    + destruct H as (H1 & H2 & H3). split; [now apply bs_insert_sorted|]. split.
      * intros N. assert (IN : In c (bs_insert c s)) by (apply bs_insert_In; now left). rewrite N in IN. destruct IN.
      * intros c'. rewrite bs_insert_In, H3. intuition auto.
    + split; [now apply bs_insert_sorted; constructor|]. split; [discriminate|].
      intros c'. rewrite bs_insert_In. specialize (H c'). cbn [In]. intuition auto.
Qed.
Lemma rev_ok_ext P Q m : (forall c g, P c g <-> Q c g) -> rev_ok P m -> rev_ok Q m.
Proof.
  intros E [S H]. split; [exact S|]. intros g. specialize (H g). destruct (bm_get Z.ltb g m) as [s|].
  - destruct H as (H1 & H2 & H3). split; [exact H1|]. split; [exact H2|]. intros c. now rewrite H3, E.
  - intros c. rewrite <- E. apply H.
Qed.
Lemma rev_fold_ok l : forall P m, rev_ok P m -> rev_ok (fun c g => P c g \/ In (c, g) l) (fold_left rev_insert l m).
Proof.
  induction l as [|[c g] l IH]; intros P m H; cbn [fold_left].
  - eapply rev_ok_ext; [|exact H]. intros; cbn [In]; tauto.
  - eapply rev_ok_ext; [|apply IH, rev_insert_ok, H]. intros c' g'. cbv beta. cbn [In]. split.
    + intros [[?|[-> ->]]|?]; auto.
    + intros [?|[[= <- <-]|?]]; auto.
Qed.
Lemma reversed_ok sts : rev_ok (reaches sts) (reversed sts).
Proof.
  unfold reversed. assert (G : forall sts P m, rev_ok P m -> rev_ok (fun c g => P c g \/ reaches sts c g)
    (fold_left (fun res st => if is_unicode st then fold_left rev_insert (st_mapping st) res else res) sts m)).
  { clear. induction sts as [|st sts IH]; intros P m H; cbn [fold_left].
    - eapply rev_ok_ext; [|exact H]. intros c g. split; [now left|]. intros [?|(st & [] & _)]. assumption.
    - destruct (is_unicode st) eqn:U.
      + apply is_unicode_iff in U. eapply rev_ok_ext; [|apply IH, rev_fold_ok, H]. intros c g. cbv beta. split.
        * intros [[?|?]|(s & Hs & H1 & H2)]; [now left| |]; right; [exists st|exists s]; cbn [In]; auto.
        * intros [?|(s & [<-|Hs] & H1 & H2)]; auto. right. exists s; auto.
      + eapply rev_ok_ext; [|apply IH, H]. intros c g. cbv beta. split.
        * intros [?|(s & Hs & H1 & H2)]; [now left|]. right. exists s; cbn [In]; auto.
        * intros [?|(s & [<-|Hs] & H1 & H2)]; auto; [apply is_unicode_iff in H1; congruence|]. right. exists s; auto. }
  eapply rev_ok_ext; [|apply (G sts (fun _ _ => False) [])].
  - intros; tauto.
  - split; [constructor|]. intros g. cbn. tauto.
Qed.

(** ** Format 14 *)
Lemma word24_ser z : is_u24 z -> ser_u24 z = Ok (word24 z) /\ reads de_u24 (word24 z) z.
Proof.
  intros H. unfold is_u24 in H. assert (E : ser_u24 z = Ok (word24 z)).
  { unfold ser_u24. destruct (Z.gtb_spec z (2 ^ 24 - 1)); [lia|]. unfold word24. cbn [be_bytes].
    change (256 ^ Z.of_nat 2) with 65536. change (256 ^ Z.of_nat 1) with 256. change (256 ^ Z.of_nat 0) with 1. now rewrite Z.div_1_r. }
  split; [exact E|]. apply reads_u24; [lia|exact E].
Qed.
Lemma reads_default_uvs d : Z.of_nat (length d) <= 4294967295 -> Forall (fun r => is_u24 (fst r) /\ 0 <= snd r <= 255) d ->
  reads default_uvs_de (default_bytes d) d.
Proof.
  intros L F. unfold default_uvs_de, de_counted32, default_bytes.
  eapply reads_bind; [apply reads_dword; lia|cbv beta]. rewrite Nat2Z.id. apply reads_counted.
  eapply Forall_impl; [|exact F]. intros [a b] [H1 H2]. cbn [fst snd] in *.
  eapply reads_bind; [apply word24_ser; exact H1|cbv beta]. eapply (reads_bind' _ _ _ _ []); [now rewrite app_nil_r| |apply reads_pret].
  rewrite <- (ser_u8_byte b) by lia. apply reads_u8. lia.
Qed.
Lemma reads_uvs d : Z.of_nat (length d) <= 4294967295 -> Forall (fun r => is_u24 (fst r) /\ is_u16 (snd r)) d ->
  reads uvs_de (glyphs_bytes d) d.
Proof.
  intros L F. unfold uvs_de, de_counted32, glyphs_bytes.
  eapply reads_bind; [apply reads_dword; lia|cbv beta]. rewrite Nat2Z.id. apply reads_counted.
  eapply Forall_impl; [|exact F]. intros [a b] [H1 H2]. cbn [fst snd] in *.
  eapply reads_bind; [apply word24_ser; exact H1|cbv beta]. eapply (reads_bind' _ _ _ _ []); [now rewrite app_nil_r| |apply reads_pret].
  apply reads_word. exact H2.
Qed.
Lemma part_opt32 {A} (p : parser A) (f : A -> obj) x : (forall a, x = Some a -> decodes p (f a) a) ->
  part (de_off32 p) [IRef Off32 (option_map f x)] x.
Proof. intros H. destruct x as [a|]; cbn [option_map]; [apply part_off32; now apply H|apply part_off32_null]. Qed.
Lemma cmap14_decodes len l : 0 <= len <= 4294967295 -> uvs_fields l -> decodes cmap14_de (cmap14_object len l) l.
Proof.
  intros HL [HN HF]. unfold cmap14_de, cmap14_object. apply decodes_part.
  rewrite !raw_app, <- !app_assoc.
  eapply part_bind; [apply part_reads, reads_word; unfold is_u16; lia|cbv beta].
  eapply part_bind; [apply part_reads, reads_dword; lia|cbv beta].
  unfold de_counted32. eapply part_bind; [apply part_reads, reads_dword; lia|cbv beta]. rewrite Nat2Z.id.
  set (enc := fun x : uvs_selector_table => [IGroup (raw (word24 (fst (fst x)))
             ++ [IRef Off32 (option_map (fun d => raw (default_bytes d)) (snd (fst x)));
                 IRef Off32 (option_map (fun n => raw (glyphs_bytes n)) (snd x))])]).
  replace (map _ l) with (concat (map enc l)).
  2: { clear. induction l as [|x l IH]; [reflexivity|]. cbn [map concat]. rewrite IH. reflexivity. }
  apply part_counted. eapply Forall_impl; [|exact HF]. intros [[s d] n] (H1 & H2 & H3). cbn [fst snd] in *.
  unfold enc. cbn [fst snd]. apply part_group. unfold selector_de.
  eapply part_bind; [apply part_reads, word24_ser; exact H1|cbv beta].
  eapply (part_bind' _ _ _ [_] [_]); [reflexivity| |cbv beta].
  - apply part_opt32. intros a ->. apply decodes_reads. apply reads_default_uvs; now apply H2.
  - eapply (part_bind' _ _ _ [_] []); [reflexivity| |apply part_pret].
    apply part_opt32. intros a ->. apply decodes_reads. apply reads_uvs; now apply H3.
Qed.

Lemma pair_strict : strict_total pair_ltb.
Proof. unfold pair_ltb. split; [intros [a b]|intros [a b] [c d] [e f]|intros [a b] [c d]]; cbn [fst snd]; try lia. intros H1 H2. f_equal; lia. Qed.

(** the sequences of a list of selector tables *)
Definition flat_uvs (l : list uvs_selector_table) : uvs_mapping :=
  concat (map (fun x => match snd x with None => [] | Some rs => map (fun r => ((fst r, fst (fst x)), snd r)) rs end) l).
Lemma uvs_of_flat l : uvs_of l = bm_of_list pair_ltb (flat_uvs l).
Proof.
  unfold uvs_of, bm_of_list. generalize (@nil ((Z * Z) * Z)). induction l as [|[[s d] [rs|]] l IH]; intros m; cbn [fold_left flat_uvs map concat fst snd].
  - reflexivity.
  - rewrite fold_left_app. fold (flat_uvs l). rewrite <- IH. f_equal. clear. revert m. induction rs as [|r rs IH]; intros m; cbn [fold_left map fst snd]; [reflexivity|]. apply IH.
  - apply IH.
Qed.
Lemma flat_uvs_In l c s g : In ((c, s), g) (flat_uvs l) <-> sequence_in l c s g.
Proof.
  unfold flat_uvs, sequence_in. rewrite in_concat. split.
  - intros (x & Hx & Hc). apply in_map_iff in Hx as ([[s' d] [rs|]] & <- & Hl); cbn [fst snd] in Hc; [|destruct Hc].
    apply in_map_iff in Hc as ([c' g'] & [= <- <- <-] & Hr). eauto.
  - intros (d & n & Hl & Hc). eexists. split; [apply in_map; exact Hl|]. cbn [fst snd].
    apply (in_map (fun r => ((fst r, s), snd r)) _ (c, g)). exact Hc.
Qed.
Lemma of_list_same (F m : uvs_mapping) : sorted_map pair_ltb m -> (forall x, In x F <-> In x m) -> bm_of_list pair_ltb F = m.
Proof.
  intros S E. apply (sorted_map_ext _ pair_strict); [apply (of_list_sorted _ pair_strict)|exact S|]. intros k. unfold bm_of_list.
  rewrite (get_fold_insert _ pair_strict). destruct (find _ (rev F)) as [kv|] eqn:FD.
  - apply find_some in FD as [H1 H2]. rewrite <- in_rev in H1. apply E in H1.
    apply Bool.negb_true_iff in H2. apply (eq_case _ pair_strict) in H2. subst k. symmetry. apply (In_get _ pair_strict); [exact S|]. now destruct kv.
  - cbn [bm_get]. symmetry. apply (get_not_in _ pair_strict). intros v Hv. apply E in Hv. rewrite in_rev in Hv.
    pose proof (find_none _ _ FD _ Hv) as N. cbv beta in N. cbn [fst] in N. rewrite (st_irrefl _ pair_strict) in N. discriminate.
Qed.
Lemma uvs_of_spec l c s g : (forall g1 g2, sequence_in l c s g1 -> sequence_in l c s g2 -> g1 = g2) ->
  In ((c, s), g) (uvs_of l) <-> sequence_in l c s g.
Proof.
  intros U. rewrite uvs_of_flat.
  assert (G : bm_get pair_ltb (c, s) (bm_of_list pair_ltb (flat_uvs l)) = Some g <-> sequence_in l c s g).
  { unfold bm_of_list. rewrite (get_fold_insert _ pair_strict). destruct (find _ (rev (flat_uvs l))) as [[k v]|] eqn:FD.
    - apply find_some in FD as [H1 H2]. rewrite <- in_rev in H1. cbn [fst snd] in *.
      apply Bool.negb_true_iff in H2. apply (eq_case _ pair_strict) in H2. subst k. apply flat_uvs_In in H1.
      split; [intros [= <-]; exact H1|]. intros H3. f_equal. now apply U.
    - cbn [bm_get]. split; [discriminate|]. intros H3. apply flat_uvs_In in H3. rewrite in_rev in H3.
      pose proof (find_none _ _ FD _ H3) as N. cbv beta in N. cbn [fst] in N. rewrite (st_irrefl _ pair_strict) in N. discriminate. }
  rewrite <- G. split; [apply (In_get _ pair_strict), (of_list_sorted _ pair_strict)|apply (get_In _ pair_strict)].
Qed.

(** *** Writing *)
Definition sel_list (s : Z) (m : uvs_mapping) : list (Z * Z) :=
  map (fun kv => (fst (fst kv), snd kv)) (filter (fun kv => snd (fst kv) =? s) m).
Lemma uvs_push_fold s m : forall acc,
  match bm_get Z.ltb s (fold_left uvs_push m acc) with Some l => l | None => [] end
  = match bm_get Z.ltb s acc with Some l => l | None => [] end ++ sel_list s m.
Proof.
  induction m as [|[[c s'] g] m IH]; intros acc; cbn [fold_left]; [unfold sel_list; cbn; now rewrite app_nil_r|].
  rewrite IH. unfold uvs_push at 1. cbn [fst snd]. rewrite (get_insert _ Z_strict). unfold sel_list. cbn [filter fst snd].
  destruct ((s' <? s) || (s <? s'))%bool eqn:E.
  - replace (s' =? s) with false by lia. reflexivity.
  - replace (s' =? s) with true by lia. assert (s' = s) as -> by lia. cbn [map fst snd]. now rewrite <- app_assoc.
Qed.
Lemma uvs_push_sorted m : forall acc, sorted_map Z.ltb acc -> Forall (fun x => snd x <> []) acc ->
  sorted_map Z.ltb (fold_left uvs_push m acc) /\ Forall (fun x => snd x <> []) (fold_left uvs_push m acc).
Proof.
  induction m as [|kv m IH]; intros acc H F; cbn [fold_left]; [now split|]. apply IH.
  - apply (insert_sorted _ Z_strict). exact H.
  - unfold uvs_push. apply Forall_forall. intros [k v] Hin.
    pose proof (insert_sorted _ Z_strict (snd (fst kv)) (match bm_get Z.ltb (snd (fst kv)) acc with Some l => l | None => [] end ++ [(fst (fst kv), snd kv)]) acc H) as S.
    apply (In_get _ Z_strict _ _ _ S) in Hin. rewrite (get_insert _ Z_strict) in Hin.
    destruct (_ || _)%bool.
    + apply (get_In _ Z_strict) in Hin. rewrite Forall_forall in F. exact (F _ Hin).
    + injection Hin as <-. cbn [snd]. intros N. now apply app_eq_nil in N as [_ N].
Qed.
Lemma uvs_split_In m s rs : In (s, rs) (uvs_split m) <-> rs = sel_list s m /\ rs <> [].
Proof.
  destruct (uvs_push_sorted m [] ltac:(constructor) ltac:(constructor)) as [S F]. fold (uvs_split m) in S, F.
  pose proof (uvs_push_fold s m []) as G. cbn [bm_get app] in G. fold (uvs_split m) in G. split.
  - intros H. rewrite Forall_forall in F. specialize (F _ H). cbn [snd] in F. apply (In_get _ Z_strict _ _ _ S) in H. rewrite H in G. auto.
  - intros [-> NE]. destruct (bm_get Z.ltb s (uvs_split m)) as [l|] eqn:E; [|congruence]. subst l. now apply (get_In _ Z_strict).
Qed.
Definition split_tables (m : uvs_mapping) : list uvs_selector_table := map (fun x => (fst x, None, Some (snd x))) (uvs_split m).
Lemma split_sequence_in m c s g : sequence_in (split_tables m) c s g <-> In ((c, s), g) m.
Proof.
  unfold sequence_in, split_tables. split.
  - intros (d & n & H & Hc). apply in_map_iff in H as ([s' rs] & [= <- <- <-] & H). apply uvs_split_In in H as [-> _].
    unfold sel_list in Hc. apply in_map_iff in Hc as ([[c1 s1] g1] & [= <- <-] & Hc). apply filter_In in Hc as [Hc E]. cbn [fst snd] in *.
    assert (s1 = s') as <- by lia. exact Hc.
  - intros H. assert (Hs : In (c, g) (sel_list s m)).
    { unfold sel_list. apply (in_map (fun kv => (fst (fst kv), snd kv)) _ ((c, s), g)). apply filter_In. split; [exact H|]. cbn [fst snd]. lia. }
    exists None, (sel_list s m). split; [|exact Hs].
    apply (in_map (fun x => (fst x, None, Some (snd x))) _ (s, sel_list s m)). apply uvs_split_In. split; [reflexivity|]. intros N. rewrite N in Hs. destruct Hs.
Qed.
Lemma sequences_sorted m : sequences m -> sorted_map pair_ltb m.
Proof.
  intros [S _]. unfold sorted_map, sorted_keys. induction S as [|a l Sl IH F]; constructor; auto.
  eapply Forall_impl; [|exact F]. intros [c d] H. unfold pair_lt, pair_ltb in *. destruct a; cbn [fst snd] in *. lia.
Qed.
Lemma split_back m : sequences m -> uvs_of (split_tables m) = m.
Proof.
  intros H. rewrite uvs_of_flat. apply of_list_same; [now apply sequences_sorted|]. intros [[c s] g]. rewrite flat_uvs_In. apply split_sequence_in.
Qed.
Lemma sel_list_fields m s : sequences m -> Forall (fun r => is_u24 (fst r) /\ is_u16 (snd r)) (sel_list s m).
Proof.
  intros [_ F]. unfold sel_list. apply Forall_map. rewrite Forall_forall in *. intros x Hx. apply filter_In in Hx as [Hx _]. specialize (F _ Hx).
  cbn [fst snd]. unfold is_u24. tauto.
Qed.
Definition uvs_size (l : list (Z * list (Z * Z))) : nat := list_sum (map (fun x => 5 * length (snd x) + 15)%nat l).
Lemma uvs_length_eq l : forall t n, uvs_length t l = Ok n -> 0 <= t <= 4294967295 ->
  n = t + Z.of_nat (uvs_size l) /\ n <= 4294967295.
Proof.
  unfold uvs_size. induction l as [|[s rs] l IH]; intros t n H T; cbn [uvs_length] in H; [injection H as <-; cbn; lia|].
  destruct (chk_u 32 _) as [t'| |] eqn:C; cbn [rbind] in H; try discriminate. apply chk_u_inv in C as [-> C].
  destruct (IH _ _ H ltac:(lia)) as [-> B]. cbn [map snd]. unfold list_sum in *. cbn [fold_right] in *. lia.
Qed.
Lemma uvs_record_ser rs : Forall (fun r => is_u24 (fst r) /\ is_u16 (snd r)) rs ->
  rmapM uvs_record rs = Ok (map (fun r => word24 (fst r) ++ word (snd r)) rs).
Proof.
  intros F. apply rmapM_Ok. intros r Hr. rewrite Forall_forall in F. destruct (F _ Hr) as [H1 H2].
  unfold uvs_record. rewrite (proj1 (word24_ser _ H1)). cbn [rbind]. now rewrite word_u16.
Qed.
Lemma glyphs_total rs : total (raw (glyphs_bytes rs)) = (4 + 5 * length rs)%nat.
Proof.
  assert (T : forall b, total (raw b) = length b).
  { induction b as [|x b IH]; [reflexivity|]. unfold total, raw, list_sum in *. cbn [map item_total fold_right length]. rewrite IH. reflexivity. }
  rewrite T. unfold glyphs_bytes. rewrite app_length.
  assert (C : length (concat (map (fun r : Z * Z => word24 (fst r) ++ word (snd r)) rs)) = (5 * length rs)%nat).
  { clear. induction rs as [|r rs IH]; [reflexivity|]. cbn [map concat]. rewrite app_length, IH. cbn [word24 word app length]. lia. }
  rewrite C. cbn [dword word app length]. lia.
Qed.
Lemma size_member l x : In x l -> (5 * length (snd x) + 15 <= uvs_size l)%nat.
Proof.
  unfold uvs_size, list_sum. induction l as [|y l IH]; intros []; cbn [map fold_right]; [subst; lia|]. specialize (IH H). lia.
Qed.
Lemma size_count l : (15 * length l <= uvs_size l)%nat.
Proof. unfold uvs_size, list_sum. induction l as [|y l IH]; cbn [map fold_right length]; lia. Qed.

Lemma total_app a b : total (a ++ b) = (total a + total b)%nat.
Proof. unfold total. now rewrite map_app, list_sum_app. Qed.
Lemma total_raw b : total (raw b) = length b.
Proof. induction b as [|x b IH]; [reflexivity|]. unfold total, raw, list_sum in *. cbn [map item_total fold_right length]. rewrite IH. reflexivity. Qed.

Lemma cmap14_obj_eq st o : sequences (sequences_of st) -> cmap14_obj (st_uvs st) = Ok o ->
  exists len, o = cmap14_object len (split_tables (sequences_of st)) /\ len = Z.of_nat (total o) /\ len <= 4294967295
    /\ uvs_fields (split_tables (sequences_of st)).
Proof.
  intros Q H. unfold cmap14_obj in H.
  replace (match st_uvs st with None => [] | Some m => uvs_split m end) with (uvs_split (sequences_of st)) in H
    by (unfold sequences_of; destruct (st_uvs st); reflexivity).
  set (m := sequences_of st) in *. destruct (uvs_length 10 (uvs_split m)) as [len| |] eqn:L; cbn [rbind] in H; try discriminate.
  destruct (uvs_length_eq _ _ _ L ltac:(lia)) as [EL BL].
  assert (SEL : forall x, In x (uvs_split m) -> is_u24 (fst x) /\ Forall (fun r => is_u24 (fst r) /\ is_u16 (snd r)) (snd x)
    /\ Z.of_nat (length (snd x)) <= 4294967295).
  { intros [s rs] Hx. pose proof (size_member _ _ Hx) as SM. apply uvs_split_In in Hx as [-> NE]. cbn [fst snd] in *.
    split; [|split; [now apply sel_list_fields|lia]].
    destruct (sel_list s m) as [|r rs] eqn:E; [congruence|]. assert (Hr : In r (sel_list s m)) by (rewrite E; now left).
    unfold sel_list in Hr. apply in_map_iff in Hr as (kv & _ & Hf). apply filter_In in Hf as [Hf Es].
    destruct Q as [_ F]. rewrite Forall_forall in F. specialize (F _ Hf). unfold is_u24. lia. }
  assert (CNT : Z.of_nat (length (uvs_split m)) <= 4294967295) by (pose proof (size_count (uvs_split m)); lia).
  rewrite (rmapM_Ok _ (fun x => IGroup (raw (word24 (fst x)) ++ [IRef Off32 None; IRef Off32 (Some (raw (glyphs_bytes (snd x))))]))) in H.
  2: { intros x Hx. destruct (SEL x Hx) as (S1 & S2 & S3). unfold uvs_selector, uvs_table, ser_counted32.
       rewrite (proj1 (word24_ser _ S1)). cbn [rbind]. rewrite (uvs_record_ser _ S2). cbn [rbind]. rewrite u32_id by lia.
       unfold glyphs_bytes. now rewrite dword_u32. }
  cbn [rbind] in H. apply Ok_inj in H. rewrite u32_id in H by lia.
  assert (SP : length (split_tables m) = length (uvs_split m)) by (unfold split_tables; apply map_length).
  assert (HO : o = cmap14_object len (split_tables m)).
  { rewrite <- H. unfold cmap14_object. rewrite SP, word_u16, !dword_u32. f_equal. unfold split_tables. rewrite map_map. reflexivity. }
  exists len. split; [exact HO|]. split; [|split; [exact BL|]].
  - rewrite EL, <- H, total_app, total_raw.
    assert (T : total (map (fun x : Z * list (Z * Z) => IGroup (raw (word24 (fst x)) ++ [IRef Off32 None; IRef Off32 (Some (raw (glyphs_bytes (snd x))))])) (uvs_split m))
       = uvs_size (uvs_split m)).
    { clear. generalize (uvs_split m). unfold total, uvs_size, list_sum. induction l as [|x l IH]; [reflexivity|].
      cbn [map fold_right]. rewrite IH. f_equal.
      change (total (raw (word24 (fst x)) ++ [IRef Off32 None; IRef Off32 (Some (raw (glyphs_bytes (snd x))))]) = (5 * length (snd x) + 15)%nat).
      rewrite total_app, total_raw. change (total [IRef Off32 None; IRef Off32 (Some (raw (glyphs_bytes (snd x))))])
        with (4 + (4 + total (raw (glyphs_bytes (snd x))) + 0))%nat.
      rewrite glyphs_total. cbn [word24 length]. lia. }
    rewrite T. rewrite !app_length. unfold ser_u16, ser_u32, ser_prim. cbn [prim_width be_bytes length]. lia.
  - split; [rewrite SP; exact CNT|]. unfold split_tables. apply Forall_map. apply Forall_forall. intros x Hx. destruct (SEL x Hx) as (S1 & S2 & S3).
    cbn [fst snd]. split; [exact S1|]. split; [discriminate|]. intros n [= <-]. auto.
Qed.

Lemma stored_shift lim pre post buf base pos l : stored lim buf base pos l ->
  stored lim (pre ++ buf ++ post) (length pre + base) (length pre + pos) l.
Proof.
  assert (AT : forall p bs, at_pos buf p bs -> at_pos (pre ++ buf ++ post) (length pre + p) bs).
  { intros p bs (a & b & -> & <-). exists (pre ++ a), (b ++ post). rewrite app_length. split; [now rewrite <- !app_assoc|reflexivity]. }
  induction 1 as [base pos Hp|base pos x l Ha Hl IH|base pos k l Ha Hl IH|base pos k o v l Hv Hw Ha Ho IHo Hl IH|base pos g l Hg IH].
  - constructor. rewrite !app_length. lia.
  - constructor; [now apply AT|]. now rewrite <- Nat.add_assoc.
  - constructor; [now apply AT|]. now rewrite <- Nat.add_assoc.
  - apply st_link with v; auto; [now rewrite <- Nat.add_assoc|now rewrite <- Nat.add_assoc].
  - now constructor.
Qed.

(** ** The whole table *)
Lemma sub_read r b buf pos p e ptr : readable r b -> subtable_write r = Ok b -> at_pos buf pos b ->
  exists ptr', forall st, st_platform st = p -> st_encoding st = e ->
    subtable_de (p, e, Z.of_nat pos) (mkrd buf ptr [0%nat]) = Ok (shown_as r st, mkrd buf ptr' [0%nat]).
Proof.
  intros (HL & CM & R) W A. unfold subtable_write in W.
  unfold subtable_de, pbind, seek, ppeek. cbn [top_of_table rd_stack rd_input]. rewrite Nat2Z.id, Nat.add_0_l.
  assert (FMT : st_format r = 4 \/ st_format r = 12 \/ st_format r = 14).
  { destruct (Z.eq_dec (st_format r) 4); [auto|]. destruct (Z.eq_dec (st_format r) 12); [auto|]. destruct (Z.eq_dec (st_format r) 14); [auto|].
    exfalso. destruct (st_format r) as [|q|q]; try discriminate. do 5 (destruct q as [q|q|]; try discriminate; try congruence). }
  unfold shown_as.
  destruct FMT as [E|[E|E]]; rewrite E in R, W |- *; cbn [Z.eqb Pos.eqb].
  - pose proof (cmap4_roundtrip _ _ _ CM HL W R) as RD.
    destruct (cmap4_written _ _ _ CM HL W R) as ([[sr es] rs] & segs & arr & B & _).
    assert (PK : exists t, b = [0; 4] ++ t) by (unfold cmap4_bytes in B; rewrite B; eexists; reflexivity).
    destruct PK as [t PK].
    assert (A2 : at_pos buf pos [0; 4]).
    { destruct A as (pre & post & -> & <-). exists pre, (t ++ post). split; [|reflexivity]. rewrite PK, <- app_assoc. reflexivity. }
    rewrite (peek_at _ _ _ _ A2 : peek _ 2 = _). rewrite (at_pos_reads _ _ _ _ _ _ RD A). cbn [pret]. unfold pret.
    eexists. intros st <- <-. cbn [fst snd]. reflexivity.
  - destruct R as (U & (g & m' & EM) & SD). rewrite EM in CM, U, SD, W.
    destruct (cmap12_written _ _ _ _ CM U SD W) as (gs & B & F & O & EE & LB).
    unfold is_u16 in HL. pose proof (cmap12_every_read _ _ _ B ltac:(lia) F O LB) as RD. rewrite EE, <- EM, Z.mod_small in RD by lia.
    assert (PK : exists t, b = [0; 12] ++ t) by (unfold cmap12_bytes in B; rewrite B; eexists; reflexivity).
    destruct PK as [t PK].
    assert (A2 : at_pos buf pos [0; 12]).
    { destruct A as (pre & post & -> & <-). exists pre, (t ++ post). split; [|reflexivity]. rewrite PK, <- app_assoc. reflexivity. }
    rewrite (peek_at _ _ _ _ A2 : peek _ 2 = _). rewrite (at_pos_reads _ _ _ _ _ _ RD A). unfold pret.
    eexists. intros st <- <-. cbn [fst snd]. reflexivity.
  - destruct R as [Q LB]. unfold cmap14_write in W. destruct (cmap14_obj (st_uvs r)) as [o| |] eqn:EO; cbn [rbind] in W; try discriminate.
    destruct (cmap14_obj_eq _ _ Q EO) as (len & HO & EL & BL & UF).
    pose proof (to_bytes_length _ _ W) as TL.
    assert (ST : stored 65536 b 0 0 o) by (apply to_bytes_readable; [lia|right; lia|exact W]).
    destruct A as (pre & post & -> & <-). apply (stored_shift _ pre post) in ST. rewrite !Nat.add_0_r in ST.
    assert (D : decodes cmap14_de o (split_tables (sequences_of r))) by (rewrite HO; apply cmap14_decodes; [lia|exact UF]).
    assert (A2 : at_pos (pre ++ b ++ post) (length pre) [0; 14]).
    { rewrite HO in ST. unfold cmap14_object in ST. rewrite raw_app, <- app_assoc in ST. apply stored_app in ST as [ST _]. apply stored_raw in ST. exact ST. }
    rewrite (peek_at _ _ _ _ A2 : peek _ 2 = _). rewrite (D _ _ _ ST). unfold pret.
    eexists. intros st _ _. rewrite (split_back _ Q). reflexivity.
Qed.

Section Writing.
Context (hash : cmapping -> Z) (base : Z) (all : list subtable) (NC : no_collision hash all).

Definition held (done : list subtable) (offsets : list (Z * Z)) (output : list Z) : Prop :=
  (forall h off, bm_get Z.ltb h offsets = Some off -> exists r b pre post,
     first_same done r r /\ hash (st_mapping r) = h /\ subtable_write r = Ok b
     /\ output = pre ++ b ++ post /\ off = base + Z.of_nat (length pre))
  /\ (forall s, In s done -> bm_get Z.ltb (hash (st_mapping s)) offsets <> None).
Definition placed (out : list Z) (st : subtable) (rec : Z * Z * Z) : Prop :=
  exists r b pre post, first_same all st r /\ subtable_write r = Ok b /\ out = pre ++ b ++ post
    /\ rec = (st_platform st, st_encoding st, base + Z.of_nat (length pre)).

Lemma first_same_app done rest' st r : first_same done st r -> first_same (done ++ rest') st r.
Proof. intros (b & a & -> & S & F). exists b, (a ++ rest'). split; [now rewrite <- app_assoc|]. auto. Qed.
Lemma first_same_In l st r : first_same l st r -> In r l.
Proof. intros (b & a & -> & _). apply in_elt. Qed.

Lemma write_subtables_ok sts : forall done offsets output rs out, all = done ++ sts -> held done offsets output ->
  write_subtables hash base offsets output sts = Ok (rs, out) ->
  (exists ext, out = output ++ ext) /\ Forall2 (placed out) sts rs.
Proof using NC.
  induction sts as [|st sts IH]; intros done offsets output rs out EA [H1 H2] W; cbn [write_subtables] in W.
  { injection W as <- <-. split; [exists []; now rewrite app_nil_r|constructor]. }
  assert (EA' : all = (done ++ [st]) ++ sts) by now rewrite <- app_assoc.
  destruct (bm_get Z.ltb (hash (st_mapping st)) offsets) as [off|] eqn:G.
  - destruct (write_subtables hash base offsets output sts) as [[rs' out']| |] eqn:W'; cbn [rbind] in W; try discriminate.
    injection W as <- <-.
    assert (HD : held (done ++ [st]) offsets output).
    { split.
      - intros h o' Hh. destruct (H1 _ _ Hh) as (r & b & pre & post & F & X). exists r, b, pre, post. split; [now apply first_same_app|exact X].
      - intros s Hs. apply in_app_iff in Hs as [Hs|[<-|[]]]; [now apply H2|congruence]. }
    destruct (IH _ _ _ _ _ EA' HD W') as [[ext ->] FF]. split; [eauto|]. constructor; [|exact FF].
    destruct (H1 _ _ G) as (r & b & pre & post & F & X1 & X2 & -> & ->). exists r, b, pre, (post ++ ext).
    assert (SM : same_mapping r st).
    { apply NC; [|rewrite EA; apply in_elt|exact X1]. rewrite EA. apply in_app_iff. left. now apply first_same_In in F. }
    split.
    + rewrite EA. apply first_same_app. destruct F as (bf & af & E & S & N). exists bf, af. split; [exact E|]. split; [exact SM|].
      eapply Forall_impl; [|exact N]. intros s Hn Hs. apply Hn. unfold same_mapping in *. congruence.
    + split; [exact X2|]. split; [now rewrite <- !app_assoc|reflexivity].
  - destruct (chk_u 32 _) as [off| |] eqn:C; cbn [rbind] in W; try discriminate. apply chk_u_inv in C as [-> C].
    destruct (subtable_write st) as [b| |] eqn:SW; cbn [rbind] in W; try discriminate.
    destruct (write_subtables _ _ _ (output ++ b) sts) as [[rs' out']| |] eqn:W'; cbn [rbind] in W; try discriminate.
    injection W as <- <-.
    assert (FS : first_same (done ++ [st]) st st).
    { exists done, []. split; [reflexivity|]. split; [reflexivity|]. apply Forall_forall. intros s Hs Hm.
      apply (H2 s Hs). unfold same_mapping in Hm. now rewrite Hm. }
    assert (HD : held (done ++ [st]) (bm_insert Z.ltb (hash (st_mapping st)) (base + Z.of_nat (length output)) offsets) (output ++ b)).
    { split.
      - intros h o'. rewrite (get_insert _ Z_strict). destruct (_ || _)%bool eqn:E.
        + intros Hh. destruct (H1 _ _ Hh) as (r & b' & pre & post & F & X1 & X2 & -> & ->). exists r, b', pre, (post ++ b).
          split; [now apply first_same_app|]. split; [exact X1|]. split; [exact X2|]. split; [now rewrite <- !app_assoc|reflexivity].
        + intros [= <-]. exists st, b, output, []. split; [exact FS|]. split; [lia|]. split; [exact SW|]. rewrite app_nil_r. auto.
      - intros s Hs. rewrite (get_insert _ Z_strict). destruct (_ || _)%bool eqn:E; [|discriminate].
        apply in_app_iff in Hs as [Hs|[<-|[]]]; [now apply H2|lia]. }
    destruct (IH _ _ _ _ _ EA' HD W') as [[ext ->] FF]. split; [exists (b ++ ext); now rewrite app_assoc|]. constructor; [|exact FF].
    exists st, b, output, ext. split; [rewrite EA'; now apply first_same_app|]. split; [exact SW|]. split; [now rewrite <- app_assoc|reflexivity].
Qed.
End Writing.

Lemma record_ser_length rs : length (concat (map record_ser rs)) = (8 * length rs)%nat.
Proof. induction rs as [|r rs IH]; [reflexivity|]. cbn [map concat]. rewrite app_length, IH. unfold record_ser. rewrite !app_length. cbn [length ser_u16 ser_u32 ser_prim prim_width be_bytes]. lia. Qed.
Lemma reads_record r : is_u16 (fst (fst r)) -> is_u16 (snd (fst r)) -> 0 <= snd r <= 4294967295 -> reads record_de (record_ser r) r.
Proof.
  destruct r as [[a b] c]. cbn [fst snd]. unfold is_u16. intros H1 H2 H3. unfold record_de, record_ser. cbn [fst snd].
  eapply reads_bind; [apply reads_u16; lia|cbv beta]. eapply reads_bind; [apply reads_u16; lia|cbv beta].
  eapply (reads_bind' _ _ _ _ []); [now rewrite app_nil_r|apply reads_u32; lia|apply reads_pret].
Qed.

Lemma cmap_read_back hash sts bs : no_collision hash sts ->
  Forall (fun st => is_u16 (st_platform st) /\ is_u16 (st_encoding st)) sts ->
  Z.of_nat (length sts) <= 65535 -> cmap_write hash sts = Ok bs -> Z.of_nat (length bs) <= 4294967295 ->
  (forall r b, first_same sts r r -> subtable_write r = Ok b -> readable r b) ->
  exists sts', from_bytes cmap_de bs = Ok sts'
    /\ Forall2 (fun st st' => exists r, first_same sts st r /\ st' = shown_as r st) sts sts'.
Proof.
  intros NC FP LS W LB RD. unfold cmap_write in W. rewrite u32_id in W by lia.
  destruct (write_subtables hash _ [] [] sts) as [[rs out]| |] eqn:WS; cbn [rbind] in W; try discriminate.
  set (base := 4 + Z.of_nat (length sts) * 8) in *.
  destruct (write_subtables_ok hash base sts NC sts [] [] [] rs out eq_refl) as [_ PL]; [|exact WS|].
  { split; [intros h off; discriminate|intros s []]. }
  apply Ok_inj in W.
  assert (LR : length sts = length rs) by (eapply Forall2_length; exact PL). rewrite u16_id in W by lia.
  assert (LO : length bs = (4 + 8 * length sts + length out)%nat).
  { rewrite <- W, !app_length, record_ser_length. cbn [length ser_u16 ser_prim prim_width be_bytes]. lia. }
  assert (FR : Forall (fun r => is_u16 (fst (fst r)) /\ is_u16 (snd (fst r)) /\ 0 <= snd r <= 4294967295) rs).
  { assert (G : forall l rs, Forall2 (placed base sts out) l rs -> Forall (fun st => is_u16 (st_platform st) /\ is_u16 (st_encoding st)) l ->
       Forall (fun r => is_u16 (fst (fst r)) /\ is_u16 (snd (fst r)) /\ 0 <= snd r <= 4294967295) rs).
    { induction 1 as [|st r l' rs' (r0 & b & pre & post & _ & _ & EO & ->) H IH]; intros F; constructor; inversion F as [|? ? P1 P2].
      - cbn [fst snd]. split; [tauto|]. split; [tauto|]. rewrite EO, !app_length in LO. unfold base in *. lia.
      - now apply IH. }
    now apply (G sts). }
  assert (HDR : reads (_ <-- de_u16 ;; de_counted16 record_de)
     (ser_u16 0 ++ ser_u16 (Z.of_nat (length rs)) ++ concat (map record_ser rs)) rs).
  { eapply reads_bind; [apply reads_u16; lia|cbv beta]. unfold de_counted16. eapply reads_bind; [apply reads_u16; lia|cbv beta].
    rewrite Nat2Z.id. apply reads_counted. eapply Forall_impl; [|exact FR]. intros r (R1 & R2 & R3). now apply reads_record. }
  set (hd := ser_u16 0 ++ ser_u16 (Z.of_nat (length rs)) ++ concat (map record_ser rs)) in *.
  assert (EB : bs = hd ++ out) by (rewrite <- W; unfold hd; now rewrite <- !app_assoc).
  assert (LH : Z.of_nat (length hd) = base).
  { unfold hd. rewrite !app_length, record_ser_length. cbn [length ser_u16 ser_prim prim_width be_bytes]. unfold base. lia. }
  assert (SUB : forall l rs0 ptr, Forall2 (placed base sts out) l rs0 -> exists sts' r',
    subtables_de rs0 (mkrd bs ptr [0%nat]) = Ok (sts', r') /\ Forall2 (fun st st' => exists r, first_same sts st r /\ st' = shown_as r st) l sts').
  { induction l as [|st l IH]; intros rs0 ptr F; inversion F as [|? rec ? rs1 P F1]; subst rs0; cbn [subtables_de].
    - eexists. eexists. split; [reflexivity|constructor].
    - destruct P as (r & b & pre & post & FS & SW & EO & ->).
      assert (A : at_pos bs (length hd + length pre) b).
      { exists (hd ++ pre), post. rewrite app_length. split; [|reflexivity]. now rewrite EB, EO, <- !app_assoc. }
      assert (FS' : first_same sts r r).
      { destruct FS as (bf & af & E & S & N). exists bf, af. split; [exact E|]. split; [reflexivity|].
        eapply Forall_impl; [|exact N]. intros s Hn Hs. apply Hn. unfold same_mapping in *. congruence. }
      destruct (sub_read r b bs (length hd + length pre) (st_platform st) (st_encoding st) ptr (RD _ _ FS' SW) SW A) as [ptr' SR].
      specialize (SR st eq_refl eq_refl). unfold pbind. replace (base + Z.of_nat (length pre)) with (Z.of_nat (length hd + length pre)) by lia.
      rewrite SR. destruct (IH _ ptr' F1) as (sts' & r' & E' & F'). rewrite E'. unfold pret.
      eexists. eexists. split; [reflexivity|]. constructor; [eauto|exact F']. }
  unfold from_bytes, cmap_de, pbind, with_base, rd_push, rd_new. cbn [rd_input rd_ptr rd_stack].
  pose proof (HDR (mkrd bs 0 [0%nat; 0%nat]) out ltac:(unfold rest; cbn [rd_ptr rd_input skipn]; exact EB)) as X. unfold pbind in X. rewrite X.
  unfold adv. cbn [rd_pop rd_stack rd_input rd_ptr].
  destruct (SUB sts rs (0 + length hd)%nat PL) as (sts' & r' & E' & F'). rewrite E'. eauto.
Qed.

(** ** When every subtable is its own *)
Lemma first_same_unique sts s t r1 r2 : first_same sts s r1 -> first_same sts t r2 -> same_mapping s t -> r1 = r2.
Proof.
  intros (b1 & a1 & X1 & S1 & N1) (b2 & a2 & X2 & S2 & N2) SM. rewrite X1 in X2. clear X1.
  revert b2 X2 N1 N2. induction b1 as [|x b1 IH]; intros b2 X2 N1 N2.
  - destruct b2 as [|y b2]; cbn [app] in X2; injection X2 as -> X2; [reflexivity|].
    inversion N2 as [|? ? N _]; subst. exfalso. apply N. unfold same_mapping in *. congruence.
  - destruct b2 as [|y b2]; cbn [app] in X2.
    + injection X2 as -> X2. inversion N1 as [|? ? N _]; subst. exfalso. apply N. unfold same_mapping in *. congruence.
    + injection X2 as -> X2. inversion N1; inversion N2; subst. eapply IH; eauto.
Qed.
Lemma kept_own sts : Forall2 (fun st st' => exists r, first_same sts st r /\ st' = shown_as r st) sts sts ->
  forall s, In s sts -> exists r, first_same sts s r /\ s = shown_as r s.
Proof.
  assert (X : forall l, Forall2 (fun st st' => exists r, first_same sts st r /\ st' = shown_as r st) l l -> forall s, In s l -> exists r, first_same sts s r /\ s = shown_as r s).
  { induction l as [|x l IH]; intros HH s Hs; [destruct Hs|]. inversion HH; subst. destruct Hs as [<-|Hs]; auto. }
  apply X.
Qed.
Lemma kept_agree sts : Forall2 (fun st st' => exists r, first_same sts st r /\ st' = shown_as r st) sts sts ->
  forall s t, In s sts -> In t sts -> same_mapping s t -> st_format s = st_format t /\ st_language s = st_language t /\ st_uvs s = st_uvs t.
Proof.
  intros H s t Hs Ht SM. destruct (kept_own _ H s Hs) as (r1 & F1 & E1). destruct (kept_own _ H t Ht) as (r2 & F2 & E2).
  pose proof (first_same_unique _ _ _ _ _ F1 F2 SM) as <-. rewrite E1, E2. unfold shown_as.
  destruct (st_format r1 =? 14); cbn; auto.
Qed.
Lemma agree_all sts : Forall ordinary sts ->
  (forall s t, In s sts -> In t sts -> same_mapping s t -> st_format s = st_format t /\ st_language s = st_language t /\ st_uvs s = st_uvs t) ->
  forall sts', Forall2 (fun st st' => exists r, first_same sts st r /\ st' = shown_as r st) sts sts' -> sts' = sts.
Proof.
  intros F A. assert (G : forall l l', (forall x, In x l -> In x sts) -> Forall2 (fun st st' => exists r, first_same sts st r /\ st' = shown_as r st) l l' -> l' = l).
  { induction l as [|st l IH]; intros l' I H; inversion H as [|? st' ? l2 (r & FS & ->) H2]; subst; [reflexivity|].
    f_equal; [|apply IH; [intros; apply I; now right|exact H2]].
    pose proof (first_same_In _ _ _ FS) as IR. destruct FS as (_ & _ & _ & SM & _).
    destruct (A r st IR (I st (or_introl eq_refl)) SM) as (E1 & E2 & E3). rewrite Forall_forall in F.
    pose proof (F st (I st (or_introl eq_refl))) as O. unfold shown_as, sequences_of. rewrite E1, E2, E3. unfold same_mapping in SM. rewrite SM.
    destruct O as [[O1 O2]|(O1 & O2 & O3 & O4 & O5 & O6)].
    - destruct (st_format st =? 14) eqn:E14; [lia|]. destruct st; cbn in *. now rewrite O2.
    - rewrite O1. cbn [Z.eqb Pos.eqb]. destruct (st_uvs st) as [u|] eqn:EU; [|congruence]. destruct st as [f p e la m u2]. cbn [st_format st_platform st_encoding st_language st_mapping st_uvs] in O1, O2, O3, O4, O5, EU. rewrite O1, O2, O3, O4, O5, EU. reflexivity. }
  intros sts' H. now apply (G sts sts').
Qed.
Lemma cmap_kept_iff hash sts bs : no_collision hash sts ->
  Forall (fun st => is_u16 (st_platform st) /\ is_u16 (st_encoding st)) sts -> Forall ordinary sts ->
  Z.of_nat (length sts) <= 65535 -> cmap_write hash sts = Ok bs -> Z.of_nat (length bs) <= 4294967295 ->
  (forall r b, first_same sts r r -> subtable_write r = Ok b -> readable r b) ->
  (from_bytes cmap_de bs = Ok sts <->
   forall s t, In s sts -> In t sts -> same_mapping s t -> st_format s = st_format t /\ st_language s = st_language t /\ st_uvs s = st_uvs t).
Proof.
  intros NC FP FO LS W LB RD. destruct (cmap_read_back hash sts bs NC FP LS W LB RD) as (sts' & E & F). rewrite E. split.
  - intros [= ->]. now apply kept_agree.
  - intros A. f_equal. now apply agree_all.
Qed.

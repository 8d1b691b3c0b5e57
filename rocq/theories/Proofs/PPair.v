(** Positioning subtables: pair adjustment. *)
From Coq Require Import List ZArith Lia Bool Permutation Sorted.
Import ListNotations.
From Verif.Model Require Import MBase MMap MTag MGlyph MOffset MLayout MLow MContext MLookup MValue MGsub MGpos.
From Verif.Spec Require Import SBase SGlyph SOffset SLayout SContext SValue SGsub SGpos.
From Verif.Proofs Require Import PBase PCodec PMap PTag PGlyph PGlyphFmt PPoints POffset PPart PCover PClassdef PDevice PValue PLow PContext PGsub PGpos.
Open Scope Z_scope.

(** ** Pairs in order *)
Lemma pair_ltb_spec a b : pair_ltb a b = true <-> fst a < fst b \/ (fst a = fst b /\ snd a < snd b).
Proof. unfold pair_ltb. rewrite orb_true_iff, andb_true_iff, !Z.ltb_lt, Z.eqb_eq. reflexivity. Qed.
Lemma pair_strict : strict_total pair_ltb.
Proof.
  split.
  - intros a. destruct (pair_ltb a a) eqn:E; [|reflexivity]. apply pair_ltb_spec in E. lia.
  - intros a b c H1 H2. apply pair_ltb_spec in H1, H2. apply pair_ltb_spec. lia.
  - intros [a1 a2] [b1 b2] H1 H2. assert (N1: ~ pair_ltb (a1, a2) (b1, b2) = true) by congruence. assert (N2: ~ pair_ltb (b1, b2) (a1, a2) = true) by congruence.
    rewrite pair_ltb_spec in N1, N2. cbn [fst snd] in *. f_equal; lia.
Qed.
Lemma SS_impl {A} (R1 R2 : A -> A -> Prop) l : (forall a b, R1 a b -> R2 a b) -> StronglySorted R1 l -> StronglySorted R2 l.
Proof. intros H. induction 1 as [|a l S IH F]; constructor; [exact IH|]. eapply Forall_impl; [|exact F]. auto. Qed.
Lemma pairs_ordered_sorted {V} (m : list ((Z * Z) * V)) : pairs_ordered m <-> sorted_map pair_ltb m.
Proof. unfold pairs_ordered, sorted_map, sorted_keys. split; apply SS_impl; intros a b; apply pair_ltb_spec. Qed.

(** ** Two layers *)
Definition flat {V} (t : list (Z * list (Z * V))) : list ((Z * Z) * V) :=
  concat (map (fun s => map (fun p => ((fst s, fst p), snd p)) (snd s)) t).
Lemma flat_app {V} (a b : list (Z * list (Z * V))) : flat (a ++ b) = flat a ++ flat b.
Proof. unfold flat. now rewrite map_app, concat_app. Qed.
Lemma flat_snd {V} (t : list (Z * list (Z * V))) : map snd (concat (map snd t)) = map snd (flat t).
Proof.
  induction t as [|[k s] t IH]; [reflexivity|]. unfold flat in *. cbn [map concat fst snd]. rewrite !map_app, IH. f_equal.
  rewrite map_map. now apply map_ext.
Qed.
Lemma flat_In {V} (t : list (Z * list (Z * V))) l r v : In ((l, r), v) (flat t) <-> exists s, In (l, s) t /\ In (r, v) s.
Proof.
  unfold flat. rewrite in_concat. split.
  - intros (x & Hx & Hi). apply in_map_iff in Hx as ([k s] & <- & Hs). apply in_map_iff in Hi as ([r' v'] & E & Hp). cbn [fst snd] in E. injection E as <- <- <-. eauto.
  - intros (s & Hs & Hp). eexists. split; [apply in_map_iff; exists (l, s); split; [reflexivity|exact Hs]|]. apply in_map_iff. exists (r, v). auto.
Qed.
Definition layered {V} (t : list (Z * list (Z * V))) : Prop :=
  increasing (map fst t) /\ Forall (fun s => snd s <> [] /\ increasing (map fst (snd s))) t.
Lemma insert_replace {V} (t : list (Z * V)) k v w : Forall (fun a => a < k) (map fst t) -> bm_insert Z.ltb k v (t ++ [(k, w)]) = t ++ [(k, v)].
Proof.
  induction t as [|[a b] t IH]; intros H; cbn [app bm_insert]; [now rewrite Z.ltb_irrefl|]. cbn [map fst] in H. inversion H; subst.
  replace (k <? a) with false by lia. replace (a <? k) with true by lia. now rewrite IH.
Qed.
Lemma get_last {V} (t : list (Z * V)) k v : Forall (fun a => a < k) (map fst t) -> bm_get Z.ltb k (t ++ [(k, v)]) = Some v.
Proof.
  induction t as [|[a b] t IH]; intros H; cbn [app bm_get]; [now rewrite Z.ltb_irrefl|]. cbn [map fst] in H. inversion H; subst.
  replace ((k <? a) || (a <? k)) with true by lia. now apply IH.
Qed.
Lemma increasing_snoc l k : increasing l -> Forall (fun a => a < k) l -> increasing (l ++ [k]).
Proof.
  intros H F. induction l as [|a l IH]; [exact I|]. inversion F; subst. specialize (IH (increasing_tail _ _ H) ltac:(assumption)).
  destruct l as [|b l]; cbn [app increasing] in *; [lia|tauto].
Qed.
Lemma increasing_last l k : increasing (l ++ [k]) -> increasing l /\ Forall (fun a => a < k) l.
Proof.
  intros H. induction l as [|a l IH]; [split; [exact I|constructor]|].
  cbn [app] in H. pose proof (increasing_lt _ _ H) as L. apply increasing_tail in H. destruct (IH H) as [H1 H2]. split.
  - destruct l as [|b l]; [exact I|]. cbn [increasing]. split; [|exact H1]. inversion L; subst. assumption.
  - constructor; [|exact H2]. rewrite Forall_forall in L. apply L. apply in_or_app. right. now left.
Qed.
Lemma layer_step {V} (t : list (Z * list (Z * V))) l r v : layered t ->
  (forall l' r' w, In ((l', r'), w) (flat t) -> l' < l \/ (l' = l /\ r' < r)) ->
  let old := match bm_get Z.ltb l t with Some s => s | None => [] end in
  let t' := bm_insert Z.ltb l (bm_insert Z.ltb r v old) t in
  layered t' /\ flat t' = flat t ++ [((l, r), v)].
Proof.
  intros [Hi Hf] Hlt. cbv zeta. destruct t as [|[k s] t1 _] using rev_ind.
  - cbn. split; [split; [exact I|]|reflexivity]. constructor; [|constructor]. cbn. split; [discriminate|exact I].
  - rewrite map_app in Hi. cbn [map fst] in Hi. destruct (increasing_last _ _ Hi) as [Hi1 Hk]. apply Forall_app in Hf as [Hf1 Hf2]. inversion Hf2 as [|? ? [Hs Hsi] _]; subst. cbn [fst snd] in *.
    assert (K: k < l \/ k = l).
    { destruct s as [|[r0 v0] s]; [congruence|]. assert (X: In ((k, r0), v0) (flat (t1 ++ [(k, (r0, v0) :: s)]))) by (apply flat_In; exists ((r0, v0) :: s); split; [apply in_or_app; right; now left|now left]). specialize (Hlt _ _ _ X). lia. }
    destruct K as [K|K].
    + assert (F: Forall (fun a => a < l) (map fst (t1 ++ [(k, s)]))).
      { rewrite map_app. apply Forall_app. split; [eapply Forall_impl; [|exact Hk]; cbn; intros; lia|repeat constructor; exact K]. }
      rewrite (get_not_in Z.ltb Z_strict).
      2:{ intros s' X. rewrite Forall_forall in F. specialize (F _ (in_map fst _ _ X)). cbn in F. lia. }
      cbn [bm_insert]. rewrite (insert_last Z.ltb Z_strict) by (eapply Forall_impl; [|exact F]; cbn; intros; lia).
      split; [split|].
      * rewrite map_app. cbn [map fst]. apply increasing_snoc; [now rewrite map_app|exact F].
      * apply Forall_app. split; [apply Forall_app; split; [exact Hf1|now constructor]|]. constructor; [|constructor]. cbn. split; [discriminate|exact I].
      * rewrite flat_app. reflexivity.
    + subst k. rewrite get_last by exact Hk. assert (F: Forall (fun a => a < r) (map fst s)).
      { apply Forall_forall. intros x Hx. apply in_map_iff in Hx as ([x' w] & E & Hx). cbn in E. subst x'. assert (X: In ((l, x), w) (flat (t1 ++ [(l, s)]))) by (apply flat_In; exists s; split; [apply in_or_app; right; now left|exact Hx]). specialize (Hlt _ _ _ X). lia. }
      rewrite (insert_last Z.ltb Z_strict r v s) by (eapply Forall_impl; [|exact F]; cbn; intros; lia).
      rewrite insert_replace by exact Hk. split; [split|].
      * rewrite map_app. exact Hi.
      * apply Forall_app. split; [exact Hf1|]. constructor; [|constructor]. cbn [fst snd]. split; [destruct s; discriminate|]. rewrite map_app. now apply increasing_snoc.
      * rewrite !flat_app, <- app_assoc. f_equal. unfold flat. cbn [map concat fst snd]. rewrite map_app, !app_nil_r. reflexivity.
Qed.
Lemma pairs_ordered_snoc {V} (m : list ((Z * Z) * V)) l r v : pairs_ordered (m ++ [((l, r), v)]) ->
  pairs_ordered m /\ forall l' r' w, In ((l', r'), w) m -> l' < l \/ (l' = l /\ r' < r).
Proof.
  unfold pairs_ordered. rewrite map_app. cbn [map fst]. intros H. induction m as [|[[a b] w] m IH]; [split; [constructor|intros ? ? ? []]|].
  cbn [map fst app] in H. inversion H as [|? ? H1 H2]; subst. destruct (IH H1) as [I1 I2]. split.
  - cbn [map fst]. constructor; [exact I1|]. apply Forall_app in H2. apply H2.
  - intros l' r' w' [E|Hi]; [|eauto]. injection E as -> -> ->. apply Forall_app in H2 as [_ H2]. inversion H2; subst. assumption.
Qed.
Lemma two_layer_spec m : pairs_ordered m -> layered (two_layer m) /\ flat (two_layer m) = m.
Proof.
  induction m as [|[[l r] v] m IH] using rev_ind; intros H.
  - split; [split; [exact I|constructor]|reflexivity].
  - destruct (pairs_ordered_snoc _ _ _ _ H) as [H1 H2]. destruct (IH H1) as [L F]. unfold two_layer. rewrite fold_left_app. fold (two_layer m). cbn [fold_left fst snd].
    destruct (layer_step (two_layer m) l r v L) as [A B]; [rewrite F; exact H2|]. cbv zeta in A, B. split; [exact A|]. now rewrite B, F.
Qed.
Lemma pairs_of_flat t : pairs_of (map fst t) (map snd t) = flat t.
Proof. unfold pairs_of, flat. now rewrite combine_fst_snd. Qed.
Lemma flat_ordered {V} (t : list (Z * list (Z * V))) : increasing (map fst t) -> Forall (fun s => increasing (map fst (snd s))) t -> pairs_ordered (flat t).
Proof.
  intros Hi Hf. unfold pairs_ordered. induction t as [|[k s] t IH]; [constructor|]. inversion Hf; subst. specialize (IH (increasing_tail _ _ Hi) ltac:(assumption)).
  change (flat ((k, s) :: t)) with (map (fun p => ((k, fst p), snd p)) s ++ flat t). rewrite map_app.
  cbn [map fst snd] in *. pose proof (increasing_lt _ _ Hi) as L.
  assert (Hs: increasing (map fst s)) by assumption. clear - IH L Hs. induction s as [|[r v] s IHs]; [exact IH|]. cbn [map fst snd app]. constructor; [apply IHs; now apply increasing_tail in Hs|].
  cbn [map fst] in Hs. pose proof (increasing_lt _ _ Hs) as M. apply Forall_app. split.
  - apply Forall_map, Forall_map. rewrite Forall_map in M. eapply Forall_impl; [|exact M]. intros [a b] H. cbn in *. lia.
  - apply Forall_forall. intros [a b] H. apply in_map_iff in H as ([[a' b'] w] & E & H). cbn in E. injection E as -> ->. apply flat_In in H as (s' & H & _).
    left. cbn. rewrite Forall_forall in L. apply L. exact (in_map fst _ _ H).
Qed.

(** ** Reading *)
Lemma stored_raw_base lim buf b1 b2 pos bs : stored lim buf b1 pos (raw bs) -> stored lim buf b2 pos (raw bs).
Proof.
  revert pos. induction bs as [|b bs IH]; intros pos H; inversion H; subst; constructor; auto.
Qed.
Lemma at_pos_app buf pos a b : at_pos buf pos a -> at_pos buf (pos + length a) b -> at_pos buf pos (a ++ b).
Proof.
  intros (pre & post & E & L) (pre' & post' & E' & L'). exists pre, post'. split; [|exact L].
  rewrite E in E'. rewrite app_assoc in E'. symmetry in E'. apply app_same_length in E' as [-> <-]; [|rewrite app_length; lia]. rewrite E. now rewrite <- app_assoc.
Qed.
Lemma pair_part w1 w2 u i1 i2 : format_word (fields (fst u)) w1 -> format_word (fields (snd u)) w2 ->
  record_items (fst u) i1 -> record_items (snd u) i2 -> part (pair_de w1 w2) (i1 ++ i2) u.
Proof.
  intros H1 H2 R1 R2. unfold pair_de. destruct u as [a b]. cbn [fst snd] in *. eapply part_bind; [apply (record_part a); assumption|]. apply (part_map _ (fun b => (a, b))). now apply record_part.
Qed.
Lemma raw_concat l : raw (concat l) = concat (map raw l).
Proof. induction l as [|a l IH]; [reflexivity|]. cbn [concat map]. now rewrite raw_app, IH. Qed.
Lemma pair_set_part w1 w2 s : pair_set_ok w1 w2 s -> part (de_counted16 (pair_record_de w1 w2)) (pair_set_obj s) s.
Proof.
  intros (Hc & _ & Hf). unfold pair_set_obj, de_counted16. rewrite raw_app. eapply part_bind; [apply part_word; unfold countable, is_u16 in *; lia|].
  rewrite Nat2Z.id, raw_concat, map_map. apply part_counted. eapply Forall_impl; [|exact Hf]. intros [g u] (Hg & (A1 & A2 & A3) & (B1 & B2 & B3)). cbn [fst snd] in *.
  rewrite !raw_app. unfold pair_record_de. eapply part_bind; [apply part_word; exact Hg|]. apply (part_map _ (fun p => (g, p))).
  apply pair_part; auto; now apply tableless_record.
Qed.
Lemma pair_sets_read w1 w2 buf base stk gs vs sets p0 : length gs = length sets -> Forall (pair_set_ok w1 w2) sets ->
  Forall2 (fun v o => stored 65536 buf (base + Z.to_nat v) (base + Z.to_nat v) o) vs (map pair_set_obj sets) ->
  exists q, pair_sets_de w1 w2 (combine gs vs) (mkrd buf p0 (base :: stk)) = Ok (sets, mkrd buf q (base :: stk)).
Proof.
  revert gs vs p0. induction sets as [|s sets IH]; intros [|g gs] vs p0 L Hs F; try discriminate L.
  - inversion F; subst. exists p0. reflexivity.
  - cbn [map] in F. inversion F as [|v o vs' os Hv Hvs]; subst. inversion Hs; subst. cbn [combine pair_sets_de].
    unfold pbind at 1, goto. cbn [top_of_table rd_stack rd_input]. unfold pbind at 1.
    assert (Hv': stored 65536 buf base (base + Z.to_nat v) (pair_set_obj s)) by (unfold pair_set_obj in *; eapply stored_raw_base; exact Hv).
    rewrite (pair_set_part w1 w2 s ltac:(assumption) buf base _ stk Hv'). unfold pbind at 1.
    destruct (IH gs vs' (base + Z.to_nat v + size (pair_set_obj s))%nat ltac:(injection L; auto) ltac:(assumption) Hvs) as [q E]. rewrite E. exists q. reflexivity.
Qed.
Lemma ppos1_tail w1 w2 gs sets : length gs = length sets -> countable sets -> Forall (pair_set_ok w1 w2) sets ->
  ends (offs <-- de_words ;; g <-- plift (unwrap (Some gs)) ;; sets <-- pair_sets_de w1 w2 (combine g offs) ;; pret (P21 1 (Some gs) w1 w2 sets))
       (links (map pair_set_obj sets)) (P21 1 (Some gs) w1 w2 sets).
Proof.
  intros L Hc Hs buf base pos stk H. unfold links in H. apply stored_app in H as [S1 S2]. inversion S2; subst.
  match goal with H : stored _ _ _ _ (_ ++ []) |- _ => rewrite app_nil_r in H; apply stored_links in H as (vs & A & U & F) end.
  apply stored_raw in S1. rewrite size_raw in A. pose proof (at_pos_app _ _ _ _ S1 A) as At.
  assert (Lv: length (map pair_set_obj sets) = length vs) by (symmetry; exact (F2_len _ _ _ F)). rewrite Lv in At.
  assert (Cv: countable vs) by (unfold countable in *; rewrite <- Lv, map_length; exact Hc).
  unfold pbind at 1. rewrite (at_pos_reads _ _ _ _ _ (base :: stk) (part_u16s vs Cv U) At). unfold pbind at 1. cbn [unwrap plift]. unfold pbind at 1.
  destruct (pair_sets_read w1 w2 buf base stk gs vs sets (pos + length (word (Z.of_nat (length vs)) ++ words vs))%nat L Hs F) as [q E]. rewrite E. exists q. reflexivity.
Qed.

(** ** Classes *)
Lemma enumerate_In {A} k (l : list A) i a : In (i, a) (enumerate k l) <-> k <= i /\ nth_error l (Z.to_nat (i - k)) = Some a.
Proof.
  revert k. induction l as [|x l IH]; intros k; cbn [enumerate In].
  - split; [intros []|]. intros [_ H]. destruct (Z.to_nat (i - k)); discriminate.
  - rewrite IH. split.
    + intros [[= -> ->]|[H1 H2]]; [split; [lia|]; replace (i - i) with 0 by lia; reflexivity|]. split; [lia|]. replace (Z.to_nat (i - k)) with (S (Z.to_nat (i - (k + 1)))) by lia. exact H2.
    + intros [H1 H2]. destruct (Z.eq_dec i k) as [->|N].
      * left. replace (k - k) with 0 in H2 by lia. change (Z.to_nat 0) with 0%nat in H2. cbn [nth_error] in H2. injection H2 as ->. reflexivity.
      * right. split; [lia|]. replace (Z.to_nat (i - k)) with (S (Z.to_nat (i - (k + 1)))) in H2 by lia. exact H2.
Qed.
Lemma has_any_fields v : vr_has_any v = true <-> has_fields v.
Proof.
  unfold vr_has_any, has_fields, fields. assert (E: forall {A} (o : option A), is_some o = present o) by (intros A []; reflexivity). rewrite !E.
  rewrite !orb_true_iff. cbn [In]. intuition.
Qed.
Lemma get_glyphs_class m max c g : cmap_ok m -> is_u16 max -> (In g (cd_get_glyphs m c max) <-> of_class m max c g).
Proof. intros Hm Hx. exact (proj2 (class_slot_get m max c Hm Hx) g). Qed.
Lemma class_pairs_In max m1 m2 rows l r v1 v2 : cmap_ok m1 -> cmap_ok m2 -> is_u16 max -> countable rows -> Forall countable rows ->
  (In ((l, r), (v1, v2)) (class_pairs max m1 m2 rows) <->
    exists c1 c2 u, row_at rows c1 c2 u /\ of_class m1 max c1 l /\ of_class m2 max c2 r /\
      v1 = without_zeros (fst u) /\ v2 = without_zeros (snd u) /\ (has_fields v1 \/ has_fields v2)).
Proof.
  intros H1 H2 Hx Hr Hc. unfold class_pairs. rewrite in_concat. split.
  - intros (x & Hx1 & Hi). apply in_map_iff in Hx1 as ([c1 row] & <- & Hrow). cbn [fst snd] in Hi. apply in_concat in Hi as (y & Hy & Hi).
    apply in_map_iff in Hy as ([c2 u] & <- & Hu). cbn [fst snd] in Hi. apply enumerate_In in Hrow as [B1 N1], Hu as [B2 N2]. rewrite Z.sub_0_r in *.
    assert (L1: c1 < 65536). { assert (Y: nth_error rows (Z.to_nat c1) <> None) by congruence. apply nth_error_Some in Y. unfold countable in Hr. lia. }
    assert (L2: c2 < 65536). { rewrite Forall_forall in Hc. pose proof (Hc row (nth_error_In _ _ N1)) as X. assert (Y: nth_error row (Z.to_nat c2) <> None) by congruence. apply nth_error_Some in Y. unfold countable in X. lia. }
    unfold class_entries in Hi. rewrite !u16_id in Hi by lia. rewrite <- !without_zeros_simplify in Hi.
    destruct (vr_has_any (without_zeros (fst u)) || vr_has_any (without_zeros (snd u))) eqn:Eh; [|destruct Hi].
    apply in_concat in Hi as (z & Hz & Hi). apply in_map_iff in Hz as (l' & <- & Hl). apply in_map_iff in Hi as (r' & E & Hr'). injection E as -> -> <- <-.
    exists c1, c2, u. split; [split; [lia|]; split; [lia|]; eauto|]. split; [now apply get_glyphs_class|]. split; [now apply get_glyphs_class|].
    split; [reflexivity|]. split; [reflexivity|]. rewrite <- !has_any_fields. now apply orb_true_iff.
  - intros (c1 & c2 & u & (B1 & B2 & row & N1 & N2) & O1 & O2 & -> & -> & Hf).
    assert (L1: c1 < 65536). { assert (Y: nth_error rows (Z.to_nat c1) <> None) by congruence. apply nth_error_Some in Y. unfold countable in Hr. lia. }
    assert (L2: c2 < 65536). { rewrite Forall_forall in Hc. pose proof (Hc row (nth_error_In _ _ N1)) as X. assert (Y: nth_error row (Z.to_nat c2) <> None) by congruence. apply nth_error_Some in Y. unfold countable in X. lia. }
    eexists. split; [apply in_map_iff; exists (c1, row); split; [reflexivity|]; apply enumerate_In; rewrite Z.sub_0_r; auto|]. cbn [fst snd]. apply in_concat.
    eexists. split; [apply in_map_iff; exists (c2, u); split; [reflexivity|]; apply enumerate_In; rewrite Z.sub_0_r; auto|]. cbn [fst snd].
    unfold class_entries. rewrite !u16_id by lia. rewrite <- !without_zeros_simplify.
    replace (vr_has_any (without_zeros (fst u)) || vr_has_any (without_zeros (snd u))) with true by (symmetry; apply orb_true_iff; rewrite !has_any_fields; exact Hf).
    apply in_concat. eexists. split; [apply in_map_iff; exists l; split; [reflexivity|now apply get_glyphs_class]|]. apply in_map_iff. exists r. split; [reflexivity|now apply get_glyphs_class].
Qed.
Lemma of_class_unique m max c c' g : of_class m max c g -> of_class m max c' g -> c = c'.
Proof.
  unfold of_class. destruct (Z.eqb_spec c 0), (Z.eqb_spec c' 0); subst; intros H H'; try congruence.
  - destruct H as [_ H]. apply class_notin in H. congruence.
  - destruct H' as [_ H']. apply class_notin in H'. congruence.
Qed.
Lemma of_list_In {K V} (ltb : K -> K -> bool) (l : list (K * V)) k v : strict_total ltb ->
  (forall k v v', In (k, v) l -> In (k, v') l -> v = v') -> (In (k, v) (bm_of_list ltb l) <-> In (k, v) l).
Proof.
  intros St Hf. pose proof (of_list_sorted ltb St l) as Hs.
  assert (G: bm_get ltb k (bm_of_list ltb l) = match find (fun kv => negb (ltb k (fst kv) || ltb (fst kv) k)) (rev l) with Some kv => Some (snd kv) | None => None end).
  { unfold bm_of_list. rewrite (get_fold_insert ltb St). now destruct (find _ _). }
  split; intros H.
  - apply (In_get ltb St) in H; [|exact Hs]. rewrite H in G. destruct (find _ (rev l)) as [[a b]|] eqn:E; [|discriminate]. apply find_some in E as [E1 E2]. cbn [fst snd] in *.
    injection G as ->. apply negb_true_iff in E2. apply (eq_case ltb St) in E2. subst a. now apply in_rev.
  - apply (get_In ltb St). rewrite G. destruct (find _ (rev l)) as [[a b]|] eqn:E.
    + apply find_some in E as [E1 E2]. cbn [fst snd] in *. apply negb_true_iff in E2. apply (eq_case ltb St) in E2. subst a. f_equal. eapply Hf; [|exact H]. now apply in_rev.
    + exfalso. apply in_rev in H. pose proof (find_none _ _ E _ H) as X. cbn [fst] in X. now rewrite (st_irrefl _ St) in X.
Qed.
Lemma class_pairs_map max m1 m2 rows : cmap_ok m1 -> cmap_ok m2 -> is_u16 max -> countable rows -> Forall countable rows ->
  class_pairs_of m1 m2 max rows (bm_of_list pair_ltb (class_pairs max m1 m2 rows)).
Proof.
  intros H1 H2 Hx Hr Hc. split; [apply pairs_ordered_sorted; apply of_list_sorted; exact pair_strict|]. intros l r v1 v2. rewrite of_list_In; [now apply class_pairs_In|exact pair_strict|].
  intros [l' r'] [a1 a2] [b1 b2] Ha Hb. apply class_pairs_In in Ha; auto. apply class_pairs_In in Hb; auto.
  destruct Ha as (c1 & c2 & u & Ra & Oa1 & Oa2 & -> & -> & _), Hb as (d1 & d2 & w & Rb & Ob1 & Ob2 & -> & -> & _).
  pose proof (of_class_unique _ _ _ _ _ Oa1 Ob1) as <-. pose proof (of_class_unique _ _ _ _ _ Oa2 Ob2) as <-.
  destruct Ra as (_ & _ & row & N1 & N2), Rb as (_ & _ & row' & M1 & M2). assert (row = row') by congruence. subst row'. assert (u = w) by congruence. now subst.
Qed.
Lemma class_pairs_unique m1 m2 max rows m m' : class_pairs_of m1 m2 max rows m -> class_pairs_of m1 m2 max rows m' -> m = m'.
Proof.
  intros [S1 I1] [S2 I2]. apply pairs_ordered_sorted in S1, S2. apply (sorted_map_ext pair_ltb pair_strict); auto.
  assert (E: forall k v, In (k, v) m <-> In (k, v) m') by (intros [l r] [v1 v2]; rewrite I1, I2; reflexivity).
  intros k. destruct (bm_get pair_ltb k m) as [v|] eqn:G.
  - apply (get_In pair_ltb pair_strict) in G. apply E in G. symmetry. now apply (In_get pair_ltb pair_strict).
  - symmetry. apply (get_not_in pair_ltb pair_strict). intros v X. apply E in X. apply (In_get pair_ltb pair_strict) in X; [|exact S1]. congruence.
Qed.
Lemma zero_alike v : ~ has_fields (without_zeros v) -> adjustment v = adjustment nothing.
Proof.
  intros H. rewrite <- (simplify_adjustment v), <- without_zeros_simplify. rewrite <- has_any_fields in H. destruct (without_zeros v) as [[] [] [] [] [] [] [] []]; try (elim H; reflexivity). reflexivity.
Qed.
Lemma class_adjusts m1 m2 max rows m l r c1 c2 u : class_pairs_of m1 m2 max rows m -> row_at rows c1 c2 u -> of_class m1 max c1 l -> of_class m2 max c2 r ->
  adjusts m l r (adjustment (fst u), adjustment (snd u)).
Proof.
  intros [_ H] R O1 O2. assert (D: (has_fields (without_zeros (fst u)) \/ has_fields (without_zeros (snd u))) \/
    (~ has_fields (without_zeros (fst u)) /\ ~ has_fields (without_zeros (snd u)))).
  { rewrite <- !has_any_fields. destruct (vr_has_any (without_zeros (fst u))), (vr_has_any (without_zeros (snd u))); auto; right; split; discriminate. }
  destruct D as [D|[D1 D2]].
  - left. exists (without_zeros (fst u)), (without_zeros (snd u)). split; [apply H; exists c1, c2, u; auto 8|]. rewrite !without_zeros_simplify, !simplify_adjustment. reflexivity.
  - right. split; [|now rewrite (zero_alike _ D1), (zero_alike _ D2)]. intros [v1 v2] X. apply H in X as (d1 & d2 & w & R' & P1 & P2 & -> & -> & F).
    pose proof (of_class_unique _ _ _ _ _ O1 P1) as <-. pose proof (of_class_unique _ _ _ _ _ O2 P2) as <-.
    destruct R as (_ & _ & row & N1 & N2), R' as (_ & _ & row' & M1 & M2). assert (row = row') by congruence. subst row'. assert (u = w) by congruence. subst w. tauto.
Qed.

Lemma ppos_low max m o : ppos_file max m o -> exists s, finds p2_de o s /\ ppos_from_low max s = Ok m.
Proof.
  destruct 1 as [gs c w1 w2 sets Hi Hc Hl Hn Hw1 Hw2 Hs|gs c w1 w2 m1 m2 k1 k2 n rows items m Hc Hw1 Hw2 Hk1 Hk2 Hx Hr Hn Hi Hp].
  - exists (P21 1 (Some gs) w1 w2 sets). split.
    + apply ends_finds. eapply ends_bind; [apply part_word; unfold is_u16; lia|]. eapply ends_bind; [apply part_cov; exact Hc|].
      rewrite raw_app, <- app_assoc. eapply ends_bind; [now apply part_word|]. eapply ends_bind; [now apply part_word|].
      change (1 =? 1) with true. cbn iota. now apply ppos1_tail.
    + cbn [ppos_from_low cov_or_nah]. f_equal. apply of_list_id; [exact pair_strict|]. apply pairs_ordered_sorted.
      change (pairs_ordered (flat (combine gs sets))). apply flat_ordered; [now rewrite fst_combine|].
      apply Forall_forall. intros [g s] H. apply in_combine_r in H. rewrite Forall_forall in Hs. apply (Hs s H).
  - exists (P22 2 (Some gs) w1 w2 (match k1 with Some _ => Some m1 | None => None end) (match k2 with Some _ => Some m2 | None => None end) (Z.of_nat (length rows)) n rows).
    assert (Cr: Forall countable rows).
    { clear - Hi Hn. induction Hi as [|row its rows items [H1 _] H IH]; [constructor|]. constructor; [|exact IH]. unfold countable, is_u16 in *. lia. }
    split.
    + apply decodes_finds. apply decodes_part. eapply part_bind; [apply part_word; unfold is_u16; lia|]. eapply part_bind; [apply part_cov; exact Hc|].
      rewrite raw_app, <- app_assoc. eapply part_bind; [now apply part_word|]. eapply part_bind; [now apply part_word|].
      change (2 =? 1) with false. change (2 =? 2) with true. cbn iota. change ([olink k1; olink k2] ++ ?l) with ([olink k1] ++ [olink k2] ++ l).
      eapply part_bind; [apply opt_classes; exact Hk1|]. eapply part_bind; [apply opt_classes; exact Hk2|]. rewrite raw_app, <- app_assoc.
      eapply part_bind; [apply part_word; unfold countable, is_u16 in *; lia|]. eapply part_bind; [now apply part_word|].
      apply (part_map _ (fun rs => P22 2 (Some gs) w1 w2 _ _ (Z.of_nat (length rows)) n rs)). rewrite Nat2Z.id. apply part_counted2.
      clear - Hi. induction Hi as [|row its rows items [H1 H2] H IH]; [constructor|]. cbn [map]. constructor; [|exact IH]. rewrite <- H1, Nat2Z.id.
      apply part_counted2. clear - H2. induction H2 as [|u i row its (A & B & i1 & i2 & R1 & R2 & ->) H IH]; constructor; [now apply pair_part|exact IH].
    + cbn [ppos_from_low]. f_equal. assert (D1 := classes_default m1 k1 Hk1). assert (D2 := classes_default m2 k2 Hk2). 
      match goal with |- bm_of_list _ (class_pairs _ ?a ?b _) = _ => replace a with m1 by (symmetry; exact D1); replace b with m2 by (symmetry; exact D2) end. eapply class_pairs_unique; [|exact Hp].
      apply class_pairs_map; auto; eapply classes_ok; eassumption.
Qed.
Lemma ppos_every max m o : ppos_file max m o -> finds (ppos_read max) o m.
Proof.
  intros H. destruct (ppos_low max m o H) as (s & D & E). unfold ppos_read, gpos_de. change (2 =? 9) with false. cbn iota. exact (finds_lift p2_de (ppos_from_low max) o s m D E).
Qed.

(** ** Writing *)
Lemma highest_uniform vs v : (forall w, In w vs -> placement_paired w) -> (forall w, In w vs -> fields w = fields v) -> In v vs -> highest_format vs = vr_flags v.
Proof.
  intros P U H. assert (E: forall w, In w vs -> vr_flags w = vr_flags v).
  { intros w Hw. rewrite (proj2 (flags_exact w) (P w Hw)), (U w Hw). symmetry. apply flags_exact. now apply P. }
  assert (X: vs <> []) by (intros ->; destruct H). clear - E X. induction vs as [|a vs IH]; [congruence|]. rewrite highest_cons, (E a (or_introl eq_refl)).
  destruct vs as [|b vs]; [apply Z.lor_0_r|]. rewrite IH; [apply Z.lor_diag|intros; apply E; now right|discriminate].
Qed.
Lemma highest_u16 vs : is_u16 (highest_format vs).
Proof.
  rewrite highest_bits. unfold flags8. cbn [bit_number]. unfold is_u16.
  assert (B: forall b : bool, 0 <= (if b then 1 else 0) <= 1) by (intros []; lia).
  repeat match goal with |- context [if ?b then 1 else 0] => pose proof (B b); generalize dependent (if b then 1 else 0) end.
  intros; lia.
Qed.
Lemma pairs_zero_ordered m : pairs_ordered m -> pairs_ordered (pairs_without_zeros m).
Proof. unfold pairs_ordered, pairs_without_zeros. now rewrite map_map. Qed.
Lemma ppos_written max m : ppos_ok m -> exists o, ppos_write m = Ok o /\ ppos_file max (pairs_without_zeros m) o.
Proof.
  intros (Ho & Hf & Hu1 & Hu2). unfold ppos_write, ppos_to_low.
  replace (map (fun kv : Z * Z * (vrec * vrec) => (fst kv, (vr_simplify (fst (snd kv)), vr_simplify (snd (snd kv))))) m) with (pairs_without_zeros m)
    by (unfold pairs_without_zeros; apply map_ext; intros; now rewrite !without_zeros_simplify).
  pose proof (pairs_zero_ordered m Ho) as Ho'. destruct (two_layer_spec _ Ho') as [[Li Lf] F]. set (sp := two_layer (pairs_without_zeros m)) in *. cbv zeta.
  rewrite flat_snd, F. set (vs := map snd (pairs_without_zeros m)).
  assert (B: forall kv, In kv (pairs_without_zeros m) -> is_glyph (fst (fst kv)) /\ is_glyph (snd (fst kv)) /\ vrec_ok (fst (snd kv)) /\ vrec_ok (snd (snd kv)) /\
    tableless (fst (snd kv)) /\ tableless (snd (snd kv)) /\ placement_paired (fst (snd kv)) /\ placement_paired (snd (snd kv))).
  { intros kv H. apply in_map_iff in H as (x & <- & H). rewrite Forall_forall in Hf. destruct (Hf x H) as (A1 & A2 & A3 & A4 & A5 & A6 & A7 & A8). cbn [fst snd].
    rewrite !without_zeros_simplify.
    split; [exact A1|]. split; [exact A2|]. split; [now apply simplify_ok|]. split; [now apply simplify_ok|]. split; [exact A5|]. split; [exact A6|]. split; [exact A7|exact A8]. }
  assert (W: forall (p : vrec * vrec -> vrec), (forall kv, In kv (pairs_without_zeros m) -> placement_paired (p (snd kv))) ->
      (forall a b, p (without_zeros a, without_zeros b) = without_zeros (p (a, b))) -> uniform (map (fun kv : Z * Z * (vrec * vrec) => p (snd kv)) m) ->
      forall kv, In kv (pairs_without_zeros m) -> format_word (fields (p (snd kv))) (highest_format (map p vs))).
  { intros p P1 P2 U kv H. rewrite (highest_uniform (map p vs) (p (snd kv))).
    - now apply fields_word, P1.
    - intros w Hw. apply in_map_iff in Hw as (x & <- & Hx). apply in_map_iff in Hx as (kv' & <- & Hk). now apply P1.
    - intros w Hw. apply in_map_iff in Hw as (x & <- & Hx). apply in_map_iff in Hx as (kv' & <- & Hk).
      unfold pairs_without_zeros in H, Hk. apply in_map_iff in H as ([k [a b]] & <- & H), Hk as ([k' [a' b']] & <- & H'). cbn [fst snd]. rewrite !P2. apply U; [exact (in_map (fun kv => p (snd kv)) _ _ H')|exact (in_map (fun kv => p (snd kv)) _ _ H)].
    - apply in_map. unfold vs. now apply in_map. }
  assert (W1: forall kv, In kv (pairs_without_zeros m) -> format_word (fields (fst (snd kv))) (highest_format (map fst vs))).
  { apply (W fst); auto. intros kv H. now apply B. }
  assert (W2: forall kv, In kv (pairs_without_zeros m) -> format_word (fields (snd (snd kv))) (highest_format (map snd vs))).
  { apply (W snd); auto. intros kv H. now apply B. }
  assert (Gk: Forall is_glyph (map fst sp)).
  { apply Forall_forall. intros g Hg. apply in_map_iff in Hg as ([g' s] & E & Hg). cbn in E. subst g'. rewrite Forall_forall in Lf. destruct (Lf _ Hg) as [Ne _]. cbn in Ne.
    destruct s as [|[r v] s]; [congruence|]. apply (B ((g, r), v)). rewrite <- F. apply flat_In. eexists. split; [exact Hg|now left]. }
  assert (Sk: Forall (pair_set_ok (highest_format (map fst vs)) (highest_format (map snd vs))) (map snd sp)).
  { apply Forall_map. apply Forall_forall. intros [g s] Hg. rewrite Forall_forall in Lf. destruct (Lf _ Hg) as [_ Hi]. cbn [fst snd] in *.
    assert (X: forall p, In p s -> In ((g, fst p), snd p) (pairs_without_zeros m)) by (intros [r v] Hp; rewrite <- F; apply flat_In; eauto).
    split; [|split; [exact Hi|]].
    - assert (Y: countable (map fst s)); [|unfold countable in *; now rewrite map_length in Y]. apply (glyphs_count (map fst s) Hi). apply Forall_map, Forall_forall. intros p Hp. exact (proj1 (proj2 (B _ (X p Hp)))).
    - apply Forall_forall. intros p Hp. specialize (X p Hp). destruct (B _ X) as (B1 & B2 & B3 & B4 & B5 & B6 & B7 & B8). cbn [fst snd] in *.
      split; [unfold is_glyph, is_u16 in *; lia|]. split; (split; [first [exact (W1 _ X)|exact (W2 _ X)]|]; split; [assumption|now apply vrec_ok_numbers]). }
  destruct (cov_link (map fst sp) Li Gk) as (c & Ec & C). cbn [gpos_enc]. rewrite Ec. cbn [rbind].
  assert (Cs: countable (map snd sp)) by (pose proof (glyphs_count _ Li Gk) as X; unfold countable in *; rewrite !map_length in *; exact X).
  destruct (vec_enc_ok pair_set_enc (fun s o => o = pair_set_obj s) (map snd sp) Cs) as (os & Eo & Fo).
  { eapply Forall_impl; [|exact Sk]. intros s (Cn & _ & Fs). exists (pair_set_obj s). split; [|reflexivity]. unfold pair_set_enc.
    rewrite (rmapM_Ok _ (fun p => word (fst p) ++ tableless_bytes (fst (snd p)) ++ tableless_bytes (snd (snd p)))).
    - cbn [rbind]. rewrite len_word by exact Cn. reflexivity.
    - intros p Hp. rewrite Forall_forall in Fs. destruct (Fs p Hp) as (_ & (_ & T1 & _) & (_ & T2 & _)). unfold pair_plain. rewrite (vr_plain_ok _ T1), (vr_plain_ok _ T2). cbn [rbind]. now rewrite word_u16. }
  rewrite Eo. cbn [rbind]. eexists. split; [reflexivity|]. assert (Eos: os = map pair_set_obj (map snd sp)) by (revert Fo; clear; generalize (map snd sp); intros l Fo; induction Fo; cbn [map]; [reflexivity|subst; f_equal; assumption]).
  rewrite Eos, <- !word_u16. rewrite <- F at 1. rewrite <- pairs_of_flat. apply ppos1; auto; try apply highest_u16. now rewrite !map_length.
Qed.

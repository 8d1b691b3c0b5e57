(** Class definitions. *)
From Coq Require Import Sorted.
From Verif.Model Require Import MBase MMap MLayout.
From Verif.Spec Require Import SBase SGlyph SLayout.
From Verif.Proofs Require Import PBase PCodec PMap PTables PGlyphFmt PPoints PCover.

Definition pair_ok (kv : Z * Z) : Prop := is_u16 (fst kv) /\ is_u16 (snd kv).
Definition cmap_ok (m : classdef) : Prop := sorted_map Z.ltb m /\ Forall pair_ok m.
Lemma increasing_sorted l : increasing l <-> sorted_keys Z.ltb l.
Proof.
  unfold sorted_keys. induction l as [|a [|b l] IH]; [split; constructor|split; [repeat constructor|constructor]|]. cbn [increasing]. rewrite IH. split.
  - intros [H1 H2]. constructor; [exact H2|]. inversion H2 as [|? ? H3 H4]; subst. constructor; [lia|]. eapply Forall_impl; [|exact H4]. cbv beta. intros; lia.
  - intros H. inversion H as [|? ? H3 H4]; subst. inversion H4; subst. split; [lia|exact H3].
Qed.
Lemma class_map_ok m : class_map m <-> cmap_ok m.
Proof. unfold class_map, cmap_ok, sorted_map. now rewrite increasing_sorted. Qed.

Lemma class_get m g : class_in m g = match cd_get g m with Some c => c | None => 0 end.
Proof.
  unfold class_in, cd_get. induction m as [|[k c] m IH]; [reflexivity|]. cbn [find bm_get fst].
  destruct (Z.eqb_spec k g).
  - subst. replace (g <? g) with false by lia. reflexivity.
  - replace ((g <? k) || (k <? g)) with true by lia. exact IH.
Qed.
Lemma class_In m g c : sorted_map Z.ltb m -> In (g, c) m -> class_in m g = c.
Proof. intros Hs Hi. rewrite class_get. unfold cd_get. now rewrite (In_get _ Z_strict g c m Hs Hi). Qed.
Lemma class_notin m g : ~ In g (map fst m) -> class_in m g = 0.
Proof.
  intros H. rewrite class_get. unfold cd_get. rewrite (get_not_in _ Z_strict); [reflexivity|]. intros v Hv. apply H. now apply (in_map fst _ (g, v)).
Qed.

(** ** Slices of a class map *)
Definition cd_nextb (a b : Z * Z) : bool := (fst a + 1 =? fst b) && (snd a =? snd b).
Lemma cd_next_b a b c : cd_next a b = Ok c -> c = cd_nextb a b.
Proof.
  unfold cd_next. destruct (chk_u 16 (fst a + 1)) eqn:E; cbn [rbind]; try discriminate. apply chk16_inv in E as [-> _]. now intros [= <-].
Qed.
Definition range_pairs (r : Z * Z * Z) : classdef := map (fun g => (g, snd r)) (range_glyphs r).
Definition slice_class (s : list (Z * Z)) : Z * Z * Z := (fst (hd (0, 0) s), fst (last s (0, 0)), snd (hd (0, 0) s)).
Lemma cd_linked s : s <> [] -> linked cd_nextb s -> exists a e c, a <= e /\ s = map (fun g => (g, c)) (interval a e).
Proof.
  induction s as [|[x c] s IH]; intros H L; [now elim H|]. destruct s as [|[y d] s].
  - exists x, x, c. split; [lia|]. rewrite interval_cons, interval_nil by lia. reflexivity.
  - cbn [linked] in L. destruct L as [L1 L2]. destruct IH as (a & e & c' & Hae & E); [discriminate|exact L2|].
    rewrite interval_cons in E by exact Hae. cbn [map] in E. injection E as -> -> E. unfold cd_nextb in L1. cbn [fst snd] in L1. exists x, e, c. split; [lia|].
    rewrite (interval_cons x) by lia. cbn [map]. f_equal. replace (x + 1) with a by lia. rewrite interval_cons by exact Hae. cbn [map]. rewrite E. replace c' with c by lia. reflexivity.
Qed.
Lemma map_last {A B} (f : A -> B) l d d' : l <> [] -> last (map f l) d' = f (last l d).
Proof. induction l as [|a [|b l] IH]; intros H; [now elim H|reflexivity|]. apply IH. discriminate. Qed.
Lemma slice_class_spec a e c : a <= e -> slice_class (map (fun g => (g, c)) (interval a e)) = (a, e, c).
Proof.
  intros H. unfold slice_class. rewrite (map_last _ _ 0) by (rewrite interval_cons by lia; discriminate). rewrite interval_last by exact H.
  rewrite interval_cons by exact H. reflexivity.
Qed.
Lemma cd_slices_facts m sl : cd_slices m = Ok sl -> Forall pair_ok m ->
  cd_records sl = Ok (concat (map range_words (map slice_class sl))) /\ Forall range_ok (map slice_class sl) /\
  concat (map range_pairs (map slice_class sl)) = m.
Proof.
  intros H Hm. destruct (slices_spec cd_next cd_nextb cd_next_b m sl H) as [Hc Hf]. clear H. revert m Hm Hc.
  induction Hf as [|s sl [Hs Hl] Hf IH]; intros m Hm Hc; [subst; repeat split; constructor|]. cbn [concat] in Hc. subst m. apply Forall_app in Hm as [Hm1 Hm2].
  destruct (IH _ Hm2 eq_refl) as (I1 & I2 & I3). destruct (cd_linked s Hs Hl) as (a & e & c & Hae & ->).
  cbn [map concat]. rewrite (slice_class_spec a e c Hae).
  assert (Ha: is_u16 a /\ is_u16 e /\ is_u16 c).
  { rewrite Forall_forall in Hm1. assert (Pa: pair_ok (a, c)) by (apply Hm1, (in_map (fun g => (g, c))), interval_In; lia).
    assert (Pe: pair_ok (e, c)) by (apply Hm1, (in_map (fun g => (g, c))), interval_In; lia). split; [apply Pa|]. split; [apply Pe|apply Pa]. }
  destruct Ha as (Ha & He & Hcc). repeat match goal with |- _ /\ _ => split end.
  - cbn [cd_records]. pose proof (slice_class_spec a e c Hae) as Hsc. unfold slice_class in Hsc.
    destruct (map (fun g => (g, c)) (interval a e)) as [|x s] eqn:E; [now elim Hs|]. rewrite I1. cbn [rbind]. cbn [hd] in Hsc. 
    assert (E1: fst x = a) by exact (f_equal (fun t => fst (fst t)) Hsc). assert (E3: snd x = c) by exact (f_equal snd Hsc).
    assert (E2: fst (last (x :: s) (0, 0)) = e) by exact (f_equal (fun t => snd (fst t)) Hsc).
    rewrite E1, E3, E2. unfold range_words at 2. cbn [fst snd]. rewrite !word_u16, <- !app_assoc. reflexivity.
  - constructor; [|exact I2]. unfold range_ok. cbn [fst snd]. auto.
  - rewrite I3. reflexivity.
Qed.
Lemma cd_runs l : forall sl, cd_slices l = Ok sl -> length sl = class_runs l.
Proof.
  unfold cd_slices. induction l as [|x l IH]; intros sl H; [injection H as <-; reflexivity|].
  cbn [slices class_runs] in *. destruct l as [|y l]; [injection H as <-; reflexivity|].
  destruct (cd_next x y) as [b| |] eqn:En; cbn [rbind] in H; try discriminate.
  destruct (slices cd_next (y :: l)) as [r| |] eqn:Es; cbn [rbind] in H; try discriminate. injection H as <-.
  specialize (IH r eq_refl). apply cd_next_b in En. subst b. unfold cd_nextb.
  destruct (Z.eqb_spec (fst x + 1) (fst y)), (Z.eqb_spec (snd x) (snd y)); cbn [andb];
    destruct (Z.eq_dec (fst y) (fst x + 1)); try lia; destruct (Z.eq_dec (snd x) (snd y)); try lia; cbn [length]; try (now rewrite IH).
  destruct (slices_length_pos _ _ _ Es) as (h & t & -> & _); [discriminate|]. exact IH.
Qed.
Lemma class_runs_le m : (class_runs m <= length m)%nat.
Proof.
  induction m as [|x [|y m] IH]; cbn [class_runs length] in *; [lia|lia|].
  destruct (Z.eq_dec (fst y) (fst x + 1)); [destruct (Z.eq_dec (snd x) (snd y))|]; lia.
Qed.

(** ** Sorted keys *)
Lemma sorted_first_last m k c : sorted_map Z.ltb ((k, c) :: m) ->
  Forall (fun g => k <= g <= fst (last ((k, c) :: m) (0, 0))) (map fst ((k, c) :: m)) /\
  Z.of_nat (length ((k, c) :: m)) <= fst (last ((k, c) :: m) (0, 0)) - k + 1.
Proof.
  revert k c. induction m as [|[k2 c2] m IH]; intros k c Hs.
  - cbn. split; [repeat constructor; lia|lia].
  - unfold sorted_map, sorted_keys in Hs. cbn [map fst] in Hs. inversion Hs as [|? ? Hs' Hf]; subst. inversion Hf as [|? ? Hk _]; subst.
    destruct (IH k2 c2 Hs') as [I1 I2]. change (last ((k, c) :: (k2, c2) :: m) (0, 0)) with (last ((k2, c2) :: m) (0, 0)). split.
    + cbn [map fst] in I1 |- *. inversion I1 as [|? ? J _]; subst. constructor; [lia|]. eapply Forall_impl; [|exact I1]. cbv beta. intros; lia.
    + cbn [length] in *. lia.
Qed.
Lemma sorted_interval s e (f : Z -> Z) : sorted_map Z.ltb (map (fun g => (g, f g)) (interval s e)).
Proof.
  unfold sorted_map, sorted_keys. rewrite map_map. cbn [fst]. rewrite map_id.
  remember (Z.to_nat (e - s + 1)) as n eqn:E. revert s E. induction n as [|n IH]; intros s E.
  - rewrite interval_nil by lia. constructor.
  - rewrite interval_cons by lia. constructor; [apply IH; lia|]. apply Forall_forall. intros x Hx. apply interval_In in Hx. lia.
Qed.
Lemma removelast_last_sorted m k c kv : sorted_map Z.ltb ((k, c) :: m) -> In kv (removelast ((k, c) :: m)) -> fst kv < fst (last ((k, c) :: m) (0, 0)).
Proof.
  revert k c. induction m as [|[k2 c2] m IH]; intros k c Hs H; [elim H|].
  assert (Hs2 := Hs). unfold sorted_map, sorted_keys in Hs2. cbn [map fst] in Hs2. inversion Hs2 as [|? ? Hs' Hf]; subst.
  change (removelast ((k, c) :: (k2, c2) :: m)) with ((k, c) :: removelast ((k2, c2) :: m)) in H.
  change (last ((k, c) :: (k2, c2) :: m) (0, 0)) with (last ((k2, c2) :: m) (0, 0)). destruct H as [<-|H].
  - destruct (sorted_first_last m k2 c2 Hs') as [I1 _]. cbn [map fst] in I1 |- *. inversion I1 as [|? ? J _]; subst. inversion Hf as [|? ? J2 _]; subst. cbv beta in J2. lia.
  - now apply IH.
Qed.

(** ** Writing *)
Definition cd_compact (m : classdef) : Prop := 3 * Z.of_nat (class_runs m) <= 2 + last_key m - first_key m.

Lemma cd_slices_ok m : cmap_ok m -> exists sl, cd_slices m = Ok sl.
Proof.
  intros [Hs Hm]. apply slices_ok. intros a b Ha. unfold cd_next. destruct m as [|[k c] m]; [elim Ha|].
  pose proof (removelast_last_sorted _ _ _ _ Hs Ha) as L.
  assert (Hl: pair_ok (last ((k, c) :: m) (0, 0))).
  { rewrite Forall_forall in Hm. apply Hm. clear. revert k c. induction m as [|[k2 c2] m IH]; intros k c; [now left|]. right. apply IH. }
  destruct (sorted_first_last m k c Hs) as [I1 _].
  assert (Ha': In (fst a) (map fst ((k, c) :: m))).
  { apply in_map. clear -Ha. revert k c Ha. induction m as [|[k2 c2] m IH]; intros k c Ha; [elim Ha|]. destruct Ha as [->|Ha]; [now left|]. right. now apply IH. }
  rewrite Forall_forall in I1. specialize (I1 _ Ha'). rewrite Forall_forall in Hm. pose proof (Hm (k, c) (or_introl eq_refl)) as [Hk _]. destruct Hl as [Hl _]. unfold is_u16 in *. cbn [fst] in *.
  rewrite chk16 by lia. eexists; reflexivity.
Qed.
Lemma cd_ser_cases m : cmap_ok m ->
  (m = [] /\ cd_ser m = Ok (word 2 ++ word 0)) \/
  (m <> [] /\ (last_key m <= 65533 /\ (class_runs m <= Z.to_nat 21845)%nat) /\
    ((~ cd_compact m /\ cd_ser m = Ok (word 1 ++ word (first_key m) ++ word (last_key m - first_key m + 1) ++
        words (map (class_in m) (interval (first_key m) (last_key m))))) \/
     (cd_compact m /\ exists rs, cd_ser m = Ok (word 2 ++ word (Z.of_nat (length rs)) ++ concat (map range_words rs)) /\
        Forall range_ok rs /\ length rs = class_runs m /\ concat (map range_pairs rs) = m))) \/
  (m <> [] /\ ~ (last_key m <= 65533 /\ (class_runs m <= Z.to_nat 21845)%nat) /\ cd_ser m = Panic).
Proof.
  intros Hm. destruct (cd_slices_ok m Hm) as [sl Es]. destruct Hm as [Hs Hp]. unfold cd_ser. rewrite Es. cbn [rbind].
  destruct m as [|[k c] m]; [left; split; [reflexivity|]; now rewrite !word_u16|]. right.
  pose proof (cd_runs _ _ Es) as Hr. destruct (cd_slices_facts _ _ Es Hp) as (F1 & F2 & F3). pose proof (class_runs_le ((k, c) :: m)) as Hle.
  destruct (sorted_first_last m k c Hs) as [I1 I2]. assert (Hk: is_u16 k) by (inversion Hp as [|? ? [Hk _] _]; exact Hk).
  fold (last_key ((k, c) :: m)) in *. change (first_key ((k, c) :: m)) with k. set (lk := last_key ((k, c) :: m)) in *.
  assert (Hkl: k <= lk) by (cbn [map fst] in I1; inversion I1 as [|? ? J _]; subst; lia).
  assert (Hlk: is_u16 lk). { assert (X: In (last ((k, c) :: m) (0, 0)) ((k, c) :: m)) by (clear; revert k c; induction m as [|[k2 c2] m IH]; intros k c; [now left|]; right; apply IH).
    rewrite Forall_forall in Hp. apply Hp in X. exact (proj1 X). }
  unfold is_u16 in Hk, Hlk. rewrite Hr. unfold cd_compact. fold lk. change (first_key ((k, c) :: m)) with k. set (n := class_runs ((k, c) :: m)) in *.
  destruct (Z_le_gt_dec lk 65533) as [Hl|Hl].
  - assert (Hn: Z.of_nat n <= 65534) by lia. rewrite u16_id by lia. destruct (le_gt_dec n (Z.to_nat 21845)) as [Hn2|Hn2].
    + left. split; [discriminate|]. split; [split; assumption|]. rewrite chk16 by lia. cbn [rbind]. rewrite (chk16 (2 + lk)) by lia. cbn [rbind]. rewrite (chk16 (2 + lk - k)) by lia. cbn [rbind].
      destruct (Z.ltb_spec (2 + lk - k) (Z.of_nat n * 3)) as [L|L].
      * left. split; [lia|]. rewrite chk16 by lia. cbn [rbind]. rewrite zrange_interval. unfold ser_counted.
        rewrite (rmapM_Ok _ (fun g => ser_u16 (class_in ((k, c) :: m) g))) by (intros a _; now rewrite class_get). cbn [rbind].
        rewrite interval_length. rewrite Z2Nat.id by lia. rewrite u16_id by lia. unfold words. rewrite map_map. rewrite !word_u16.
        rewrite (map_ext (fun x => word (class_in ((k, c) :: m) x)) (fun x => ser_u16 (class_in ((k, c) :: m) x))) by (intros; apply word_u16). reflexivity.
      * right. split; [lia|]. rewrite F1. cbn [rbind]. exists (map slice_class sl). rewrite map_length, Hr. rewrite !word_u16. auto.
    + right. split; [discriminate|]. split; [lia|]. now rewrite chk16_panic by lia.
  - right. split; [discriminate|]. split; [lia|]. destruct (chk_u 16 (u16 (Z.of_nat n) * 3)) eqn:E; cbn [rbind]; [|unfold chk_u in E; destruct (_ && _) in E; discriminate|reflexivity].
    now rewrite (chk16_panic (2 + lk)) by lia.
Qed.

(** ** Reading *)
Lemma cd_read1_eq start cs : 0 <= start -> start + Z.of_nat (length cs) <= 65536 -> forall ix m, 0 <= ix ->
  forall full, ix + Z.of_nat (length cs) = full -> start + full <= 65536 -> full <= 65535 ->
  cd_read1 start ix cs m = Ok (fold_left (fun m kv => bm_insert Z.ltb (fst kv) (snd kv) m) (combine (interval (start + ix) (start + full - 1)) cs) m).
Proof.
  intros H0 _. induction cs as [|c cs IH]; intros ix m Hi full Hf H1 H2.
  - cbn [cd_read1]. now rewrite combine_nil.
  - cbn [length] in Hf. cbn [cd_read1]. rewrite u16_id by lia. rewrite chk16 by lia. cbn [rbind].
    rewrite (interval_cons (start + ix)) by lia. cbn [combine fold_left fst snd]. rewrite (IH (ix + 1) _ ltac:(lia) full ltac:(lia) H1 H2).
    now rewrite Z.add_assoc.
Qed.
Definition all_pairs (rs : list (Z * Z * Z)) : classdef := concat (map range_pairs rs).
Lemma fold_map_insert (c : Z) gs : forall m : classdef, fold_left (fun m g => bm_insert Z.ltb g c m) gs m =
  fold_left (fun m (kv : Z * Z) => bm_insert Z.ltb (fst kv) (snd kv) m) (map (fun g => (g, c)) gs) m.
Proof. induction gs as [|g gs IH]; intros m; [reflexivity|]. cbn [map fold_left fst snd]. apply IH. Qed.
Lemma cd_read2_eq rs : Forall range_ok rs -> Forall (fun r => snd (fst r) <> 65535) rs -> forall m,
  cd_read2 rs m = Ok (fold_left (fun m kv => bm_insert Z.ltb (fst kv) (snd kv) m) (all_pairs rs) m).
Proof.
  induction 1 as [|[[s e] c] rs (H1 & H2 & H3 & H4) Hrs IH]; intros Hn m; [reflexivity|]. inversion Hn as [|? ? Hne Hn']; subst. cbn [cd_read2 fst snd] in *. unfold is_u16 in *.
  rewrite chk16 by lia. cbn [rbind]. rewrite (IH Hn'). rewrite zrange_interval, fold_map_insert.
  change (all_pairs ((s, e, c) :: rs)) with (range_pairs (s, e, c) ++ all_pairs rs). now rewrite fold_left_app.
Qed.
Lemma class_fold l g : class_in (bm_of_list Z.ltb l) g = match find (fun kv => negb ((g <? fst kv) || (fst kv <? g))) (rev l) with Some kv => snd kv | None => 0 end.
Proof. rewrite class_get. unfold cd_get, bm_of_list. rewrite (get_fold_insert _ Z_strict). destruct (find _ _); reflexivity. Qed.
Lemma nth_combine_interval cs : forall s e g, s <= g <= e -> Z.of_nat (length cs) = e - s + 1 ->
  In (g, nth (Z.to_nat (g - s)) cs 0) (combine (interval s e) cs).
Proof.
  induction cs as [|c cs IH]; intros s e g H Hl; cbn [length] in Hl; [lia|]. rewrite interval_cons by lia. cbn [combine].
  destruct (Z.eq_dec g s) as [->|]; [rewrite Z.sub_diag; now left|]. right.
  replace (Z.to_nat (g - s)) with (S (Z.to_nat (g - (s + 1)))) by lia. cbn [nth]. apply IH; lia.
Qed.
Lemma combine_sorted (cs : list Z) : forall s e, sorted_map Z.ltb (combine (interval s e) cs).
Proof.
  induction cs as [|c cs IH]; intros s e; [rewrite combine_nil; constructor|].
  destruct (Z_le_gt_dec s e) as [H|H]; [|rewrite interval_nil by lia; constructor]. rewrite interval_cons by lia. cbn [combine].
  unfold sorted_map, sorted_keys in *. cbn [map fst]. constructor; [apply IH|]. apply Forall_forall. intros x Hx. apply in_map_iff in Hx as ([a b] & <- & Hx).
  apply in_combine_l in Hx. apply interval_In in Hx. cbn. lia.
Qed.
Lemma reads_cd1 start cs : is_u16 start -> start + Z.of_nat (length cs) <= 65536 -> Forall is_u16 cs -> Z.of_nat (length cs) <= 65535 ->
  reads cd_de (word 1 ++ word start ++ word (Z.of_nat (length cs)) ++ words cs) (combine (interval start (start + Z.of_nat (length cs) - 1)) cs).
Proof.
  unfold is_u16. intros H0 H1 Hc Hl. unfold cd_de. eapply reads_bind; [rewrite word_u16; apply reads_u16; lia|]. change (1 =? 1) with true. cbn iota.
  eapply reads_bind; [rewrite word_u16; apply reads_u16; lia|]. eapply reads_bind'; [symmetry; apply app_nil_r|now apply reads_words|].
  apply reads_plift. rewrite (cd_read1_eq start cs ltac:(lia) H1 0 [] ltac:(lia) _ eq_refl); [|lia|lia]. rewrite Z.add_0_r, Z.add_0_l. f_equal.
  apply (fold_insert_sorted _ Z_strict _ []). apply combine_sorted.
Qed.
Lemma reads_cd2 rs : Forall range_ok rs -> Z.of_nat (length rs) <= 65535 -> Forall (fun r => snd (fst r) <> 65535) rs ->
  reads cd_de (word 2 ++ word (Z.of_nat (length rs)) ++ concat (map range_words rs)) (bm_of_list Z.ltb (all_pairs rs)).
Proof.
  intros Hr Hl Hn. unfold cd_de. eapply reads_bind; [rewrite (word_u16 2); apply reads_u16; lia|]. change (2 =? 1) with false. cbn iota.
  eapply reads_bind'; [symmetry; apply app_nil_r|now apply reads_triples|]. apply reads_plift. now rewrite cd_read2_eq.
Qed.
Lemma range_ends_ok rs : Forall range_ok rs -> ~ (exists r, In r rs /\ In 65535 (range_glyphs r)) -> Forall (fun r => snd (fst r) <> 65535) rs.
Proof.
  intros H Hn. rewrite Forall_forall in *. intros r Hr E. apply Hn. exists r. split; [exact Hr|]. apply interval_In. specialize (H r Hr). destruct H as (_ & _ & _ & H). lia.
Qed.
Lemma all_pairs_in rs g c : In (g, c) (all_pairs rs) <-> exists r, In r rs /\ In g (range_glyphs r) /\ snd r = c.
Proof.
  unfold all_pairs. rewrite in_concat. split.
  - intros (l & Hl & Hg). apply in_map_iff in Hl as (r & <- & Hr). apply in_map_iff in Hg as (g' & [= -> <-] & Hg). eauto.
  - intros (r & Hr & Hg & <-). exists (range_pairs r). split; [now apply in_map|]. unfold range_pairs. now apply (in_map (fun g => (g, snd r))).
Qed.
Lemma cd_every_read bs f : cd_bytes bs f -> avoids_top bs ->
  exists m, reads cd_de bs m /\ sorted_map Z.ltb m /\ forall g, class_in m g = f g.
Proof.
  intros H Ht. destruct H as [start cs f H0 H1 H2 Hc Hl Hf|rs f Hr Hl Hf1 Hf2].
  - exists (combine (interval start (start + Z.of_nat (length cs) - 1)) cs). split; [apply reads_cd1; unfold is_u16; auto; lia|]. split; [apply combine_sorted|].
    intros g. rewrite Hf. destruct ((start <=? g) && (g <? start + Z.of_nat (length cs))) eqn:E.
    + apply class_In; [apply combine_sorted|]. apply nth_combine_interval; lia.
    + apply class_notin. intros Hin. apply in_map_iff in Hin as ([a b] & <- & Hin). apply in_combine_l in Hin. apply interval_In in Hin. cbn [fst] in E. lia.
  - assert (Ht2: Forall (fun r => snd (fst r) <> 65535) rs) by (apply range_ends_ok; [exact Hr|]; intros (r & X & Y); exact (Ht rs Hr eq_refl r X Y)). exists (bm_of_list Z.ltb (all_pairs rs)). split; [apply reads_cd2; auto|]. split; [apply (of_list_sorted _ Z_strict)|].
    intros g. rewrite class_fold. destruct (find _ (rev (all_pairs rs))) as [[g' c]|] eqn:E.
    + apply find_some in E as [E1 E2]. apply in_rev in E1. cbn [fst snd] in *. assert (g' = g) by lia. subst g'.
      apply all_pairs_in in E1 as (r & Hr1 & Hr2 & <-). symmetry. now apply Hf1.
    + symmetry. apply Hf2. intros r Hr1 Hr2. assert (X: In (g, snd r) (rev (all_pairs rs))) by (apply in_rev; rewrite rev_involutive; apply all_pairs_in; eauto).
      apply (find_none _ _ E) in X. cbn [fst] in X. lia.
Qed.
Lemma words_inj a b : length a = length b -> Forall is_u16 a -> Forall is_u16 b -> words a = words b -> a = b.
Proof.
  revert b. induction a as [|x a IH]; intros [|y b] Hl Ha Hb H; try discriminate; [reflexivity|]. inversion Ha; inversion Hb; subst.
  unfold words in H. cbn [map concat word app] in H. injection H as E1 E2 E3. unfold is_u16 in *. f_equal; [lia|]. apply IH; auto.
Qed.

(** ** Written tables *)
Lemma interval_class_1 m : m <> [] -> cmap_ok m -> forall g,
  class_in m g = if (first_key m <=? g) && (g <? first_key m + Z.of_nat (length (map (class_in m) (interval (first_key m) (last_key m)))))
     then nth (Z.to_nat (g - first_key m)) (map (class_in m) (interval (first_key m) (last_key m))) 0 else 0.
Proof.
  intros Hne [Hs Hp] g. destruct m as [|[k c] m]; [now elim Hne|]. destruct (sorted_first_last m k c Hs) as [I1 _].
  change (first_key ((k, c) :: m)) with k. fold (last_key ((k, c) :: m)) in I1. set (lk := last_key ((k, c) :: m)) in *. rewrite map_length, interval_length.
  assert (k <= lk) by (cbn [map fst] in I1; inversion I1 as [|? ? J _]; subst; lia). rewrite Z2Nat.id by lia. destruct ((k <=? g) && (g <? k + (lk - k + 1))) eqn:E.
  - assert (N: nth_error (map (class_in ((k, c) :: m)) (interval k lk)) (Z.to_nat (g - k)) = Some (class_in ((k, c) :: m) g)).
    { apply map_nth_error. unfold interval. rewrite (map_nth_error _ _ (seq 0 _) (d := Z.to_nat (g - k))); [f_equal; lia|].
      rewrite (nth_error_nth' _ 0%nat) by (rewrite seq_length; lia). f_equal. rewrite seq_nth by lia. reflexivity. }
    symmetry. now apply nth_error_nth.
  - apply class_notin. intros Hin. rewrite Forall_forall in I1. apply I1 in Hin. lia.
Qed.
Lemma class_u16 m g : Forall pair_ok m -> is_u16 (class_in m g).
Proof.
  intros H. unfold class_in. destruct (find _ m) as [kv|] eqn:E; [|unfold is_u16; lia]. apply find_some in E as [E _]. rewrite Forall_forall in H. exact (proj2 (H _ E)).
Qed.
Lemma cd_key_bounds m : m <> [] -> cmap_ok m -> is_u16 (first_key m) /\ is_u16 (last_key m) /\ first_key m <= last_key m /\
  (forall g, In g (map fst m) -> first_key m <= g <= last_key m).
Proof.
  intros Hne [Hs Hp]. destruct m as [|[k c] m]; [now elim Hne|]. destruct (sorted_first_last m k c Hs) as [I1 _].
  fold (last_key ((k, c) :: m)) in I1. change (first_key ((k, c) :: m)) with k.
  assert (X: In (last ((k, c) :: m) (0, 0)) ((k, c) :: m)) by (clear; revert k c; induction m as [|[k2 c2] m IH]; intros k c; [now left|]; right; apply IH).
  rewrite Forall_forall in Hp. split; [exact (proj1 (Hp (k, c) (or_introl eq_refl)))|]. split; [exact (proj1 (Hp _ X))|].
  rewrite Forall_forall in I1. split; [|exact I1]. assert (Y := I1 k (or_introl eq_refl)). lia.
Qed.
Lemma cd_written_format m bs : cmap_ok m -> cd_ser m = Ok bs -> cd_bytes bs (class_in m).
Proof.
  intros Hm H. destruct (cd_ser_cases m Hm) as [[-> E]|[(Hne & [Hk Hn] & [[_ E]|[_ (rs & E & R1 & R2 & R3)]])|(_ & _ & E)]]; rewrite E in H; try discriminate;
    apply Ok_inj in H; subst bs.
  - apply (cd2 []); [constructor|cbn; lia|intros r g []|reflexivity].
  - destruct (cd_key_bounds m Hne Hm) as (B1 & B2 & B3 & _). unfold is_u16 in *.
    replace (word (last_key m - first_key m + 1)) with (word (Z.of_nat (length (map (class_in m) (interval (first_key m) (last_key m))))))
      by (rewrite map_length, interval_length, Z2Nat.id by lia; reflexivity).
    apply cd1; try (rewrite map_length, interval_length, Z2Nat.id by lia; lia); try lia.
    + apply Forall_map. apply Forall_forall. intros g _. apply class_u16. exact (proj2 Hm).
    + now apply interval_class_1.
  - apply cd2; auto; [rewrite R2; lia| |].
    + intros r g Hr Hg. apply class_In; [exact (proj1 Hm)|]. rewrite <- R3. apply all_pairs_in. eauto.
    + intros g Hg. apply class_notin. intros Hin. apply in_map_iff in Hin as ([a c] & <- & Hin). rewrite <- R3 in Hin.
      apply all_pairs_in in Hin as (r & Hr & Hg' & _). exact (Hg r Hr Hg').
Qed.
Lemma cd_written_iff m : cmap_ok m -> ((exists bs, cd_ser m = Ok bs) <-> m = [] \/ (last_key m <= 65533 /\ Z.of_nat (class_runs m) <= 21845)).
Proof.
  intros Hm. destruct (cd_ser_cases m Hm) as [[-> E]|[(Hne & [Hk Hn] & [[_ E]|[_ (rs & E & _)]])|(Hne & Hn & E)]]; rewrite E.
  - split; [now left|eexists; reflexivity].
  - split; [intros _; right; split; [exact Hk|lia]|eexists; reflexivity].
  - split; [intros _; right; split; [exact Hk|lia]|eexists; reflexivity].
  - split; [intros [bs H]; discriminate|]. intros [H|H]; [contradiction|]. elim Hn. lia.
Qed.
Lemma combine_map_self {A B} (f : A -> B) l : combine l (map f l) = map (fun x => (x, f x)) l.
Proof. induction l as [|x l IH]; [reflexivity|]. cbn. now rewrite IH. Qed.
Definition filled (m : classdef) : classdef := map (fun g => (g, class_in m g)) (interval (first_key m) (last_key m)).
Lemma filled_gapless m : cmap_ok m -> m <> [] -> (filled m = m <-> gapless m).
Proof.
  intros [Hs Hp] Hne. unfold filled, gapless. split.
  - intros E. rewrite <- E at 1. rewrite map_map. cbn [fst]. apply map_id.
  - intros E. rewrite <- E. rewrite map_map. rewrite <- (map_id m) at 2. apply map_ext_in. intros [g c] Hg. cbn [fst]. f_equal. now apply class_In.
Qed.
Lemma filled_class m g : cmap_ok m -> m <> [] -> class_in (filled m) g = class_in m g.
Proof.
  intros Hm Hne. destruct (cd_key_bounds m Hne Hm) as (_ & _ & _ & B). unfold filled.
  destruct (Z_le_gt_dec (first_key m) g) as [H1|H1]; [destruct (Z_le_gt_dec g (last_key m)) as [H2|H2]|].
  - apply class_In; [apply sorted_interval|]. apply (in_map (fun g => (g, class_in m g))). apply interval_In. lia.
  - rewrite !class_notin; [reflexivity|intros X; apply B in X; lia|]. rewrite map_map. cbn [fst]. rewrite map_id. intros X. apply interval_In in X. lia.
  - rewrite !class_notin; [reflexivity|intros X; apply B in X; lia|]. rewrite map_map. cbn [fst]. rewrite map_id. intros X. apply interval_In in X. lia.
Qed.
Lemma cd_roundtrip m bs : cmap_ok m -> cd_ser m = Ok bs -> exists m', reads cd_de bs m' /\
  (forall g, class_in m' g = class_in m g) /\ (m' = m <-> firstn 2 bs = word 2 \/ gapless m).
Proof.
  intros Hm H. destruct (cd_ser_cases m Hm) as [[-> E]|[(Hne & [Hk Hn] & [[Hc E]|[Hc (rs & E & R1 & R2 & R3)]])|(_ & _ & E)]]; rewrite E in H; try discriminate;
    apply Ok_inj in H; subst bs.
  - exists []. split; [apply (reads_cd2 []); [constructor|cbn; lia|constructor]|]. split; [reflexivity|]. split; [now left|reflexivity].
  - destruct (cd_key_bounds m Hne Hm) as (B1 & B2 & B3 & B4). exists (filled m). split; [|split].
    + pose proof (reads_cd1 (first_key m) (map (class_in m) (interval (first_key m) (last_key m)))) as R. unfold is_u16 in *.
      rewrite map_length, interval_length, Z2Nat.id in R by lia.
      replace (first_key m + (last_key m - first_key m + 1) - 1) with (last_key m) in R by lia. rewrite combine_map_self in R.
      apply R; try lia. apply Forall_map. apply Forall_forall. intros g _. apply class_u16. exact (proj2 Hm).
    + intros g. now apply filled_class.
    + rewrite filled_gapless by assumption. split; [now right|]. intros [X|X]; [discriminate|exact X].
  - exists m. split; [|split; [reflexivity|split; [now left|reflexivity]]].
    replace m with (bm_of_list Z.ltb (all_pairs rs)) at 1 by (unfold all_pairs; rewrite R3; apply (of_list_id _ Z_strict); exact (proj1 Hm)).
    apply reads_cd2; auto; [rewrite R2; lia|]. apply range_ends_ok; [exact R1|]. intros (r & Hr & Hg).
    assert (X: In (65535, snd r) m) by (rewrite <- R3; apply all_pairs_in; eauto). destruct (cd_key_bounds m Hne Hm) as (_ & _ & _ & B4).
    apply (in_map fst) in X. apply B4 in X. cbn in X. lia.
Qed.
Lemma cd_shortest m bs : cmap_ok m -> m <> [] -> cd_ser m = Ok bs ->
  length bs = Nat.min (6 + 2 * Z.to_nat (last_key m - first_key m + 1)) (4 + 6 * class_runs m).
Proof.
  intros Hm Hne H. destruct (cd_key_bounds m Hne Hm) as (B1 & B2 & B3 & B4).
  destruct (cd_ser_cases m Hm) as [[-> E]|[(_ & [Hk Hn] & [[Hc E]|[Hc (rs & E & R1 & R2 & R3)]])|(_ & _ & E)]]; rewrite E in H; try discriminate; [now elim Hne| |];
    apply Ok_inj in H; subst bs; unfold cd_compact in Hc.
  - rewrite !app_length, words_length, map_length, interval_length. cbn [length word]. lia.
  - rewrite !app_length, range_words_length, R2. cbn [length word]. lia.
Qed.

(** ** get_glyphs *)
Lemma get_glyphs_in m c mx g : cmap_ok m -> c <> 0 -> (In g (cd_get_glyphs m c mx) <-> class_in m g = c).
Proof.
  intros [Hs Hp] Hc. unfold cd_get_glyphs. replace (c =? 0) with false by lia. rewrite bs_of_list_In, in_map_iff. split.
  - intros ([k v] & <- & H). apply filter_In in H as [H1 H2]. cbn [fst snd] in *. rewrite (class_In m k v Hs H1). lia.
  - intros H. rewrite class_get in H. destruct (cd_get g m) as [v|] eqn:E; [|lia]. exists (g, v). split; [reflexivity|]. apply filter_In.
    split; [now apply (get_In _ Z_strict)|cbn; lia].
Qed.
Lemma get_glyphs_zero m mx g : is_u16 mx -> (In g (cd_get_glyphs m 0 mx) <-> 0 <= g <= mx /\ ~ In g (map fst m)).
Proof.
  intros Hx. unfold cd_get_glyphs. change (0 =? 0) with true. cbn iota. rewrite filter_In, zrange_interval, interval_In.
  split; intros [H1 H2]; (split; [exact H1|]).
  - intros Hin. apply in_map_iff in Hin as ([k v] & <- & Hin). cbn [fst] in *. destruct (cd_get k m) eqn:E; [discriminate|].
    unfold cd_get in E. clear -Hin E. induction m as [|[k2 v2] m IH]; [elim Hin|]. cbn [bm_get] in E. destruct Hin as [[= -> ->]|Hin].
    + replace (k <? k) with false in E by lia. discriminate.
    + destruct ((k <? k2) || (k2 <? k)); [now apply IH|discriminate].
  - unfold cd_get. rewrite (get_not_in _ Z_strict); [reflexivity|]. intros v Hv. apply H2. now apply (in_map fst _ (g, v)).
Qed.

Lemma cd_read2_panic rs : Forall range_ok rs -> Exists (fun r => snd (fst r) = 65535) rs -> forall m, cd_read2 rs m = Panic.
Proof.
  induction 1 as [|[[s e] c] rs (H1 & H2 & H3 & H4) Hrs IH]; intros Hn m; [inversion Hn|]. cbn [cd_read2 fst snd] in *. unfold is_u16 in *.
  destruct (Z.eq_dec e 65535) as [->|He]; [reflexivity|]. rewrite chk16 by lia. cbn [rbind]. apply IH. inversion Hn; subst; [contradiction|assumption].
Qed.
Lemma cd_unreadable rs post : Forall range_ok rs -> Z.of_nat (length rs) <= 65535 -> (exists r, In r rs /\ In 65535 (range_glyphs r)) ->
  from_bytes cd_de ((word 2 ++ word (Z.of_nat (length rs)) ++ concat (map range_words rs)) ++ post) = Panic.
Proof.
  intros Hr Hl (r & Hin & Hg). unfold from_bytes, cd_de. rewrite <- app_assoc.
  rewrite (reads_step de_u16 _ (word 2) 2 _ ((word (Z.of_nat (length rs)) ++ concat (map range_words rs)) ++ post));
    [|rewrite (word_u16 2); apply reads_u16; lia|reflexivity].
  change (2 =? 1) with false. cbn iota.
  rewrite (reads_step (de_counted16 de_triple) _ (word (Z.of_nat (length rs)) ++ concat (map range_words rs)) rs _ post);
    [|now apply reads_triples|rewrite rest_adv; apply skipn_app_exact].
  unfold plift. rewrite cd_read2_panic; [reflexivity|exact Hr|]. apply Exists_exists. exists r. split; [exact Hin|]. apply interval_In in Hg.
  rewrite Forall_forall in Hr. specialize (Hr r Hin). destruct Hr as (_ & Hr & _). unfold is_u16 in Hr. lia.
Qed.
Lemma get_glyphs_sorted m c mx : c <> 0 -> Sorted.StronglySorted Z.lt (cd_get_glyphs m c mx).
Proof. intros H. unfold cd_get_glyphs. replace (c =? 0) with false by lia. apply bs_of_list_sorted. Qed.
Lemma get_glyphs_same m m' c mx : cmap_ok m -> cmap_ok m' -> c <> 0 -> (forall g, class_in m' g = class_in m g) ->
  cd_get_glyphs m' c mx = cd_get_glyphs m c mx.
Proof.
  intros Hm Hm' Hc H. apply sorted_set_ext; try now apply get_glyphs_sorted. intros g. rewrite !get_glyphs_in by assumption. now rewrite H.
Qed.
Lemma filled_ok m : cmap_ok m -> m <> [] -> cmap_ok (filled m).
Proof.
  intros Hm Hne. destruct (cd_key_bounds m Hne Hm) as (B1 & B2 & _). split; [apply sorted_interval|]. unfold filled. apply Forall_map. apply Forall_forall.
  intros g Hg. apply interval_In in Hg. unfold pair_ok, is_u16 in *. cbn [fst snd]. split; [lia|]. apply class_u16. exact (proj2 Hm).
Qed.
Lemma cd_roundtrip_full m bs : class_map m -> cd_ser m = Ok bs -> exists m', reads_back cd_de bs m' /\ class_map m' /\
  (forall g, class_in m' g = class_in m g) /\ (forall c mx, c <> 0 -> cd_get_glyphs m' c mx = cd_get_glyphs m c mx) /\
  (m' = m <-> firstn 2 bs = word 2 \/ gapless m).
Proof.
  rewrite class_map_ok. intros Hm H. assert (X: exists m', reads cd_de bs m' /\ cmap_ok m' /\ (forall g, class_in m' g = class_in m g) /\ (m' = m <-> firstn 2 bs = word 2 \/ gapless m)).
  { destruct (cd_ser_cases m Hm) as [[E0 E]|[(Hne & _ & [[Hc E]|[Hc (rs & E & _)]])|(_ & _ & E)]]; rewrite E in H; try discriminate.
    - destruct (cd_roundtrip m bs Hm) as (m' & R & C & I); [now rewrite E|]. assert (m' = m) by (apply I; left; apply Ok_inj in H; subst bs; reflexivity). subst m'. eauto.
    - destruct (cd_roundtrip m bs Hm) as (m' & R & C & I); [now rewrite E|]. exists m'. split; [exact R|]. split; [|auto].
      destruct (cd_key_bounds m Hne Hm) as (B1 & B2 & B3 & B4).
      assert (Rf: reads cd_de bs (filled m)).
      { apply Ok_inj in H. subst bs. pose proof (reads_cd1 (first_key m) (map (class_in m) (interval (first_key m) (last_key m)))) as R1. unfold is_u16 in *.
        rewrite map_length, interval_length, Z2Nat.id in R1 by lia.
        replace (first_key m + (last_key m - first_key m + 1) - 1) with (last_key m) in R1 by lia. rewrite combine_map_self in R1.
        apply R1; try lia. apply Forall_map. apply Forall_forall. intros g _. apply class_u16. exact (proj2 Hm).
        destruct (cd_written_iff m Hm) as [W _]. destruct W as [W|[W _]]; [eexists; exact E|now elim Hne|lia]. }
      specialize (R (rd_new bs) []). specialize (Rf (rd_new bs) []). rewrite app_nil_r in R, Rf. rewrite R in Rf by reflexivity.
      specialize (Rf eq_refl). apply Ok_inj in Rf. apply (f_equal fst) in Rf. cbn [fst] in Rf. subst m'. now apply filled_ok.
    - destruct (cd_roundtrip m bs Hm) as (m' & R & C & I); [now rewrite E|]. assert (m' = m) by (apply I; left; apply Ok_inj in H; subst bs; reflexivity). subst m'. eauto. }
  destruct X as (m' & R & O & C & I). exists m'. split; [now apply reads_reads_back|]. rewrite class_map_ok. split; [exact O|]. split; [exact C|]. split; [|exact I].
  intros c mx Hc. now apply get_glyphs_same.
Qed.

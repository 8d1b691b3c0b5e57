(** Designspace documents. *)
From Coq Require Import List ZArith QArith Bool Lia Sorted.
Import ListNotations.
From Verif.Model Require Import MBase MTag MMap MFixed MFloat MFloat32 MTables MName MVarModel MAvar MDesign MDoc.
From Verif.Spec Require Import SBase SFloat SDesign SInst SDoc.
From Verif.Proofs Require Import PBase PTag PMap PFont PDesign PGlyf PGpos PInst.
Open Scope Z_scope.

Lemma position_none f l i : position_not f l i = None <-> forallb f l = true.
Proof.
  revert i. induction l as [|b l IH]; intros i; cbn; [split; auto|].
  destruct (f b); cbn; [apply IH|]. split; discriminate.
Qed.
Lemma printable_all l : forallb printable l = true <-> Forall printable_char l.
Proof.
  rewrite forallb_forall, Forall_forall. unfold printable, printable_char.
  split; intros H x I; specialize (H x I); lia.
Qed.
Lemma tag_iff a t : tag_as_tag a = Ok t <-> has_tag a t.
Proof.
  unfold tag_as_tag, tag_from_raw, has_tag. destruct ((length (da_tag a) =? 0)%nat || (4 <? length (da_tag a))%nat) eqn:L.
  - split; [discriminate|]. intros (_ & N & F & n & E). subst t. rewrite app_length in F.
    destruct (da_tag a) as [|x l]; [congruence|]. apply orb_true_iff in L. destruct L as [L|L]; [discriminate|]. apply Nat.ltb_lt in L. cbn [length] in *. lia.
  - apply orb_false_iff in L. destruct L as [L1 L2]. apply Nat.eqb_neq in L1. apply Nat.ltb_ge in L2.
    destruct (position_not printable (da_tag a) 0) as [[p b]|] eqn:P.
    + split; [discriminate|]. intros (Q & _). apply printable_all in Q.
      apply (position_none printable (da_tag a) 0) in Q. congruence.
    + apply position_none in P. apply printable_all in P. split.
      * intros X. apply Ok_inj in X. subst t. split; [exact P|]. split; [intros E; rewrite E in L1; now apply L1|].
        split; [rewrite app_length, repeat_length; lia|]. eexists. reflexivity.
      * intros (_ & _ & F & n & ->). rewrite app_length, repeat_length in F. do 2 f_equal. f_equal. lia.
Qed.
Lemma order_iff d ts : axis_order d = Ok ts <-> Forall2 has_tag (doc_axes d) ts.
Proof.
  unfold axis_order. rewrite rmapM_Forall2. split; intros H; (eapply F2_impl; [|exact H]); intros a t; apply tag_iff.
Qed.

(** ** Locations *)
Lemma find_spec (loc : doc_location) n :
  match find (fun dim => bytes_eqb (fst dim) n) loc with
  | Some dim => exists l r, loc = l ++ (n, snd dim) :: r /\ Forall (fun e => fst e <> n) l
  | None => Forall (fun e => fst e <> n) loc
  end.
Proof.
  induction loc as [|[k v] loc IH]; cbn [find fst]; [constructor|].
  destruct (bytes_eqb k n) eqn:E.
  - apply bytes_eqb_eq in E. subst k. exists [], loc. split; [reflexivity|constructor].
  - apply bytes_eqb_false in E. destruct (find _ loc) as [dim|].
    + destruct IH as (l & r & -> & F). exists ((k, v) :: l), r. split; [reflexivity|]. constructor; auto.
    + constructor; auto.
Qed.
Lemma first_unique {V} (n : list Z) (l r l' r' : list (list Z * V)) v v' : l ++ (n, v) :: r = l' ++ (n, v') :: r' ->
  Forall (fun e => fst e <> n) l -> Forall (fun e => fst e <> n) l' -> v = v'.
Proof.
  revert l'. induction l as [|x l IH]; intros [|y l'] E F F'; cbn [app] in E.
  - now injection E.
  - injection E as <- _. inversion_clear F'. cbn in H. congruence.
  - injection E as -> _. inversion_clear F. cbn in H. congruence.
  - injection E as _ E. inversion_clear F. inversion_clear F'. eauto.
Qed.
Lemma coordinate_iff loc a v :
  match find (fun dim => bytes_eqb (fst dim) (da_name a)) loc with
  | Some dim => Ok (snd dim)
  | None => Ok (f32_of_int (ax_default (da_axis a)))
  end = Ok v <-> coordinate loc a v.
Proof.
  pose proof (find_spec loc (da_name a)) as F. unfold coordinate, same_number.
  destruct (find _ loc) as [[k w]|]; cbn [snd] in *.
  - destruct F as (l & r & E & F). split.
    + intros [= <-]. left. eauto.
    + intros [(l' & r' & E' & F')|[N _]].
      * rewrite E in E'. f_equal. eapply first_unique; eauto.
      * rewrite E in N. apply Forall_app in N. destruct N as [_ N]. inversion_clear N. cbn in H. congruence.
  - split.
    + intros [= <-]. right. auto.
    + intros [(l' & r' & E' & F')|[_ ->]]; [|reflexivity]. rewrite E' in F. apply Forall_app in F. destruct F as [_ F].
      inversion_clear F. cbn in H. congruence.
Qed.
Lemma map_fst_combine {A B} (l : list A) (l' : list B) : length l = length l' -> map fst (combine l l') = l.
Proof. revert l'. induction l as [|a l IH]; intros [|b l'] E; cbn in *; try discriminate; [reflexivity|]. f_equal. auto. Qed.
Lemma F2_combine_in {A B} (R : A -> B -> Prop) l l' : Forall2 R l l' -> forall C (f : A -> C),
  forall x, In x (combine l' (map f l)) -> exists a, In a l /\ snd x = f a /\ R a (fst x).
Proof.
  induction 1 as [|a b l l' H _ IH]; intros C f x; cbn [combine map In]; [easy|].
  intros [<-|I]; [exists a; auto|]. destruct (IH C f x I) as (a' & ? & ? & ?). exists a'. auto.
Qed.
Lemma tuple_iff d ts loc vs : titled d ts -> (location_to_tuple d loc = Ok vs <-> placed d loc vs).
Proof.
  intros [T N]. unfold location_to_tuple, tag_to_name. rewrite (proj2 (order_iff d ts) T). cbn [rbind].
  set (m := bm_of_list _ _).
  assert (L: length ts = length (map da_name (doc_axes d))) by (rewrite map_length; symmetry; eapply Forall2_length; exact T).
  assert (G: Forall2 (fun a t => @bm_get (list Z) (list Z) lex_ltb t m = Some (da_name a)) (doc_axes d) ts).
  { assert (N': NoDup (map fst (combine ts (map da_name (doc_axes d))))) by (rewrite map_fst_combine; assumption).
    assert (I: forall a t, In (t, da_name a) (combine ts (map da_name (doc_axes d))) -> @bm_get (list Z) (list Z) lex_ltb t m = Some (da_name a)).
    { intros a t I. exact (proj2 (get_of_list _ t (da_name a) N') I). }
    clearbody m. revert I. clear -T. induction T as [|a t l l' _ _ IH]; intros I; constructor.
    - apply I. now left.
    - apply IH. intros a' t' K. apply I. now right. }
  clearbody m. unfold placed, default_location. rewrite rmapM_Forall2. clear L N T.
  generalize dependent vs. induction G as [|a t l l' G _ IH]; intros vs.
  - cbn [combine map]. split; intros H; inversion H; constructor.
  - cbn [combine map]. split; intros H; inversion H as [|? v ? vs' H1 H2]; subst; constructor; try (now apply IH).
    + cbn [fst snd] in H1. change (@bm_get (list Z) (list Z) lex_ltb t m = Some (da_name a)) in G. rewrite G in H1. cbn [unwrap rbind] in H1. now apply coordinate_iff.
    + cbn [fst snd]. change (@bm_get (list Z) (list Z) lex_ltb t m = Some (da_name a)) in G. rewrite G. cbn [unwrap rbind]. now apply coordinate_iff.
Qed.
Lemma placed_exists d loc : exists vs, placed d loc vs.
Proof.
  unfold placed. induction (doc_axes d) as [|a l IH]; [exists []; constructor|]. destruct IH as (vs & H).
  assert (X: exists v, coordinate loc a v).
  { destruct (match find (fun dim => bytes_eqb (fst dim) (da_name a)) loc with
  | Some dim => Ok (snd dim)
  | None => Ok (f32_of_int (ax_default (da_axis a)))
  end) as [v| |] eqn:E.
    - exists v. now apply coordinate_iff.
    - destruct (find _ loc); discriminate.
    - destruct (find _ loc); discriminate. }
  destruct X as (v & X). exists (v :: vs). now constructor.
Qed.
Lemma source_iff d ts s e : titled d ts -> (source_location d s = Ok e <-> lies d s e).
Proof.
  intros T. unfold source_location, lies. split.
  - intros H. apply rbind_ok in H. destruct H as (vs & H & [= <-]). apply (tuple_iff d ts _ _ T) in H. exists vs. split; [exact H|].
    clear. induction vs as [|v vs IH]; cbn; constructor; [now apply cut_iff|exact IH].
  - intros (vs & H & C). apply (tuple_iff d ts _ _ T) in H. rewrite H. cbn [rbind]. f_equal.
    clear -C. induction C as [|v z vs e C _ IH]; cbn; [reflexivity|]. apply cut_iff in C. congruence.
Qed.
Lemma source_total d ts s : titled d ts -> exists e, source_location d s = Ok e.
Proof.
  intros T. destruct (placed_exists d (src_location s)) as (vs & H). apply (tuple_iff d ts _ _ T) in H.
  unfold source_location. rewrite H. cbn [rbind]. eauto.
Qed.
Lemma default_iff d e : default_designspace_location d = Ok e <-> design_default d e.
Proof.
  unfold default_designspace_location, design_default. rewrite rmapM_Forall2.
  split; intros H; (eapply F2_impl; [|exact H]); intros a z K.
  - apply rbind_ok in K. destruct K as (v & K & [= <-]). exists v. split; [exact K|]. now apply cut_iff.
  - destruct K as (v & K & C). rewrite K. cbn [rbind]. apply cut_iff in C. now subst z.
Qed.
Lemma master_spec d ts e : titled d ts -> design_default d e -> exists o, default_master d = Ok o /\
  match o with
  | Some s => exists l r, doc_sources d = l ++ s :: r /\ lies d s e /\ Forall (fun s' => ~ lies d s' e) l
  | None => Forall (fun s' => ~ lies d s' e) (doc_sources d)
  end.
Proof.
  intros T E. unfold default_master. rewrite (proj2 (default_iff d e) E). cbn [rbind].
  induction (doc_sources d) as [|s l IH]; cbn [rfind]; [exists None; split; [reflexivity|constructor]|].
  destruct (source_total d ts s T) as (x & X). rewrite X. cbn [rbind]. destruct (bytes_eqb x e) eqn:B.
  - apply bytes_eqb_eq in B. subst x. exists (Some s). split; [reflexivity|]. exists [], l. split; [reflexivity|].
    split; [now apply (source_iff d ts)|constructor].
  - apply bytes_eqb_false in B. assert (Y: ~ lies d s e) by (intros K; apply (source_iff d ts s e T) in K; congruence).
    destruct IH as ([s'|] & -> & IH).
    + exists (Some s'). split; [reflexivity|]. destruct IH as (l1 & r & -> & A & F). exists (s :: l1), r. split; [reflexivity|]. split; [exact A|]. constructor; auto.
    + exists None. split; [reflexivity|]. constructor; auto.
Qed.

(** ** The variation model *)
Lemma tags_combine axs ts (vs : list dyadic) : Forall2 has_tag axs ts ->
  rmapM (fun av : doc_axis * dyadic => t <- tag_as_tag (fst av) ;; Ok (t, snd av)) (combine axs vs) = Ok (combine ts vs).
Proof.
  intros H. revert vs. induction H as [|a t axs ts A _ IH]; intros [|v vs]; try reflexivity.
  cbn [combine rmapM fst snd]. apply tag_iff in A. rewrite A. cbn [rbind]. rewrite IH. reflexivity.
Qed.
Lemma sorted_nodup (ks : list (list Z)) : StronglySorted (fun a b => lex_ltb a b = true) ks -> NoDup ks.
Proof.
  induction 1 as [|k ks _ IH F]; constructor; [|exact IH]. intros I. rewrite Forall_forall in F. apply F in I.
  rewrite (st_irrefl _ lex_strict) in I. discriminate.
Qed.
Lemma keys_nodup {V} (l : list (list Z * V)) : NoDup (map fst (bm_of_list lex_ltb l)).
Proof. exact (sorted_nodup _ (of_list_map l)). Qed.

Lemma point_iff d ts s loc : titled d ts -> source_point d s = Ok loc -> normal_point d ts s loc.
Proof.
  intros T H. pose proof T as [T1 T2]. unfold source_point in H. apply rbind_ok in H. destruct H as (e & E & H). apply (source_iff d ts s e T) in E.
  apply rbind_ok in H. destruct H as (vs & V & H). rewrite (tags_combine _ _ _ T1) in H. cbn [rbind] in H. apply Ok_inj in H. subst loc.
  exists e, vs. split; [exact E|].
  assert (V': Forall2 (fun az v => normalize_design (da_axis (fst az)) (f32_of_int (snd az)) = Ok v) (combine (doc_axes d) e) vs).
  { unfold normalize_location in V. apply rmapM_inv in V. clear -V. revert e vs V. induction (doc_axes d) as [|a l IH]; intros [|z e] vs V; cbn [map combine] in *;
      inversion V; subst; constructor; [assumption|]. apply IH. assumption. }
  split; [exact V'|]. split; [apply keys_nodup|]. intros t v. apply in_of_list.
  assert (L: length ts = length vs).
  { destruct E as (ws & P & C). apply Forall2_length in V'. rewrite combine_length in V'. apply Forall2_length in P. apply Forall2_length in C. apply Forall2_length in T1. lia. }
  rewrite map_fst_combine; assumption.
Qed.
Lemma model_spec d ts vm : titled d ts -> variation_model d = Ok vm ->
  exists locs, vm_new locs ts = Ok vm /\ Forall2 (normal_point d ts) (doc_sources d) locs.
Proof.
  intros T H. unfold variation_model in H. apply rbind_ok in H. destruct H as (locs & L & H).
  rewrite (proj2 (order_iff d ts) (proj1 T)) in H. cbn [rbind] in H. exists locs. split; [exact H|].
  apply rmapM_inv in L. eapply F2_impl; [|exact L]. intros s loc. apply point_iff. exact T.
Qed.

(** ** Names *)
Fixpoint numbered (ix : Z) (ss : list (list Z)) : list name_record :=
  match ss with [] => [] | s :: ss' => windows_unicode ix s :: numbered (ix + 1) ss' end.
Lemma numbered_app ix ss ss' : numbered ix (ss ++ ss') = numbered ix ss ++ numbered (ix + Z.of_nat (length ss)) ss'.
Proof.
  revert ix. induction ss as [|s ss IH]; intros ix; cbn [numbered app length].
  - f_equal. lia.
  - f_equal. rewrite IH. f_equal. f_equal. lia.
Qed.
Lemma numbered_length ss : forall ix, length (numbered ix ss) = length ss.
Proof. induction ss as [|s ss IH]; intros ix; cbn [numbered length]; [reflexivity|]. now rewrite IH. Qed.
Lemma numbered_ids ix ss : Forall (fun r => ix <= nr_name r < ix + Z.of_nat (length ss)) (numbered ix ss).
Proof.
  revert ix. induction ss as [|s ss IH]; intros ix; cbn [numbered length]; constructor; [cbn; lia|].
  eapply Forall_impl; [|apply IH]. cbn. intros r. lia.
Qed.
Lemma english_win ix s : english ix s (windows_unicode ix s).
Proof. unfold english, windows_unicode. cbn. auto. Qed.
Lemma numbered_means ix ss1 s ss2 ix' : ix' = ix + Z.of_nat (length ss1) -> means (numbered ix (ss1 ++ s :: ss2)) ix' s.
Proof.
  intros ->. rewrite numbered_app. cbn [numbered]. do 3 eexists. split; [reflexivity|]. split; [apply english_win|].
  apply Forall_app. split; (eapply Forall_impl; [|apply numbered_ids]); cbn; intros r; lia.
Qed.
Lemma numbered_nth ix ss i r : nth_error (numbered ix ss) i = Some r <-> exists s, nth_error ss i = Some s /\ r = windows_unicode (ix + Z.of_nat i) s.
Proof.
  revert ix i. induction ss as [|s ss IH]; intros ix [|i]; cbn [numbered nth_error].
  - split; [discriminate|intros (s & ? & _); discriminate].
  - split; [discriminate|intros (s & ? & _); discriminate].
  - split.
    + intros [= <-]. exists s. split; [reflexivity|]. f_equal. lia.
    + intros (s' & [= <-] & ->). do 2 f_equal. lia.
  - rewrite IH. split; intros (s' & ? & ->); exists s'; (split; [assumption|]); f_equal; lia.
Qed.

Lemma chk_u16 z : 0 <= z -> (z < 65536 -> chk_u 16 z = Ok z) /\ (65536 <= z -> chk_u 16 z = Panic).
Proof. intros H. unfold chk_u. change (2 ^ 16) with 65536. split; intros K; destruct (_ && _) eqn:E; try reflexivity; lia. Qed.
Definition good_tag (a : doc_axis) : Prop := length (da_tag a) = 4%nat /\ Forall printable_char (da_tag a).
Lemma axis_record_iff a ix r : axis_record_of a ix = Ok r <-> good_tag a /\
  r = mk_axis_record (da_tag a) (f32_of_int (ax_min (da_axis a))) (f32_of_int (ax_default (da_axis a))) (f32_of_int (ax_max (da_axis a)))
        (match da_hidden a with Some true => 1 | _ => 0 end) ix.
Proof.
  unfold axis_record_of, good_tag. destruct (length (da_tag a) =? 4)%nat eqn:L; cbn [negb].
  - apply Nat.eqb_eq in L. split.
    + intros H. apply rbind_ok in H. destruct H as (t & T & H). apply Ok_inj in H. subst r. apply tag_iff in T. destruct T as (P & _ & F & n & E).
      split; [auto|]. f_equal. subst t. rewrite app_length, repeat_length in F. assert (n = 0)%nat by lia. subst n. cbn. now rewrite app_nil_r.
    + intros ((_ & P) & ->). assert (T: tag_as_tag a = Ok (da_tag a)).
      { apply tag_iff. split; [exact P|]. split; [intros E; rewrite E in L; discriminate|]. split; [exact L|]. exists 0%nat. cbn. now rewrite app_nil_r. }
      rewrite T. reflexivity.
  - apply Nat.eqb_neq in L. split; [discriminate|]. intros ((? & _) & _). contradiction.
Qed.
Lemma add_axes_spec axs : forall ix names rs ms ix' names', 0 <= ix ->
  add_axes axs ix names = Ok (rs, ms, ix', names') <->
  Forall good_tag axs /\ (axs <> [] -> ix' < 65536) /\ ix' = ix + Z.of_nat (length axs) /\ names' = names ++ numbered ix (map da_name axs) /\
  Forall2 (fun a m => axis_segments (da_axis a) = Ok m) axs ms /\
  Forall2 (fun a r => exists k, axis_record_of a k = Ok r) axs rs /\ map ax_axisNameID rs = map (fun i => ix + Z.of_nat i) (seq 0 (length axs)).
Proof.
  induction axs as [|a axs IH]; intros ix names rs ms ix' names' H0; cbn [add_axes map length numbered seq].
  - split.
    + intros E. apply Ok_inj in E. injection E as <- <- <- <-. rewrite app_nil_r, Z.add_0_r. repeat split; try constructor. now intros [].
    + intros (_ & _ & -> & -> & M & R & _). inversion M. inversion R. subst. rewrite app_nil_r. cbn. now rewrite Z.add_0_r.
  - assert (SEQ: forall n, map (fun i => ix + Z.of_nat i) (seq 1 n) = map (fun i => ix + 1 + Z.of_nat i) (seq 0 n)).
    { intros n. rewrite <- seq_shift, map_map. apply map_ext. intros i. lia. }
    split.
    + intros H. apply rbind_ok in H. destruct H as (r & R & H). apply rbind_ok in H. destruct H as (ix1 & C & H).
      apply rbind_ok in H. destruct H as (m & M & H). apply rbind_ok in H. destruct H as ((((rs1 & ms1) & ix2) & names1) & E & H).
      apply Ok_inj in H. injection H as <- <- <- <-.
      assert (C': ix1 = ix + 1 /\ ix + 1 < 65536).
      { destruct (chk_u16 (ix + 1)) as [C1 C2]; [lia|]. destruct (Z_lt_le_dec (ix + 1) 65536) as [L|L]; [rewrite (C1 L) in C; apply Ok_inj in C; split; congruence|]. rewrite (C2 L) in C. discriminate. }
      destruct C' as [-> C']. apply IH in E; [|lia]. destruct E as (G & B & -> & -> & MS & RS & IDS).
      pose proof (proj1 (axis_record_iff a ix r) R) as [Ga Er].
      split; [now constructor|]. split.
      { intros _. destruct axs as [|b axs]; [cbn; lia|]. apply B. discriminate. }
      split; [lia|]. split; [now rewrite <- app_assoc|]. split; [now constructor|]. split.
      { constructor; [eauto|exact RS]. }
      cbn [map]. apply (f_equal2 (@cons Z)); [rewrite Er; cbn [ax_axisNameID]; lia|]. rewrite SEQ. exact IDS.
    + intros (G & B & -> & -> & MS & RS & IDS). inversion G as [|? ? Ga G']; subst. inversion MS as [|? m ? ms1 M MS']; subst. inversion RS as [|? r ? rs1 R RS']; subst.
      cbn [map] in IDS. remember (seq 1 (length axs)) as sq. injection IDS as I0 IDS. subst sq. rewrite SEQ in IDS. destruct R as (k & R).
      pose proof (proj1 (axis_record_iff a k r) R) as [_ Er]. assert (k = ix) by (subst r; cbn in I0; lia). subst k. rewrite R. cbn [rbind].
      specialize (B ltac:(discriminate)). rewrite (proj1 (chk_u16 (ix + 1) ltac:(lia))) by lia. cbn [rbind]. rewrite M. cbn [rbind].
      erewrite (proj2 (IH (ix + 1) (names ++ [windows_unicode ix (da_name a)]) rs1 ms1 (ix + 1 + Z.of_nat (length axs)) ((names ++ [windows_unicode ix (da_name a)]) ++ numbered (ix + 1) (map da_name axs)) ltac:(lia))).
      { cbn [rbind]. rewrite <- app_assoc. cbn [app]. replace (ix + 1 + Z.of_nat (length axs)) with (ix + Z.of_nat (S (length axs))) by lia. reflexivity. }
      split; [exact G'|]. split; [intros _; lia|]. split; [reflexivity|]. split; [reflexivity|]. auto.
Qed.

Lemma get_total {V} (l : list (list Z * V)) t : In t (map fst l) -> exists v, bm_get lex_ltb t (bm_of_list lex_ltb l) = Some v.
Proof.
  intros I. unfold bm_of_list. rewrite (get_fold_insert lex_ltb lex_strict).
  destruct (find _ (rev l)) as [kv|] eqn:F; [eauto|]. exfalso. apply in_map_iff in I. destruct I as (kv & <- & I).
  apply in_rev in I. pose proof (find_none _ _ F kv I) as N. cbv beta in N. rewrite (st_irrefl _ lex_strict) in N. discriminate.
Qed.
Lemma tuple_total d ts loc : Forall2 has_tag (doc_axes d) ts -> exists vs, location_to_tuple d loc = Ok vs.
Proof.
  intros T. unfold location_to_tuple, tag_to_name. rewrite (proj2 (order_iff d ts) T). cbn [rbind].
  apply rmapM_ok_iff. apply Forall_forall. intros [t z] I. cbn [fst snd]. apply in_combine_l in I.
  assert (L: length ts = length (map da_name (doc_axes d))) by (rewrite map_length; symmetry; eapply Forall2_length; exact T).
  rewrite <- (map_fst_combine ts (map da_name (doc_axes d)) L) in I. apply get_total in I. destruct I as (n & I).
  assert (I': @unwrap (list Z) (bm_get lex_ltb t (bm_of_list lex_ltb (combine ts (map da_name (doc_axes d))))) = Ok n) by (rewrite I; reflexivity).
  destruct (find (fun dim => bytes_eqb (fst dim) n) loc) as [dim|] eqn:F.
  - exists (snd dim). eapply eq_trans; [apply (f_equal (fun x => rbind x _)); exact I'|]. cbn [rbind]. now rewrite F.
  - eexists. eapply eq_trans; [apply (f_equal (fun x => rbind x _)); exact I'|]. cbn [rbind]. rewrite F. reflexivity.
Qed.
Fixpoint inst_recs (d : designspace) (ix : Z) (is : list doc_instance) (rs : list instance_record) : Prop :=
  match is, rs with
  | [], [] => True
  | i :: is', r :: rs' =>
      in_subfamilyNameID r = ix /\ in_flags r = 0 /\
      in_postscriptNameID r = match di_ps i with Some _ => Some (ix + 1) | None => None end /\
      location_to_tuple d (di_location i) = Ok (in_coordinates r) /\
      inst_recs d (ix + Z.of_nat (length (strings_of_instance i))) is' rs'
  | _, _ => False
  end.
Lemma chk_u16_inv z y : 0 <= z -> chk_u 16 z = Ok y -> y = z /\ z < 65536.
Proof.
  intros H C. destruct (chk_u16 z H) as [C1 C2]. destruct (Z_lt_le_dec z 65536) as [L|L].
  - rewrite (C1 L) in C. apply Ok_inj in C. split; congruence.
  - rewrite (C2 L) in C. discriminate.
Qed.
Lemma add_instances_spec d is : forall ix names rs names', 0 <= ix ->
  add_instances d is ix names = Ok (rs, names') <->
  inst_recs d ix is rs /\ names' = names ++ numbered ix (concat (map strings_of_instance is)) /\
  (is <> [] -> ix + Z.of_nat (length (concat (map strings_of_instance is))) < 65536).
Proof.
  induction is as [|i is IH]; intros ix names rs names' H0; cbn [add_instances inst_recs map concat].
  - cbn [numbered]. rewrite app_nil_r. split.
    + intros E. apply Ok_inj in E. injection E as <- <-. repeat split; auto. now intros [].
    + intros (R & -> & _). destruct rs; [reflexivity|contradiction].
  - rewrite numbered_app. set (ss := concat (map strings_of_instance is)) in *. split.
    + intros H. apply rbind_ok in H. destruct H as (c & C & H). apply rbind_ok in H. destruct H as (ix1 & X1 & H).
      apply chk_u16_inv in X1; [|lia]. destruct X1 as [-> X1].
      apply rbind_ok in H. destruct H as (((ps & ix2) & names2) & P & H). apply rbind_ok in H. destruct H as ((rs1 & names3) & E & H).
      apply Ok_inj in H. injection H as <- <-. cbn [in_subfamilyNameID in_flags in_postscriptNameID in_coordinates].
      assert (B: is = [] -> ss = []) by (intros ->; reflexivity). unfold strings_of_instance at 1 2 3 4. destruct (di_ps i) as [p|].
      * apply rbind_ok in P. destruct P as (ix' & X2 & P). apply chk_u16_inv in X2; [|lia]. destruct X2 as [-> X2].
        apply Ok_inj in P. injection P as <- <- <-. apply IH in E; [|lia]. destruct E as (R & -> & L).
        cbn [length app numbered]. change (Z.of_nat 2) with 2. replace (ix + 2) with (ix + 1 + 1) by lia.
        split; [repeat split; auto|]. split; [rewrite <- !app_assoc; reflexivity|].
        intros _. destruct is as [|j is]; [rewrite (B eq_refl); cbn [length]; lia|]. specialize (L ltac:(discriminate)). lia.
      * apply Ok_inj in P. injection P as <- <- <-. apply IH in E; [|lia]. destruct E as (R & -> & L).
        cbn [length app numbered]. change (Z.of_nat 1) with 1.
        split; [repeat split; auto|]. split; [rewrite <- !app_assoc; reflexivity|].
        intros _. destruct is as [|j is]; [rewrite (B eq_refl); cbn [length]; lia|]. specialize (L ltac:(discriminate)). lia.
    + intros (R & -> & L). destruct rs as [|r rs]; [contradiction|]. destruct R as (R1 & R2 & R3 & R4 & R5). rewrite R4. cbn [rbind].
      specialize (L ltac:(discriminate)). rewrite app_length in L. revert L R5. unfold strings_of_instance at 1 2 3 4.
      destruct r as [sub fl co ps]. cbn [in_subfamilyNameID in_flags in_postscriptNameID in_coordinates] in *. subst sub fl ps.
      destruct (di_ps i) as [p|]; cbn [length app numbered]; intros L R5.
      * rewrite (proj1 (chk_u16 (ix + 1) ltac:(lia))) by lia. cbn [rbind]. rewrite (proj1 (chk_u16 (ix + 1 + 1) ltac:(lia))) by lia. cbn [rbind].
        replace (ix + Z.of_nat 2) with (ix + 1 + 1) in * by lia.
        rewrite (proj2 (IH (ix + 1 + 1) ((names ++ [windows_unicode ix (di_style i)]) ++ [windows_unicode (ix + 1) p]) rs
          (((names ++ [windows_unicode ix (di_style i)]) ++ [windows_unicode (ix + 1) p]) ++ numbered (ix + 1 + 1) ss) ltac:(lia))).
        { cbn [rbind]. rewrite <- !app_assoc. reflexivity. }
        split; [exact R5|]. split; [reflexivity|]. lia.
      * rewrite (proj1 (chk_u16 (ix + 1) ltac:(lia))) by lia. cbn [rbind].
        replace (ix + Z.of_nat 1) with (ix + 1) in * by lia.
        rewrite (proj2 (IH (ix + 1) (names ++ [windows_unicode ix (di_style i)]) rs
          ((names ++ [windows_unicode ix (di_style i)]) ++ numbered (ix + 1) ss) ltac:(lia))).
        { cbn [rbind]. rewrite <- !app_assoc. reflexivity. }
        split; [exact R5|]. split; [reflexivity|]. lia.
Qed.
Lemma recs_written d base pre is : forall ix rs, ix = base + Z.of_nat (length pre) -> inst_recs d ix is rs ->
  Forall2 (instance_written d (numbered base (pre ++ concat (map strings_of_instance is)))) is rs.
Proof.
  revert pre. induction is as [|i is IH]; intros pre ix [|r rs] E R; cbn [inst_recs] in R; try contradiction; [constructor|].
  destruct R as (R1 & R2 & R3 & R4 & R5). cbn [map concat]. constructor.
  - split; [|split; [exact R2|split; [|exact R4]]].
    + rewrite R1. apply numbered_means. exact E.
    + rewrite R3. destruct (di_ps i) as [p|] eqn:P; [|exact I].
      assert (Es: strings_of_instance i = [di_style i; p]) by (unfold strings_of_instance; now rewrite P). rewrite Es.
      replace (pre ++ [di_style i; p] ++ concat (map strings_of_instance is)) with ((pre ++ [di_style i]) ++ p :: concat (map strings_of_instance is))
        by (rewrite <- app_assoc; reflexivity).
      apply numbered_means. rewrite app_length. cbn [length]. lia.
  - rewrite app_assoc. eapply IH; [|exact R5]. rewrite app_length. lia.
Qed.
Lemma recs_exist d is : (forall i, In i is -> exists vs, location_to_tuple d (di_location i) = Ok vs) -> forall ix, exists rs, inst_recs d ix is rs.
Proof.
  induction is as [|i is IH]; intros H ix; [exists []; exact I|]. destruct (H i ltac:(now left)) as (vs & V).
  destruct (IH (fun j J => H j (or_intror J)) (ix + Z.of_nat (length (strings_of_instance i)))) as (rs & R).
  exists (mk_instance ix 0 vs (match di_ps i with Some _ => Some (ix + 1) | None => None end) :: rs). cbn [inst_recs in_subfamilyNameID in_flags in_postscriptNameID in_coordinates]. auto.
Qed.

(** ** The whole *)
Lemma good_titled d : Forall good_tag (doc_axes d) -> Forall2 has_tag (doc_axes d) (map da_tag (doc_axes d)).
Proof.
  induction 1 as [|a l [L P] _ IH]; cbn [map]; constructor; [|exact IH]. split; [exact P|].
  split; [intros E; rewrite E in L; discriminate|]. split; [exact L|]. exists 0%nat. cbn. now rewrite app_nil_r.
Qed.
Lemma axes_written base axs rest : forall pre rs, Forall2 (fun a r => exists k, axis_record_of a k = Ok r) axs rs ->
  map ax_axisNameID rs = map (fun i => base + Z.of_nat (length pre) + Z.of_nat i) (seq 0 (length axs)) ->
  Forall2 (axis_written (numbered base (pre ++ map da_name axs ++ rest))) axs rs.
Proof.
  induction axs as [|a axs IH]; intros pre rs R E; inversion R as [|? r ? rs' (k & K) R']; subst; constructor.
  - cbn [map length seq] in E. remember (seq 1 (length axs)) as sq. injection E as E0 _. apply axis_record_iff in K. destruct K as [_ K].
    unfold axis_written, same_number. split; [now subst r|]. split; [now subst r|]. split; [now subst r|]. split; [now subst r|].
    split; [intros H; subst r; cbn; now rewrite H|]. split; [intros H; subst r; cbn [ax_flags]; destruct (da_hidden a) as [[]|]; congruence|].
    cbn [map app]. apply numbered_means. lia.
  - cbn [map app]. replace (pre ++ da_name a :: map da_name axs ++ rest) with ((pre ++ [da_name a]) ++ map da_name axs ++ rest) by (rewrite <- app_assoc; reflexivity).
    apply IH; [exact R'|]. cbn [map length seq] in E. rewrite <- seq_shift, map_map in E. injection E as _ E. rewrite E.
    apply map_ext. intros i. rewrite app_length. cbn [length]. lia.
Qed.
Lemma strings_length d : length (strings_of d) = (length (doc_axes d) + length (concat (map strings_of_instance (instances_of d))))%nat.
Proof. unfold strings_of. now rewrite app_length, map_length. Qed.
Lemma add_spec d ns fv ns' maps : add_to_font d (Some ns) = Ok (fv, ns', maps) ->
  ns' = ns ++ numbered 255 (strings_of d) /\ Forall2 (axis_written (numbered 255 (strings_of d))) (doc_axes d) (fv_axes fv) /\
  Forall2 (instance_written d (numbered 255 (strings_of d))) (instances_of d) (fv_instances fv) /\
  Forall2 (fun a m => axis_segments (da_axis a) = Ok m) (doc_axes d) maps /\
  map ax_axisNameID (fv_axes fv) = map (fun i => 255 + Z.of_nat i) (seq 0 (length (doc_axes d))) /\
  Forall good_tag (doc_axes d) /\ 255 + Z.of_nat (length (strings_of d)) < 65536.
Proof.
  intros H. unfold add_to_font in H. cbn [unwrap] in H. apply rbind_ok in H. destruct H as (n0 & E0 & H). apply Ok_inj in E0. subst n0.
  apply rbind_ok in H. destruct H as ((((rs & ms) & ix) & n1) & A & H). apply rbind_ok in H. destruct H as ((is & n2) & B & H). apply Ok_inj in H.
  injection H as <- <- <-. apply add_axes_spec in A; [|lia]. destruct A as (G & BD & -> & -> & M & R & ID).
  fold (instances_of d) in B. apply add_instances_spec in B; [|lia]. destruct B as (BR & -> & BL). cbn [fv_axes fv_instances].
  split; [unfold strings_of; rewrite numbered_app, map_length, <- app_assoc; reflexivity|]. split; [apply (axes_written 255 (doc_axes d) _ []); [exact R|exact ID]|].
  split; [unfold strings_of; eapply recs_written; [|exact BR]; rewrite map_length; reflexivity|].
  split; [exact M|]. split; [exact ID|]. split; [exact G|]. rewrite strings_length.
  destruct (instances_of d) as [|i l].
  - cbn [map concat length]. destruct (doc_axes d) as [|a axs]; [cbn; lia|]. specialize (BD ltac:(discriminate)). lia.
  - specialize (BL ltac:(discriminate)). lia.
Qed.
Lemma add_ok d ns : Forall good_tag (doc_axes d) -> Forall (fun a => exists m, axis_segments (da_axis a) = Ok m) (doc_axes d) ->
  255 + Z.of_nat (length (strings_of d)) < 65536 -> exists r, add_to_font d (Some ns) = Ok r.
Proof.
  intros G M L. rewrite strings_length in L. apply rmapM_ok_iff in M. destruct M as (ms & M). apply rmapM_inv in M.
  assert (R: exists rs, Forall2 (fun a r => exists k, axis_record_of a k = Ok r) (doc_axes d) rs /\
    map ax_axisNameID rs = map (fun i => 255 + Z.of_nat i) (seq 0 (length (doc_axes d)))).
  { clear M L. generalize 255. induction G as [|a l Ga _ IH]; intros b; [exists []; split; [constructor|reflexivity]|].
    destruct (IH (b + 1)) as (rs & R & I). eexists (_ :: rs). split.
    - constructor; [exists b; apply axis_record_iff; split; [exact Ga|reflexivity]|exact R].
    - cbn [map length seq ax_axisNameID]. apply (f_equal2 (@cons Z)); [lia|]. rewrite I, <- seq_shift, map_map. apply map_ext. intros i. lia. }
  destruct R as (rs & R & ID).
  assert (X1: doc_axes d <> [] -> 255 + Z.of_nat (length (doc_axes d)) < 65536) by (intros _; lia).
  assert (X2: instances_of d <> [] -> 255 + Z.of_nat (length (doc_axes d)) + Z.of_nat (length (concat (map strings_of_instance (instances_of d)))) < 65536) by (intros _; lia).
  pose proof (proj2 (add_axes_spec (doc_axes d) 255 ns rs ms (255 + Z.of_nat (length (doc_axes d))) _ ltac:(lia))
    (conj G (conj X1 (conj eq_refl (conj eq_refl (conj M (conj R ID))))))) as A.
  destruct (recs_exist d (instances_of d)) with (ix := 255 + Z.of_nat (length (doc_axes d))) as (is & I).
  { intros i _. eapply tuple_total. apply good_titled. exact G. }
  pose proof (proj2 (add_instances_spec d (instances_of d) (255 + Z.of_nat (length (doc_axes d))) (ns ++ numbered 255 (map da_name (doc_axes d))) is _ ltac:(lia))
    (conj I (conj eq_refl X2))) as B.
  unfold add_to_font. cbn [unwrap rbind]. rewrite A. cbn [rbind]. fold (instances_of d). rewrite B. cbn [rbind]. eauto.
Qed.
Lemma add_axes_err axs : forall ix names, 0 <= ix -> ix + Z.of_nat (length axs) < 65536 -> Forall (fun a => exists m, axis_segments (da_axis a) = Ok m) axs ->
  Forall (fun a => length (da_tag a) = 4%nat -> Forall printable_char (da_tag a)) axs ->
  Exists (fun a => length (da_tag a) <> 4%nat) axs -> add_axes axs ix names = Err.
Proof.
  induction axs as [|a axs IH]; intros ix names H0 L M P X; [inversion X|]. cbn [add_axes].
  inversion M as [|? ? (m & Ma) M']; subst. inversion P as [|? ? Pa P']; subst. cbn [length] in L.
  destruct (Nat.eq_dec (length (da_tag a)) 4) as [E|E].
  - rewrite (proj2 (axis_record_iff a ix _) (conj (conj E (Pa E)) eq_refl)). cbn [rbind]. rewrite (proj1 (chk_u16 (ix + 1) ltac:(lia))) by lia. cbn [rbind].
    rewrite Ma. cbn [rbind]. inversion X; subst; [contradiction|]. rewrite IH; auto; lia.
  - unfold axis_record_of. rewrite (proj2 (Nat.eqb_neq _ _) E). reflexivity.
Qed.

Lemma plain_default ax : ax_map ax = None -> to_designspace ax (ax_default ax) = Ok (f32_of_int (ax_default ax)).
Proof.
  intros M. destruct (axis_nodes ax fst snd) as [N H]. change (to_designspace ax (ax_default ax)) with (line_map (axis_imap ax fst snd) (ax_default ax)).
  apply line_node; [exact N|]. apply H. unfold node. rewrite M. split; [auto|reflexivity].
Qed.

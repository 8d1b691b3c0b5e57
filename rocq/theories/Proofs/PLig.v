(** Ligature substitution. *)
From Coq Require Import List ZArith Lia Bool Permutation Sorted.
Import ListNotations.
From Verif.Model Require Import MBase MMap MTag MGlyph MOffset MLayout MLow MContext MLookup MGsub.
From Verif.Spec Require Import SBase SGlyph SOffset SLayout SContext SGsub.
From Verif.Proofs Require Import PBase PCodec PMap PTag PGlyph PGlyphFmt PPoints POffset PPart PCover PClassdef PLow PGsub.
Open Scope Z_scope.

(** ** Sorting by length *)
Definition longer (a b : list Z) : Prop := (length b <= length a)%nat.
Lemma insert_long_perm k l : Permutation (insert_long k l) (k :: l).
Proof.
  induction l as [|x l IH]; cbn [insert_long]; [reflexivity|]. destruct (_ <=? _)%nat; [reflexivity|].
  rewrite IH. apply perm_swap.
Qed.
Lemma sort_long_perm l : Permutation (sort_long l) l.
Proof. induction l as [|x l IH]; [reflexivity|]. cbn [sort_long fold_right]. fold (sort_long l). rewrite insert_long_perm. now constructor. Qed.
Lemma insert_long_sorted k l : StronglySorted longer l -> StronglySorted longer (insert_long k l).
Proof.
  induction 1 as [|x l H IH F]; cbn [insert_long]; [repeat constructor|]. destruct (_ <=? _)%nat eqn:E.
  - constructor; [now constructor|]. apply Nat.leb_le in E. constructor; [exact E|]. eapply Forall_impl; [|exact F]. unfold longer. intros; lia.
  - constructor; [exact IH|]. apply Nat.leb_gt in E. rewrite insert_long_perm. constructor; [unfold longer; lia|exact F].
Qed.
Lemma sort_long_sorted l : StronglySorted longer (sort_long l).
Proof. induction l as [|x l IH]; [constructor|]. cbn [sort_long fold_right]. now apply insert_long_sorted. Qed.

(** ** Splitting by the first glyph *)
Definition all_at (m : list (Z * list (list Z))) (g : Z) : list (list Z) := match bm_get Z.ltb g m with Some l => l | None => [] end.
Definition headed (g : Z) (k : list Z) : bool := match k with [] => false | a :: _ => a =? g end.
Lemma split_get ks m0 sp : split_keys ks m0 = Ok sp -> forall g, all_at sp g = all_at m0 g ++ filter (headed g) ks.
Proof.
  revert m0. induction ks as [|k ks IH]; intros m0 H g; cbn [split_keys filter] in *.
  - injection H as <-. now rewrite app_nil_r.
  - destruct k as [|a c]; [discriminate|]. rewrite (IH _ H g). unfold all_at at 1. rewrite (get_insert _ Z_strict). cbn [headed].
    destruct (a =? g) eqn:E.
    + replace ((a <? g) || (g <? a)) with false by lia. assert (a = g) as -> by lia. rewrite <- app_assoc. reflexivity.
    + replace ((a <? g) || (g <? a)) with true by lia. reflexivity.
Qed.
Lemma split_sorted ks m0 sp : split_keys ks m0 = Ok sp -> sorted_map Z.ltb m0 -> sorted_map Z.ltb sp.
Proof.
  revert m0. induction ks as [|k ks IH]; intros m0 H Hs; cbn [split_keys] in *; [now injection H as <-|].
  destruct k as [|a c]; [discriminate|]. apply (IH _ H). now apply insert_sorted; [apply Z_strict|].
Qed.
Lemma insert_perm g k (m : list (Z * list (list Z))) : sorted_map Z.ltb m ->
  Permutation (concat (map snd (bm_insert Z.ltb g (all_at m g ++ [k]) m))) (k :: concat (map snd m)).
Proof.
  unfold sorted_map, sorted_keys, all_at. induction m as [|[a l] m IH]; intros HS; cbn [bm_insert bm_get map concat snd fst app] in *; [reflexivity|].
  inversion HS as [|? ? HS' HF]; subst. destruct (g <? a) eqn:E1.
  - cbn [orb map snd concat]. rewrite (get_lt _ Z_strict) by (eapply Forall_impl; [|exact HF]; cbn beta; intros; lia). reflexivity.
  - destruct (a <? g) eqn:E2; cbn [orb map snd concat]; [rewrite (IH HS'); symmetry; apply Permutation_middle|].
    rewrite <- app_assoc. cbn [app]. symmetry. apply Permutation_middle.
Qed.
Lemma split_perm ks m0 sp : split_keys ks m0 = Ok sp -> sorted_map Z.ltb m0 ->
  Permutation (concat (map snd sp)) (ks ++ concat (map snd m0)).
Proof.
  revert m0. induction ks as [|k ks IH]; intros m0 H Hs; cbn [split_keys] in *; [now injection H as <-|].
  destruct k as [|a c]; [discriminate|]. rewrite (IH _ H) by (now apply insert_sorted; [apply Z_strict|]).
  change (match bm_get Z.ltb a m0 with Some l => l | None => [] end) with (all_at m0 a). rewrite insert_perm by assumption.
  cbn [app]. symmetry. apply Permutation_middle.
Qed.
Definition headed_ok (m : list (Z * list (list Z))) : Prop := Forall (fun s => Forall (fun k => k = fst s :: tl k) (snd s)) m.
Lemma insert_headed g k (m : list (Z * list (list Z))) : k = g :: tl k -> headed_ok m -> headed_ok (bm_insert Z.ltb g (all_at m g ++ [k]) m).
Proof.
  intros Hk Hm. assert (Ha: Forall (fun k0 => k0 = g :: tl k0) (all_at m g)).
  { unfold all_at. destruct (bm_get Z.ltb g m) as [l|] eqn:E; [|constructor]. apply (get_In _ Z_strict) in E.
    unfold headed_ok in Hm. rewrite Forall_forall in Hm. exact (Hm _ E). }
  generalize (all_at m g) Ha. clear Ha. intros l Ha. assert (X: Forall (fun k0 => k0 = g :: tl k0) (l ++ [k])) by (apply Forall_app; auto).
  unfold headed_ok in *. induction Hm as [|[a b] m Hx Hm IH]; cbn [bm_insert]; [now constructor|]. destruct (g <? a); [constructor; [exact X|now constructor]|].
  destruct (a <? g); constructor; auto.
Qed.
Lemma split_headed ks m0 sp : split_keys ks m0 = Ok sp -> headed_ok m0 -> headed_ok sp.
Proof.
  revert m0. induction ks as [|k ks IH]; intros m0 H Hs; cbn [split_keys] in *; [now injection H as <-|].
  destruct k as [|a c]; [discriminate|]. apply (IH _ H). now apply insert_headed.
Qed.
Lemma split_ok ks m0 : Forall (fun k => k <> []) ks -> exists sp, split_keys ks m0 = Ok sp.
Proof.
  intros H. revert m0. induction H as [|k ks Hk H IH]; intros m0; [now exists m0|]. cbn [split_keys]. destruct k; [congruence|]. apply IH.
Qed.
Lemma split_panic ks m0 : In [] ks -> split_keys ks m0 = Panic.
Proof.
  revert m0. induction ks as [|k ks IH]; intros m0 H; [destruct H|destruct H as [H|H]].
  - subst. reflexivity.
  - cbn [split_keys]. destruct k; [reflexivity|auto].
Qed.
Lemma find_get {V} g (l : list (Z * V)) : find (fun s => fst s =? g) l = option_map (fun v => (g, v)) (bm_get Z.ltb g l).
Proof.
  induction l as [|[a v] l IH]; cbn [find bm_get fst]; [reflexivity|]. destruct (a =? g) eqn:E.
  - replace ((g <? a) || (a <? g)) with false by lia. assert (a = g) as -> by lia. reflexivity.
  - replace ((g <? a) || (a <? g)) with true by lia. exact IH.
Qed.

(** ** The written sets *)
Definition value_of (m : list (list Z * Z)) (k : list Z) : Z := match bm_get lex_ltb k m with Some g => g | None => 0 end.
Definition sets_of (m : list (list Z * Z)) (sp : list (Z * list (list Z))) : lig_sets :=
  map (fun s : Z * list (list Z) => (fst s, map (fun k => (value_of m k, tl k)) (snd s))) sp.
Lemma entries_of m sp : headed_ok sp -> lig_entries (sets_of m sp) = map (fun k => (k, value_of m k)) (concat (map snd sp)).
Proof.
  intros H. unfold lig_entries, sets_of. rewrite map_map. cbn [fst snd]. induction H as [|[g ks] sp H1 H2 IH]; [reflexivity|].
  cbn [map concat fst snd] in *. rewrite map_app, IH. f_equal. rewrite map_map. cbn [fst snd]. apply map_ext_in. intros k Hk.
  rewrite Forall_forall in H1. now rewrite <- (H1 k Hk).
Qed.
Lemma values_id m : ordered m -> map (fun k => (k, value_of m k)) (map fst m) = m.
Proof.
  intros H. rewrite map_map. transitivity (map (fun x : list Z * Z => x) m); [|apply map_id]. apply map_ext_in. intros [k g] Hk. cbn [fst].
  unfold value_of. now rewrite (In_get _ lex_strict _ _ _ H Hk).
Qed.

(** shaping with the written sets *)
Lemma starts_prefix k s : starts_with k s = true <-> is_prefix k s.
Proof.
  revert s. induction k as [|a k IH]; intros s; cbn [starts_with]; [split; auto; intros _; now exists s|].
  destruct s as [|b s]; [split; [discriminate|intros [t E]; discriminate E]|].
  rewrite andb_true_iff, IH. split.
  - intros [E [t ->]]. exists t. assert (a = b) as -> by lia. reflexivity.
  - intros [t E]. injection E as -> ->. split; [lia|now exists t].
Qed.
Lemma prefix_same k1 k2 s : is_prefix k1 s -> is_prefix k2 s -> length k1 = length k2 -> k1 = k2.
Proof.
  intros [t1 ->] [t2 E] Hl. assert (X: firstn (length k1) (k1 ++ t1) = firstn (length k2) (k2 ++ t2)) by (now rewrite E, Hl).
  now rewrite !firstn_app_exact in X.
Qed.
Lemma find_map {A B} (p : B -> bool) (f : A -> B) l : find p (map f l) = option_map f (find (fun a => p (f a)) l).
Proof. induction l as [|a l IH]; cbn; [reflexivity|]. destruct (p (f a)); auto. Qed.
Lemma find_ext' {A} (p q : A -> bool) l : (forall a, In a l -> p a = q a) -> find p l = find q l.
Proof. induction l as [|a l IH]; intros H; cbn; [reflexivity|]. rewrite (H a (or_introl eq_refl)), IH; [reflexivity|]. intros; apply H; now right. Qed.
Lemma find_filter {A} (p q : A -> bool) l : find p (filter q l) = find (fun a => q a && p a) l.
Proof. induction l as [|a l IH]; cbn; [reflexivity|]. destruct (q a); cbn; [destruct (p a); auto|auto]. Qed.
Lemma get_map {V W} (f : V -> W) g (l : list (Z * V)) : bm_get Z.ltb g (map (fun s => (fst s, f (snd s))) l) = option_map f (bm_get Z.ltb g l).
Proof. induction l as [|[a v] l IH]; cbn [map bm_get fst snd]; [reflexivity|]. destruct (_ || _); [exact IH|reflexivity]. Qed.
Lemma shape_sets m ks sp input : split_keys ks [] = Ok sp ->
  shape (sets_of m sp) input = option_map (fun k => (value_of m k, length k)) (find (fun k => starts_with k input) ks).
Proof.
  intros H. pose proof (split_get _ _ _ H) as Hg. pose proof (split_headed _ _ _ H (Forall_nil _)) as Hh.
  assert (Hn: Forall (fun k => k <> []) ks).
  { apply Forall_forall. intros k Hk ->. rewrite (split_panic _ [] Hk) in H. discriminate. }
  destruct input as [|g rest].
  - cbn [shape]. replace (find _ ks) with (@None (list Z)); [reflexivity|]. symmetry. clear -Hn. induction Hn as [|k ks Hk H IH]; [reflexivity|].
    cbn [find]. destruct k; [congruence|]. exact IH.
  - cbn [shape]. rewrite find_get. unfold sets_of. rewrite get_map. specialize (Hg g). unfold all_at in Hg. cbn [bm_get app] in Hg.
    assert (X: find (fun k => starts_with k (g :: rest)) ks = find (fun k => starts_with (tl k) rest) (filter (headed g) ks)).
    { rewrite find_filter. apply find_ext'. intros k Hk. rewrite Forall_forall in Hn. specialize (Hn k Hk). destruct k as [|a c]; [congruence|]. reflexivity. }
    rewrite X, <- Hg. destruct (bm_get Z.ltb g sp) as [l|] eqn:E; cbn [option_map]; [|reflexivity]. cbn [snd]. rewrite find_map. cbn [snd fst].
    apply (get_In _ Z_strict) in E. unfold headed_ok in Hh. rewrite Forall_forall in Hh. specialize (Hh _ E). cbn [fst snd] in Hh.
    destruct (find (fun k => starts_with (tl k) rest) l) as [k|] eqn:Ef; cbn [option_map fst snd]; [|reflexivity].
    apply find_some in Ef as [Ef _]. rewrite Forall_forall in Hh. pose proof (f_equal (@length Z) (Hh k Ef)) as L. cbn [length] in L. now rewrite L.
Qed.
Lemma find_longest ks input k : StronglySorted longer ks -> find (fun k => starts_with k input) ks = Some k ->
  forall k', In k' ks -> is_prefix k' input -> (length k' <= length k)%nat.
Proof.
  induction 1 as [|x ks H IH F]; cbn [find]; [discriminate|]. destruct (starts_with x input) eqn:E.
  - intros [= ->] k' [->|Hk] _; [lia|]. rewrite Forall_forall in F. exact (F k' Hk).
  - intros Hf k' [->|Hk] Hp; [apply starts_prefix in Hp; congruence|]. now apply IH.
Qed.
Lemma shape_longest m sp : ordered m -> split_keys (sort_long (map fst m)) [] = Ok sp -> forall input r,
  shape (sets_of m sp) input = Some r <-> longest m input r.
Proof.
  intros Ho H input r. rewrite (shape_sets _ _ _ _ H). pose proof (sort_long_perm (map fst m)) as P. pose proof (sort_long_sorted (map fst m)) as S.
  assert (V: forall k, In k (map fst m) -> In (k, value_of m k) m).
  { intros k Hk. rewrite <- (values_id m Ho) at 2. apply (in_map (fun k => (k, value_of m k))) in Hk. exact Hk. }
  split.
  - destruct (find _ _) as [k|] eqn:E; [|discriminate]. cbn [option_map]. intros [= <-]. pose proof (find_longest _ _ _ S E) as L.
    apply find_some in E as [E1 E2]. apply starts_prefix in E2. exists k. cbn [fst snd]. split; [apply V; now rewrite <- P|].
    split; [exact E2|]. split; [reflexivity|]. intros k' g' Hin Hp. apply L; [|exact Hp]. rewrite P. now apply (in_map fst) in Hin.
  - intros (k & Hin & Hp & Hl & Hmax). destruct (find _ _) as [k2|] eqn:E.
    + pose proof (find_longest _ _ _ S E k) as L. apply find_some in E as [E1 E2]. apply starts_prefix in E2. rewrite P in E1.
      specialize (Hmax _ _ (V _ E1) E2). assert (In k (sort_long (map fst m))) as Hk by (rewrite P; now apply (in_map fst) in Hin).
      specialize (L Hk Hp). assert (k2 = k) as -> by (eapply prefix_same; eauto; lia). cbn [option_map]. f_equal.
      destruct r as [rg rn]. cbn [fst snd] in *. subst rn. f_equal. unfold value_of. now rewrite (In_get _ lex_strict _ _ _ Ho Hin).
    + exfalso. apply find_none with (x := k) in E; [|rewrite P; now apply (in_map fst) in Hin]. apply starts_prefix in Hp. congruence.
Qed.

(** ** Writing *)
Lemma sp_sub (sp : list (Z * list (list Z))) s k : In s sp -> In k (snd s) -> In k (concat (map snd sp) : list (list Z)).
Proof. intros H1 H2. apply in_concat. exists (snd s). split; [|exact H2]. now apply in_map. Qed.
Lemma sp_len (sp : list (Z * list (list Z))) s : In s sp -> (length (snd s) <= length (concat (map snd sp)))%nat.
Proof.
  induction sp as [|x sp IH]; [intros []|]. intros [->|H]; cbn [map concat]; rewrite app_length; [lia|]. specialize (IH H). lia.
Qed.
Lemma sp_nonempty ks m0 sp : split_keys ks m0 = Ok sp -> Forall (fun s => snd s <> []) m0 -> Forall (fun s => snd s <> []) sp.
Proof.
  revert m0. induction ks as [|k ks IH]; intros m0 H Hs; cbn [split_keys] in *; [now injection H as <-|].
  destruct k as [|a c]; [discriminate|]. apply (IH _ H). clear -Hs. generalize (match bm_get Z.ltb a m0 with Some l => l | None => [] end). intros l.
  assert (X: l ++ [a :: c] <> []) by (destruct l; discriminate). induction Hs as [|[b y] m Hb Hs IH]; cbn [bm_insert]; [now constructor|].
  destruct (a <? b); [constructor; [exact X|now constructor]|]. destruct (b <? a); constructor; auto.
Qed.
Lemma lig_enc_spec l : is_u16 (fst l) -> Z.of_nat (length (snd l)) < 65535 -> lig_enc l = Ok (lig_obj l).
Proof.
  intros H1 H2. unfold lig_enc, lig_obj, chk_u. rewrite u16_id by lia. change (2 ^ 16) with 65536.
  replace ((0 <=? Z.of_nat (length (snd l)) + 1) && (Z.of_nat (length (snd l)) + 1 <? 65536)) with true by lia. cbn [rbind].
  now rewrite words_ser, !word_u16.
Qed.
Lemma lig_low_sets m ks : Forall (fun k => In k (map fst m)) ks -> ordered m ->
  rmapM (lig_of m) ks = Ok (map Some (map (fun k => (value_of m k, tl k)) ks)).
Proof.
  intros H Ho. induction H as [|k ks Hk H IH]; [reflexivity|]. cbn [rmapM map]. unfold lig_of at 1, value_of at 1.
  apply in_map_iff in Hk as ((k' & g) & E & Hin). cbn [fst] in E. subst k'. rewrite (In_get _ lex_strict _ _ _ Ho Hin). cbn [unwrap rbind].
  now rewrite IH.
Qed.
Lemma lig_sets_enc (sets : lig_sets) : lig_sets_ok sets ->
  vec_enc (vec_enc lig_enc) (map (fun s => Some (map Some (snd s))) sets) = Ok (links (map (fun s => links (map lig_obj (snd s))) sets)).
Proof.
  intros [Hc H]. rewrite <- (map_map (fun s : Z * list (Z * list Z) => map Some (snd s)) Some).
  destruct (vec_enc_ok (vec_enc lig_enc) (fun v o => exists l, v = map Some l /\ o = links (map lig_obj l)) (map (fun s : Z * list (Z * list Z) => map Some (snd s)) sets)) as (os & E & F).
  - unfold countable in *. now rewrite map_length.
  - apply Forall_map. eapply Forall_impl; [|exact H]. intros [g l] [H1 H2]. cbn [snd] in *. exists (links (map lig_obj l)). split; [|now exists l].
    destruct (vec_enc_ok lig_enc (fun v o => o = lig_obj v) l H1) as (os & E & F).
    { eapply Forall_impl; [|exact H2]. intros x (X1 & X2 & X3). exists (lig_obj x). split; [now apply lig_enc_spec|reflexivity]. }
    etransitivity; [exact E|]. apply F2_map in F. now rewrite F.
  - etransitivity; [exact E|]. do 2 f_equal. clear -F. remember (map (fun s : Z * list (Z * list Z) => map Some (snd s)) sets) as vs eqn:Ev. revert sets Ev.
    induction F as [|v o vs os (l & -> & ->) F IH]; intros [|[g l2] sets] Ev; cbn [map] in *; try discriminate; [reflexivity|].
    injection Ev as E1 E2. f_equal; [|now apply IH]. cbn [snd] in E1.
    assert (X: forall a b : list (Z * list Z), map Some a = map Some b -> a = b).
    { induction a as [|x a IHa]; intros [|y b] Eq; try discriminate; [reflexivity|]. cbn [map] in Eq. injection Eq as -> Eq. f_equal. auto. }
    cbn [snd]. now rewrite (X _ _ E1).
Qed.
Lemma lig_written m : lig_map m -> exists s o sets, lig_to_low m = Ok s /\ gsub_enc s = Ok o /\
  ligs_obj sets o /\ lig_sets_ok sets /\ glyph_map (fun _ => True) sets /\ Permutation (lig_entries sets) m /\
  Forall (fun s => snd s <> []) sets /\
  forall input r, shape sets input = Some r <-> longest m input r.
Proof.
  intros (Ho & Hc & Hk).
  destruct (split_ok (sort_long (map fst m)) []) as (sp & E).
  { rewrite sort_long_perm. apply Forall_map. eapply Forall_impl; [|exact Hk]. intros [k g] [H1 _] Eq. cbn [fst] in *. now subst k. }
  pose proof (split_sorted _ _ _ E (SSorted_nil _)) as Hs. pose proof (split_headed _ _ _ E (Forall_nil _)) as Hh.
  pose proof (split_perm _ _ _ E (SSorted_nil _)) as Hp. cbn [map concat] in Hp. rewrite app_nil_r, sort_long_perm in Hp.
  pose proof (sp_nonempty _ _ _ E (Forall_nil _)) as Hne.
  assert (Hin: forall s k, In s sp -> In k (snd s) -> In k (map fst m)). { intros s k H1 H2. rewrite <- Hp. now apply sp_sub with s. }
  assert (Hkok: forall k, In k (map fst m) -> sequence_ok k /\ is_u16 (value_of m k)).
  { intros k Hi. apply in_map_iff in Hi as ((k' & g) & Eq & Hi). cbn [fst] in Eq. subst k'. unfold value_of. rewrite (In_get _ lex_strict _ _ _ Ho Hi).
    rewrite Forall_forall in Hk. exact (Hk _ Hi). }
  assert (Hg: Forall is_glyph (map fst sp)).
  { apply Forall_map. apply Forall_forall. intros [g l] Hi. cbn [fst]. unfold headed_ok in Hh. rewrite Forall_forall in Hne, Hh. specialize (Hne _ Hi). specialize (Hh _ Hi).
    cbn [fst snd] in *. destruct l as [|k l]; [congruence|]. inversion Hh; subst. specialize (Hin _ k Hi (or_introl eq_refl)).
    apply Hkok in Hin as [Hq _]. match goal with X : k = _ :: tl k |- _ => rewrite X in Hq end. apply Hq. }
  assert (Hi: increasing (map fst sp)).
  { apply SS_increasing. unfold sorted_map, sorted_keys in Hs. clear -Hs. induction Hs as [|a l Hs IH F]; constructor; [exact IH|].
    eapply Forall_impl; [|exact F]. cbn beta. intros; lia. }
  assert (Hf: map fst (sets_of m sp) = map fst sp) by (unfold sets_of; rewrite map_map; reflexivity).
  assert (Hok: lig_sets_ok (sets_of m sp)).
  { split.
    - unfold countable. rewrite <- (map_length fst), Hf. apply (glyphs_count _ Hi Hg).
    - unfold sets_of. apply Forall_map. apply Forall_forall. intros s Hin_s. cbn [snd]. split.
      + unfold countable in *. rewrite map_length. pose proof (sp_len sp s Hin_s) as L. rewrite (Permutation_length Hp), map_length in L. lia.
      + apply Forall_map. apply Forall_forall. intros k Hin_k. cbn [fst snd]. destruct (Hkok k (Hin _ _ Hin_s Hin_k)) as [Hq Hv].
        split; [exact Hv|]. destruct k as [|a c]; [destruct Hq|]. cbn [sequence_ok tl] in *. tauto. }
  destruct (cov_link (map fst sp) Hi Hg) as (c & Ec & Cc).
  assert (El: rmapM (fun kv : Z * list (list Z) => l <- rmapM (lig_of m) (snd kv) ;; Ok (Some l)) sp =
              Ok (map (fun s => Some (map Some (snd s))) (sets_of m sp))).
  { unfold sets_of. rewrite map_map. cbn [snd]. clear -Hin Ho. induction sp as [|s sp IH]; [reflexivity|]. cbn [rmapM map].
    rewrite lig_low_sets; [|apply Forall_forall; intros k Hk; apply (Hin s k (or_introl eq_refl) Hk)|exact Ho]. cbn [rbind].
    rewrite IH; [reflexivity|]. intros s' k H1 H2. apply (Hin s' k); [now right|exact H2]. }
  eexists _, _, (sets_of m sp). split; [unfold lig_to_low; rewrite E; cbn [rbind]; rewrite El; cbn [rbind]; reflexivity|].
  split; [cbn [gsub_enc]; rewrite Ec; cbn [rbind]; rewrite (lig_sets_enc _ Hok); cbn [rbind]; rewrite <- word_u16; reflexivity|].
  split; [constructor; now rewrite Hf|]. split; [exact Hok|].
  split. { split; [now rewrite Hf|]. apply Forall_forall. intros s Hsn. split; [|exact I]. rewrite <- Hf in Hg. rewrite Forall_forall in Hg. apply Hg. now apply in_map. }
  split; [rewrite (entries_of _ _ Hh), Hp, (values_id _ Ho); reflexivity|].
  split; [|now apply shape_longest]. unfold sets_of. apply Forall_map. eapply Forall_impl; [|exact Hne]. intros [g [|]]; cbn [snd map]; congruence.
Qed.
Lemma lig_empty_panics m : In [] (map fst m) -> lig_to_low m = Panic.
Proof. intros H. unfold lig_to_low. rewrite split_panic; [reflexivity|]. now rewrite sort_long_perm. Qed.

(** ** Reading *)
Lemma lig_reads l : is_u16 (fst l) -> Z.of_nat (length (snd l)) < 65535 -> Forall is_u16 (snd l) -> decodes lig_de (lig_obj l) l.
Proof.
  intros H1 H2 H3. destruct l as [g c]. cbn [fst snd] in *. apply decodes_reads. unfold lig_de. cbn [fst snd]. rewrite !word_u16.
  eapply reads_bind; [apply reads_u16; unfold is_u16 in *; lia|]. eapply reads_bind; [apply reads_u16; lia|].
  replace (Z.of_nat (length c) + 1 =? 0) with false by lia. apply (reads_map _ (fun c => (g, c))).
  replace (Z.to_nat (Z.of_nat (length c) + 1 - 1)) with (length c) by lia. unfold words. rewrite map_words_u. apply reads_counted. eapply Forall_impl; [|exact H3]. intros z Hz. apply reads_u16. unfold is_u16 in Hz. lia.
Qed.
Definition low_sets (sets : lig_sets) : list (option (list (option ligature))) := map (fun s => Some (map Some (snd s))) sets.
Lemma lig_low sets o : ligs_obj sets o -> lig_sets_ok sets -> decodes g41_de o (G41 1 (Some (map fst sets)) (low_sets sets)).
Proof.
  intros [c Hc] [H1 H2]. apply decodes_part. eapply part_bind; [apply part_word; unfold is_u16; lia|]. eapply part_bind; [eapply part_cov; eassumption|].
  apply (part_map _ (fun s => G41 1 (Some (map fst sets)) s)). unfold low_sets. rewrite <- (map_map (fun s : Z * list (Z * list Z) => map Some (snd s)) Some).
  apply part_vec; [|unfold countable in *; now rewrite map_length]. clear -H2. induction H2 as [|[g l] sets [X1 X2] H2 IH]; cbn [map]; constructor; [|exact IH].
  cbn [snd] in *. apply decodes_part. apply part_vec; [|unfold countable in *; now rewrite map_length].
  clear -X2. induction X2 as [|x l (Y1 & Y2 & Y3) X2 IH]; cbn [map]; constructor; [now apply lig_reads|exact IH].
Qed.
Lemma set_entries_some g l : set_entries (g, Some (map Some l)) = Ok (map (fun x : Z * list Z => (g :: snd x, fst x)) l).
Proof.
  unfold set_entries. cbn [snd fst unwrap rbind]. induction l as [|x l IH]; [reflexivity|]. cbn [map rmapM unwrap rbind]. now rewrite IH.
Qed.
Lemma lig_from_sets sets : lig_from_low (G41 1 (Some (map fst sets)) (low_sets sets)) = Ok (bm_of_list lex_ltb (lig_entries sets)).
Proof.
  cbn [lig_from_low unwrap rbind]. unfold low_sets, lig_entries.
  assert (E: rmapM set_entries (combine (map fst sets) (map (fun s : Z * list (Z * list Z) => Some (map Some (snd s))) sets)) =
             Ok (map (fun s => map (fun l => (fst s :: snd l, fst l)) (snd s)) sets)).
  { induction sets as [|[g l] sets IH]; [reflexivity|]. cbn [map combine rmapM fst snd]. rewrite set_entries_some. cbn [rbind]. now rewrite IH. }
  match goal with |- rbind ?e _ = _ => change e with (rmapM set_entries (combine (map fst sets) (map (fun s : Z * list (Z * list Z) => Some (map Some (snd s))) sets))) end. now rewrite E.
Qed.
Lemma in_of_list es k (g : Z) : In (k, g) (bm_of_list lex_ltb es) <-> last_entry es k g.
Proof.
  assert (G: bm_get lex_ltb k (bm_of_list lex_ltb es) = Some g <-> last_entry es k g).
  { unfold bm_of_list. rewrite (get_fold_insert _ lex_strict). cbn [bm_get]. unfold last_entry. induction es as [|[k1 g1] es IH] using rev_ind.
    - cbn. split; [discriminate|]. intros (a & b & E & _). destruct a; discriminate.
    - rewrite rev_app_distr. cbn [rev app find fst snd]. destruct (lex_ltb k k1 || lex_ltb k1 k) eqn:E; cbn [negb].
      + assert (N: k <> k1) by (intros ->; rewrite (st_irrefl _ lex_strict) in E; discriminate). rewrite IH. split.
        * intros (a & b & -> & Hb). exists a, (b ++ [(k1, g1)]). split; [now rewrite <- app_assoc|]. rewrite map_app, in_app_iff. cbn. intuition congruence.
        * intros (a & b & Eq & Hb). destruct b as [|[k2 g2] b _] using rev_ind; [apply app_inj_tail in Eq as [_ Eq]; injection Eq as -> ->; congruence|].
          rewrite app_comm_cons, app_assoc in Eq. apply app_inj_tail in Eq as [-> _]. exists a, b. split; [reflexivity|]. intros X. apply Hb. rewrite map_app, in_app_iff. now left.
      + apply (eq_case _ lex_strict) in E. subst k1. split.
        * intros [= ->]. exists es, []. split; [reflexivity|easy].
        * intros (a & b & Eq & Hb). destruct b as [|[k2 g2] b _] using rev_ind; [now apply app_inj_tail in Eq as [_ [= ->]]|].
          rewrite app_comm_cons, app_assoc in Eq. apply app_inj_tail in Eq as [_ [= -> ->]]. elim Hb. rewrite map_app, in_app_iff. right. now left. }
  rewrite <- G. split; [apply (In_get _ lex_strict), (of_list_sorted _ lex_strict)|apply (get_In _ lex_strict)].
Qed.
Lemma last_nodup {K V} (es : list (K * V)) k g : NoDup (map fst es) -> (last_entry es k g <-> In (k, g) es).
Proof.
  intros H. split.
  - intros (a & b & -> & _). rewrite in_app_iff. right. now left.
  - intros Hin. apply in_split in Hin as (a & b & ->). exists a, b. split; [reflexivity|]. rewrite map_app in H. cbn [map fst] in H. apply NoDup_remove_2 in H.
    intros X. apply H. rewrite in_app_iff. now right.
Qed.
Lemma ordered_ext (m1 m2 : list (list Z * Z)) : ordered m1 -> ordered m2 -> (forall k g, In (k, g) m1 <-> In (k, g) m2) -> m1 = m2.
Proof.
  intros H1 H2 H. apply (sorted_map_ext _ lex_strict _ _ H1 H2). intros k. destruct (bm_get lex_ltb k m1) as [g|] eqn:E1.
  - apply (get_In _ lex_strict) in E1. apply H in E1. symmetry. now apply (In_get _ lex_strict).
  - destruct (bm_get lex_ltb k m2) as [g|] eqn:E2; [|reflexivity]. apply (get_In _ lex_strict) in E2. apply H in E2.
    apply (In_get _ lex_strict _ _ _ H1) in E2. congruence.
Qed.
Lemma ordered_nodup {V} (m : list (list Z * V)) : ordered m -> NoDup (map fst m).
Proof.
  unfold ordered. induction 1 as [|a l H IH F]; constructor; [|exact IH]. intros Hin. rewrite Forall_forall in F. specialize (F a Hin).
  cbn beta in F. now rewrite (st_irrefl _ lex_strict) in F.
Qed.
Lemma lig_read sets o : ligs_obj sets o -> lig_sets_ok sets -> exists s m, decodes g41_de o s /\ lig_from_low s = Ok m /\
  ordered m /\ forall k g, In (k, g) m <-> last_entry (lig_entries sets) k g.
Proof.
  intros H1 H2. exists (G41 1 (Some (map fst sets)) (low_sets sets)), (bm_of_list lex_ltb (lig_entries sets)).
  split; [now apply lig_low|]. split; [apply lig_from_sets|]. split; [apply (of_list_sorted _ lex_strict)|apply in_of_list].
Qed.
Lemma lig_roundtrip m : lig_map m -> exists s o, lig_to_low m = Ok s /\ gsub_enc s = Ok o /\
  exists s', decodes g41_de o s' /\ lig_from_low s' = Ok m.
Proof.
  intros Hm. destruct (lig_written m Hm) as (s & o & sets & E1 & E2 & Ho & Hok & _ & Hp & _). exists s, o. split; [exact E1|]. split; [exact E2|].
  destruct (lig_read sets o Ho Hok) as (s' & m' & D & F & O & L). exists s'. split; [exact D|]. rewrite F. f_equal. apply ordered_ext; [exact O|apply Hm|].
  intros k g. rewrite L, last_nodup; [now rewrite Hp|]. rewrite (Permutation_map fst Hp). apply ordered_nodup, Hm.
Qed.

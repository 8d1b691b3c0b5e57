(** Proofs about ttf-edit-math. *)
From Coq Require Import String Sorted Lia.
From Verif.Model Require Import MBase MTag MMap MFont MFixed MTables MMetrics MGlyph MGlyf MStore MPost MCmap MOffset MLayout MLow MMath MCli MEditMath.
From Verif.Spec Require Import SBase SFont SStore SCli SEditMath.
From Verif.Proofs Require Import PBase PTag PMap PFont PStore PSave PLoad PCli PNames.
From Verif.Proofs Require PCmap4.
Local Open Scope Z_scope.

(** ** Glyph numbers read are numbers *)
Lemma yields_offset {A} (p : parser A) (P : A -> Prop) : yields p P ->
  yields (de_off16 p) (fun o => match o with Some a => P a | None => True end).
Proof.
  intros Y. unfold de_off16, de_offset. apply (yields_bind _ _ any); [apply yields_prim|]. intros off _.
  destruct (off =? 0); [now apply yields_ret|]. intros r x r' B E. destruct (unwrap (try_u 16 off)) as [v| |]; try discriminate.
  unfold follow_offset in E. destruct (top_of_table r) as [t| |]; try discriminate. cbn [rbind] in E.
  destruct (_ <? _)%nat; [discriminate|]. match type of E with context [p ?x] => destruct (p x) as [[a r2]| |] eqn:Ep; try discriminate end.
  injection E as <- <-. apply Y in Ep; [|exact B]. cbn [rd_input] in *. tauto.
Qed.
Definition numbers (l : list Z) : Prop := Forall (fun g => 0 <= g) l.
Lemma yields_u16 : yields de_u16 (fun g => 0 <= g).
Proof. apply (yields_weak _ _ _ (yields_unsigned U16 eq_refl)). cbn beta. lia. Qed.
Lemma yields_counted16 {A} (p : parser A) (P : A -> Prop) : yields p P -> yields (de_counted16 p) (Forall P).
Proof. intros Y. unfold de_counted16. apply (yields_bind _ _ any); [apply yields_prim|]. intros n _. now apply yields_counted. Qed.
Lemma yields_cov : yields cov_de numbers.
Proof.
  unfold cov_de. apply (yields_bind _ _ any); [apply yields_prim|]. intros f _. destruct (f =? 1); [apply yields_counted16, yields_u16|].
  apply (yields_bind _ _ (Forall (fun t => 0 <= fst (fst t)))).
  - apply yields_counted16. unfold de_triple. apply (yields_bind _ _ _ _ yields_u16). intros a Ha.
    do 2 (apply (yields_bind _ _ any); [apply yields_prim|]; intros ? _). now apply yields_ret.
  - intros rs Hrs. apply yields_lift. induction Hrs as [|[[s e] i] rs Hs Hrs IH]; cbn [cov_expand]; intros x E; [injection E as <-; constructor|].
    unfold chk_u in E. destruct (_ && _); [|discriminate]. cbn [rbind] in E. destruct (cov_expand rs) as [l| |]; try discriminate. cbn [rbind] in E. injection E as <-.
    apply Forall_app. split; [|now apply IH]. apply Forall_forall. intros g Hg. apply PCmap4.zrange_In in Hg. cbn [fst] in Hs. lia.
Qed.
Definition maybe (o : option (list Z)) : Prop := match o with Some l => numbers l | None => True end.
Lemma yields_de_cov : yields de_cov maybe.
Proof. apply (yields_weak _ _ _ (yields_offset _ _ yields_cov)). now intros [l|]. Qed.
Lemma yields_device : yields dv_de any.
Proof.
  unfold dv_de. do 3 (apply (yields_bind _ _ any); [apply yields_prim|]; intros ? _). destruct (_ =? _); [now apply yields_ret|].
  do 2 (apply (yields_bind _ _ any); [now apply yields_lift|]; intros ? _). destruct (3 <? _); [apply yields_panic|].
  apply (yields_bind _ _ any); [|intros; now apply yields_ret]. generalize 0 at 1. generalize 0. induction (Z.to_nat _) as [|n IH]; intros t sh; cbn [dv_unpack]; [now apply yields_ret|].
  apply (yields_bind _ _ any).
  - destruct (_ =? _); [|now apply yields_ret]. apply (yields_bind _ _ any); [apply yields_prim|]. intros; now apply yields_ret.
  - intros ts _. apply (yields_bind _ _ any); [apply IH|]. intros; now apply yields_ret.
Qed.
Lemma yields_any {A} (p : parser A) (P : A -> Prop) : yields p P -> yields p any.
Proof. intros Y. apply (yields_weak _ _ _ Y). intros; exact I. Qed.
Ltac walk := apply (yields_bind _ _ any); [|intros ? _].
Lemma yields_value : yields mvalue_de any.
Proof. unfold mvalue_de. walk; [apply yields_prim|]. walk; [eapply yields_any, yields_offset, yields_device|]. now apply yields_ret. Qed.
Lemma yields_per_glyph : yields per_glyph_de (fun t => maybe (fst t)).
Proof. unfold per_glyph_de. apply (yields_bind _ _ _ _ yields_de_cov). intros c Hc. walk; [eapply yields_any, yields_counted16, yields_value|]. now apply yields_ret. Qed.
Lemma yields_kern : yields kern_de any.
Proof. unfold kern_de. walk; [apply yields_prim|]. do 2 (walk; [eapply yields_any, yields_counted, yields_value|]). now apply yields_ret. Qed.
Lemma yields_corners : yields corners_de any.
Proof. unfold corners_de. do 4 (walk; [eapply yields_any, yields_offset, yields_kern|]). now apply yields_ret. Qed.
Lemma yields_kern_info : yields kern_info_de (fun t => maybe (fst t)).
Proof. unfold kern_info_de. apply yields_base. apply (yields_bind _ _ _ _ yields_de_cov). intros c Hc. walk; [eapply yields_any, yields_counted16, yields_corners|]. now apply yields_ret. Qed.
Definition covered {A} (o : option (option (list Z) * A)) : Prop := match o with Some t => maybe (fst t) | None => True end.
Definition sane (g : mglyph_info) : Prop := covered (gi_italics g) /\ covered (gi_accents g) /\ maybe (gi_extended g) /\ covered (gi_kerns g).
Lemma yields_glyph_info : yields glyph_info_de sane.
Proof.
  unfold glyph_info_de. apply yields_base.
  apply (yields_bind _ _ covered); [apply (yields_weak _ _ _ (yields_offset _ _ yields_per_glyph)); now intros [?|]|intros a Ha].
  apply (yields_bind _ _ covered); [apply (yields_weak _ _ _ (yields_offset _ _ yields_per_glyph)); now intros [?|]|intros b Hb].
  apply (yields_bind _ _ _ _ yields_de_cov). intros c Hc.
  apply (yields_bind _ _ covered); [apply (yields_weak _ _ _ (yields_offset _ _ yields_kern_info)); now intros [?|]|intros d Hd].
  apply yields_ret. now repeat split.
Qed.
Lemma yields_constants : yields constants_de any.
Proof.
  unfold constants_de. do 4 (walk; [apply yields_prim|]). walk; [|walk; [apply yields_prim|now apply yields_ret]].
  induction constant_fields as [|n l IH]; cbn [fields_de]; [now apply yields_ret|]. walk; [apply yields_value|]. walk; [exact IH|]. now apply yields_ret.
Qed.
(** A table of glyphs: in increasing order. *)
Definition numbered {A} (l : list (Z * A)) : Prop := StronglySorted Z.lt (map fst l) /\ numbers (map fst l).
Lemma z_strict : strict_total Z.ltb.
Proof. split; intros; lia. Qed.
Lemma collected_numbered {A} (o : option (option (list Z) * list A)) : covered o -> numbered (collected o).
Proof.
  destruct o as [[c l]|]; cbn [covered collected fst]; [|intros _; split; constructor]. intros H. split.
  - pose proof (of_list_sorted _ z_strict (zipped c l)) as S0. unfold sorted_map, sorted_keys in S0.
    revert S0. generalize (map fst (bm_of_list Z.ltb (zipped c l))). intros ks. induction 1 as [|k ks S0 IH F]; constructor; [exact IH|].
    apply (Forall_impl _ (fun a => proj1 (Z.ltb_lt k a)) F).
  - apply Forall_forall. intros g Hg. apply in_map_iff in Hg as ([g' a] & <- & Hg). 
    apply (In_get _ z_strict) in Hg; [|apply of_list_sorted, z_strict]. unfold bm_of_list in Hg. rewrite (get_fold_insert _ z_strict) in Hg.
    cbn [bm_get] in Hg. destruct (find _ _) as [[k b]|] eqn:E; [|discriminate]. apply find_some in E as [E1 E2]. cbn [fst] in *.
    apply negb_true_iff, (eq_case _ z_strict) in E2. subst k. apply in_rev in E1. unfold zipped in E1. apply in_combine_l in E1.
    destruct c as [c|]; [|destruct E1]. cbn [cov_or_nah maybe] in *. unfold numbers in H. rewrite Forall_forall in H. now apply H.
Qed.
Definition math_sane (t : math) : Prop := numbered (mt_italics t) /\ numbered (mt_accents t) /\ numbers (mt_extended t) /\ numbered (mt_kerning t).
Lemma yields_math : forall d t, Forall is_byte d -> from_bytes math_read d = Ok t -> math_sane t.
Proof.
  intros d t HB E. unfold from_bytes in E. destruct (math_read (rd_new d)) as [[t' r']| |] eqn:E0; try discriminate. injection E as ->.
  assert (HB0: Forall is_byte (rd_input (rd_new d))) by exact HB. revert HB0 E0. generalize (rd_new d). clear d HB. intros r HB E.
  unfold math_read in E. unfold pbind at 1 in E. destruct (de_u16 r) as [[x1 r1]| |] eqn:E1; try discriminate.
  apply yields_u16 in E1 as [I1 _]; [|exact HB]. unfold pbind at 1 in E. destruct (de_u16 r1) as [[x2 r2]| |] eqn:E2; try discriminate.
  apply yields_u16 in E2 as [I2 _]; [|now rewrite I1]. unfold pbind at 1 in E. destruct (de_off16 constants_de r2) as [[c r3]| |] eqn:E3; try discriminate.
  apply (yields_offset _ _ yields_constants) in E3 as [I3 _]; [|now rewrite I2, I1]. unfold pbind at 1 in E. destruct (de_off16 glyph_info_de r3) as [[g r4]| |] eqn:E4; try discriminate.
  apply (yields_offset _ _ yields_glyph_info) in E4 as [_ S4]; [|now rewrite I3, I2, I1]. unfold pbind at 1 in E. destruct (de_off16 variants_de r4) as [[v r5]| |]; try discriminate.
  destruct c as [c|]; [|discriminate]. injection E as <- _. unfold math_sane. cbn [mt_italics mt_accents mt_extended mt_kerning].
  destruct g as [g|]; [|repeat split; constructor]. destruct S4 as (A1 & A2 & A3 & A4).
  split; [now apply collected_numbered|]. split; [now apply collected_numbered|]. split; [|now apply collected_numbered].
  apply Forall_forall. intros x Hx. apply (proj1 (bs_of_list_In _ _)) in Hx. revert A3 Hx. destruct (gi_extended g) as [l|]; [|intros _ []]. cbn [maybe cov_or_nah].
  unfold numbers. rewrite Forall_forall. intros A3. apply A3.
Qed.

(** ** Names *)
Definition value10 (ds : list Z) : Z := fold_left (fun a d => 10 * a + (d - 48)) ds 0.
Lemma value10_snoc ds d : value10 (ds ++ [d]) = 10 * value10 ds + (d - 48).
Proof. unfold value10. rewrite fold_left_app. reflexivity. Qed.
Lemma decimal_ok k n : 0 <= n < 2 ^ Z.of_nat k -> (0 < k)%nat -> in_decimal (decimal_digits k n) n.
Proof.
  revert n. induction k as [|k IH]; intros n Hn Hk; [lia|]. cbn [decimal_digits].
  destruct (Z.ltb_spec n 10) as [L|L].
  - cbn [app]. rewrite Z.mod_small by lia. split; [easy|]. split; [repeat constructor; lia|]. split; [cbn [hd]; congruence|cbn [fold_left]; lia].
  - assert (Hk': (0 < k)%nat). { destruct k; [change (2 ^ Z.of_nat 1) with 2 in Hn; lia|lia]. }
    assert (Hd: 0 <= n / 10 < 2 ^ Z.of_nat k).
    { rewrite Nat2Z.inj_succ, Z.pow_succ_r in Hn by lia. split; [apply Z.div_pos; lia|]. apply Z.div_lt_upper_bound; lia. }
    destruct (IH _ Hd Hk') as (N1 & N2 & N3 & N4). pose proof (Z.mod_pos_bound n 10 ltac:(lia)).
    assert (Q: 1 <= n / 10) by (apply Z.div_le_lower_bound; lia).
    split; [intros X; apply app_eq_nil in X as [_ X]; discriminate|]. split; [apply Forall_app; split; [exact N2|repeat constructor; lia]|].
    split.
    + destruct (decimal_digits k (n / 10)) as [|d ds]; [now elim N1|]. cbn [app hd] in *. intros ->. rewrite N3 in N4 by reflexivity. cbn [fold_left] in N4. lia.
    + fold (value10 (decimal_digits k (n / 10) ++ [48 + n mod 10])). rewrite value10_snoc. unfold value10. rewrite N4. pose proof (Z.div_mod n 10 ltac:(lia)). lia.
Qed.
Lemma format_ok n : 0 <= n -> in_decimal (format_decimal n) n.
Proof.
  intros H. apply decimal_ok; [|lia]. split; [exact H|]. rewrite Nat2Z.inj_succ, Z2Nat.id by apply Z.log2_nonneg.
  destruct (Z.eq_dec n 0) as [->|]; [reflexivity|]. apply Z.log2_spec. lia.
Qed.
(** A number is written in one way only. *)
Lemma value10_lead ds : Forall (fun d => 48 <= d <= 57) ds -> ds <> [] -> hd 0 ds <> 48 -> 10 ^ (Z.of_nat (length ds) - 1) <= value10 ds.
Proof.
  induction ds as [|d ds IH] using rev_ind; intros F N H; [now elim N|]. rewrite value10_snoc, app_length. cbn [length].
  apply Forall_app in F as [F1 F2]. inversion_clear F2 as [|? ? D _].
  destruct ds as [|e es]; [cbn [app hd length value10 fold_left] in *; change (Z.of_nat (0 + 1) - 1) with 0; lia|].
  specialize (IH F1 ltac:(discriminate) H). replace (Z.of_nat (length (e :: es) + 1) - 1) with (Z.succ (Z.of_nat (length (e :: es)) - 1)) by lia.
  rewrite Z.pow_succ_r by (cbn [length]; lia). lia.
Qed.
Lemma decimal_unique ds n : in_decimal ds n -> forall ds', in_decimal ds' n -> ds = ds'.
Proof.
  enough (H: forall k n, 0 <= n < k -> forall ds ds', in_decimal ds n -> in_decimal ds' n -> ds = ds').
  { intros D ds' D'. assert (0 <= n). { destruct D as (_ & F & _ & <-). fold (value10 ds). clear - F. induction ds as [|d ds IH] using rev_ind; [reflexivity|].
      rewrite value10_snoc. apply Forall_app in F as [F1 F2]. inversion_clear F2. specialize (IH F1). lia. }
    apply (H (n + 1) n); auto. lia. }
  clear ds n. intros k. destruct (Z_lt_le_dec k 0) as [|Hk]; [lia|]. revert k Hk. apply (natlike_ind (fun k => forall n, 0 <= n < k -> forall ds ds', in_decimal ds n -> in_decimal ds' n -> ds = ds')); [lia|].
  intros k Hk IH n Hn ds ds' (N1 & F1 & L1 & V1) (N2 & F2 & L2 & V2). fold (value10 ds) in V1. fold (value10 ds') in V2.
  destruct (exists_last N1) as (a & x & ->). destruct (exists_last N2) as (b & y & ->). rewrite value10_snoc in V1, V2.
  apply Forall_app in F1 as [F1 X]. apply Forall_app in F2 as [F2 Y]. inversion_clear X as [|? ? X0 _]. inversion_clear Y as [|? ? Y0 _].
  assert (E: value10 a = value10 b /\ x = y) by lia. destruct E as [E ->]. f_equal.
  assert (Z0: forall c z, Forall (fun d => 48 <= d <= 57) c -> (hd 0 (c ++ [z]) = 48 -> c ++ [z] = [48]) -> c <> [] -> hd 0 c <> 48 /\ 0 < value10 c).
  { intros c z Fc Lc Nc. assert (hd 0 c <> 48). { destruct c as [|w c]; [now elim Nc|]. cbn [hd app] in *. intros ->. specialize (Lc eq_refl). destruct c; discriminate. }
    split; [assumption|]. pose proof (value10_lead c Fc Nc H). assert (0 < 10 ^ (Z.of_nat (length c) - 1)); [|lia]. apply Z.pow_pos_nonneg; [lia|]. destruct c; [now elim Nc|cbn [length]; lia]. }
  destruct a as [|a0 a]; destruct b as [|b0 b]; [reflexivity| | |].
  - destruct (Z0 _ _ F2 L2 ltac:(discriminate)) as [_ P]. rewrite <- E in P. cbn in P. lia.
  - destruct (Z0 _ _ F1 L1 ltac:(discriminate)) as [_ P]. rewrite E in P. cbn in P. lia.
  - destruct (Z0 _ _ F1 L1 ltac:(discriminate)) as [H1 P1]. destruct (Z0 _ _ F2 L2 ltac:(discriminate)) as [H2 P2].
    apply (IH (value10 (a0 :: a))); [lia| |].
    + split; [discriminate|]. split; [exact F1|]. split; [tauto|reflexivity].
    + split; [discriminate|]. split; [exact F2|]. split; [tauto|unfold value10 in *; congruence].
Qed.
Lemma label_called names g : 0 <= g -> called names g (glyph_label names g).
Proof.
  intros H. unfold called, glyph_label. destruct (nth_error names (Z.to_nat g)) as [n|] eqn:E; [now left|right].
  split; [now apply nth_error_None|]. exists (format_decimal g). split; [reflexivity|now apply format_ok].
Qed.
Lemma called_label names g n : 0 <= g -> called names g n -> n = glyph_label names g.
Proof.
  intros H C. destruct (label_called names g H) as [E|[E (ds & -> & D)]]; destruct C as [C|[C (ds' & -> & D')]].
  - congruence.
  - apply nth_error_None in C. congruence.
  - apply nth_error_None in E. congruence.
  - f_equal. eapply decimal_unique; eassumption.
Qed.

(** ** Tables by name *)
Lemma sorted_last {A} (l : list (Z * A)) g a g' a' q : StronglySorted Z.lt (map fst l) -> 
  find q (rev l) = Some (g, a) -> In (g', a') l -> q (g', a') = true -> g' <= g.
Proof.
  induction l as [|[k x] l IH]; cbn [map fst rev]; intros S0 F Hin Q; [destruct Hin|]. apply StronglySorted_inv in S0 as [S0 F0].
  rewrite find_app in F. destruct (find q (rev l)) as [[h y]|] eqn:E.
  - injection F as -> ->. destruct Hin as [X|Hin].
    + injection X as -> ->. apply find_some in E as [E _]. apply in_rev in E. rewrite Forall_forall in F0. apply (in_map fst) in E. specialize (F0 _ E). cbn [fst] in F0. lia.
    + now apply (IH S0 eq_refl).
  - cbn [find] in F. destruct (q (k, x)); [|discriminate]. injection F as -> ->. destruct Hin as [X|Hin]; [injection X as -> ->; lia|].
    apply in_rev in Hin. apply (find_none _ _ E) in Hin. congruence.
Qed.
Lemma by_label_in {A} names (l : list (Z * A)) n a : numbered l ->
  (In (n, a) (by_label names l) <-> exists g, In (g, a) l /\ called names g n /\ forall g' a', In (g', a') l -> called names g' n -> g' <= g).
Proof.
  intros [S0 N0]. unfold numbers in N0. rewrite Forall_forall in N0.
  assert (N: forall g b, In (g, b) l -> 0 <= g) by (intros g b H; apply N0; now apply (in_map fst _ (g, b))). clear N0.
  unfold by_label. set (f := fun gv : Z * A => (glyph_label names (fst gv), snd gv)).
  assert (G: In (n, a) (bm_of_list lex_ltb (map f l)) <-> bm_get lex_ltb n (bm_of_list lex_ltb (map f l)) = Some a).
  { split; [apply In_get; [apply lex_strict|apply of_list_sorted, lex_strict]|apply get_In, lex_strict]. }
  rewrite G. unfold bm_of_list. rewrite get_fold_insert by apply lex_strict. cbn [bm_get]. rewrite <- map_rev.
  set (q := fun kv : list Z * A => negb (lex_ltb n (fst kv) || lex_ltb (fst kv) n)).
  assert (Q: forall g b, In (g, b) l -> (q (f (g, b)) = true <-> called names g n)).
  { intros g b Hg. unfold q, f. cbn [fst snd]. rewrite negb_true_iff, (eq_case _ lex_strict). split.
    - intros ->. apply label_called. eapply N; eassumption.
    - intros C. apply called_label; [eapply N; eassumption|exact C]. }
  assert (FM: find q (map f (rev l)) = option_map f (find (fun x => q (f x)) (rev l))).
  { generalize (rev l). clear. intros l. induction l as [|x l IH]; [reflexivity|]. cbn [map find]. destruct (q (f x)); [reflexivity|exact IH]. }
  rewrite FM. destruct (find (fun x => q (f x)) (rev l)) as [[g b]|] eqn:E; cbn [option_map snd f].
  - pose proof (find_some _ _ E) as [E1 E2]. apply in_rev in E1. pose proof (proj1 (Q _ _ E1) E2) as C. split.
    + intros [= ->]. exists g. split; [exact E1|]. split; [exact C|]. intros g' a' H' C'. eapply (sorted_last l g a g' a'); [exact S0|exact E|exact H'|]. now apply (Q _ _ H').
    + intros (g0 & H0 & C0 & M0). assert (g0 <= g). { eapply (sorted_last l g b g0 a); [exact S0|exact E|exact H0|]. now apply (Q _ _ H0). }
      specialize (M0 _ _ E1 C). assert (g0 = g) by lia. subst g0. f_equal. clear - S0 E1 H0. 
      induction l as [|[k x] l IH]; [destruct E1|]. cbn [map fst] in S0. apply StronglySorted_inv in S0 as [S0 F0]. rewrite Forall_forall in F0.
      destruct E1 as [E1|E1]; destruct H0 as [H0|H0]; [congruence| | |now apply IH].
      * injection E1 as -> ->. apply (in_map fst) in H0. apply F0 in H0. cbn [fst] in H0. lia.
      * injection H0 as -> ->. apply (in_map fst) in E1. apply F0 in E1. cbn [fst] in E1. lia.
  - split; [discriminate|]. intros (g0 & H0 & C0 & _). apply (Q _ _ H0) in C0. pose proof (proj1 (in_rev l (g0, a)) H0) as H1. apply (find_none _ _ E) in H1. congruence.
Qed.
Lemma by_label_keys {A} names (l : list (Z * A)) g a n : numbered l -> In (g, a) l -> called names g n -> In n (map fst (by_label names l)).
Proof.
  intros N H C. assert (M: exists g' a', In (g', a') l /\ called names g' n /\ forall g2 a2, In (g2, a2) l -> called names g2 n -> g2 <= g').
  { assert (0 <= g). { destruct N as [_ N]. unfold numbers in N. rewrite Forall_forall in N. apply N. now apply (in_map fst _ (g, a)). }
    pose proof (called_label _ _ _ H0 C) as E. clear C.
    assert (X: forall g2 a2, In (g2, a2) l -> (called names g2 n <-> glyph_label names g2 = n)).
    { intros g2 a2 H2. assert (0 <= g2). { destruct N as [_ N]. unfold numbers in N. rewrite Forall_forall in N. apply N. now apply (in_map fst _ (g2, a2)). }
      split; [intros C; symmetry; now apply called_label|intros <-; now apply label_called]. }
    assert (M: forall k : list (Z * A), (forall y, In y k -> glyph_label names (fst y) = n -> In y l) -> (exists y, In y k /\ glyph_label names (fst y) = n) ->
       exists y, In y k /\ glyph_label names (fst y) = n /\ forall z, In z k -> glyph_label names (fst z) = n -> fst z <= fst y).
    { clear. intros k _. induction k as [|y k IH]; [intros (y & [] & _)|]. intros (z & Hz & Ez).
      destruct (list_eq_dec Z.eq_dec (glyph_label names (fst y)) n) as [Ey|Ny].
      - destruct (in_dec (list_eq_dec Z.eq_dec) n (map (fun y => glyph_label names (fst y)) k)) as [I1|I1].
        + apply in_map_iff in I1 as (w & Ew & Hw). destruct IH as (u & Hu & Eu & Mu); [eauto|].
          destruct (Z_le_gt_dec (fst y) (fst u)).
          * exists u. split; [now right|]. split; [exact Eu|]. intros v [->|Hv] Ev; [lia|auto].
          * exists y. split; [now left|]. split; [exact Ey|]. intros v [->|Hv] Ev; [lia|]. specialize (Mu _ Hv Ev). lia.
        + exists y. split; [now left|]. split; [exact Ey|]. intros v [->|Hv] Ev; [lia|]. elim I1. apply in_map_iff. eauto.
      - destruct Hz as [->|Hz]; [congruence|]. destruct IH as (u & Hu & Eu & Mu); [eauto|]. exists u. split; [now right|]. split; [exact Eu|]. intros v [->|Hv] Ev; [congruence|auto]. }
    destruct (M l) as ([g' a'] & H1 & H2 & H3); [auto|exists (g, a); auto|]. exists g', a'. split; [exact H1|]. split; [now apply (X _ _ H1)|].
    intros g2 a2 H4 C4. apply (H3 (g2, a2) H4). now apply (X _ _ H4). }
  destruct M as (g' & a' & H1 & H2 & H3). apply (in_map fst _ (n, a')). apply by_label_in; [exact N|]. exists g'. auto.
Qed.
Lemma tabulated {A} names (f : A -> json) (shows : A -> json -> Prop) (l : list (Z * A)) : numbered l ->
  (forall a, shows a (f a)) -> exists o, map_json f (by_label names l) = JObj o /\ tabulates names shows l o.
Proof.
  intros N Hs. eexists. split; [reflexivity|]. unfold tabulates. rewrite map_map. cbn [fst]. split; [|split].
  - apply (of_list_sorted _ lex_strict).
  - intros n j. rewrite in_map_iff. intros ([n' a] & X & H). cbn [fst snd] in X. injection X as -> <-. apply by_label_in in H as (g & H1 & H2 & H3); [|exact N].
    exists g, a. split; [exact H1|]. split; [exact H2|]. split; [apply Hs|exact H3].
  - intros g a n H C. eapply by_label_keys; eassumption.
Qed.
Lemma enumerated names l : numbers l -> enumerates names l (label_set names l).
Proof.
  intros N. split; [apply (of_list_sorted _ lex_strict)|]. intros n. unfold label_set.
  unfold numbers in N. rewrite Forall_forall in N. rewrite in_map_iff. split.
  - intros ([n' u] & <- & H). cbn [fst]. apply (In_get _ lex_strict) in H; [|apply of_list_sorted, lex_strict].
    unfold bm_of_list in H. rewrite (get_fold_insert _ lex_strict) in H. cbn [bm_get] in H. destruct (find _ _) as [[k w]|] eqn:E; [|discriminate].
    apply find_some in E as [E1 E2]. cbn [fst] in E2. apply negb_true_iff, (eq_case _ lex_strict) in E2. subst k. apply in_rev in E1.
    apply in_map_iff in E1 as (g & X & Hg). injection X as <- _. exists g. split; [exact Hg|]. apply label_called. now apply N.
  - intros (g & Hg & C). apply called_label in C; [|now apply N]. subst n. exists (glyph_label names g, tt). split; [reflexivity|].
    apply (get_In _ lex_strict). unfold bm_of_list. rewrite (get_fold_insert _ lex_strict). destruct (find _ _) as [[k []]|] eqn:E; [reflexivity|].
    exfalso. assert (H: In (glyph_label names g, tt) (rev (map (fun g => (glyph_label names g, tt)) l))) by (rewrite <- in_rev; apply in_map_iff; eauto).
    apply (find_none _ _ E) in H. cbn [fst] in H. apply negb_false_iff in H. rewrite (st_irrefl _ lex_strict) in H. discriminate.
Qed.
Lemma kern_shown k : shows_kern k (kern_json k).
Proof.
  eexists. split; [reflexivity|]. rewrite !map_map.
  assert (H: forall (l : list mvalue), match map mv_value l with [] => true | _ => false end = match l with [] => true | _ => false end) by (now intros [|]).
  rewrite !H. clear H. split.
  - destruct (mk_heights k), (mk_kerns k); vm_compute; repeat constructor; intros X; repeat (destruct X as [X|X]; try discriminate X); auto.
  - intros name x. rewrite in_app_iff. unfold unless. split.
    + intros [H|H].
      * exists (mk_heights k). destruct (mk_heights k) eqn:E; [destruct H|]. destruct H as [H|[]]. injection H as <- <-. split; [reflexivity|]. split; [discriminate|]. left. auto.
      * exists (mk_kerns k). destruct (mk_kerns k) eqn:E; [destruct H|]. destruct H as [H|[]]. injection H as <- <-. split; [reflexivity|]. split; [discriminate|]. right. auto.
    + intros (l & -> & Nl & [[-> ->]|[-> ->]]); [left; destruct (mk_heights k); [now elim Nl|now left]|right; destruct (mk_kerns k); [now elim Nl|now left]].
Qed.
Lemma corners_shown c : shows_corners c (corners_json c).
Proof.
  eexists. split; [reflexivity|]. split.
  - unfold corner_json. destruct (mk_tr c), (mk_bl c), (mk_br c), (mk_tl c); cbn [app map fst];
      repeat constructor; intros X; repeat (destruct X as [X|X]; try discriminate X); auto.
  - unfold corner_json, corner_of. split.
    + intros name x. rewrite !in_app_iff. intros [H|[H|[H|H]]].
      * destruct (mk_tr c) as [k|]; [|destruct H]. destruct H as [H|[]]. injection H as <- <-. exists k. split; [|apply kern_shown]. left. auto.
      * destruct (mk_bl c) as [k|]; [|destruct H]. destruct H as [H|[]]. injection H as <- <-. exists k. split; [|apply kern_shown]. do 3 right. auto.
      * destruct (mk_br c) as [k|]; [|destruct H]. destruct H as [H|[]]. injection H as <- <-. exists k. split; [|apply kern_shown]. do 2 right. left. auto.
      * destruct (mk_tl c) as [k|]; [|destruct H]. destruct H as [H|[]]. injection H as <- <-. exists k. split; [|apply kern_shown]. right. left. auto.
    + intros name k H. rewrite !map_app, !in_app_iff.
      destruct H as [[-> E]|[[-> E]|[[-> E]|[-> E]]]]; rewrite E; cbn [map fst In]; tauto.
Qed.
Lemma constants_shown c : shows_constants c (constants_json c).
Proof. unfold shows_constants, constants_json. rewrite !map_app, map_map. reflexivity. Qed.
Lemma dumped t names : math_sane t -> dumps names t (dump_math t names).
Proof.
  intros (S1 & S2 & S3 & S4). 
  destruct (tabulated names value_json shows_value _ S1 (fun _ => eq_refl)) as (i & Ei & Hi).
  destruct (tabulated names value_json shows_value _ S2 (fun _ => eq_refl)) as (a & Ea & Ha).
  destruct (tabulated names corners_json shows_corners _ S4 corners_shown) as (k & Ek & Hk).
  exists (constants_json (mt_constants t)), i, a, (label_set names (mt_extended t)), k.
  unfold dump_math. rewrite Ei, Ea, Ek. split; [reflexivity|]. split; [apply constants_shown|]. split; [exact Hi|]. split; [exact Ha|]. split; [now apply enumerated|exact Hk].
Qed.

(** ** The tool *)
Section Tool.
Variable hash : cmapping -> Z.
Notation K := (K math_codecs hash).
Lemma plain_self tag : tag_in tag dependent_tags = false -> self_contained tag.
Proof. intros H. exact (not_dep tag H). Qed.
Lemma get_table_iff {A} m s tag (sel : loaded (known (option math)) -> option A) : good_store K s ->
  (forall t, contents s t = option_map Raw (get t m)) -> self_contained tag ->
  (exists a s', get_table math_codecs hash tag sel s = (Ok a, s') /\ good_store K s' /\ (forall t, contents s' t = option_map Raw (get t m)) /\
     exists d l, get tag m = Some d /\ des0 K tag d = Ok l /\ sel l = Some a) \/
  ((exists s', get_table math_codecs hash tag sel s = (Panic, s')) /\
     forall d l, get tag m = Some d -> des0 K tag d = Ok l -> sel l = None).
Proof.
  intros G C Hs. unfold get_table, unwrap_s, sbind.
  destruct (typed K tag sel s) as [r s'] eqn:E. pose proof (quiet_typed3 math_codecs hash tag sel s (good_inv _ _ G)) as [I1 S1]. rewrite E in I1, S1. cbn [snd] in *.
  assert (C': forall t, contents s' t = option_map Raw (get t m)) by (intros t; rewrite <- (S1 t); apply C).
  assert (G': good_store K s') by (eapply same_good; eassumption).
  assert (N: forall d l a, get tag m = Some d -> des0 K tag d = Ok l -> sel l = Some a -> r = Ok (Some a)).
  { intros d l a Hd Hl Ha. destruct (typed_total K tag sel s l a (good_inv _ _ G) Hs) as (s2 & E2 & _); [|exact Ha|rewrite E in E2; congruence].
    right. exists d. split; [|exact Hl]. transitivity (option_map (@Raw (known (option math))) (get tag m)); [apply C|rewrite Hd; reflexivity]. }
  destruct r as [[a|]| |].
  - left. exists a, s'. split; [reflexivity|]. split; [exact G'|]. split; [exact C'|].
    destruct (typed_self K tag sel s (Some a) s' (good_inv _ _ G) Hs E) as (l & [V|(d & V & D)] & Sl).
    + rewrite C in V. destruct (get tag m); discriminate.
    + rewrite C in V. exists d, l. destruct (get tag m) as [d'|]; [|discriminate]. injection V as ->. auto.
  - right. split; [eexists; reflexivity|]. intros d l Hd Hl. destruct (sel l) as [a|] eqn:Es; [|reflexivity]. discriminate (N d l a Hd Hl Es).
  - right. split; [eexists; reflexivity|]. intros d l Hd Hl. destruct (sel l) as [a|] eqn:Es; [|reflexivity]. discriminate (N d l a Hd Hl Es).
  - right. split; [eexists; reflexivity|]. intros d l Hd Hl. destruct (sel l) as [a|] eqn:Es; [|reflexivity]. discriminate (N d l a Hd Hl Es).
Qed.
Lemma post_des m p : (exists d l, get TAG_post m = Some d /\ des0 K TAG_post d = Ok l /\ sel_post l = Some p) <-> post_is m p.
Proof.
  unfold post_is, bytes_of. split; intros (d & H).
  - destruct H as (l & H & D & Sl). exists d. split; [exact H|]. change (des0 K TAG_post d) with (rmap (LOther TAG_post) (rmap (@KPost (option math)) (from_bytes post_de d))) in D.
    destruct (from_bytes post_de d) as [q| |]; try discriminate. injection D as <-. injection Sl as ->. reflexivity.
  - destruct H as [H E]. exists d, (LOther TAG_post (KPost p)). split; [exact H|].
    change (des0 K TAG_post d) with (rmap (LOther TAG_post) (rmap (@KPost (option math)) (from_bytes post_de d))). rewrite E. split; reflexivity.
Qed.
Lemma math_des m t : (exists d l, get TAG_MATH m = Some d /\ des0 K TAG_MATH d = Ok l /\ sel_math l = Some t) <-> math_is m t.
Proof.
  unfold math_is, bytes_of. split; intros (d & H).
  - destruct H as (l & H & D & Sl). exists d. split; [exact H|]. change (des0 K TAG_MATH d) with (rmap (LOther TAG_MATH) (rmap KRest (rmap Some (from_bytes math_read d)))) in D.
    destruct (from_bytes math_read d) as [q| |]; try discriminate. injection D as <-. injection Sl as ->. reflexivity.
  - destruct H as [H E]. exists d, (LOther TAG_MATH (KRest (Some t))). split; [exact H|].
    change (des0 K TAG_MATH d) with (rmap (LOther TAG_MATH) (rmap KRest (rmap Some (from_bytes math_read d)))). rewrite E. split; reflexivity.
Qed.
Lemma edit_math_iff dump file o : Forall is_byte file ->
  (edit_math hash dump file = Ok o <-> exists v m p, holds file v m /\ opens m /\ post_is m p /\
     if dump then exists t, math_is m t /\ o = Some (dump_math t (names_in p)) else o = None).
Proof.
  intros HB. unfold edit_math.
  assert (S1: self_contained TAG_post) by (apply plain_self; reflexivity). assert (S2: self_contained TAG_MATH) by (apply plain_self; reflexivity).
  split.
  - destruct (font_load K file) as [[v s]| |] eqn:L; try discriminate. destruct (load_inv math_codecs hash file v s HB L) as (m & H & Sm & G & C & U).
    unfold sbind at 1. destruct (get_table_iff m s TAG_post sel_post G C S1) as [(p & s1 & E1 & G1 & C1 & R1)|[(s1 & E1) _]]; rewrite E1; [|discriminate].
    destruct dump.
    + unfold sbind. destruct (get_table_iff m s1 TAG_MATH sel_math G1 C1 S2) as [(t & s2 & E2 & _ & _ & R2)|[(s2 & E2) _]]; rewrite E2; [|discriminate].
      intros E. exists v, m, p. split; [exact H|]. split; [exact U|]. split; [now apply post_des|]. exists t. split; [now apply math_des|]. cbn in E. now injection E.
    + intros E. exists v, m, p. split; [exact H|]. split; [exact U|]. split; [now apply post_des|]. cbn in E. now injection E.
  - intros (v & m & p & H & U & P & R). destruct (load_total math_codecs hash file v m HB H U) as [s L]. rewrite L.
    destruct (load_inv math_codecs hash file v s HB L) as (m' & H' & Sm & G & C & _). destruct (holds_fun _ _ _ _ _ H H') as [_ <-].
    unfold sbind at 1. destruct (get_table_iff m s TAG_post sel_post G C S1) as [(p' & s1 & E1 & G1 & C1 & R1)|[_ N]].
    2: { apply post_des in P as (d & l & P1 & P2 & P3). rewrite (N d l P1 P2) in P3. discriminate. }
    rewrite E1. apply post_des in R1. assert (p' = p) as ->. { destruct P as (d & P1 & P2), R1 as (d' & Q1 & Q2). congruence. }
    destruct dump; [|rewrite R; reflexivity]. destruct R as (t & M & ->).
    unfold sbind. destruct (get_table_iff m s1 TAG_MATH sel_math G1 C1 S2) as [(t' & s2 & E2 & _ & _ & R2)|[_ N]].
    2: { apply math_des in M as (d & l & P1 & P2 & P3). rewrite (N d l P1 P2) in P3. discriminate. }
    rewrite E2. apply math_des in R2. assert (t' = t) as ->. { destruct M as (d & P1 & P2), R2 as (d' & Q1 & Q2). congruence. }
    reflexivity.
Qed.
Lemma math_is_sane file v m t : Forall is_byte file -> holds file v m -> math_is m t -> math_sane t.
Proof.
  intros HB H (d & H1 & H2). pose proof (holds_tabs file v m HB H) as T. unfold good_tabs in T. rewrite Forall_forall in T.
  apply (get_In _ lex_strict) in H1. apply T in H1 as [_ B]. eapply yields_math; eassumption.
Qed.
End Tool.
Lemma names_injective names g g' n : NoDup names -> (forall x, In x names -> hd 0 x <> 92) -> 0 <= g -> 0 <= g' ->
  called names g n -> called names g' n -> g = g'.
Proof.
  intros N B H H' [C|[L (ds & -> & D)]] [C'|[L' (ds' & E' & D')]].
  - assert (Z.to_nat g = Z.to_nat g'); [|lia]. rewrite NoDup_nth_error in N. apply N; [|congruence]. apply nth_error_Some. congruence.
  - subst n. apply nth_error_In in C. apply B in C. now elim C.
  - apply nth_error_In in C'. apply B in C'. now elim C'.
  - injection E' as ->. destruct D as (_ & _ & _ & <-). destruct D' as (_ & _ & _ & <-). reflexivity.
Qed.

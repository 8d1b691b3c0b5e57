(** Format 12 character maps *)
From Coq Require Import Lia Sorting.Sorted.
From Verif.Model Require Import MBase MMap MFont MLayout MOffset MCmap.
From Verif.Spec Require Import SBase SGlyph SLayout SCmap.
From Verif.Proofs Require Import PBase PMap PGlyphFmt PCover PClassdef PFont PLow PPoints PGsub PCmap4.

Lemma dword_u32 z : dword z = ser_u32 z.
Proof.
  unfold dword, word, ser_u32, ser_prim. cbn [prim_width be_bytes app].
  change (256 ^ Z.of_nat 3) with 16777216. change (256 ^ Z.of_nat 2) with 65536. change (256 ^ Z.of_nat 1) with 256. change (256 ^ Z.of_nat 0) with 1.
  rewrite Z.div_1_r.
  replace ((z / 65536 / 256) mod 256) with ((z / 16777216) mod 256) by (rewrite Z.div_div by lia; reflexivity).
  replace ((z mod 65536 / 256) mod 256) with ((z / 256) mod 256) by lia.
  replace ((z mod 65536) mod 256) with (z mod 256) by lia. reflexivity.
Qed.
Lemma reads_dword z : 0 <= z <= 4294967295 -> reads de_u32 (dword z) z.
Proof. intros H. rewrite dword_u32. apply reads_u32. lia. Qed.

Definition group_u32 (g : group) : Prop :=
  0 <= fst (fst g) <= 4294967295 /\ 0 <= snd (fst g) <= 4294967295 /\ 0 <= snd g <= 4294967295.
Lemma reads_group g : group_u32 g -> reads group_de (group_bytes g) g.
Proof.
  destruct g as [[a b] c]. intros (H1 & H2 & H3). cbn [fst snd] in *. unfold group_de, group_bytes. cbn [fst snd].
  eapply reads_bind; [now apply reads_dword|]. cbv beta.
  eapply reads_bind; [now apply reads_dword|]. cbv beta.
  eapply (reads_bind' _ _ _ _ []); [now rewrite app_nil_r|now apply reads_dword|]. apply reads_pret.
Qed.
Lemma cmap12_de_reads len lang gs : 0 <= len <= 4294967295 -> 0 <= lang <= 4294967295 ->
  Z.of_nat (length gs) <= 4294967295 -> Forall group_u32 gs ->
  reads cmap12_de (word 12 ++ word 0 ++ dword len ++ dword lang
       ++ dword (Z.of_nat (length gs)) ++ concat (map group_bytes gs)) (mkC12 len lang gs).
Proof.
  intros H1 H2 H3 HF. unfold cmap12_de.
  eapply reads_bind; [apply (reads_word 12); unfold is_u16; lia|cbv beta].
  eapply reads_bind; [apply (reads_word 0); unfold is_u16; lia|cbv beta].
  eapply reads_bind; [now apply reads_dword|cbv beta].
  eapply reads_bind; [now apply reads_dword|cbv beta].
  eapply (reads_bind' _ _ _ _ []); [now rewrite app_nil_r| |apply reads_pret].
  unfold de_counted32. eapply reads_bind; [apply reads_dword; lia|cbv beta]. rewrite Nat2Z.id.
  apply reads_counted. eapply Forall_impl; [|exact HF]. intros g Hg. now apply reads_group.
Qed.
Lemma group_bytes_length gs : length (concat (map group_bytes gs)) = (12 * length gs)%nat.
Proof. induction gs as [|g gs IH]; [reflexivity|]. cbn [map concat]. rewrite app_length, IH. cbn. lia. Qed.

(** ** Reading *)
Definition group_entries (g : group) : list (Z * Z) :=
  map (fun c => (c, snd g + (c - fst (fst g)))) (zrange (fst (fst g)) (snd (fst g) + 1)).

Lemma group_items_ok g low : group_fields g -> 0 <= low <= fst (fst g) -> fst (fst g) <= snd (fst g) ->
  forall k i m0, Z.of_nat k = snd (fst g) + 1 - fst (fst g) - i -> 0 <= i ->
  (forall x, In x (map fst m0) -> x < fst (fst g) + i) ->
  group_items g m0 (zrange i (snd (fst g) + 1 - fst (fst g)))
  = Ok (m0 ++ map (fun c => (c, snd g + (c - fst (fst g)))) (zrange (fst (fst g) + i) (snd (fst g) + 1))).
Proof.
  destruct g as [[a b] gl]. unfold group_fields. cbn [fst snd]. intros (F1 & F2 & F3) L LE.
  induction k as [|k IH]; intros i m0 K I H.
  - rewrite !zrange_nil by lia. cbn [group_items map]. now rewrite app_nil_r.
  - rewrite (zrange_cons i), (zrange_cons (a + i)) by lia. cbn [group_items map fst snd].
    rewrite chk_u_ok by lia. cbn [rbind].
    rewrite !u16_id by lia. rewrite chk_u_ok by lia. cbn [rbind].
    rewrite (insert_last _ Z_strict) by (apply Forall_forall; intros x Hx; specialize (H x Hx); lia).
    rewrite (IH (i + 1)); [|lia|lia|].
    + rewrite <- app_assoc. cbn [app]. replace (a + i - a) with i by lia. now replace (a + (i + 1)) with (a + i + 1) by lia.
    + intros x Hx. rewrite map_app, in_app_iff in Hx. destruct Hx as [Hx|[<-|[]]]; [specialize (H x Hx); lia|cbn [fst]; lia].
Qed.
Lemma groups_mapping_ok gs : forall low m0, Forall group_fields gs -> group_order low gs -> 0 <= low ->
  (forall x, In x (map fst m0) -> x < low) ->
  groups_mapping m0 gs = Ok (m0 ++ concat (map group_entries gs)).
Proof.
  induction gs as [|g gs IH]; intros low m0 F O L H; cbn [groups_mapping map concat].
  - now rewrite app_nil_r.
  - inversion F as [|? ? F1 F2]; subst. cbn [group_order] in O. destruct O as [O1 O2].
    pose proof F1 as (B1 & B2 & B3).
    rewrite chk_u_ok by lia. cbn [rbind]. rewrite chk_u_ok by lia. cbn [rbind].
    replace (1 + (snd (fst g) - fst (fst g))) with (snd (fst g) + 1 - fst (fst g)) by lia.
    rewrite (group_items_ok g low F1 ltac:(lia) ltac:(lia) (Z.to_nat (snd (fst g) + 1 - fst (fst g))) 0 m0 ltac:(lia) ltac:(lia)).
    2: { intros x Hx. specialize (H x Hx). lia. }
    cbn [rbind]. rewrite (IH (snd (fst g) + 1)); [|exact F2|exact O2|lia|].
    + unfold group_entries at 2. rewrite Z.add_0_r, <- app_assoc. reflexivity.
    + intros x Hx. rewrite map_app, in_app_iff, map_map in Hx. cbn [fst] in Hx. rewrite map_id in Hx.
      destruct Hx as [Hx|Hx]; [specialize (H x Hx); lia|]. apply zrange_In in Hx. lia.
Qed.

Lemma cmap12_bytes_length lang gs bs : cmap12_bytes lang gs bs -> Z.of_nat (length bs) = 16 + 12 * Z.of_nat (length gs).
Proof.
  intros H. apply (f_equal (@length Z)) in H. rewrite H. rewrite !app_length, group_bytes_length. cbn [length word dword app]. lia.
Qed.
Lemma order_u32 gs : forall low, 0 <= low -> group_order low gs -> Forall group_fields gs -> Forall group_u32 gs.
Proof.
  induction gs as [|g gs IH]; intros low L O F; constructor; inversion F as [|? ? F1 F2]; subst;
    cbn [group_order] in O; destruct O as [O1 O2]; destruct F1 as (B1 & B2 & B3).
  - unfold group_u32. lia.
  - apply (IH (snd (fst g) + 1)); auto. lia.
Qed.
Lemma cmap12_every_read lang gs bs : cmap12_bytes lang gs bs -> 0 <= lang <= 4294967295 ->
  Forall group_fields gs -> group_order 0 gs -> Z.of_nat (length bs) <= 4294967295 ->
  reads cmap12_read bs (lang mod 65536, concat (map group_entries gs)).
Proof.
  intros B L F O LB. pose proof (cmap12_bytes_length _ _ _ B) as LE. unfold cmap12_bytes in B. rewrite B.
  assert (LG : Z.of_nat (length gs) <= 4294967295) by lia.
  set (n := Z.of_nat (length bs)) in *.
  unfold cmap12_read. eapply (reads_bind' _ _ _ _ []); [now rewrite app_nil_r| |].
  - apply cmap12_de_reads; [lia|exact L|exact LG|]. eapply order_u32; [|exact O|exact F]. lia.
  - cbv beta. eapply (reads_bind' _ _ _ [] []); [reflexivity|apply reads_plift|apply reads_pret].
    unfold cmap12_mapping. cbn [c12_groups]. rewrite (groups_mapping_ok gs 0 []); auto; [lia|intros x []].
Qed.
Lemma group_entries_In gs c gl : In (c, gl) (concat (map group_entries gs)) <-> Exists (group_has c gl) gs.
Proof.
  rewrite in_concat, Exists_exists. split.
  - intros (x & Hx & Hc). apply in_map_iff in Hx as (g & <- & Hg). apply in_map_iff in Hc as (c' & [= <- <-] & Hc).
    apply zrange_In in Hc. exists g. split; [exact Hg|]. split; [lia|reflexivity].
  - intros (g & Hg & H1 & ->). eexists. split; [apply in_map; exact Hg|]. unfold group_entries.
    apply (in_map (fun c => (c, snd g + (c - fst (fst g))))). apply zrange_In. lia.
Qed.
Lemma group_entries_map gs : forall low, 0 <= low -> Forall group_fields gs -> group_order low gs ->
  increasing (map fst (concat (map group_entries gs)))
  /\ Forall (fun cg => low <= fst cg <= 4294967295 /\ is_u16 (snd cg)) (concat (map group_entries gs)).
Proof.
  induction gs as [|g gs IH]; intros low L F O; [split; [exact I|constructor]|].
  inversion F as [|? ? F1 F2]; subst. cbn [group_order] in O. destruct O as [O1 O2]. destruct F1 as (B1 & B2 & B3).
  destruct (IH (snd (fst g) + 1) ltac:(lia) F2 O2) as [I1 I2]. cbn [map concat]. split.
  - rewrite map_app. unfold group_entries at 1. rewrite map_map. cbn [fst]. rewrite map_id.
    apply increasing_app; [apply increasing_zrange|exact I1|]. intros a b Ha Hb. apply zrange_In in Ha.
    apply in_map_iff in Hb as ([b' v] & <- & Hb). rewrite Forall_forall in I2. apply I2 in Hb. cbn [fst] in *. lia.
  - apply Forall_app. split.
    + unfold group_entries. apply Forall_map. apply Forall_forall. intros c Hc. apply zrange_In in Hc. cbn [fst snd]. unfold is_u16. lia.
    + eapply Forall_impl; [|exact I2]. cbv beta. intros x [? ?]. split; [lia|assumption].
Qed.

(** ** Writing *)
Lemma cmap12_ser_bytes len lang gs : Z.of_nat (length gs) <= 4294967295 ->
  cmap12_ser (mkC12 len lang gs) = word 12 ++ word 0 ++ dword len ++ dword lang
       ++ dword (Z.of_nat (length gs)) ++ concat (map group_bytes gs).
Proof.
  intros H. unfold cmap12_ser. cbn [c12_length c12_language c12_groups]. rewrite u32_id by lia.
  assert (E : map group_ser gs = map group_bytes gs).
  { apply map_ext. intros [[a b] c]. unfold group_ser, group_bytes. now rewrite !dword_u32. }
  rewrite E, !word_u16, !dword_u32. reflexivity.
Qed.

(** a group in progress: codes [sc..lc], the last glyph [lg] *)
Lemma runs12_ok l : forall sc sg lg lc gs, runs12 sc sg lg (Some lc) l = Ok gs ->
  0 <= sc <= lc -> 0 <= sg -> lg = sg + (lc - sc) -> lg <= 65535 -> lc <= 1114111 ->
  increasing (lc :: map fst l) -> Forall (fun cg => fst cg <= 1114111 /\ is_u16 (snd cg)) l ->
  Forall group_fields gs /\ group_order sc gs
  /\ concat (map group_entries gs) = map (fun c => (c, sg + (c - sc))) (zrange sc (lc + 1)) ++ l
  /\ (length gs <= S (length l))%nat.
Proof.
  induction l as [|[c g] l IH]; intros sc sg lg lc gs H B1 B2 E B3 B4 I F; cbn [runs12] in H.
  - injection H as <-. cbn [or_start].
    split; [constructor; [unfold group_fields; cbn [fst snd]; lia|constructor]|].
    split; [cbn [group_order fst snd]; split; [lia|exact Logic.I]|].
    split; [cbn [map concat]; rewrite !app_nil_r; reflexivity|cbn [length]; lia].
  - inversion F as [|? ? F1 F2]; subst. cbn [fst snd] in F1. unfold is_u16 in F1.
    cbn [map fst] in I. pose proof (increasing_lt _ _ I) as LT. inversion LT as [|? ? L1 _]; subst.
    apply increasing_tail in I as I'.
    unfold in_run in H. destruct (chk_u 16 _) as [g1| |] eqn:C1; cbn [rbind] in H; try discriminate.
    apply chk_u_inv in C1 as [-> _].
    assert (CASE : (g = 1 + (sg + (lc - sc)) /\ c = 1 + lc /\ runs12 sc sg g (Some c) l = Ok gs)
      \/ exists gs', runs12 c g g (Some c) l = Ok gs' /\ gs = (sc, lc, sg) :: gs').
    { destruct (g =? _) eqn:EG; cbn [rbind] in H.
      - destruct (chk_u 32 _) as [l1| |] eqn:C2; cbn [rbind] in H; try discriminate.
        apply chk_u_inv in C2 as [-> _]. destruct (c =? 1 + lc) eqn:EC.
        + left. split; [lia|]. split; [lia|exact H].
        + destruct (runs12 c g g (Some c) l) as [gs'| |]; cbn [rbind] in H; try discriminate. injection H as <-. right. eauto.
      - destruct (runs12 c g g (Some c) l) as [gs'| |]; cbn [rbind] in H; try discriminate. injection H as <-. right. eauto. }
    destruct CASE as [(-> & -> & R)|(gs' & R & ->)].
    + destruct (IH _ _ _ _ _ R) as (A1 & A2 & A3 & A4); try lia; auto.
      split; [exact A1|]. split; [exact A2|]. split; [|cbn [length]; lia].
      rewrite A3. replace (1 + lc) with (lc + 1) by lia.
      assert (ZZ : zrange sc (lc + 1 + 1) = zrange sc (lc + 1) ++ [lc + 1]).
      { unfold zrange. replace (Z.to_nat (lc + 1 + 1 - sc)) with (Z.to_nat (lc + 1 - sc) + 1)%nat by lia.
        rewrite seq_app, map_app. cbn [seq map]. do 2 f_equal. lia. }
      rewrite ZZ, map_app, <- app_assoc. cbn [map app]. do 2 f_equal. f_equal. lia.
    + destruct (IH _ _ _ _ _ R) as (A1 & A2 & A3 & A4); try lia; auto.
      split; [constructor; [unfold group_fields; cbn [fst snd]; lia|exact A1]|].
      split; [cbn [group_order fst snd]; split; [lia|]|].
      { destruct gs' as [|g' gs']; [exact Logic.I|]. cbn [group_order] in A2 |- *. intuition lia. }
      split; [|cbn [length]; lia]. cbn [map concat]. rewrite A3.
      rewrite (zrange_cons c), (zrange_nil (c + 1)) by lia. cbn [map app]. unfold group_entries. cbn [fst snd].
      do 2 f_equal. f_equal. lia.
Qed.
(** whatever the state, the groups have 32-bit fields *)
Lemma runs12_u32 l : forall sc sg lg lc gs, runs12 sc sg lg lc l = Ok gs ->
  0 <= sc <= 4294967295 -> 0 <= sg <= 4294967295 -> (match lc with Some c => 0 <= c <= 4294967295 | None => True end) ->
  Forall (fun cg => 0 <= fst cg <= 4294967295 /\ is_u16 (snd cg)) l ->
  Forall group_u32 gs /\ (length gs <= S (length l))%nat /\ exists gs', gs = (sc, match gs with g :: _ => snd (fst g) | [] => 0 end, sg) :: gs'.
Proof.
  induction l as [|[c g] l IH]; intros sc sg lg lc gs H B1 B2 B3 F; cbn [runs12] in H.
  - injection H as <-. split; [|split; [cbn [length]; lia|now exists []]]. constructor; [|constructor].
    unfold group_u32. cbn [fst snd]. destruct lc; cbn [or_start]; lia.
  - inversion F as [|? ? F1 F2]; subst. cbn [fst snd] in F1. unfold is_u16 in F1.
    destruct (in_run g lg c lc) as [[|]| |]; cbn [rbind] in H; try discriminate.
    + destruct (IH _ _ _ _ _ H B1 B2 (proj1 F1) F2) as (A1 & A2 & A3). split; [exact A1|]. split; [cbn [length]; lia|exact A3].
    + destruct (runs12 c g g (Some c) l) as [gs'| |] eqn:R; cbn [rbind] in H; try discriminate. injection H as <-.
      destruct (IH _ _ _ _ _ R ltac:(lia) ltac:(lia) (proj1 F1) F2) as (A1 & A2 & A3).
      split; [|split; [cbn [length]; lia|eexists; reflexivity]].
      constructor; [|exact A1]. unfold group_u32. cbn [fst snd]. destruct lc; cbn [or_start]; lia.
Qed.

Lemma runs12_iff l : forall sc sg lg lc, 0 <= lg <= 65535 ->
  (match lc with Some c => increasing (c :: map fst l) /\ 0 <= c | None => increasing (map fst l) end) ->
  Forall (fun cg => 0 <= fst cg <= 4294967295 /\ is_u16 (snd cg)) l ->
  (exists gs, runs12 sc sg lg lc l = Ok gs) <-> (l = [] \/ lg <> 65535) /\ Forall (fun cg => snd cg <> 65535) (removelast l).
Proof.
  induction l as [|[c g] l IH]; intros sc sg lg lc LG I F.
  { split; [intros _; split; [now left|constructor]|intros _; cbn [runs12]; eauto]. }
  inversion F as [|? ? F1 F2]; subst. cbn [fst snd] in F1. unfold is_u16 in F1.
  assert (STEP : (exists gs, runs12 sc sg lg lc ((c, g) :: l) = Ok gs) <->
    lg <> 65535 /\ exists sc' sg' gs, runs12 sc' sg' g (Some c) l = Ok gs /\ (sc', sg') = (sc', sg')).
  { assert (ANY : forall a b a' b' gs, runs12 a b g (Some c) l = Ok gs -> exists gs', runs12 a' b' g (Some c) l = Ok gs').
    { assert (I' : increasing (c :: map fst l)).
      { destruct lc; [destruct I as [I _]; cbn [map fst] in I; now apply increasing_tail in I|exact I]. }
      intros a b a' b' gs R.
      apply (IH a' b' g (Some c)); auto; [lia|split; [exact I'|lia]|]. apply (IH a b g (Some c)); eauto; [lia|split; [exact I'|lia]]. }
    cbn [runs12]. split.
    - intros [gs H]. unfold in_run in H. destruct (chk_u 16 (1 + lg)) as [x| |] eqn:C; cbn [rbind] in H; try discriminate.
      apply chk_u_inv in C as [-> C]. split; [lia|].
      destruct (g =? _) eqn:EG.
      + destruct lc as [lc|].
        * destruct (chk_u 32 _) as [l1| |] eqn:C2; cbn [rbind] in H; try discriminate.
          destruct (c =? l1); [eauto|]. destruct (runs12 c g g (Some c) l) as [gs'| |] eqn:R; cbn [rbind] in H; try discriminate. eauto.
        * cbn [rbind] in H. eauto.
      + cbn [rbind] in H. destruct (runs12 c g g (Some c) l) as [gs'| |] eqn:R; cbn [rbind] in H; try discriminate. eauto.
    - intros (NE & sc' & sg' & gs & R & _). unfold in_run. rewrite chk_u_ok by lia. cbn [rbind].
      assert (G : forall b : bool, exists gs0, (if b then runs12 sc sg g (Some c) l else
        gs1 <- runs12 c g g (Some c) l ;; Ok ((sc, or_start lc sc, sg) :: gs1)) = Ok gs0).
      { intros [|]; [apply (ANY _ _ _ _ _ R)|]. destruct (ANY _ _ c g _ R) as [gs1 R1]. rewrite R1. cbn [rbind]. eauto. }
      destruct (g =? _); [|apply (G false)]. destruct lc as [lc|]; [|apply (G true)].
      destruct I as [I L0]. cbn [map fst] in I. pose proof (increasing_lt _ _ I) as LT. inversion LT as [|? ? L1 _]; subst.
      rewrite chk_u_ok by lia. cbn [rbind]. apply G. }
  rewrite STEP. assert (I' : increasing (c :: map fst l)).
  { destruct lc; [destruct I as [I _]; cbn [map fst] in I; now apply increasing_tail in I|exact I]. }
  assert (IHc := fun a b => IH a b g (Some c) (proj2 F1) (conj I' (proj1 (proj1 F1))) F2).
  assert (RL : removelast ((c, g) :: l) = match l with [] => [] | _ => (c, g) :: removelast l end) by reflexivity. rewrite RL.
  split.
  - intros (NE & sc' & sg' & gs & R & _). split; [now right|].
    destruct (proj1 (IHc sc' sg') (ex_intro _ _ R)) as [P1 P2].
    destruct l; [constructor|]. constructor; [cbn [snd]; destruct P1; [discriminate|assumption]|exact P2].
  - intros [[D|NE] P]; [discriminate|]. split; [exact NE|].
    assert (E : exists gs, runs12 sc sg g (Some c) l = Ok gs).
    { apply IHc. destruct l; [split; [now left|constructor]|]. inversion P; subst. split; [now right|assumption]. }
    destruct E as [gs R]. exists sc, sg, gs. split; [exact R|reflexivity].
Qed.

Lemma increasing_lower a b l : increasing (a :: l) -> b <= a -> increasing (b :: l).
Proof. destruct l; [reflexivity|]. cbn [increasing]. intros [H1 H2] H. split; [lia|exact H2]. Qed.
Lemma char_map_tl c g m : char_map ((c, g) :: m) ->
  increasing (c :: map fst m) /\ 0 <= c <= 4294967295 /\ 0 <= g <= 65535
  /\ Forall (fun cg => 0 <= fst cg <= 4294967295 /\ is_u16 (snd cg)) m.
Proof.
  intros [I F]. inversion F as [|? ? F1 F2]; subst. cbn [fst snd map] in *. unfold is_u16 in F1.
  split; [exact I|]. split; [lia|]. split; [lia|]. eapply Forall_impl; [|exact F2]. cbv beta. unfold is_u16. intros x ?. lia.
Qed.

Lemma cmap12_writes_iff lang m : char_map m ->
  (exists bs, cmap12_write lang m = Ok bs) <->
  exists c g m', m = (c, g) :: m' /\ g <> 0 /\ Forall (fun cg => snd cg <> 65535) (middle m).
Proof.
  intros CM. destruct m as [|[c g] m].
  { split; [intros [bs H]; discriminate|intros (c & g & m' & D & _); discriminate]. }
  destruct (char_map_tl _ _ _ CM) as (I & C0 & G0 & F).
  unfold cmap12_write, cmap12_of.
  split.
  - intros [bs H]. destruct (chk_u 16 (g - 1)) as [lg| |] eqn:C; cbn [rbind] in H; try discriminate.
    apply chk_u_inv in C as [-> C].
    destruct (runs12 _ _ _ _ _) as [gs| |] eqn:R; cbn [rbind] in H; try discriminate.
    exists c, g, m. split; [reflexivity|]. split; [lia|]. unfold middle. cbn [tl].
    refine (proj2 (proj1 (runs12_iff m _ _ _ _ _ _ F) (ex_intro _ _ R))); [lia|].
    destruct (c =? 0) eqn:E; [now apply increasing_tail in I|]. split; [|lia].
    apply increasing_lower with c; [exact I|lia].
  - intros (c' & g' & m' & [= <- <- <-] & NZ & M). rewrite chk_u_ok by lia. cbn [rbind].
    assert (E : exists gs, runs12 c g (g - 1) (if c =? 0 then None else Some (c - 1)) m = Ok gs).
    { apply runs12_iff; auto; [lia| |].
      - destruct (c =? 0) eqn:E; [now apply increasing_tail in I|]. split; [|lia].
        apply increasing_lower with c; [exact I|lia].
      - split; [right; lia|]. exact M. }
    destruct E as [gs R]. rewrite R. cbn [rbind]. eauto.
Qed.

Lemma unicode_length m : char_map m -> unicode_codes m -> Z.of_nat (length m) <= 1114112.
Proof.
  intros [I F] U. assert (L : forall l low, increasing l -> Forall (fun c => low <= c <= 1114111) l -> low <= 1114112 -> Z.of_nat (length l) <= 1114112 - low).
  { induction l as [|a l IH]; intros low Il Fl Ll; [cbn [length]; lia|].
    inversion Fl as [|? ? F1 F2]; subst. pose proof (increasing_lt _ _ Il) as LT. apply increasing_tail in Il.
    assert (H := IH (a + 1) Il ltac:(apply Forall_forall; intros x Hx; rewrite Forall_forall in F2, LT; specialize (F2 x Hx); specialize (LT x Hx); lia) ltac:(lia)).
    cbn [length]. lia. }
  specialize (L (map fst m) 0 I). rewrite map_length in L. apply Z.le_trans with (1114112 - 0); [|lia]. apply L; [|lia].
  apply Forall_map. unfold unicode_codes in U. rewrite Forall_forall in *. intros x Hx. specialize (F x Hx). specialize (U x Hx). cbv beta in *. lia.
Qed.

Lemma cmap12_write_inv lang m bs : char_map m -> unicode_codes m -> cmap12_write lang m = Ok bs ->
  exists c g m' gs, m = (c, g) :: m' /\ g <> 0
    /\ runs12 c g (g - 1) (if c =? 0 then None else Some (c - 1)) m' = Ok gs
    /\ Forall group_u32 gs /\ Z.of_nat (length gs) <= 1114112
    /\ bs = word 12 ++ word 0 ++ dword (Z.of_nat (length bs)) ++ dword lang
       ++ dword (Z.of_nat (length gs)) ++ concat (map group_bytes gs)
    /\ Z.of_nat (length bs) = 16 + 12 * Z.of_nat (length gs).
Proof.
  intros CM U H. pose proof (unicode_length m CM U) as LM. destruct m as [|[c g] m]; [discriminate|].
  destruct (char_map_tl _ _ _ CM) as (I & C0 & G0 & F).
  unfold cmap12_write, cmap12_of in H. destruct (chk_u 16 (g - 1)) as [lg| |] eqn:C; cbn [rbind] in H; try discriminate.
  apply chk_u_inv in C as [-> C].
  destruct (runs12 _ _ _ _ _) as [gs| |] eqn:R; cbn [rbind] in H; try discriminate. apply Ok_inj in H.
  assert (LC : match (if c =? 0 then None else Some (c - 1)) with Some c => 0 <= c <= 4294967295 | None => True end) by (destruct (c =? 0) eqn:E; [exact Logic.I|lia]).
  destruct (runs12_u32 _ _ _ _ _ _ R C0 ltac:(lia) LC F) as (A1 & A2 & _).
  cbn [length] in LM.
  exists c, g, m, gs. split; [reflexivity|]. split; [lia|]. split; [exact R|]. split; [exact A1|]. split; [lia|].
  rewrite cmap12_ser_bytes in H by lia. rewrite u32_id in H by lia.
  assert (LB : Z.of_nat (length bs) = 16 + 12 * Z.of_nat (length gs)).
  { rewrite <- H. rewrite !app_length, group_bytes_length. cbn [length word dword app]. unfold group in *. lia. }
  split; [|exact LB]. rewrite LB. now rewrite H.
Qed.

Lemma cmap12_written lang g m bs : char_map ((0, g) :: m) -> unicode_codes ((0, g) :: m) -> second_glyph_differs ((0, g) :: m) ->
  cmap12_write lang ((0, g) :: m) = Ok bs ->
  exists gs, cmap12_bytes lang gs bs /\ Forall group_fields gs /\ group_order 0 gs
    /\ concat (map group_entries gs) = (0, g) :: m /\ Z.of_nat (length bs) <= 4294967295.
Proof.
  intros CM U SD H. destruct (cmap12_write_inv _ _ _ CM U H) as (c' & g' & m' & gs & [= <- <- <-] & NZ & R & A1 & A2 & B & LB).
  exists gs. split; [exact B|].
  destruct (char_map_tl _ _ _ CM) as (I & C0 & G0 & F). inversion U as [|? ? _ U2]; subst.
  enough (Forall group_fields gs /\ group_order 0 gs /\ concat (map group_entries gs) = (0, g) :: m) by (intuition lia).
  cbn [Z.eqb] in R. destruct m as [|[c1 g1] m].
  - cbn [runs12 or_start] in R. injection R as <-.
    split; [constructor; [unfold group_fields; cbn [fst snd]; lia|constructor]|].
    split; [cbn [group_order fst snd]; split; [lia|exact Logic.I]|]. unfold group_entries. cbn [map concat fst snd]. rewrite (zrange_cons 0), (zrange_nil (0 + 1)) by lia. cbn [map app]. f_equal. f_equal. lia.
  - cbn [runs12] in R. unfold in_run in R. rewrite chk_u_ok in R by lia. cbn [rbind] in R.
    cbn [second_glyph_differs] in SD. destruct (g1 =? 1 + (g - 1)) eqn:EG; [lia|]. cbn [rbind or_start] in R.
    destruct (runs12 c1 g1 g1 (Some c1) m) as [gs'| |] eqn:R'; cbn [rbind] in R; try discriminate. injection R as <-.
    inversion F as [|? ? F1 F2]; subst. cbn [fst snd] in F1. inversion U2 as [|? ? U3 U4]; subst. cbn [fst] in U3.
    cbn [map fst] in I. pose proof (increasing_lt _ _ I) as LT. inversion LT as [|? ? L1 _]; subst. apply increasing_tail in I.
    unfold is_u16 in F1.
    destruct (runs12_ok _ _ _ _ _ _ R') as (B1 & B2 & B3 & _); try lia; auto.
    { rewrite Forall_forall in *. intros x Hx. specialize (F2 x Hx). specialize (U4 x Hx). cbv beta in *. tauto. }
    split; [constructor; [unfold group_fields; cbn [fst snd]; lia|exact B1]|].
    split; [cbn [group_order fst snd]; split; [lia|]|].
    { destruct gs' as [|g' gs']; [exact Logic.I|]. cbn [group_order] in B2 |- *. intuition lia. }
    cbn [map concat]. rewrite B3. rewrite (zrange_cons c1), (zrange_nil (c1 + 1)) by lia.
    unfold group_entries. cbn [fst snd]. rewrite (zrange_cons 0), (zrange_nil (0 + 1)) by lia. cbn [map app].
    f_equal; [f_equal; lia|]. f_equal. f_equal. lia.
Qed.

Lemma cmap12_from lang gs bs : is_u16 lang -> Forall group_u32 gs -> Z.of_nat (length gs) <= 1114112 ->
  bs = word 12 ++ word 0 ++ dword (Z.of_nat (length bs)) ++ dword lang
       ++ dword (Z.of_nat (length gs)) ++ concat (map group_bytes gs) ->
  Z.of_nat (length bs) = 16 + 12 * Z.of_nat (length gs) ->
  from_bytes cmap12_read bs = (m <- groups_mapping [] gs ;; Ok (lang, m)).
Proof.
  intros HL A1 A2 B LB. unfold is_u16 in HL. rewrite B. clear B.
  set (n := Z.of_nat (length bs)) in *. unfold from_bytes, cmap12_read.
  set (data := word 12 ++ _).
  assert (RD : reads cmap12_de data (mkC12 n lang gs)) by (apply cmap12_de_reads; [lia|lia|lia|exact A1]).
  rewrite (reads_step _ _ _ _ (rd_new data) [] RD) by (cbn; now rewrite app_nil_r).
  cbv beta. unfold cmap12_mapping. cbn [c12_groups c12_language]. unfold pbind, plift, pret. rewrite u16_id by lia.
  destruct (groups_mapping [] gs); reflexivity.
Qed.
Lemma cmap12_first_not_zero lang c g m bs : char_map ((c, g) :: m) -> unicode_codes ((c, g) :: m) -> is_u16 lang ->
  c <> 0 -> cmap12_write lang ((c, g) :: m) = Ok bs -> from_bytes cmap12_read bs = Panic.
Proof.
  intros CM U HL NZC H. destruct (cmap12_write_inv _ _ _ CM U H) as (c' & g' & m' & gs & [= <- <- <-] & NZ & R & A1 & A2 & B & LB).
  rewrite (cmap12_from lang gs bs HL A1 A2 B LB).
  destruct (char_map_tl _ _ _ CM) as (I & C0 & G0 & F).
  destruct (c =? 0) eqn:E; [lia|].
  assert (HD : exists gs', gs = (c, c - 1, g) :: gs').
  { destruct m as [|[c1 g1] m]; cbn [runs12 or_start] in R; [injection R as <-; eauto|].
    cbn [map fst] in I. pose proof (increasing_lt _ _ I) as LT. inversion LT as [|? ? L1 _]; subst.
    unfold in_run in R. rewrite chk_u_ok in R by lia. cbn [rbind] in R.
    assert (X : (if g1 =? 1 + (g - 1) then l <- chk_u 32 (1 + (c - 1)) ;; Ok (c1 =? l) else Ok false) = Ok false).
    { destruct (g1 =? _); [|reflexivity]. rewrite chk_u_ok by lia. cbn [rbind]. f_equal. lia. }
    rewrite X in R. cbn [rbind] in R. destruct (runs12 c1 g1 g1 (Some c1) m) as [gs'| |]; cbn [rbind] in R; try discriminate.
    injection R as <-. eauto. }
  destruct HD as [gs' ->]. cbn [groups_mapping fst snd]. unfold chk_u.
  destruct (_ && _)%bool eqn:X; [lia|]. reflexivity.
Qed.

Lemma group_items_other k g : k < fst (fst g) -> forall l m0 m1, Forall (fun i => 0 <= i) l ->
  group_items g m0 l = Ok m1 -> bm_get Z.ltb k m1 = bm_get Z.ltb k m0.
Proof.
  intros K. induction l as [|i l IH]; intros m0 m1 F H; cbn [group_items] in H; [now injection H as <-|].
  inversion F; subst.
  destruct (chk_u 32 _) as [c| |] eqn:C; cbn [rbind] in H; try discriminate. apply chk_u_inv in C as [-> _].
  destruct (chk_u 16 _) as [x| |]; cbn [rbind] in H; try discriminate.
  rewrite (IH _ _ ltac:(assumption) H). rewrite (get_insert_other _ Z_strict) by lia. reflexivity.
Qed.
Lemma groups_mapping_other k gs : forall m0 m1, Forall (fun g => k < fst (fst g)) gs ->
  groups_mapping m0 gs = Ok m1 -> bm_get Z.ltb k m1 = bm_get Z.ltb k m0.
Proof.
  induction gs as [|g gs IH]; intros m0 m1 F H; cbn [groups_mapping] in H; [now injection H as <-|].
  inversion F; subst.
  destruct (chk_u 32 _) as [d| |]; cbn [rbind] in H; try discriminate.
  destruct (chk_u 32 _) as [it| |]; cbn [rbind] in H; try discriminate.
  destruct (group_items _ _ _) as [m2| |] eqn:GI; cbn [rbind] in H; try discriminate.
  rewrite (IH _ _ ltac:(assumption) H). eapply group_items_other; [eassumption| |exact GI].
  apply Forall_forall. intros i Hi. apply zrange_In in Hi. lia.
Qed.
(** code 1 is taken into a group that starts at code 0 *)
Lemma group_items_one g e : 1 <= e -> forall m1, group_items (0, e, g) [] (zrange 0 (1 + e)) = Ok m1 -> is_u16 g ->
  bm_get Z.ltb 1 m1 = Some (g + 1).
Proof.
  intros E m1 H G. unfold is_u16 in G. rewrite (zrange_cons 0), (zrange_cons (0 + 1)) in H by lia.
  cbn [group_items fst snd] in H. rewrite chk_u_ok in H by lia. cbn [rbind] in H.
  rewrite !u16_id in H by lia. rewrite chk_u_ok in H by lia. cbn [rbind] in H.
  rewrite chk_u_ok in H by lia. cbn [rbind] in H.
  destruct (chk_u 16 (g + (0 + 1))) as [x| |] eqn:C; cbn [rbind] in H; try discriminate. apply chk_u_inv in C as [-> C].
  assert (X : forall l m0 m2, (forall i, In i l -> 2 <= i) -> group_items (0, e, g) m0 l = Ok m2 -> bm_get Z.ltb 1 m2 = bm_get Z.ltb 1 m0).
  { induction l as [|i l IH]; intros m0 m2 F H0; cbn [group_items fst snd] in H0; [now injection H0 as <-|].
    destruct (chk_u 32 _) as [c| |] eqn:C1; cbn [rbind] in H0; try discriminate. apply chk_u_inv in C1 as [-> _].
    destruct (chk_u 16 _) as [x| |]; cbn [rbind] in H0; try discriminate.
    rewrite (IH _ _ ltac:(intros; apply F; now right) H0). specialize (F i (or_introl eq_refl)).
    rewrite (get_insert_other _ Z_strict) by lia. reflexivity. }
  rewrite (X (zrange (0 + 1 + 1) (1 + e)) _ _ ltac:(intros i Hi; apply zrange_In in Hi; lia) H). reflexivity.
Qed.
Lemma cmap12_second_same lang g c1 m bs : char_map ((0, g) :: (c1, g) :: m) -> unicode_codes ((0, g) :: (c1, g) :: m) -> is_u16 lang ->
  cmap12_write lang ((0, g) :: (c1, g) :: m) = Ok bs -> forall lang', from_bytes cmap12_read bs <> Ok (lang', (0, g) :: (c1, g) :: m).
Proof.
  intros CM U HL H lang' Q. destruct (cmap12_write_inv _ _ _ CM U H) as (c' & g' & m' & gs & [= <- <- <-] & NZ & R & A1 & A2 & B & LB).
  rewrite (cmap12_from lang gs bs HL A1 A2 B LB) in Q. clear B LB H.
  destruct (char_map_tl _ _ _ CM) as (I & C0 & G0 & F). inversion U as [|? ? _ U2]; subst.
  cbn [Z.eqb runs12] in R. unfold in_run in R. rewrite chk_u_ok in R by lia. cbn [rbind] in R.
  destruct (g =? 1 + (g - 1)) eqn:EG; [|lia]. cbn [rbind] in R.
  inversion F as [|? ? F1 F2]; subst. cbn [fst snd] in F1.
  cbn [map fst] in I. pose proof (increasing_lt _ _ I) as LT. inversion LT as [|? ? L1 LT']; subst. apply increasing_tail in I as I'.
  assert (HD : forall l sc sg lg lc gs, runs12 sc sg lg (Some lc) l = Ok gs -> increasing (lc :: map fst l) ->
    exists e gs', gs = (sc, e, sg) :: gs' /\ lc <= e /\ Forall (fun h => lc < fst (fst h)) gs').
  { clear. induction l as [|[c g] l IH]; intros sc sg lg lc gs R I; cbn [runs12] in R.
    - injection R as <-. cbn [or_start]. exists lc, []. split; [reflexivity|]. split; [lia|constructor].
    - cbn [map fst] in I. pose proof (increasing_lt _ _ I) as LT. inversion LT as [|? ? L1 _]; subst. apply increasing_tail in I.
      destruct (in_run _ _ _ _) as [[|]| |]; cbn [rbind] in R; try discriminate.
      + destruct (IH _ _ _ _ _ R I) as (e & gs' & -> & E1 & E2). exists e, gs'. split; [reflexivity|]. split; [lia|].
        eapply Forall_impl; [|exact E2]. cbv beta. intros ? ?; lia.
      + destruct (runs12 c g g (Some c) l) as [gs'| |] eqn:R'; cbn [rbind] in R; try discriminate. injection R as <-. cbn [or_start].
        exists lc, gs'. split; [reflexivity|]. split; [lia|].
        destruct (IH _ _ _ _ _ R' I) as (e & gs2 & -> & E1 & E2). constructor; [cbn [fst]; lia|].
        eapply Forall_impl; [|exact E2]. cbv beta. intros ? ?; lia. }
  destruct (HD _ _ _ _ _ _ R I') as (e & gs' & -> & E1 & E2). clear HD R.
  cbn [groups_mapping fst snd] in Q.
  destruct (chk_u 32 (e - 0)) as [d| |] eqn:C; cbn [rbind] in Q; try discriminate. apply chk_u_inv in C as [-> C].
  destruct (chk_u 32 (1 + (e - 0))) as [it| |] eqn:C2; cbn [rbind] in Q; try discriminate. apply chk_u_inv in C2 as [-> C2].
  rewrite Z.sub_0_r in Q.
  destruct (group_items _ _ _) as [m1| |] eqn:GI; cbn [rbind] in Q; try discriminate.
  destruct (groups_mapping m1 gs') as [m2| |] eqn:GM; cbn [rbind] in Q; try discriminate. injection Q as _ ->.
  assert (G1 : bm_get Z.ltb 1 ((0, g) :: (c1, g) :: m) = Some (g + 1)).
  { rewrite <- (group_items_one g e ltac:(lia) m1 GI ltac:(unfold is_u16; lia)).
    apply (groups_mapping_other 1 gs' m1); [|exact GM]. eapply Forall_impl; [|exact E2]. cbv beta. intros ? ?; lia. }
  pose proof (get_In _ Z_strict _ _ _ G1) as IN. destruct IN as [D|[D|IN]].
  - injection D as ? ?. lia.
  - injection D as ? ?. lia.
  - apply (in_map fst) in IN. cbn [fst] in IN. apply increasing_lt in I'. rewrite Forall_forall in I'. apply I' in IN. lia.
Qed.

Lemma cmap12_roundtrip_iff lang m bs : char_map m -> unicode_codes m -> is_u16 lang -> cmap12_write lang m = Ok bs ->
  (from_bytes cmap12_read bs = Ok (lang, m) <-> (exists g m', m = (0, g) :: m') /\ second_glyph_differs m).
Proof.
  intros CM U HL H. split.
  - intros Q. destruct m as [|[c g] m]; [discriminate|].
    destruct (Z.eq_dec c 0) as [->|NZ].
    2: { rewrite (cmap12_first_not_zero lang c g m bs CM U HL NZ H) in Q. discriminate. }
    split; [eauto|]. destruct m as [|[c1 g1] m]; [exact Logic.I|]. cbn [second_glyph_differs]. intros ->.
    exact (cmap12_second_same _ _ _ _ _ CM U HL H lang Q).
  - intros [(g & m' & ->) SD]. destruct (cmap12_written lang g m' bs CM U SD H) as (gs & B & F & O & E & LB).
    unfold is_u16 in HL. pose proof (cmap12_every_read lang gs bs B ltac:(lia) F O LB) as R. rewrite E in R.
    rewrite Z.mod_small in R by lia. apply reads_from_bytes with (post := []) in R. now rewrite app_nil_r in R.
Qed.

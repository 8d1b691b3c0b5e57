(** Which bytes make reading a gvar table abort. *)
From Coq Require Import List ZArith Bool Lia.
Import ListNotations.
From Verif.Model Require Import MBase MFixed MGlyph MGlyf MPacked MIup MGvar.
From Verif.Spec Require Import SBase SReader SCalm SStop SVarStop SGvarStop.
From Verif.Proofs Require Import PBase PCalm PStop POutline PVarStop.
Open Scope Z_scope.

(** ** Readers that leave the input and the stack as they are *)
Definition keeps {A} (p : parser A) : Prop := forall d k st a r, p (mkrd d k st) = Ok (a, r) -> exists k', r = mkrd d k' st.
Lemma keeps_ret {A} (a : A) : keeps (pret a).
Proof. intros d k st b r [= <- <-]. eauto. Qed.
Lemma keeps_lift {A} (x : res A) : keeps (plift x).
Proof. intros d k st b r. unfold plift. destruct x; try discriminate. intros [= <- <-]. eauto. Qed.
Lemma keeps_bind {A B} (p : parser A) (f : A -> parser B) : keeps p -> (forall a, keeps (f a)) -> keeps (pbind p f).
Proof.
  intros Hp Hf d k st b r. unfold pbind. destruct (p (mkrd d k st)) as [[a r1]| |] eqn:E; try discriminate.
  apply Hp in E as [k' ->]. apply Hf.
Qed.
Lemma keeps_prim t : keeps (de_prim t).
Proof.
  intros d k st a r. unfold de_prim, consume, consume_or_peek. cbn [rd_input rd_ptr rd_stack].
  destruct (_ <? _)%nat; [discriminate|]. intros [= <- <-]. eauto.
Qed.
Lemma keeps_counted {A} (p : parser A) : keeps p -> forall n, keeps (de_counted p n).
Proof. intros H. induction n; cbn [de_counted]; [apply keeps_ret|]. repeat (apply keeps_bind; [assumption|intros ?]). apply keeps_ret. Qed.
Ltac keeping := repeat first [assumption | apply keeps_prim | apply keeps_ret | apply keeps_lift | apply keeps_counted | apply keeps_bind; [|intros ?]].
Lemma keeps_loop run : keeps run -> forall fuel n, keeps (loop run fuel n).
Proof. intros H. induction fuel as [|k IH]; intros [|n]; cbn [loop]; keeping; auto. Qed.
Lemma keeps_eq {A} (p q : parser A) : (forall r, p r = q r) -> keeps q -> keeps p.
Proof. intros E H d k st a r. rewrite E. apply H. Qed.
Lemma keeps_deltas n : keeps (de_deltas n).
Proof.
  unfold de_deltas. eapply keeps_eq; [intros r; apply deltas_loop|]. apply keeps_loop. unfold de_delta_run. prims.
  keeping. destruct (_ >? 0); [keeping|]. destruct (_ >? 0); keeping.
Qed.
Lemma keeps_points : keeps de_points.
Proof.
  unfold de_points, de_point_count. prims. apply keeps_bind; [keeping; destruct (_ >? _); keeping|]. intros c.
  destruct (c =? 0); keeping. eapply keeps_eq; [intros r; apply points_loop|]. apply keeps_loop. unfold de_point_run. prims.
  keeping. destruct (_ >? 0); keeping.
Qed.
Lemma keeps_tvs axes two n : keeps (de_tvs axes two n).
Proof.
  assert (Tu: keeps (de_tuple axes)) by (unfold de_tuple; prims; keeping).
  assert (Th: keeps (de_tvh axes)) by (unfold de_tvh; prims; keeping; destruct (contains _ _); keeping).
  pose proof keeps_points as Po. pose proof keeps_deltas as De. unfold de_tvs. prims. keeping.
  - destruct (negb _); keeping.
  - match goal with |- keeps (de_tvs_data _ _ ?s ?h) => generalize s; induction h as [|h hs IH]; intros sh end; cbn [de_tvs_data]; [apply keeps_ret|].
    apply keeps_bind; [|intros ?; apply keeps_bind; [apply IH|intros ?; apply keeps_ret]].
    unfold de_tv, de_delta_data. apply keeps_bind; [destruct (contains _ _); keeping|intros ?].
    apply keeps_bind; [destruct two|intros ?; keeping]; repeat (apply keeps_bind; [apply De|intros ?]); apply keeps_ret.
Qed.

(** ** Variations that can be used *)
Lemma rmapM_iff {A B} (f : A -> res B) : forall l,
  (rmapM f l = Panic <-> exists before v after, l = before ++ v :: after /\ Forall (fun x => exists y, f x = Ok y) before /\ f v = Panic) /\
  ((exists r, rmapM f l = Ok r) <-> Forall (fun x => exists y, f x = Ok y) l).
Proof.
  induction l as [|x l [IH1 IH2]]; cbn [rmapM].
  - split; [split; [discriminate|intros (b & v & a & H & _); now destruct b]|]. split; [constructor|eauto].
  - destruct (f x) as [y| |] eqn:E; cbn [rbind].
    + split.
      * destruct (rmapM f l) as [rs| |] eqn:El; cbn [rbind].
        1,2: split; [discriminate|]; intros ([|b0 b] & v & a & H & Hb & Hv); injection H as -> H; [congruence|];
             inversion Hb as [|? ? _ Hb2]; subst; discriminate (proj2 IH1 (ex_intro _ b (ex_intro _ v (ex_intro _ a (conj eq_refl (conj Hb2 Hv)))))).
        split; [|reflexivity]. intros _. destruct (proj1 IH1 eq_refl) as (b & v & a & -> & Hb & Hv).
        exists (x :: b), v, a. repeat split; [constructor; eauto|exact Hv].
      * split.
        -- intros [r Hr]. destruct (rmapM f l); try discriminate. constructor; [eauto|]. apply IH2. eauto.
        -- intros H. inversion H as [|? ? _ H2]; subst. apply IH2 in H2 as [r ->]. cbn [rbind]. eauto.
    + split.
      * split; [discriminate|]. intros ([|b0 b] & v & a & H & Hb & Hv); injection H as -> H; [congruence|].
        inversion Hb as [|? ? [y Hy] _]; subst. congruence.
      * split; [intros [r Hr]; discriminate|]. intros H. inversion H as [|? ? [y Hy] _]; subst. congruence.
    + split.
      * split; [|reflexivity]. intros _. exists [], x, l. auto.
      * split; [intros [r Hr]; discriminate|]. intros H. inversion H as [|? ? [y Hy] _]; subst. congruence.
Qed.
Lemma set_iff (shared : list (list dyadic)) tuples coords ends v : Z.of_nat (length shared) = tuples + 1 -> 0 <= tuples ->
  (read_set shared coords ends v = Panic <-> set_bad tuples coords ends v) /\
  ((exists s, read_set shared coords ends v = Ok s) <-> set_fine tuples coords ends v).
Proof.
  intros Hs Ht. unfold read_set, set_bad, set_fine.
  destruct (iup_delta (tv_deltas v) coords ends) as [ds| |] eqn:Ei; cbn [rbind].
  - destruct (Z.gtb_spec (tv_index (tv_header v)) (Z.of_nat (length shared))) as [G|G].
    + split; [split; [discriminate|intros [X|(_ & X & _)]; [discriminate|lia]]|]. split; [intros [s X]; discriminate|].
      intros [_ [X|[X _]]]; lia.
    + destruct (tv_peak (tv_header v)) as [pk|] eqn:Ep; cbn [rbind].
      * split; [split; [discriminate|intros [X|(_ & _ & X)]; discriminate]|]. split; [|eauto]. intros _. split; [eauto|].
        destruct (Z.eq_dec (tv_index (tv_header v)) (tuples + 1)); [right; split; [assumption|discriminate]|left; lia].
      * unfold at_. destruct (nth_error shared (Z.to_nat (tv_index (tv_header v)))) as [pk|] eqn:En; cbn [unwrap rbind].
        -- assert (En': (Z.to_nat (tv_index (tv_header v)) < length shared)%nat) by (apply nth_error_Some; congruence). split; [split; [discriminate|intros [X|(_ & X & _)]; [discriminate|lia]]|].
           split; [|eauto]. intros _. split; [eauto|]. left. lia.
        -- apply nth_error_None in En. split; [split; [|reflexivity]|].
           ++ intros _. right. split; [eauto|]. split; [lia|reflexivity].
           ++ split; [intros [s X]; discriminate|]. intros [_ [X|[_ X]]]; [lia|congruence].
  - split; [split; [discriminate|intros [X|([ds X] & _)]; discriminate]|]. split; [intros [s X]; discriminate|intros [[ds X] _]; discriminate].
  - split; [split; auto|]. split; [intros [s X]; discriminate|intros [[ds X] _]; discriminate].
Qed.

(** ** One glyph *)
Definition one_glyph (ces : list (list (Z * Z) * list Z)) (axis_count : nat) (shared : list (list dyadic))
    (offsets : list Z) (data : Z) (i : nat) : parser (option (list delta_set)) :=
  o <-- plift (at_ offsets i) ;;
  offset <-- plift (chk_u 32 (o + data)) ;;
  o' <-- plift (at_ offsets (S i)) ;;
  next <-- plift (chk_u 32 (o' + data)) ;;
  len <-- plift (chk_u 64 (next - offset)) ;;
  if len =? 0 then pret None
  else
    _ <-- move_to offset ;;
    ce <-- plift (at_ ces i) ;;
    vs <-- de_tvs axis_count true (Z.to_nat (u16 (Z.of_nat (length (fst ce))))) ;;
    sets <-- plift (rmapM (read_set shared (fst ce) (snd ce)) vs) ;;
    pret (Some sets).
Lemma lift_bind {A B} (x : res A) (f : A -> parser B) r : pbind (plift x) f r = match x with Ok a => f a r | Err => Err | Panic => Panic end.
Proof. unfold pbind, plift. destruct x; reflexivity. Qed.
Lemma read_more ces axes shared os data i k r : read_glyphs ces axes shared os data i (S k) r =
  (s <-- one_glyph ces axes shared os data i ;; rest <-- read_glyphs ces axes shared os data (S i) k ;; pret (s :: rest)) r.
Proof.
  cbn [read_glyphs]. unfold one_glyph.
  rewrite bind_assoc, !lift_bind. destruct (at_ os i) as [o| |]; try reflexivity.
  rewrite bind_assoc, !lift_bind. destruct (chk_u 32 (o + data)) as [off| |]; try reflexivity.
  rewrite bind_assoc, !lift_bind. destruct (at_ os (S i)) as [o'| |]; try reflexivity.
  rewrite bind_assoc, !lift_bind. destruct (chk_u 32 (o' + data)) as [next| |]; try reflexivity.
  rewrite bind_assoc, !lift_bind. destruct (chk_u 64 (next - off)) as [len| |]; reflexivity.
Qed.
Lemma keeps_move off : keeps (move_to off).
Proof. intros d k st a r. unfold move_to. destruct (top_of_table _); try discriminate. intros [= <- <-]. cbn. eauto. Qed.
Lemma keeps_glyph ces axes shared os data i : keeps (one_glyph ces axes shared os data i).
Proof.
  unfold one_glyph. do 5 (apply keeps_bind; [apply keeps_lift|intros ?]). destruct (_ =? 0); [apply keeps_ret|].
  apply keeps_bind; [apply keeps_move|intros ?]. apply keeps_bind; [apply keeps_lift|intros ?].
  apply keeps_bind; [apply keeps_tvs|intros ?]. apply keeps_bind; [apply keeps_lift|intros ?; apply keeps_ret].
Qed.
Lemma use_iff axes tuples (shared : list (list dyadic)) cs es d o : Forall is_byte d ->
  Z.of_nat (length shared) = tuples + 1 -> 0 <= tuples ->
  let p := (vs <-- de_tvs (Z.to_nat axes) true (points_of cs) ;;
            sets <-- plift (rmapM (read_set shared cs es) vs) ;; pret (Some sets)) (mkrd d (Z.to_nat o) [0%nat; 0%nat]) in
  (p = Panic <-> variation_data_bad (Z.to_nat axes) true (points_of cs) d (Z.to_nat o) \/
     exists before v after, variations_read d axes cs o (before ++ v :: after) /\
       Forall (set_fine tuples cs es) before /\ set_bad tuples cs es v) /\
  ((exists s r, p = Ok (s, r)) <-> exists vs, variations_read d axes cs o vs /\ Forall (set_fine tuples cs es) vs).
Proof.
  intros B Hs Ht p. subst p. pose proof (variation_data_stops (Z.to_nat axes) true (points_of cs) d (Z.to_nat o) [0%nat; 0%nat] B) as St.
  unfold variations_read. destruct (de_tvs (Z.to_nat axes) true (points_of cs) (mkrd d (Z.to_nat o) [0%nat; 0%nat])) as [[vs r]| |] eqn:E;
    [rewrite (bind_at _ _ _ _ _ E)|rewrite (bind_err _ _ _ E)|rewrite (bind_panic _ _ _ E)].
  - rewrite !lift_bind. destruct (rmapM_iff (read_set shared cs es) vs) as [I1 I2].
    assert (F: forall l, Forall (fun x => exists y, read_set shared cs es x = Ok y) l <-> Forall (set_fine tuples cs es) l).
    { intros l. split; apply Forall_impl; intros v; apply (set_iff shared tuples cs es v Hs Ht). }
    split.
    + split.
      * intros X. right. destruct (rmapM _ vs) eqn:Er; try discriminate X. destruct (proj1 I1 eq_refl) as (bf & v & af & -> & Hb & Hv).
        exists bf, v, af. split; [eauto|]. split; [now apply F|]. now apply (set_iff shared tuples cs es v Hs Ht).
      * intros [X|(bf & v & af & [r' X] & Hb & Hv)]; [apply St in X; discriminate|]. injection X as -> _.
        rewrite (proj2 I1); [reflexivity|]. exists bf, v, af. split; [reflexivity|]. split; [now apply F|]. now apply (set_iff shared tuples cs es v Hs Ht).
    + split.
      * intros (s & r' & X). exists vs. split; [eauto|]. apply F, I2. destruct (rmapM _ vs); try discriminate X. eauto.
      * intros (vs' & [r' X] & Hv). injection X as -> _. apply F, I2 in Hv as [l ->]. unfold pret. eauto.
  - split.
    + split; [discriminate|]. intros [X|(bf & v & af & [r' X] & _)]; [apply St in X|]; discriminate.
    + split; [intros (s & r & X); discriminate|]. intros (vs & [r X] & _). discriminate.
  - split.
    + split; [|reflexivity]. intros _. left. now apply St.
    + split; [intros (s & r & X); discriminate|]. intros (vs & [r X] & _). discriminate.
Qed.
Lemma glyph_iff ces axes tuples (shared : list (list dyadic)) os data i a b d q : Forall is_byte d ->
  Z.of_nat (length shared) = tuples + 1 -> 0 <= tuples -> nth_error os i = Some a -> nth_error os (S i) = Some b ->
  0 <= a -> 0 <= b -> 0 <= data ->
  (one_glyph ces (Z.to_nat axes) shared os data i (mkrd d q [0%nat; 0%nat]) = Panic <-> gvar_glyph_bad d ces axes tuples data os i) /\
  ((exists s r, one_glyph ces (Z.to_nat axes) shared os data i (mkrd d q [0%nat; 0%nat]) = Ok (s, r)) <-> glyph_fine d ces axes tuples data os i).
Proof.
  intros B Hs Ht Ha Hb Pa Pb Pd.
  assert (Sp: forall o o', glyph_spot os data i o o' <-> o = a + data /\ o' = b + data).
  { intros o o'. unfold glyph_spot. split; [intros (x & y & X & Y & -> & ->); split; congruence|]. intros [-> ->]. exists a, b. auto. }
  remember (one_glyph ces (Z.to_nat axes) shared os data i (mkrd d q [0%nat; 0%nat])) as p eqn:Ep.
  assert (Ua: at_ os i = Ok a) by (unfold at_; now rewrite Ha). assert (Ub: at_ os (S i) = Ok b) by (unfold at_; now rewrite Hb).
  unfold one_glyph in Ep. rewrite lift_bind, Ua, lift_bind in Ep.
  destruct (chk_u_cases 32 (a + data)) as [[R1 C]|[R1 C]]; rewrite C in Ep; clear C.
  2: { subst p. split; [split; [|reflexivity]|].
       - intros _. exists (a + data), (b + data). rewrite Sp. split; [auto|left; lia].
       - split; [intros (s & r & X); discriminate|]. intros (o & o' & S1 & L1 & L2 & _). apply Sp in S1 as [-> ->]. lia. }
  rewrite lift_bind, Ub, lift_bind in Ep.
  destruct (chk_u_cases 32 (b + data)) as [[R2 C]|[R2 C]]; rewrite C in Ep; clear C.
  2: { subst p. split; [split; [|reflexivity]|].
       - intros _. exists (a + data), (b + data). rewrite Sp. split; [auto|right; left; lia].
       - split; [intros (s & r & X); discriminate|]. intros (o & o' & S1 & L1 & L2 & _). apply Sp in S1 as [-> ->]. lia. }
  rewrite lift_bind in Ep. destruct (chk_u_cases 64 (b + data - (a + data))) as [[R3 C]|[R3 C]]; rewrite C in Ep; clear C.
  2: { subst p. split; [split; [|reflexivity]|].
       - intros _. exists (a + data), (b + data). rewrite Sp. split; [auto|right; right; left; lia].
       - split; [intros (s & r & X); discriminate|]. intros (o & o' & S1 & L1 & L2 & _). apply Sp in S1 as [-> ->]. lia. }
  destruct (Z.eqb_spec (b + data - (a + data)) 0) as [Z0|Z0].
  - subst p. split.
    + split; [discriminate|]. intros (o & o' & S1 & X). apply Sp in S1 as [-> ->]. lia.
    + split; [|unfold pret; eauto]. intros _. exists (a + data), (b + data). rewrite Sp. split; [auto|]. split; [lia|]. split; [lia|left; lia].
  - assert (Bad: forall P Q : Prop, (P <-> nth_error ces i = None \/
       exists coords ends, nth_error ces i = Some (coords, ends) /\
         (variation_data_bad (Z.to_nat axes) true (points_of coords) d (Z.to_nat (a + data)) \/
          exists before v after, variations_read d axes coords (a + data) (before ++ v :: after) /\
            Forall (set_fine tuples coords ends) before /\ set_bad tuples coords ends v)) ->
      (Q <-> exists coords ends vs, nth_error ces i = Some (coords, ends) /\
       variations_read d axes coords (a + data) vs /\ Forall (set_fine tuples coords ends) vs) ->
      (P <-> gvar_glyph_bad d ces axes tuples data os i) /\ (Q <-> glyph_fine d ces axes tuples data os i)).
    { intros P Q -> ->. split; (split; [intros X; exists (a + data), (b + data); rewrite Sp; split; [auto|]|intros (o & o' & S1 & X); apply Sp in S1 as [-> ->]]).
      - right. right. right. split; [lia|exact X].
      - destruct X as [X|[X|[X|[_ X]]]]; [lia..|exact X].
      - split; [lia|]. split; [lia|]. right. exact X.
      - destruct X as (_ & _ & [X|X]); [lia|exact X]. }
    assert (Mv: move_to (a + data) (mkrd d q [0%nat; 0%nat]) = Ok (tt, mkrd d (Z.to_nat (a + data)) [0%nat; 0%nat])) by reflexivity.
    rewrite (bind_at _ _ _ _ _ Mv), lift_bind in Ep. unfold at_ in Ep. destruct (nth_error ces i) as [[cs es]|]; cbn [unwrap fst snd] in Ep; apply Bad; clear Bad; subst p.
    + rewrite (proj1 (use_iff axes tuples shared cs es d (a + data) B Hs Ht)). split.
      * intros X. right. exists cs, es. auto.
      * intros [X|(cs' & es' & X & Y)]; [discriminate|]. injection X as <- <-. exact Y.
    + rewrite (proj2 (use_iff axes tuples shared cs es d (a + data) B Hs Ht)). split.
      * intros (vs & X). exists cs, es, vs. auto.
      * intros (cs' & es' & vs & X & Y). injection X as <- <-. eauto.
    + split; auto.
    + split; [intros (s & r & X); discriminate|]. intros (cs' & es' & vs & X & _). discriminate.
Qed.

(** ** All glyphs *)
Lemma glyphs_iff ces axes tuples (shared : list (list dyadic)) os data d : Forall is_byte d ->
  Z.of_nat (length shared) = tuples + 1 -> 0 <= tuples -> Forall (fun o => 0 <= o) os -> 0 <= data ->
  forall n i q, (i + n < length os)%nat ->
  (read_glyphs ces (Z.to_nat axes) shared os data i n (mkrd d q [0%nat; 0%nat]) = Panic <->
   exists m, (i <= m < i + n)%nat /\ (forall j, (i <= j < m)%nat -> glyph_fine d ces axes tuples data os j) /\
     gvar_glyph_bad d ces axes tuples data os m).
Proof.
  intros B Hs Ht Po Pd. induction n as [|n IH]; intros i q Hn.
  - cbn [read_glyphs]. split; [discriminate|]. intros (m & Hm & _). lia.
  - rewrite read_more.
    destruct (nth_error os i) as [a|] eqn:Ea; [|apply nth_error_None in Ea; lia].
    destruct (nth_error os (S i)) as [b|] eqn:Eb; [|apply nth_error_None in Eb; lia].
    pose proof (proj1 (Forall_forall _ _) Po _ (nth_error_In _ _ Ea)) as Pa. pose proof (proj1 (Forall_forall _ _) Po _ (nth_error_In _ _ Eb)) as Pb. cbn beta in Pa, Pb.
    destruct (glyph_iff ces axes tuples shared os data i a b d q B Hs Ht Ea Eb Pa Pb Pd) as [G1 G2].
    pose proof (keeps_glyph ces (Z.to_nat axes) shared os data i d q [0%nat; 0%nat]) as Kp.
    unfold pbind at 1. destruct (one_glyph ces (Z.to_nat axes) shared os data i (mkrd d q [0%nat; 0%nat])) as [[s r]| |].
    + destruct (Kp _ _ eq_refl) as [q' ->]. assert (Gf: glyph_fine d ces axes tuples data os i) by (apply G2; eauto).
      assert (Gb: ~ gvar_glyph_bad d ces axes tuples data os i) by (intros X; apply G1 in X; discriminate).
      assert (X: forall A C (x : parser A) (f : A -> C) r, pbind x (fun y => pret (f y)) r = Panic <-> x r = Panic).
      { intros A C x f r. unfold pbind, pret. destruct (x r) as [[y r']| |]; split; congruence. }
      rewrite X, IH by lia. split.
      * intros (m & Hm & Hf & Hb). exists m. split; [lia|]. split; [|exact Hb]. intros j Hj. destruct (Nat.eq_dec j i) as [->|N]; [exact Gf|apply Hf; lia].
      * intros (m & Hm & Hf & Hb). destruct (Nat.eq_dec m i) as [->|N]; [contradiction|]. exists m. split; [lia|]. split; [|exact Hb]. intros j Hj. apply Hf. lia.
    + split; [discriminate|]. intros (m & Hm & Hf & Hb). exfalso. destruct (Nat.eq_dec m i) as [->|N].
      * apply G1 in Hb. discriminate.
      * destruct (proj2 G2 (Hf i ltac:(lia))) as (s & r & X). discriminate.
    + split; [|reflexivity]. intros _. exists i. split; [lia|]. split; [intros j Hj; lia|]. now apply G1.
Qed.

(** ** The whole table *)
Lemma tuples_cases axes d st : Forall is_byte d -> forall n q,
  ((n = 0%nat \/ axes = 0%nat \/ (q + 2 * axes * n <= length d)%nat) /\
   exists l, length l = n /\ de_counted (de_tuple axes) n (mkrd d q st) = Ok (l, mkrd d (q + 2 * axes * n) st)) \/
  ((0 < n)%nat /\ (0 < axes)%nat /\ (length d < q + 2 * axes * n)%nat /\ de_counted (de_tuple axes) n (mkrd d q st) = Err).
Proof.
  intros B. induction n as [|n IH]; intros q; cbn [de_counted].
  - left. split; [auto|]. exists []. split; [reflexivity|]. unfold pret. do 3 f_equal. lia.
  - destruct (tuple_item axes d st B q) as [(H & t & E)|(H & L & E)].
    + rewrite (bind_at _ _ _ _ _ E). destruct (IH (q + 2 * axes)%nat) as [(H2 & l & Hl & E2)|(H2 & H3 & L2 & E2)].
      * left. split; [right; nia|]. exists (t :: l). split; [cbn [length]; congruence|].
        rewrite (bind_at _ _ _ _ _ E2). unfold pret. do 3 f_equal. nia.
      * right. split; [lia|]. split; [lia|]. split; [nia|exact (bind_err _ _ _ E2)].
    + right. split; [lia|]. split; [lia|]. split; [nia|exact (bind_err _ _ _ E)].
Qed.
Lemma doubles : forall raw, Forall (fun o => 0 <= o) raw ->
  (Forall (fun o => o < 32768) raw /\ rmapM (fun x => chk_u 16 (x * 2)) raw = Ok (map (Z.mul 2) raw)) \/
  (Exists (fun o => 32768 <= o) raw /\ rmapM (fun x => chk_u 16 (x * 2)) raw = Panic).
Proof.
  induction raw as [|x raw IH]; intros P; cbn [rmapM map]; [left; auto|]. inversion P as [|? ? P1 P2]; subst.
  destruct (chk_u_cases 16 (x * 2)) as [[R ->]|[R ->]]; cbn [rbind].
  - destruct (IH P2) as [[F ->]|[F ->]]; cbn [rbind].
    + left. split; [constructor; [lia|exact F]|]. replace (x * 2) with (2 * x) by lia. reflexivity.
    + right. split; [now right|reflexivity].
  - right. split; [left; lia|reflexivity].
Qed.
Lemma header_unique d a b c e f g a' b' c' e' f' g' : gvar_header d a b c e f g -> gvar_header d a' b' c' e' f' g' ->
  a = a' /\ b = b' /\ c = c' /\ e = e' /\ f = f' /\ g = g'.
Proof.
  intros (A & B & C & D & E & F) (A' & B' & C' & D' & E' & F').
  repeat split; eapply number_unique; eassumption.
Qed.
Lemma offsets_unique d g f raw raw' : offsets_there d g f raw -> offsets_there d g f raw' -> raw = raw'.
Proof. intros [L V] [L' V']. eapply values_unique; [congruence|eassumption|eassumption]. Qed.
Lemma bad_header ces d : gvar_bad ces d -> exists a b c e f g, gvar_header d a b c e f g.
Proof.
  intros [(a & b & c & e & f & g & H & _)|(a & b & e & g & os & i & (c & f & raw & H & _) & _)]; eauto 10.
Qed.
Lemma bad_long ces d : gvar_bad ces d -> (20 <= length d)%nat.
Proof. intros H. apply bad_header in H as (a & b & c & e & f & g & H). destruct H as (_ & _ & _ & _ & _ & H). apply number_fits in H. exact H. Qed.
Lemma values_nonneg t d q vs : (t = U16 \/ t = U32) -> values_at t d q vs -> Forall (fun o => 0 <= o) vs.
Proof.
  intros Ht V. apply Forall_forall. intros x Hx. apply In_nth_error in Hx as [i Hi]. apply V in Hi. destruct Hi as (bs & _ & _ & R).
  destruct Ht as [-> | ->]; cbn [in_range] in R; lia.
Qed.

Section Whole.
Variables (ces : list (list (Z * Z) * list Z)) (d : list Z) (B : Forall is_byte d).
Variables (ax tu sh gl fl da : Z) (Hd : gvar_header d ax tu sh gl fl da).
Lemma no_offsets_bad : gl <> 65535 -> (forall raw, ~ offsets_there d gl fl raw) -> ~ gvar_bad ces d.
Proof using Hd.
  intros N O [(a & b & c & e & f & g & H & X)|(a & b & e & g & os & i & (c & f & raw & H & _ & _ & X & _) & _)];
    destruct (header_unique _ _ _ _ _ _ _ _ _ _ _ _ _ H Hd) as (-> & -> & -> & -> & -> & ->).
  - destruct X as [X|(raw & X & _)]; [contradiction|exact (O _ X)].
  - exact (O _ X).
Qed.
Lemma offsets_bad raw os : gl < 65535 -> offsets_there d gl fl raw ->
  (if Z.testbit fl 0 then os = raw else Forall (fun o => o < 32768) raw /\ os = map (Z.mul 2) raw) ->
  gvar_bad ces d <-> (tu = 65535 \/ tu < 65535 /\ (ax = 0 \/ sh + 2 * ax * (tu + 1) <= Z.of_nat (length d)) /\
    exists m, (0 <= m < 0 + Z.to_nat gl)%nat /\ (forall j, (0 <= j < m)%nat -> glyph_fine d ces ax tu da os j) /\
     gvar_glyph_bad d ces ax tu da os m).
Proof using Hd.
  intros G O Ho. split.
  - intros [(a & b & c & e & f & g & H & X)|(a & b & e & g & os' & i & (c & f & raw' & H & _ & Ht & O' & Ho' & Hs) & Hi & Hf & Hb)];
      destruct (header_unique _ _ _ _ _ _ _ _ _ _ _ _ _ H Hd) as (-> & -> & -> & -> & -> & ->).
    + destruct X as [X|(raw' & O' & [X|[Xf X]])]; [lia|now left|]. rewrite (offsets_unique _ _ _ _ _ O' O), Xf in *.
      apply Exists_exists in X as (o & Hin & X). destruct Ho as [F _]. rewrite Forall_forall in F. specialize (F _ Hin). lia.
    + rewrite (offsets_unique _ _ _ _ _ O' O) in *. assert (Eo: os' = os) by (destruct (Z.testbit fl 0); [congruence|destruct Ho, Ho'; congruence]). subst os'.
      right. split; [exact Ht|]. split; [exact Hs|]. exists i. split; [lia|]. split; [intros j Hj; apply Hf; lia|exact Hb].
  - intros [X|(Ht & Hs & m & Hm & Hf & Hb)].
    + left. exists ax, tu, sh, gl, fl, da. split; [exact Hd|]. right. exists raw. auto.
    + right. exists ax, tu, gl, da, os, m. split; [exists sh, fl, raw; auto 10|]. split; [lia|]. split; [intros j Hj; apply Hf; lia|exact Hb].
Qed.
Lemma rest_stops raw os q : gl < 65535 -> offsets_there d gl fl raw ->
  (if Z.testbit fl 0 then os = raw else Forall (fun o => o < 32768) raw /\ os = map (Z.mul 2) raw) ->
  (_ <-- move_to sh ;;
   n <-- plift (chk_u 16 (tu + 1)) ;;
   shared <-- de_counted (de_tuple (Z.to_nat ax)) (Z.to_nat n) ;;
   read_glyphs ces (Z.to_nat ax) shared os da 0 (Z.to_nat gl)) (mkrd d q [0%nat; 0%nat]) = Panic <-> gvar_bad ces d.
Proof using Hd B.
  intros G O Ho. rewrite (offsets_bad raw os G O Ho). pose proof Hd as (N4 & N6 & N8 & N12 & N14 & N16).
  pose proof (u16_range _ _ _ N4) as R4. pose proof (u16_range _ _ _ N6) as R6. pose proof (u32_range _ _ _ N8) as R8.
  pose proof (u16_range _ _ _ N12) as R12. pose proof (u32_range _ _ _ N16) as R16.
  assert (Mv: move_to sh (mkrd d q [0%nat; 0%nat]) = Ok (tt, mkrd d (Z.to_nat sh) [0%nat; 0%nat])) by reflexivity.
  rewrite (bind_at _ _ _ _ _ Mv), lift_bind. clear Mv.
  destruct (chk_u_cases 16 (tu + 1)) as [[R ->]|[R ->]]; [|split; [left; lia|reflexivity]].
  destruct O as [Lr V]. assert (Pr: Forall (fun o => 0 <= o) raw) by (eapply values_nonneg; [|exact V]; destruct (Z.testbit fl 0); auto).
  assert (Po: Forall (fun o => 0 <= o) os /\ length os = S (Z.to_nat gl)).
  { destruct (Z.testbit fl 0); [subst; auto|]. destruct Ho as [_ ->]. rewrite map_length. split; [|exact Lr].
    apply Forall_map. eapply Forall_impl; [|exact Pr]. cbn beta. intros; lia. }
  destruct (tuples_cases (Z.to_nat ax) d [0%nat; 0%nat] B (Z.to_nat (tu + 1)) (Z.to_nat sh)) as [(Rm & l & Hl & E)|(P1 & P2 & L & E)].
  - rewrite (bind_at _ _ _ _ _ E), (glyphs_iff ces ax tu l os da d B ltac:(lia) ltac:(lia) (proj1 Po) ltac:(lia) (Z.to_nat gl) 0) by (destruct Po as [_ ->]; lia).
    split; [intros X|intros [X|(_ & _ & X)]; [lia|exact X]]. right. split; [lia|]. split; [|exact X].
    destruct Rm as [Rm|[Rm|Rm]]; [lia|left; lia|right]. zify. nia.
  - rewrite (bind_err _ _ _ E). split; [discriminate|]. intros [X|(_ & [X|X] & _)]; [lia|lia|exfalso]. zify. nia.
Qed.
End Whole.
Ltac field Long d B t k v N := destruct (prim_at t d k [0%nat; 0%nat] B) as [(v & N & Ex)|(Lx & Ex)]; cbn [width Nat.add] in Ex;
  [rewrite (bind_at _ _ _ _ _ Ex); clear Ex
  |rewrite (bind_err _ _ _ Ex); split; [discriminate|let X := fresh in intros X; apply Long in X; cbn [width] in Lx; lia]].
Lemma gvar_stops ces d : Forall is_byte d -> (from_bytes (gvar_de ces) d = Panic <-> gvar_bad ces d).
Proof.
  intros B. rewrite from_panic. unfold gvar_de. change (rd_push (rd_new d)) with (mkrd d 0 [0%nat; 0%nat]). prims.
  pose proof (bad_long ces d) as Long.
  field Long d B U16 0%nat v0 Nz. field Long d B U16 2%nat v2 N2. field Long d B U16 4%nat ax N4. field Long d B U16 6%nat tu N6. field Long d B U32 8%nat sh N8.
  field Long d B U16 12%nat gl N12. field Long d B U16 14%nat fl N14. field Long d B U32 16%nat da N16.
  assert (Hd: gvar_header d ax tu sh gl fl da) by (repeat split; assumption).
  pose proof (u16_range _ _ _ N12) as R12. pose proof (u16_range _ _ _ N14) as R14.
  rewrite lift_bind. destruct (chk_u_cases 16 (gl + 1)) as [[R ->]|[R ->]].
  2: { split; [|reflexivity]. intros _. left. exists ax, tu, sh, gl, fl, da. split; [exact Hd|left; lia]. }
  assert (El: (Z.land fl 1 =? 0) = negb (Z.testbit fl 0)).
  { rewrite <- (land_bit fl 0) by lia. change (2 ^ 0) with 1. assert (0 <= Z.land fl 1) by (apply Z.land_nonneg; lia). lia. }
  rewrite El. replace (Z.to_nat (gl + 1)) with (S (Z.to_nat gl)) by lia.
  destruct (Z.testbit fl 0) eqn:Ef; cbn [negb].
  - destruct (values_cases U32 d 20 [0%nat; 0%nat] (S (Z.to_nat gl)) B ltac:(lia)) as [(raw & Lr & V & E)|(V & E)].
    + rewrite (bind_at _ _ _ _ _ E). eapply (rest_stops ces d B ax tu sh gl fl da Hd raw raw); [lia|split; rewrite ?Ef; assumption|now rewrite Ef].
    + rewrite (bind_err _ _ _ E). split; [discriminate|]. intros X. exfalso. revert X. apply (no_offsets_bad ces d ax tu sh gl fl da Hd); [lia|].
      intros raw [Lr Vr]. rewrite Ef in Vr. exact (V _ Lr Vr).
  - rewrite bind_assoc. destruct (values_cases U16 d 20 [0%nat; 0%nat] (S (Z.to_nat gl)) B ltac:(lia)) as [(raw & Lr & V & E)|(V & E)].
    + rewrite (bind_at _ _ _ _ _ E), lift_bind. pose proof (values_nonneg U16 d 20 raw (or_introl eq_refl) V) as Pr.
      assert (Of: offsets_there d gl fl raw) by (split; rewrite ?Ef; assumption).
      destruct (doubles raw Pr) as [[F ->]|[F ->]].
      * eapply (rest_stops ces d B ax tu sh gl fl da Hd raw); [lia|exact Of|rewrite Ef; auto].
      * split; [|reflexivity]. intros _. left. exists ax, tu, sh, gl, fl, da. split; [exact Hd|]. right. exists raw. auto.
    + rewrite (bind_err _ _ _ E). split; [discriminate|]. intros X. exfalso. revert X. apply (no_offsets_bad ces d ax tu sh gl fl da Hd); [lia|].
      intros raw [Lr Vr]. rewrite Ef in Vr. exact (V _ Lr Vr).
Qed.

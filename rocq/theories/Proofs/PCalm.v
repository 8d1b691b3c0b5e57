(** Readers that never abort. *)
From Verif.Model Require Import MBase MTag MMap MFont MFixed MTables MMetrics MPost MCmap MStore MCli MWhole.
From Verif.Model Require MAvar MStat MLow.
From Verif.Spec Require Import SBase SStore SWhole.
From Verif.Proofs Require Import PBase PStore.

(** [p] aborts only if [E]; what it reads has the property [Q]. *)
Definition calm {A} (E : Prop) (Q : A -> Prop) (p : parser A) : Prop := forall r,
  Forall is_byte (rd_input r) -> rd_stack r <> [] ->
  match p r with
  | Ok (a, r') => rd_input r' = rd_input r /\ (length (rd_stack r) <= length (rd_stack r'))%nat /\ Q a
  | Err => True
  | Panic => E
  end.
Definition any {A} (_ : A) : Prop := True.
Lemma calm_from {A} E Q (p : parser A) d : calm E Q p -> Forall is_byte d -> from_bytes p d = Panic -> E.
Proof.
  intros H B. unfold from_bytes. specialize (H (rd_new d) B ltac:(discriminate)). destruct (p (rd_new d)) as [[a r]| |]; [discriminate|discriminate|auto].
Qed.
Lemma calm_never {A} Q (p : parser A) d : calm False Q p -> Forall is_byte d -> from_bytes p d <> Panic.
Proof. intros H B X. exact (calm_from _ _ _ _ H B X). Qed.
Lemma calm_weaken {A} (E : Prop) (Q Q' : A -> Prop) p : calm False Q p -> (forall a, Q a -> Q' a) -> calm E Q' p.
Proof. intros H W r B S. specialize (H r B S). destruct (p r) as [[a r']| |]; [|exact I|contradiction]. intuition. Qed.
Lemma calm_ret {A} E (Q : A -> Prop) a : Q a -> calm E Q (pret a).
Proof. intros H r _ _. cbn. auto. Qed.
Lemma calm_err {A} E (Q : A -> Prop) : calm E Q perr.
Proof. intros r _ _. exact I. Qed.
Lemma stack_grows {A} (l l' : list A) : l <> [] -> (length l <= length l')%nat -> l' <> [].
Proof. intros H L ->. destruct l; [congruence|cbn in L; lia]. Qed.
Lemma calm_bind {A B} E (Q : A -> Prop) (R : B -> Prop) p f : calm E Q p -> (forall a, Q a -> calm E R (f a)) -> calm E R (pbind p f).
Proof.
  intros Hp Hf r Hb Hs. unfold pbind. specialize (Hp r Hb Hs). destruct (p r) as [[a r']| |]; [|exact I|exact Hp].
  destruct Hp as (I1 & L1 & Qa). specialize (Hf a Qa r'). rewrite I1 in Hf. specialize (Hf Hb (stack_grows _ _ Hs L1)).
  destruct (f a r') as [[b r2]| |]; [|exact I|exact Hf]. destruct Hf as (I2 & L2 & Rb). repeat split; [congruence|lia|exact Rb].
Qed.
Lemma calm_consume (r : rd) n : Forall is_byte (rd_input r) ->
  match consume r n with
  | Ok (bs, r') => rd_input r' = rd_input r /\ rd_stack r' = rd_stack r /\ length bs = n /\ Forall is_byte bs
  | Err => True
  | Panic => False
  end.
Proof.
  intros B. unfold consume, consume_or_peek. destruct (_ <? _)%nat eqn:E; [exact I|]. cbn [rd_input rd_stack]. apply Nat.ltb_ge in E.
  repeat split.
  - rewrite firstn_length, skipn_length. lia.
  - rewrite <- (firstn_skipn (rd_ptr r)) in B. apply Forall_app in B as [_ B].
    rewrite <- (firstn_skipn n) in B. now apply Forall_app in B as [B _].
Qed.

Lemma wrap_i_range b v : 1 <= b -> - 2 ^ (b - 1) <= wrap_i b v < 2 ^ (b - 1).
Proof.
  intros H. unfold wrap_i. pose proof (Z.mod_pos_bound v (2 ^ b) ltac:(apply Z.pow_pos_nonneg; lia)) as M.
  replace (2 ^ b) with (2 * 2 ^ (b - 1)) in * by (rewrite <- Z.pow_succ_r by lia; f_equal; lia).
  destruct (Z.ltb_spec (v mod (2 * 2 ^ (b - 1))) (2 ^ (b - 1))); lia.
Qed.
Lemma calm_prim E t : calm E (in_range t) (de_prim t).
Proof.
  intros r B S. unfold de_prim. pose proof (calm_consume r (prim_width t) B) as H.
  destruct (consume r (prim_width t)) as [[bs r']| |]; [|exact I|contradiction]. destruct H as (I1 & S1 & L & F).
  rewrite S1. repeat split; [exact I1|lia|]. assert (F': Forall byte bs) by (eapply Forall_impl; [|exact F]; unfold is_byte, byte; intros; lia). pose proof (be_value_range bs F') as R. rewrite L in R.
  destruct t; cbn [prim_signed prim_width] in *;
    match goal with
    | |- in_range _ (wrap_i _ _) => match goal with |- in_range ?t (wrap_i ?b ?v) => pose proof (wrap_i_range b v ltac:(lia)) as W end; match type of W with - ?x <= _ < _ => let y := eval vm_compute in x in change x with y in W end; cbn [in_range]; lia
    | _ => cbn [in_range]; change (256 ^ Z.of_nat 1) with 256 in R; change (256 ^ Z.of_nat 2) with 65536 in R; change (256 ^ Z.of_nat 4) with 4294967296 in R; lia
    end.
Qed.
Lemma calm_tag E : calm E any de_tag.
Proof.
  intros r B S. unfold de_tag. pose proof (calm_consume r 4 B) as H.
  destruct (consume r 4) as [[bs r']| |]; [|exact I|contradiction]. destruct H as (I1 & S1 & _).
  destruct (tag_from_raw bs); [|exact I]. rewrite S1. repeat split; [exact I1|lia].
Qed.
Lemma calm_skip E n : calm E any (pskip n).
Proof. intros r B S. cbn. repeat split. lia. Qed.
Lemma calm_lift {A} (E : Prop) (Q : A -> Prop) x : match x with Ok a => Q a | Err => True | Panic => E end -> calm E Q (plift x).
Proof. intros H r B S. unfold plift. destruct x; [|exact I|exact H]. repeat split; [lia|exact H]. Qed.
Lemma calm_counted {A} E (Q : A -> Prop) p : calm E Q p -> forall n, calm E (fun l => length l = n /\ Forall Q l) (de_counted p n).
Proof.
  intros H. induction n as [|n IH]; cbn [de_counted]; [apply calm_ret; auto|].
  eapply calm_bind; [exact H|]. intros a Qa. eapply calm_bind; [exact IH|]. intros l [L F]. apply calm_ret. split; [cbn; now rewrite L|auto].
Qed.
Lemma calm_counted16 {A} E (Q : A -> Prop) p : calm E Q p -> calm E (fun l => Forall Q l /\ Z.of_nat (length l) <= 65535) (de_counted16 p).
Proof.
  intros H. eapply calm_bind; [apply calm_prim|]. intros n Hn. cbn [in_range] in Hn. intros r B S. pose proof (calm_counted E Q p H (Z.to_nat n) r B S) as C.
  destruct (de_counted p (Z.to_nat n) r) as [[l r']| |]; [|exact I|exact C]. destruct C as (A1 & A2 & A3 & A4). repeat split; auto; lia.
Qed.
Lemma calm_vec_fuel {A} E (Q : A -> Prop) p : calm E Q p -> forall k, calm E any (de_vec_fuel p k).
Proof.
  intros H. induction k as [|k IH]; intros r B S; cbn [de_vec_fuel]; [repeat split; lia|].
  specialize (H r B S). destruct (p r) as [[a r']| |]; [|repeat split; lia|exact H]. destruct H as (I1 & L1 & _).
  specialize (IH r'). rewrite I1 in IH. specialize (IH B (stack_grows _ _ S L1)).
  destruct (de_vec_fuel p k r') as [[l r2]| |]; [|exact I|exact IH]. destruct IH as (I2 & L2 & _). repeat split; [congruence|lia].
Qed.
Lemma calm_vec {A} E (Q : A -> Prop) p : calm E Q p -> calm E any (de_vec p).
Proof. intros H r B S. exact (calm_vec_fuel E Q p H _ r B S). Qed.
Lemma calm_push E : calm E any (fun r => Ok (tt, rd_push r)).
Proof. intros r B S. repeat split. cbn. lia. Qed.
Lemma calm_peek E {A} (Q : A -> Prop) f : (forall s, calm E Q (f s)) -> calm E Q (MLow.by_format f).
Proof.
  intros H r B S. unfold MLow.by_format, peek, consume_or_peek. destruct (_ <? _)%nat; [exact I|]. apply H; assumption.
Qed.
Lemma calm_any {A} E (Q : A -> Prop) p : calm E Q p -> calm E any p.
Proof. intros H r B S. specialize (H r B S). destruct (p r) as [[a r']| |]; auto. destruct H as (X & Y & _). repeat split; assumption. Qed.

Ltac calms := repeat first
  [ apply (calm_ret _ any); exact I
  | apply calm_err
  | eapply calm_any; apply calm_prim
  | apply calm_tag
  | eapply calm_any; apply (calm_counted16 _ any)
  | eapply calm_any; apply (calm_counted _ any)
  | apply (calm_vec _ any)
  | eapply (calm_bind _ any); [|intros ? _]
  | match goal with |- calm _ _ (if ?c then _ else _) => destruct c end
  ].

Lemma calm_fixed E : calm E any de_fixed. Proof. unfold de_fixed. calms. Qed.
Lemma calm_f2dot14 E : calm E any de_f2dot14. Proof. unfold de_f2dot14. calms. Qed.
Lemma calm_hhea E : calm E any de_hhea. Proof. unfold de_hhea. calms. Qed.
Lemma calm_maxp10 E : calm E any de_maxp10. Proof. unfold de_maxp10. calms. Qed.
Lemma calm_maxp E : calm E any de_maxp. Proof. unfold de_maxp. calms. all: apply calm_maxp10. Qed.
Lemma calm_panose E : calm E any de_panose. Proof. unfold de_panose. calms. Qed.
Lemma calm_os2core E : calm E any de_os2core. Proof. unfold de_os2core. calms. all: apply calm_panose. Qed.
Lemma calm_os2 E : calm E any de_os2.
Proof. unfold de_os2, de_os2v1, de_os2v2, de_os2v5. calms. all: apply calm_os2core. Qed.
Lemma calm_gasp E : calm E any de_gasp. Proof. unfold de_gasp, de_gasp_record. calms. Qed.
Lemma calm_avar E : calm E any MAvar.avar_de.
Proof. unfold MAvar.avar_de, MAvar.axis_value_de. calms. all: apply calm_f2dot14. Qed.
Lemma calm_fpgm E : calm E any de_fpgm.
Proof. intros r B S. cbn. repeat split. lia. Qed.
Lemma cvt_loop_calm (E : Prop) : forall k r, Forall is_byte (rd_input r) -> rd_stack r <> [] -> (length (rd_input r) - rd_ptr r <= k)%nat ->
  match de_cvt_loop k r with
  | Ok (_, r') => rd_input r' = rd_input r /\ (length (rd_stack r) <= length (rd_stack r'))%nat
  | Err => True | Panic => E end.
Proof.
  induction k as [|k IH]; intros r B S H; cbn [de_cvt_loop].
  - destruct (Nat.ltb_spec (rd_ptr r) (length (rd_input r))); [lia|]. split; [reflexivity|lia].
  - destruct (Nat.ltb_spec (rd_ptr r) (length (rd_input r))); [|split; [reflexivity|lia]].
    unfold pbind at 1. unfold de_i16, de_prim. unfold consume, consume_or_peek. cbn [prim_width].
    destruct (Nat.ltb_spec (length (rd_input r)) (rd_ptr r + 2)); [exact I|].
    unfold pbind. specialize (IH (mkrd (rd_input r) (rd_ptr r + 2) (rd_stack r)) B S). cbn [rd_input rd_ptr rd_stack] in IH.
    specialize (IH ltac:(lia)). destruct (de_cvt_loop k _) as [[l r2]| |]; [|exact I|exact IH]. exact IH.
Qed.
Lemma calm_cvt E : calm E any de_cvt.
Proof.
  intros r B S. unfold de_cvt. pose proof (cvt_loop_calm E _ r B S (Nat.le_refl _)) as H.
  destruct (de_cvt_loop _ r) as [[l r']| |]; auto. destruct H. repeat split; assumption.
Qed.
Lemma calm_loca E b : calm E any (de_loca b).
Proof. unfold de_loca. calms. Qed.
Lemma calm_jump E off : calm E any (MStat.jump off).
Proof.
  intros r B S. unfold MStat.jump, top_of_table. destruct (rd_stack r) as [|t st] eqn:Es; [congruence|]. cbn [rd_input rd_stack]. repeat split. lia.
Qed.
Lemma calm_value E : calm E any MStat.value_de.
Proof.
  unfold MStat.value_de. apply calm_peek. intros s.
  unfold MStat.value1_de, MStat.value2_de, MStat.value3_de, MStat.value4_de, MStat.location_de.
  repeat match goal with |- calm _ _ (match ?x with _ => _ end) => destruct x; try apply calm_err end; calms; try apply calm_fixed.
Qed.
Lemma calm_values E start : forall offs, calm E any (MStat.values_de start offs).
Proof.
  induction offs as [|o offs IH]; cbn [MStat.values_de]; [apply calm_ret; exact I|].
  eapply calm_bind; [apply calm_jump|intros ? _]. eapply calm_bind; [apply calm_value|intros ? _]. eapply calm_bind; [apply IH|intros ? _]. apply calm_ret; exact I.
Qed.
Lemma calm_stat E : calm E any MStat.stat_read.
Proof.
  assert (H: calm E any MStat.stat_body).
  { unfold MStat.stat_body, MStat.design_axis_de. calms; first [apply calm_jump|apply calm_values]. }
  intros r B S. unfold MStat.stat_read. specialize (H (rd_push r) B ltac:(discriminate)). destruct (MStat.stat_body (rd_push r)) as [[a r']| |]; auto.
  destruct H as (H1 & H2 & _). cbn [rd_push rd_input rd_stack length] in *. repeat split; [exact H1|lia].
Qed.

(** ** Reading at a position *)
From Verif.Spec Require Import SReader SName SPost SCalm.
From Verif.Proofs Require PPost PMetrics PWhole.
Lemma width_prim t : prim_width t = width t.
Proof. destruct t; reflexivity. Qed.
Lemma nth_sub {A} (l : list A) k n i : (i < n)%nat -> nth_error (firstn n (skipn k l)) i = nth_error l (k + i).
Proof.
  revert k n i. induction l as [|x l IH]; intros [|k] n i H; cbn [skipn].
  - destruct n, i; reflexivity.
  - destruct n, i; reflexivity.
  - destruct n as [|n]; [lia|]. destruct i as [|i]; [reflexivity|]. cbn [firstn nth_error Nat.add]. exact (IH 0%nat n i ltac:(lia)).
  - cbn [Nat.add nth_error]. now apply IH.
Qed.
Lemma slice_sub d k n : (k + n <= length d)%nat -> slice d k n (firstn n (skipn k d)).
Proof.
  intros H. split; [rewrite firstn_length, skipn_length; lia|]. split; [exact H|]. intros i Hi. now apply nth_sub.
Qed.
Lemma same_nth {A} : forall l1 l2 : list A, (forall i, nth_error l1 i = nth_error l2 i) -> l1 = l2.
Proof.
  induction l1 as [|x l1 IH]; intros [|y l2] H; [reflexivity|discriminate (H 0%nat)|discriminate (H 0%nat)|].
  f_equal; [generalize (H 0%nat); cbn; congruence|]. apply IH. intros i. exact (H (S i)).
Qed.
Lemma slice_eq d k n bs : slice d k n bs -> bs = firstn n (skipn k d).
Proof.
  intros (L & B & H). apply same_nth. intros i. destruct (Nat.lt_ge_cases i n) as [Hi|Hi].
  - rewrite H, nth_sub by exact Hi. reflexivity.
  - rewrite (proj2 (nth_error_None bs i)) by lia. symmetry. apply nth_error_None. rewrite firstn_length, skipn_length. lia.
Qed.
Lemma bytes_sub d k n : Forall is_byte d -> Forall is_byte (firstn n (skipn k d)).
Proof.
  intros B. rewrite <- (firstn_skipn k) in B. apply Forall_app in B as [_ B]. rewrite <- (firstn_skipn n) in B. now apply Forall_app in B as [B _].
Qed.
Lemma number_unique t d k v v' : number_at t d k v -> number_at t d k v' -> v = v'.
Proof.
  intros (b1 & S1 & (B1 & j1 & E1) & R1) (b2 & S2 & (B2 & j2 & E2) & R2).
  pose proof (proj1 S1) as L. rewrite (slice_eq _ _ _ _ S1) in *. rewrite (slice_eq _ _ _ _ S2) in *. rewrite L in *.
  set (x := digits_value _) in *. clearbody x. clear - R1 R2 E1 E2.
  assert (X: (v - v') = (j1 - j2) * 256 ^ Z.of_nat (width t)) by lia.
  destruct t; cbn [width in_range] in *;
    match type of X with _ = _ * ?m => let y := eval vm_compute in m in change m with y in * end; lia.
Qed.
Lemma number_fits t d k v : number_at t d k v -> (k + width t <= length d)%nat.
Proof. intros (bs & (_ & H & _) & _). exact H. Qed.
Lemma wrap_i_mod b v : 0 <= b -> exists k, wrap_i b v = v + k * 2 ^ b.
Proof.
  intros H. unfold wrap_i. pose proof (Z.pow_pos_nonneg 2 b ltac:(lia) H). pose proof (Z.div_mod v (2 ^ b) ltac:(lia)) as D.
  destruct (_ <? _); [exists (- (v / 2 ^ b))|exists (- (v / 2 ^ b) - 1)]; lia.
Qed.
Lemma pow_width t : 256 ^ Z.of_nat (width t) = 2 ^ (8 * Z.of_nat (width t)).
Proof. now destruct t. Qed.
Lemma prim_at t d k st : Forall is_byte d ->
  (exists v, number_at t d k v /\ de_prim t (mkrd d k st) = Ok (v, mkrd d (k + width t) st)) \/
  ((length d < k + width t)%nat /\ de_prim t (mkrd d k st) = Err).
Proof.
  intros B. pose proof (calm_prim False t (mkrd d k [0%nat]) B ltac:(discriminate)) as C.
  unfold de_prim, consume, consume_or_peek in *. cbn [rd_input rd_ptr rd_stack] in *. rewrite width_prim in *.
  destruct (Nat.ltb_spec (length d) (k + width t)) as [H|H]; [right; auto|left].
  destruct C as (_ & _ & R). eexists. split; [|reflexivity].
  exists (firstn (width t) (skipn k d)). split; [apply slice_sub; lia|]. split; [|exact R].
  split; [apply bytes_sub; exact B|]. rewrite PCodec.digits_value_eq.
  set (x := be_value _). replace (length (firstn (width t) (skipn k d))) with (width t) by (rewrite firstn_length, skipn_length; lia).
  destruct (prim_signed t); [|exists 0; lia]. rewrite pow_width. apply wrap_i_mod. lia.
Qed.

Lemma calm_here {A} E (Q : A -> Prop) p d k st : calm E Q p -> Forall is_byte d -> st <> [] -> p (mkrd d k st) = Panic -> E.
Proof. intros C B S H. specialize (C (mkrd d k st) B S). rewrite H in C. exact C. Qed.
Lemma from_panic {A} (p : parser A) d : from_bytes p d = Panic <-> p (rd_new d) = Panic.
Proof. unfold from_bytes. destruct (p (rd_new d)) as [[a r]| |]; split; congruence. Qed.
Lemma bind_at {A B} (p : parser A) (f : A -> parser B) r a r' : p r = Ok (a, r') -> pbind p f r = f a r'.
Proof. unfold pbind. intros ->. reflexivity. Qed.
Lemma bind_err {A B} (p : parser A) (f : A -> parser B) r : p r = Err -> pbind p f r = Err.
Proof. unfold pbind. intros ->. reflexivity. Qed.

(** Readers of a fixed number of bytes. *)
Definition sized {A} (w : nat) (p : parser A) : Prop := forall d k st, Forall is_byte d ->
  ((k + w <= length d)%nat /\ exists a, p (mkrd d k st) = Ok (a, mkrd d (k + w) st)) \/
  ((length d < k + w)%nat /\ p (mkrd d k st) = Err).
Lemma sized_prim t : sized (width t) (de_prim t).
Proof.
  intros d k st B. destruct (prim_at t d k st B) as [(v & N & E)|H]; [left|right; exact H].
  split; [exact (number_fits _ _ _ _ N)|]. exists v. exact E.
Qed.
Lemma sized_map {A B} w (p : parser A) (f : A -> B) : sized w p -> sized w (a <-- p ;; pret (f a)).
Proof.
  intros H d k st B0. destruct (H d k st B0) as [(L & a & E)|(L & E)]; [left|right]; split; try exact L; unfold pbind; rewrite E; [eexists; reflexivity|reflexivity].
Qed.
Lemma sized_bind {A B} w1 w2 w (p : parser A) (f : A -> parser B) : sized w1 p -> (forall a, sized w2 (f a)) -> w = (w1 + w2)%nat -> sized w (pbind p f).
Proof.
  intros H1 H2 -> d k st B0. destruct (H1 d k st B0) as [(L & a & E)|(L & E)].
  - rewrite (bind_at _ f _ _ _ E). destruct (H2 a d (k + w1)%nat st B0) as [(L2 & b & E2)|(L2 & E2)]; [left|right]; (split; [lia|]).
    + exists b. rewrite E2. do 2 f_equal. f_equal. lia.
    + exact E2.
  - right. split; [lia|]. exact (bind_err _ f _ E).
Qed.
Lemma sized_fixed : sized 4 de_fixed.
Proof. exact (sized_map 4 _ _ (sized_prim I32)). Qed.
Lemma sized_f2dot14 : sized 2 de_f2dot14.
Proof. exact (sized_map 2 _ _ (sized_prim I16)). Qed.
Lemma sized_counted {A} w (p : parser A) : sized w p -> forall n, (0 < n)%nat -> sized (n * w) (de_counted p n).
Proof.
  intros H. induction n as [|[|n] IH]; intros L; [lia| |].
  - cbn [de_counted]. intros d k st B. destruct (H d k st B) as [(L1 & a & E)|(L1 & E)].
    + left. split; [lia|]. exists [a]. rewrite (bind_at _ _ _ _ _ E). unfold pbind, pret. cbn [de_counted]. rewrite Nat.mul_1_l. reflexivity.
    + right. split; [lia|]. exact (bind_err _ _ _ E).
  - change (de_counted p (S (S n))) with (x <-- p ;; xs <-- de_counted p (S n) ;; pret (x :: xs)).
    eapply sized_bind; [exact H|intros a; apply sized_map; apply IH; lia|cbn; lia].
Qed.

(** One number read, or the end reached. *)
Ltac prim_step B N :=
  match goal with
  | |- context [pbind (de_prim ?t) ?f (mkrd ?d ?k ?st)] =>
      let v := fresh "v" in let E := fresh "E" in
      destruct (prim_at t d k st B) as [(v & N & E)|(N & E)];
      [rewrite (bind_at _ f _ _ _ E)|rewrite (bind_err _ f _ E)]; clear E; cbn [width Nat.add] in *; cbv beta
  end.
Ltac sized_step H B L :=
  match goal with
  | |- context [pbind ?p ?f (mkrd ?d ?k ?st)] =>
      let a := fresh "a" in let E := fresh "E" in
      destruct (H d k st B) as [(L & a & E)|(L & E)];
      [rewrite (bind_at _ f _ _ _ E)|rewrite (bind_err _ f _ E)]; clear E; cbn [width Nat.add] in *; cbv beta
  end.
Ltac prims := unfold de_u8, de_i8, de_u16, de_i16, de_u32, de_i32, de_i64 in *.

Lemma date_cases d k st : Forall is_byte d ->
  (exists v, number_at I64 d k v /\ ((~ no_date v /\ exists x, de_date (mkrd d k st) = Ok (x, mkrd d (k + 8) st)) \/ (no_date v /\ de_date (mkrd d k st) = Panic))) \/
  ((length d < k + 8)%nat /\ de_date (mkrd d k st) = Err).
Proof.
  intros B. unfold de_date. prims. destruct (prim_at I64 d k st B) as [(v & N & E)|(N & E)].
  - left. exists v. split; [exact N|]. unfold pbind. rewrite E. unfold no_date, chrono_min, chrono_max.
    destruct (Z.leb_spec (-8332550092800) v), (Z.leb_spec v 8212381257599); cbn [andb]; (left; split; [lia|eexists; reflexivity]) || (right; split; [lia|reflexivity]).
  - right. split; [exact N|]. unfold pbind. now rewrite E.
Qed.
Lemma head_aborts d : Forall is_byte d -> (from_bytes de_head_tbl d = Panic <-> head_bad d).
Proof.
  intros B. rewrite from_panic.
  assert (F: (length d < 28)%nat -> ~ head_bad d).
  { intros L (k' & secs & Hk & N & _). apply number_fits in N. cbn [width] in N. lia. }
  assert (G: (length d < 28)%nat -> (Err : res (head_tbl * rd)) = Panic <-> head_bad d) by (intros L; apply F in L; split; [discriminate|tauto]).
  unfold de_head_tbl, rd_new. prims.
  sized_step (sized_prim U16) B L1; [|apply G; lia].
  sized_step (sized_prim U16) B L2; [|apply G; lia].
  sized_step sized_fixed B L3; [|apply G; lia].
  sized_step (sized_prim U32) B L4; [|apply G; lia].
  sized_step (sized_prim U32) B L5; [|apply G; lia].
  sized_step (sized_prim U16) B L6; [|apply G; lia].
  sized_step (sized_prim U16) B L7; [|apply G; lia].
  match goal with |- context [pbind de_date ?f (mkrd ?d ?k ?st)] => destruct (date_cases d k st B) as [(v & N & [[Hv [x E]]|[Hv E]])|[L E]] end.
  - rewrite (bind_at _ _ _ _ _ E). clear E. cbn [Nat.add] in *.
    match goal with |- context [pbind de_date ?f (mkrd ?d ?k ?st)] => destruct (date_cases d k st B) as [(w & M & [[Hw [y E]]|[Hw E]])|[L E]] end.
    + rewrite (bind_at _ _ _ _ _ E). clear E. split.
      * intros X. exfalso. match type of X with ?p (mkrd ?d ?k ?st) = _ => apply (calm_here False any p d k st) in X; [exact X| |exact B|discriminate] end.
        clear. fold de_i16 de_u16. calms.
      * intros (k & secs & [-> | ->] & K & Bad); exfalso; [|].
        -- rewrite (number_unique _ _ _ _ _ K N) in Bad. auto.
        -- rewrite (number_unique _ _ _ _ _ K M) in Bad. auto.
    + unfold pbind at 1. rewrite E. split; [intros _; exists 28%nat, w; auto|reflexivity].
    + rewrite (bind_err _ _ _ E). split; [discriminate|]. intros (k & secs & [-> | ->] & K & Bad); exfalso.
      * rewrite (number_unique _ _ _ _ _ K N) in Bad. auto.
      * apply number_fits in K. cbn [width] in K. lia.
  - unfold pbind at 1. rewrite E. split; [intros _; exists 20%nat, v; auto|reflexivity].
  - rewrite (bind_err _ _ _ E). apply G. lia.
Qed.

(** ** fvar *)
Lemma position_none p : forall l n, position_not p l n = None <-> Forall (fun b => p b = true) l.
Proof.
  induction l as [|b l IH]; intros n; cbn [position_not]; [split; auto|].
  destruct (p b) eqn:E.
  - rewrite IH. split; [auto|]. intros H. now inversion H.
  - split; [discriminate|]. intros H. inversion H. congruence.
Qed.
Definition axis_there (d : list Z) (k : nat) : Prop := (k + 20 <= length d)%nat /\ forall j, (j < 4)%nat -> printable_at d (k + j).
Lemma tag_at d k st :
  ((k + 4 <= length d)%nat /\ (forall j, (j < 4)%nat -> printable_at d (k + j)) /\ exists t, de_tag (mkrd d k st) = Ok (t, mkrd d (k + 4) st)) \/
  (~ ((k + 4 <= length d)%nat /\ forall j, (j < 4)%nat -> printable_at d (k + j)) /\ de_tag (mkrd d k st) = Err).
Proof.
  unfold de_tag, consume, consume_or_peek. cbn [rd_input rd_ptr rd_stack]. destruct (Nat.ltb_spec (length d) (k + 4)) as [L|L].
  { right. split; [lia|reflexivity]. }
  assert (LB: length (firstn 4 (skipn k d)) = 4%nat) by (rewrite firstn_length, skipn_length; lia).
  unfold tag_from_raw. rewrite LB. cbn [Nat.eqb Nat.ltb Nat.leb orb].
  assert (PF: Forall (fun b => printable b = true) (firstn 4 (skipn k d)) <-> forall j, (j < 4)%nat -> printable_at d (k + j)).
  { rewrite Forall_forall. unfold printable. split.
    - intros H j Hj. rewrite <- (nth_sub d k 4 j Hj) at 1 || idtac. unfold printable_at.
      destruct (nth_error d (k + j)) as [b|] eqn:E; [|apply nth_error_None in E; lia].
      exists b. split; [reflexivity|]. rewrite <- (nth_sub d k 4 j Hj) in E. apply nth_error_In in E. specialize (H b E). lia.
    - intros H b Hb. apply In_nth_error in Hb as [j E]. assert (Hj: (j < 4)%nat) by (rewrite <- LB; apply nth_error_Some; congruence).
      rewrite (nth_sub d k 4 j Hj) in E. destruct (H j Hj) as (b' & E' & R). rewrite E in E'. injection E' as <-. lia. }
  destruct (position_not printable (firstn 4 (skipn k d)) 0) as [[pos b]|] eqn:E.
  - right. split; [|reflexivity]. intros [_ H]. apply PF in H. apply (position_none printable _ 0%nat) in H. congruence.
  - left. split; [lia|]. split; [|eexists; reflexivity]. apply PF. now apply (position_none printable _ 0%nat).
Qed.
Lemma axis_at d k st : Forall is_byte d ->
  (axis_there d k /\ exists a, de_axis_record (mkrd d k st) = Ok (a, mkrd d (k + 20) st)) \/
  (~ axis_there d k /\ de_axis_record (mkrd d k st) = Err).
Proof.
  intros B. unfold de_axis_record, axis_there. destruct (tag_at d k st) as [(L & H & t & E)|(H & E)].
  - rewrite (bind_at _ _ _ _ _ E). clear E.
    assert (S: sized 16 (v1 <-- de_fixed ;; v2 <-- de_fixed ;; v3 <-- de_fixed ;; v4 <-- de_u16 ;; v5 <-- de_u16 ;; pret (mk_axis_record t v1 v2 v3 v4 v5))).
    { eapply sized_bind; [apply sized_fixed|intros ?|]. 
      { eapply sized_bind; [apply sized_fixed|intros ?|]. 
        { eapply sized_bind; [apply sized_fixed|intros ?|]. 
          { eapply sized_bind; [apply sized_prim|intros ?; apply sized_map; apply sized_prim|reflexivity]. } reflexivity. } reflexivity. } reflexivity. }
    destruct (S d (k + 4)%nat st B) as [(L2 & a & E)|(L2 & E)]; [left|right].
    + split; [split; [lia|exact H]|]. exists a. rewrite E. do 2 f_equal. f_equal. lia.
    + split; [lia|exact E].
  - right. rewrite (bind_err _ _ _ E). split; [|reflexivity]. intros [X Y]. apply H. split; [lia|exact Y].
Qed.
Lemma axes_at d st : Forall is_byte d -> forall n k,
  ((forall i, (i < n)%nat -> axis_there d (k + 20 * i)) /\ exists l, de_counted de_axis_record n (mkrd d k st) = Ok (l, mkrd d (k + 20 * n) st)) \/
  (~ (forall i, (i < n)%nat -> axis_there d (k + 20 * i)) /\ de_counted de_axis_record n (mkrd d k st) = Err).
Proof.
  intros B. induction n as [|n IH]; intros k; cbn [de_counted].
  - left. split; [lia|]. exists []. unfold pret. rewrite Nat.mul_0_r, Nat.add_0_r. reflexivity.
  - destruct (axis_at d k st B) as [(H & a & E)|(H & E)].
    + rewrite (bind_at _ _ _ _ _ E). destruct (IH (k + 20)%nat) as [(H2 & l & E2)|(H2 & E2)].
      * left. split.
        -- intros [|i] Hi; [replace (k + 20 * 0)%nat with k by lia; exact H|]. specialize (H2 i ltac:(lia)). replace (k + 20 * S i)%nat with (k + 20 + 20 * i)%nat by lia. exact H2.
        -- exists (a :: l). rewrite (bind_at _ _ _ _ _ E2). unfold pret. do 2 f_equal. f_equal. lia.
      * right. rewrite (bind_err _ _ _ E2). split; [|reflexivity]. intros X. apply H2. intros i Hi.
        specialize (X (S i) ltac:(lia)). replace (k + 20 * S i)%nat with (k + 20 + 20 * i)%nat in X by lia. exact X.
    + right. rewrite (bind_err _ _ _ E). split; [|reflexivity]. intros X. specialize (X 0%nat ltac:(lia)). replace (k + 20 * 0)%nat with k in X by lia. auto.
Qed.
Lemma calm_instance E n ps : calm E any (de_instance n ps).
Proof. unfold de_instance. calms; try apply calm_fixed. Qed.
Lemma fvar_aborts d : Forall is_byte d -> (from_bytes de_fvar d = Panic <-> fvar_bad d).
Proof.
  intros B. rewrite from_panic.
  assert (G: (length d < 16)%nat -> (Err : res (fvar * rd)) = Panic <-> fvar_bad d).
  { intros L. split; [discriminate|]. intros (a & b & c & X & _). lia. }
  unfold de_fvar, rd_new, rd_push. cbn [rd_input rd_ptr rd_stack].
  assert (C: (exists start axes instances core, (16 <= length d)%nat /\ number_at U16 d 4 start /\ number_at U16 d 8 axes /\ number_at U16 d 12 instances /\
      fc_axesArrayOffset core = start /\ fc_axisCount core = axes /\ fc_instanceCount core = instances /\
      de_fvarcore (mkrd d 0 [0%nat; 0%nat]) = Ok (core, mkrd d 16 [0%nat; 0%nat])) \/ ((length d < 16)%nat /\ de_fvarcore (mkrd d 0 [0%nat; 0%nat]) = Err)).
  { unfold de_fvarcore. prims. 
    prim_step B N1; [|right; split; [lia|reflexivity]]. prim_step B N2; [|right; split; [lia|reflexivity]].
    prim_step B N3; [|right; split; [lia|reflexivity]]. prim_step B N4; [|right; split; [lia|reflexivity]].
    prim_step B N5; [|right; split; [lia|reflexivity]]. prim_step B N6; [|right; split; [lia|reflexivity]].
    prim_step B N7; [|right; split; [lia|reflexivity]]. prim_step B N8; [|right; split; [lia|reflexivity]].
    left. do 4 eexists. split; [apply number_fits in N8; cbn [width] in N8; lia|]. split; [exact N3|]. split; [exact N5|]. split; [exact N7|]. split; [|split; [|split; [|reflexivity]]]; reflexivity. }
  destruct C as [(start & axes & insts & core & L & N1 & N2 & N3 & <- & <- & <- & E)|(L & E)]; rewrite E; [|apply G; exact L].
  cbn [top_of_table rd_stack rd_input Nat.add].
  set (n := fc_axisCount core) in *. set (m := fc_instanceCount core) in *. set (o := fc_axesArrayOffset core) in *.
  assert (Rn: 0 <= n <= 65535) by (destruct N2 as (? & _ & _ & R); exact R). assert (Rm: 0 <= m <= 65535) by (destruct N3 as (? & _ & _ & R); exact R).
  destruct (axes_at d [0%nat; 0%nat] B (Z.to_nat n) (Z.to_nat o)) as [(H & l & Ea)|(H & Ea)].
  - rewrite (bind_at _ _ _ _ _ Ea). destruct (Z_lt_dec n 16383) as [S|S].
    + split.
      * intros X. exfalso. match type of X with ?p (mkrd ?d ?k ?st) = _ => apply (calm_here False any p d k st) in X; [exact X| |exact B|discriminate] end.
        apply (calm_bind _ any); [|intros ? _; apply calm_ret; exact I]. eapply calm_any, (calm_counted _ any).
        intros r Br Sr. unfold chk_u. replace ((0 <=? n * 4) && (n * 4 <? 2 ^ 16))%bool with true by lia. cbn [rbind].
        replace ((0 <=? n * 4 + 6) && (n * 4 + 6 <? 2 ^ 16))%bool with true by lia. now apply calm_instance.
      * intros (a & b & c & _ & _ & X & _ & Y & _). rewrite (number_unique _ _ _ _ _ X N2) in Y. lia.
    + destruct (Z.to_nat m) as [|m'] eqn:Em.
      * split; [discriminate|]. intros (a & b & c & _ & _ & _ & X & _ & Y & _). rewrite (number_unique _ _ _ _ _ X N3) in Y. lia.
      * split; [intros _|intros _].
        -- exists o, n, m. split; [exact L|]. split; [exact N1|]. split; [exact N2|]. split; [exact N3|]. split; [lia|]. split; [lia|]. split.
           ++ destruct (H (Z.to_nat n - 1)%nat ltac:(lia)) as [X _]. lia.
           ++ intros i j Hi Hj. destruct (H i Hi) as [_ X]. exact (X j Hj).
        -- cbn [de_counted]. unfold pbind at 2. unfold pbind at 2. unfold chk_u.
           destruct (_ && _)%bool eqn:E1; cbn [rbind]; [|reflexivity]. replace ((0 <=? n * 4 + 6) && (n * 4 + 6 <? 2 ^ 16))%bool with false by lia. reflexivity.
  - rewrite (bind_err _ _ _ Ea). split; [discriminate|]. intros (a & b & c & _ & X1 & X2 & _ & _ & _ & X3 & X4). exfalso. apply H.
    rewrite (number_unique _ _ _ _ _ X1 N1) in *. rewrite (number_unique _ _ _ _ _ X2 N2) in *.
    intros i Hi. split; [lia|]. intros j Hj. exact (X4 i j Hi Hj).
Qed.

(** ** name *)
Lemma encoding_cases p e : (handled p e /\ exists cs, MName.get_encoding p e = Ok cs) \/ (~ handled p e /\ MName.get_encoding p e = Panic).
Proof.
  unfold MName.get_encoding, handled.
  repeat match goal with |- context [if ?a =? ?b then _ else _] => destruct (Z.eqb_spec a b); try subst end;
    first [left; split; [lia|eexists; reflexivity] | right; split; [lia|reflexivity]].
Qed.
Definition entry_at (d : list Z) (k : nat) (x : MName.internal) : Prop :=
  let '(p, e, l, n, len, off) := x in
  number_at U16 d k p /\ number_at U16 d (k + 2) e /\ number_at U16 d (k + 8) len /\ number_at U16 d (k + 10) off.
Lemma internal_at d k st : Forall is_byte d ->
  (exists x, (k + 12 <= length d)%nat /\ entry_at d k x /\ MName.internal_de (mkrd d k st) = Ok (x, mkrd d (k + 12) st)) \/
  ((length d < k + 12)%nat /\ MName.internal_de (mkrd d k st) = Err).
Proof.
  intros B. unfold MName.internal_de. prims.
  do 6 (match goal with
  | |- context [pbind (de_prim ?t) ?f (mkrd ?d ?k ?st)] =>
      let v := fresh "v" in let E := fresh "E" in let N := fresh "N" in
      destruct (prim_at t d k st B) as [(v & N & E)|(N & E)];
      [rewrite (bind_at _ f _ _ _ E)|rewrite (bind_err _ f _ E); right; split; [cbn [width] in N; lia|reflexivity]]; clear E; cbn [width] in *; rewrite <- ?Nat.add_assoc in *; cbn [Nat.add] in *; cbv beta
  end).
  left. eexists. split; [|split; [|reflexivity]].
  - apply number_fits in N4. cbn [width] in N4. lia.
  - repeat split; assumption.
Qed.
Lemma internals_at d st : Forall is_byte d -> forall n k, (0 < n)%nat ->
  (exists l, (k + 12 * n <= length d)%nat /\ length l = n /\ (forall i x, nth_error l i = Some x -> entry_at d (k + 12 * i) x) /\
     de_counted MName.internal_de n (mkrd d k st) = Ok (l, mkrd d (k + 12 * n) st)) \/
  ((length d < k + 12 * n)%nat /\ de_counted MName.internal_de n (mkrd d k st) = Err).
Proof.
  intros B. induction n as [|n IH]; intros k Hn; [lia|]. cbn [de_counted].
  destruct (internal_at d k st B) as [(x & L & X & E)|(L & E)].
  2: { right. rewrite (bind_err _ _ _ E). split; [lia|reflexivity]. }
  rewrite (bind_at _ _ _ _ _ E). destruct n as [|n].
  - left. exists [x]. split; [lia|]. split; [reflexivity|]. split; [|reflexivity].
    intros [|i] y Y; [|destruct i; discriminate]. injection Y as <-. rewrite Nat.mul_0_r, Nat.add_0_r. exact X.
  - destruct (IH (k + 12)%nat ltac:(lia)) as [(l & L2 & Ll & X2 & E2)|(L2 & E2)].
    + left. exists (x :: l). rewrite (bind_at _ _ _ _ _ E2). split; [lia|]. split; [cbn; lia|]. split.
      * intros [|i] y Y; [injection Y as <-; rewrite Nat.mul_0_r, Nat.add_0_r; exact X|].
        replace (k + 12 * S i)%nat with (k + 12 + 12 * i)%nat by lia. exact (X2 i y Y).
      * unfold pret. do 2 f_equal. f_equal. lia.
    + right. rewrite (bind_err _ _ _ E2). split; [lia|reflexivity].
Qed.
Definition string_there (d : list Z) (base : nat) (x : MName.internal) : Prop :=
  let '(p, e, l, n, len, off) := x in len <= 0 \/ (base + Z.to_nat off + Z.to_nat len <= length d)%nat.
Definition entry_handled (x : MName.internal) : Prop := let '(p, e, l, n, len, off) := x in handled p e.
Lemma names_cases other d base st : Forall is_byte d -> forall irs k,
  (MName.names_de other irs (mkrd d k (base :: st)) = Panic /\
     exists i x, nth_error irs i = Some x /\ string_there d base x /\ ~ entry_handled x /\
       forall j y, (j < i)%nat -> nth_error irs j = Some y -> string_there d base y /\ entry_handled y) \/
  (((exists rs k', MName.names_de other irs (mkrd d k (base :: st)) = Ok (rs, mkrd d k' (base :: st))) \/ MName.names_de other irs (mkrd d k (base :: st)) = Err) /\
     forall i x, nth_error irs i = Some x -> string_there d base x -> ~ entry_handled x ->
       ~ forall j y, (j < i)%nat -> nth_error irs j = Some y -> string_there d base y /\ entry_handled y).
Proof.
  intros B. induction irs as [|[[[[[p e] l] n] len] off] irs IH]; intros k; cbn [MName.names_de].
  - right. split; [left; do 2 eexists; reflexivity|]. intros [|i] x X; discriminate X.
  - rewrite (bind_at _ _ _ _ _ (eq_refl : seek off (mkrd d k (base :: st)) = Ok (tt, mkrd d (base + Z.to_nat off) (base :: st)))).
    assert (S: ((len <= 0 \/ (base + Z.to_nat off + Z.to_nat len <= length d)%nat) /\ exists bs k', de_counted de_u8 (Z.to_nat len) (mkrd d (base + Z.to_nat off) (base :: st)) = Ok (bs, mkrd d k' (base :: st))) \/
               (~ (len <= 0 \/ (base + Z.to_nat off + Z.to_nat len <= length d)%nat) /\ de_counted de_u8 (Z.to_nat len) (mkrd d (base + Z.to_nat off) (base :: st)) = Err)).
    { destruct (Z_le_dec len 0) as [L0|L0].
      - left. split; [auto|]. replace (Z.to_nat len) with 0%nat by lia. do 2 eexists. reflexivity.
      - destruct (sized_counted 1 _ (sized_prim U8) (Z.to_nat len) ltac:(lia) d (base + Z.to_nat off)%nat (base :: st) B) as [(L & bs & E)|(L & E)].
        + left. split; [right; lia|]. do 2 eexists. exact E.
        + right. split; [lia|exact E]. }
    destruct S as [(S & bs & k' & E)|(S & E)].
    + rewrite (bind_at _ _ _ _ _ E). clear E. destruct (encoding_cases p e) as [(Hh & cs & E)|(Hh & E)].
      * unfold plift, pbind at 1. rewrite E. destruct (IH k') as [(E2 & i & x & X1 & X2 & X3 & X4)|(E2 & X)].
        -- left. split; [unfold pbind; now rewrite E2|]. exists (Datatypes.S i), x. split; [exact X1|]. split; [exact X2|]. split; [exact X3|].
           intros [|j] y Hj Y; [injection Y as <-; split; assumption|]. apply (X4 j y); [lia|exact Y].
        -- right. split.
           ++ destruct E2 as [(rs & k2 & E2)|E2]; [left; do 2 eexists|right]; unfold pbind; rewrite E2; reflexivity.
           ++ intros [|i] x Hx Sx Nx All; [injection Hx as <-; auto|]. apply (X i x Hx Sx Nx). intros j y Hj Y. apply (All (Datatypes.S j) y); [lia|exact Y].
      * left. split; [unfold plift, pbind at 1; now rewrite E|]. exists 0%nat. eexists. split; [reflexivity|]. split; [exact S|]. split; [exact Hh|]. intros j y Hj. lia.
    + right. split; [right; exact (bind_err _ _ _ E)|]. intros [|i] x Hx Sx Nx All; [injection Hx as <-; auto|].
      destruct (All 0%nat _ ltac:(lia) eq_refl) as [X _]. auto.
Qed.
Lemma name_aborts other d : Forall is_byte d -> (from_bytes (MName.name_de other) d = Panic <-> name_bad d).
Proof.
  intros B. rewrite from_panic. unfold MName.name_de, rd_new.
  rewrite (bind_at _ _ _ _ _ (eq_refl : pskip 2 (mkrd d 0 [0%nat]) = Ok (tt, mkrd d 2 [0%nat]))). prims.
  destruct (prim_at U16 d 2 [0%nat] B) as [(count & N & E)|(N & E)].
  2: { rewrite (bind_err _ _ _ E). split; [discriminate|]. intros (c & i & X & _). apply number_fits in X. cbn [width] in *. lia. }
  rewrite (bind_at _ _ _ _ _ E). cbn [width Nat.add] in *. clear E.
  rewrite (bind_at _ _ _ _ _ (eq_refl : pskip 2 (mkrd d 4 [0%nat]) = Ok (tt, mkrd d 6 [0%nat]))).
  assert (Rc: 0 <= count <= 65535) by (destruct N as (? & _ & _ & R); exact R).
  destruct (Z.to_nat count) as [|n] eqn:En.
  { split; [discriminate|]. intros (c & i & X & Hi & _). rewrite (number_unique _ _ _ _ _ X N) in Hi. lia. }
  destruct (internals_at d [0%nat] B (S n) 6 ltac:(lia)) as [(irs & L & Ll & Hx & E)|(L & E)].
  2: { rewrite (bind_err _ _ _ E). split; [discriminate|]. intros (c & i & X & Hi & L2 & _). rewrite (number_unique _ _ _ _ _ X N) in *. lia. }
  rewrite (bind_at _ _ _ _ _ E). clear E.
  set (base := (6 + 12 * S n)%nat) in *.
  rewrite (bind_at _ _ _ _ _ (eq_refl : MName.ppush (mkrd d base [0%nat]) = Ok (tt, mkrd d base [base; 0%nat]))).
  assert (W: forall i p e, (i < S n)%nat -> name_entry d count i p e <-> exists l nm len off, nth_error irs i = Some (p, e, l, nm, len, off) /\ string_there d base (p, e, l, nm, len, off)).
  { intros i p e Hi. destruct (nth_error irs i) as [[[[[[p' e'] l'] n'] len'] off']|] eqn:Ei; [|apply nth_error_None in Ei; lia].
    pose proof (Hx _ _ Ei) as (X1 & X2 & X3 & X4). replace (6 + 12 * i + 2)%nat with (8 + 12 * i)%nat in X2 by lia.
    replace (6 + 12 * i + 8)%nat with (14 + 12 * i)%nat in X3 by lia. replace (6 + 12 * i + 10)%nat with (16 + 12 * i)%nat in X4 by lia.
    unfold name_entry, string_there. rewrite En. change (6 + 12 * S n)%nat with base. split.
    - intros (Y1 & Y2 & len & off & Y3 & Y4 & Y5). rewrite (number_unique _ _ _ _ _ Y1 X1), (number_unique _ _ _ _ _ Y2 X2).
      rewrite (number_unique _ _ _ _ _ Y3 X3), (number_unique _ _ _ _ _ Y4 X4) in Y5. do 4 eexists. split; [reflexivity|]. lia.
    - intros (l & nm & len & off & Y1 & Y2). injection Y1 as <- <- <- <- <- <-. split; [exact X1|]. split; [exact X2|]. exists len', off'. split; [exact X3|]. split; [exact X4|].
      destruct X3 as (? & _ & _ & R). cbn [in_range] in R. lia. }
  destruct (names_cases other d base [0%nat] B irs base) as [(E & i & x & X1 & X2 & X3 & X4)|(E & X)].
  - split; [intros _|intros _; unfold pbind at 1; now rewrite E].
    assert (Hi: (i < S n)%nat) by (rewrite <- Ll; apply nth_error_Some; congruence).
    exists count, i. rewrite En. split; [exact N|]. split; [exact Hi|]. split; [exact L|]. split.
    + destruct x as [[[[[p e] l] nm] len] off]. exists p, e. split; [|exact X3]. apply W; [exact Hi|]. do 4 eexists. split; [exact X1|exact X2].
    + intros j Hj. destruct (nth_error irs j) as [y|] eqn:Ej; [|apply nth_error_None in Ej; lia]. destruct (X4 j y Hj Ej) as [Y1 Y2].
      destruct y as [[[[[p e] l] nm] len] off]. exists p, e. split; [|exact Y2]. apply W; [lia|]. do 4 eexists. split; [exact Ej|exact Y1].
  - split.
    + intros P. exfalso. destruct E as [(rs & k' & E)|E].
      * rewrite (bind_at _ _ _ _ _ E) in P. discriminate P.
      * rewrite (bind_err _ _ _ E) in P. discriminate P.
    + intros (c & i & Nc & Hi & _ & (p & e & He & Nh) & All). exfalso. rewrite (number_unique _ _ _ _ _ Nc N) in *. rewrite En in *.
      apply (W i p e Hi) in He as (l & nm & len & off & Hi1 & Hi2). apply (X i _ Hi1 Hi2 Nh). intros j y Hj Y.
      destruct (All j Hj) as (p' & e' & He' & Hh'). apply (W j p' e' ltac:(lia)) in He' as (l' & nm' & len' & off' & Y1 & Y2).
      rewrite Y in Y1. injection Y1 as ->. split; assumption.
Qed.

(** ** post *)
Lemma text_cons c bs : scalar c -> text bs -> text (utf8_char c ++ bs).
Proof. intros H (s & F & ->). exists (c :: s). split; [auto|reflexivity]. Qed.
Lemma valid_text : forall n bs, (length bs <= n)%nat -> Forall is_byte bs -> utf8_valid bs = true -> text bs.
Proof.
  assert (K: forall x, cont x = true -> 128 <= x <= 191) by (intros x; unfold cont; lia).
  induction n as [|n IH]; intros bs L B V.
  { destruct bs; [|cbn in L; lia]. exists []. auto. }
  destruct bs as [|a r1]; [exists []; auto|]. inversion B as [|? ? Ba B1]; subst. unfold is_byte in Ba. cbn [utf8_valid] in V. cbn [length] in L.
  destruct (Z.leb_spec a 127) as [La|La].
  { replace (a :: r1) with (utf8_char a ++ r1).
    - apply text_cons; [unfold scalar; lia|]. apply IH; [lia|exact B1|exact V].
    - unfold utf8_char. replace (a <=? 127) with true by lia. reflexivity. }
  destruct r1 as [|b r2]; [discriminate V|]. inversion B1 as [|? ? Bb B2]; subst. cbn [length] in L.
  destruct ((194 <=? a) && (a <=? 223))%bool eqn:E2.
  { apply andb_true_iff in V as [Vb V]. apply K in Vb. set (c := (a - 192) * 64 + (b - 128)).
    replace (a :: b :: r2) with (utf8_char c ++ r2).
    - apply text_cons; [unfold scalar, c; lia|]. apply IH; [lia|exact B2|exact V].
    - unfold utf8_char. replace (c <=? 127) with false by (unfold c; lia). replace (c <=? 2047) with true by (unfold c; lia).
      cbn [app]. f_equal; [unfold c; lia|]. f_equal. unfold c; lia. }
  destruct r2 as [|x r3]; [discriminate V|]. inversion B2 as [|? ? Bx B3]; subst. cbn [length] in L.
  destruct ((224 <=? a) && (a <=? 239))%bool eqn:E3.
  { apply andb_true_iff in V as [V1 V]. apply andb_true_iff in V1 as [V1 S2]. apply andb_true_iff in V1 as [V1 S1]. apply andb_true_iff in V1 as [Vb Vx].
    apply K in Vb. apply K in Vx. set (c := (a - 224) * 4096 + (b - 128) * 64 + (x - 128)).
    assert (C: 2048 <= c <= 65535) by (unfold c; lia).
    replace (a :: b :: x :: r3) with (utf8_char c ++ r3).
    - apply text_cons; [|apply IH; [lia|exact B3|exact V]]. unfold scalar, c. lia.
    - unfold utf8_char. replace (c <=? 127) with false by lia. replace (c <=? 2047) with false by lia. replace (c <=? 65535) with true by lia.
      assert (Q1: c / 4096 = a - 224) by (symmetry; apply Z.div_unique with (r := (b - 128) * 64 + (x - 128)); unfold c; lia).
      assert (Q2: c / 64 = (a - 224) * 64 + (b - 128)) by (symmetry; apply Z.div_unique with (r := x - 128); unfold c; lia).
      rewrite Q1, Q2. cbn [app]. f_equal; [lia|]. f_equal; [clear - Vb; lia|]. f_equal. unfold c. clear - Vx. lia. }
  destruct r3 as [|y r4]; [discriminate V|]. inversion B3 as [|? ? By B4]; subst. cbn [length] in L.
  apply andb_true_iff in V as [V1 V]. apply andb_true_iff in V1 as [V1 S2]. apply andb_true_iff in V1 as [V1 S1].
  apply andb_true_iff in V1 as [V1 Vy]. apply andb_true_iff in V1 as [V1 Vx]. apply andb_true_iff in V1 as [V1 Vb].
  apply K in Vb. apply K in Vx. apply K in Vy. set (c := (a - 240) * 262144 + (b - 128) * 4096 + (x - 128) * 64 + (y - 128)).
  assert (C: 65536 <= c <= 1114111) by (unfold c; lia).
  replace (a :: b :: x :: y :: r4) with (utf8_char c ++ r4).
  - apply text_cons; [|apply IH; [lia|exact B4|exact V]]. unfold scalar. lia.
  - unfold utf8_char. replace (c <=? 127) with false by lia. replace (c <=? 2047) with false by lia. replace (c <=? 65535) with false by lia.
    assert (Q1: c / 262144 = a - 240) by (symmetry; apply Z.div_unique with (r := (b - 128) * 4096 + (x - 128) * 64 + (y - 128)); unfold c; lia).
    assert (Q2: c / 4096 = (a - 240) * 64 + (b - 128)) by (symmetry; apply Z.div_unique with (r := (x - 128) * 64 + (y - 128)); unfold c; lia).
    assert (Q3: c / 64 = ((a - 240) * 64 + (b - 128)) * 64 + (x - 128)) by (symmetry; apply Z.div_unique with (r := y - 128); unfold c; lia).
    rewrite Q1, Q2, Q3. cbn [app]. f_equal; [lia|]. f_equal; [clear - Vb; lia|]. f_equal; [clear - Vx; lia|]. f_equal. unfold c. clear - Vy. lia.
Qed.
Lemma valid_iff bs : Forall is_byte bs -> (utf8_valid bs = true <-> text bs).
Proof. intros B. split; [apply (valid_text (length bs)); auto|apply PPost.text_valid]. Qed.

From Verif.Proofs Require PName.
Lemma bytes_here r n : Forall is_byte (rd_input r) ->
  ((n <= length (rest r))%nat /\ de_counted de_u8 n r = Ok (firstn n (rest r), adv r n)) \/
  ((length (rest r) < n)%nat /\ de_counted de_u8 n r = Err).
Proof.
  intros B. destruct (Nat.le_gt_cases n (length (rest r))) as [H|H].
  - left. split; [exact H|]. pose proof (PName.reads_bytes (firstn n (rest r)) r (skipn n (rest r))) as R.
    assert (L: length (firstn n (rest r)) = n) by (rewrite firstn_length; lia). rewrite L in R. apply R. symmetry. apply firstn_skipn.
  - right. split; [exact H|]. destruct r as [d k st]. unfold rest in H. cbn [rd_input rd_ptr] in *. rewrite skipn_length in H.
    destruct (sized_counted 1 _ (sized_prim U8) n ltac:(lia) d k st B) as [(L & bs & E)|(L & E)]; [|exact E].
    rewrite Nat.mul_1_r in *. assert (k <= length d \/ length d < k)%nat as [?|?] by lia; lia.
Qed.
Lemma bytes_rest r : Forall is_byte (rd_input r) -> Forall is_byte (rest r).
Proof. intros B. unfold rest. rewrite <- (firstn_skipn (rd_ptr r)) in B. now apply Forall_app in B as [_ B]. Qed.
Lemma pool_inv : forall fuel r, Forall is_byte (rd_input r) -> (length (rest r) < fuel)%nat ->
  match pool_loop fuel r with
  | Ok (names, r') => rest r = concat (map pascal names) /\ pool_ok names /\ Forall text names
  | Err => True
  | Panic => exists names name more, rest r = concat (map pascal names) ++ pascal name ++ more /\ pool_ok names /\ Forall text names /\
               Z.of_nat (length name) <= 255 /\ ~ text name
  end.
Proof.
  induction fuel as [|fuel IH]; intros r B L; [lia|]. cbn [pool_loop]. pose proof (bytes_rest r B) as BR.
  destruct (rest r) as [|b l] eqn:Er.
  { rewrite (PPost.rest_none r Er). repeat split; constructor. }
  inversion BR as [|? ? Bb Bl]; subst. unfold is_byte in Bb.
  rewrite (PName.reads_byte b r l Er). cbn [length]. assert (R1: rest (adv r 1) = l) by (rewrite rest_adv, Er; reflexivity).
  destruct (bytes_here (adv r 1) (Z.to_nat b) B) as [(H & E)|(H & E)]; [|unfold pbind; rewrite E; exact I].
  rewrite R1 in *. unfold pbind at 1. rewrite E. set (name := firstn (Z.to_nat b) l) in *.
  assert (Ln: Z.of_nat (length name) = b) by (unfold name; rewrite firstn_length; lia).
  assert (P: b :: l = pascal name ++ skipn (Z.to_nat b) l) by (unfold pascal; rewrite Ln; cbn [app]; unfold name; now rewrite firstn_skipn).
  assert (Bn: Forall is_byte name) by (unfold name; rewrite <- (firstn_skipn (Z.to_nat b)) in Bl; now apply Forall_app in Bl as [Bl _]).
  destruct (utf8_valid name) eqn:V.
  - apply (valid_iff name Bn) in V. rewrite adv_adv.
    assert (R2: rest (adv r (1 + Z.to_nat b)) = skipn (Z.to_nat b) l) by (rewrite rest_adv, Er; reflexivity).
    specialize (IH (adv r (1 + Z.to_nat b)) B). rewrite R2 in IH. cbn [length] in L. specialize (IH ltac:(rewrite skipn_length; lia)).
    unfold pbind. destruct (pool_loop fuel (adv r (1 + Z.to_nat b))) as [[names r']| |]; [|exact I|].
    + destruct IH as (I1 & I2 & I3). cbn. rewrite P, I1. split; [reflexivity|]. split; constructor; auto. lia.
    + destruct IH as (names & nm & more & I1 & I2 & I3 & I4 & I5). exists (name :: names), nm, more. rewrite P, I1. cbn [map concat]. rewrite <- !app_assoc.
      split; [reflexivity|]. split; [constructor; [lia|exact I2]|]. split; [constructor; assumption|]. auto.
  - exists [], name, (skipn (Z.to_nat b) l). rewrite P. split; [reflexivity|]. split; [constructor|]. split; [constructor|]. split; [lia|].
    intros X. apply (valid_iff name Bn) in X. congruence.
Qed.
Lemma pool_bad r names name more : Forall is_byte (rd_input r) -> rest r = concat (map pascal names) ++ pascal name ++ more -> pool_ok names -> Forall text names ->
  Z.of_nat (length name) <= 255 -> ~ text name -> pool_de r = Panic.
Proof.
  intros B R P T L N. unfold pool_de.
  assert (U: Forall (fun n => utf8_valid n = true) names) by (eapply Forall_impl; [|exact T]; intros; now apply PPost.text_valid).
  destruct (PPost.pool_prefix names P U (S (length (rd_input r) - rd_ptr r)) r (pascal name ++ more)) as (fuel & Lf & E); [exact R|rewrite rest_length; lia|].
  rewrite E. clear E. destruct fuel as [|fuel]; [lia|]. cbn [pool_loop].
  set (r2 := adv r _). assert (R2: rest r2 = pascal name ++ more) by (unfold r2; rewrite rest_adv, R; apply skipn_app_exact).
  destruct (PPost.pascal_reads name r2 more L R2) as [E1 E2]. rewrite E1. unfold pbind at 1. rewrite Nat2Z.id, E2.
  destruct (utf8_valid name) eqn:V; [|reflexivity]. exfalso. apply N. apply valid_iff; [|exact V].
  apply bytes_rest in B. rewrite R in B. apply Forall_app in B as [_ B]. apply Forall_app in B as [B _]. now inversion B.
Qed.
Lemma indices_at d st : Forall is_byte d -> forall n k, (0 < n)%nat ->
  (exists l, (k + 2 * n <= length d)%nat /\ length l = n /\ (forall i x, nth_error l i = Some x -> number_at U16 d (k + 2 * i) x) /\
     de_counted de_u16 n (mkrd d k st) = Ok (l, mkrd d (k + 2 * n) st)) \/
  ((length d < k + 2 * n)%nat /\ de_counted de_u16 n (mkrd d k st) = Err).
Proof.
  intros B. induction n as [|n IH]; intros k Hn; [lia|]. cbn [de_counted]. 
  destruct (prim_at U16 d k st B) as [(x & X & E)|(L & E)].
  2: { right. cbn [width] in L. unfold de_u16. rewrite (bind_err _ _ _ E). split; [lia|reflexivity]. }
  unfold de_u16 at 1 3. rewrite (bind_at _ _ _ _ _ E). pose proof (number_fits _ _ _ _ X) as L. cbn [width] in *. destruct n as [|n].
  - left. exists [x]. split; [lia|]. split; [reflexivity|]. split; [|reflexivity].
    intros [|i] y Y; [|destruct i; discriminate]. injection Y as <-. rewrite Nat.mul_0_r, Nat.add_0_r. exact X.
  - destruct (IH (k + 2)%nat ltac:(lia)) as [(l & L2 & Ll & X2 & E2)|(L2 & E2)].
    + left. exists (x :: l). rewrite (bind_at _ _ _ _ _ E2). split; [lia|]. split; [cbn; lia|]. split.
      * intros [|i] y Y; [injection Y as <-; rewrite Nat.mul_0_r, Nat.add_0_r; exact X|].
        replace (k + 2 * S i)%nat with (k + 2 + 2 * i)%nat by lia. exact (X2 i y Y).
      * unfold pret. do 2 f_equal. f_equal. lia.
    + right. rewrite (bind_err _ _ _ E2). split; [lia|reflexivity].
Qed.
Lemma version_cases d p : Forall is_byte d -> number_at I32 d 0 p ->
  (version_of p = version2 <-> (nth_error d 1 = Some 2 /\ nth_error d 2 = Some 0 \/ nth_error d 1 = Some 1 /\ nth_error d 2 = Some 160)).
Proof.
  intros B (bs & S & (Bb & k & E) & R). pose proof (slice_eq _ _ _ _ S) as Eb. destruct S as (L & L2 & _). cbn [width skipn] in *.
  destruct d as [|b0 [|b1 [|b2 [|b3 d]]]]; cbn [length] in L2; try lia. cbn [firstn] in Eb. subst bs.
  cbn [nth_error]. pose proof (Forall_inv Bb) as H0. apply Forall_inv_tail in Bb. pose proof (Forall_inv Bb) as H1. apply Forall_inv_tail in Bb. pose proof (Forall_inv Bb) as H2. apply Forall_inv_tail in Bb. pose proof (Forall_inv Bb) as H3. clear Bb.
  unfold is_byte in *. cbn [digits_value length] in E. change (256 ^ Z.of_nat 3) with 16777216 in E. change (256 ^ Z.of_nat 2) with 65536 in E.
  change (256 ^ Z.of_nat 1) with 256 in E. change (256 ^ Z.of_nat 0) with 1 in E. change (256 ^ Z.of_nat 4) with 4294967296 in E.
  assert (M1: (p / 65536) mod 256 = b1).
  { replace (p / 65536) with (b1 + (b0 + k * 256) * 256) by (apply Z.div_unique with (r := b2 * 256 + b3); lia). clear - H1. rewrite Z.mod_add by lia. apply Z.mod_small. lia. }
  assert (M2: (p / 256) mod 256 = b2).
  { replace (p / 256) with (b2 + (b1 + b0 * 256 + k * 65536) * 256) by (apply Z.div_unique with (r := b3); lia). clear - H2. rewrite Z.mod_add by lia. apply Z.mod_small. lia. }
  unfold version_of, version2. rewrite M1, M2. clear - H1 H2. split.
  - intros X. assert (b1 = 2 /\ b2 = 0 \/ b1 = 1 /\ b2 = 160) as [[-> ->]|[-> ->]]; [|auto|auto].
    assert (Y: (2 * 65536 * b2 + 160) / 320 = 131072 - 65536 * b1) by lia. clear X. lia.
  - intros [[X Y]|[X Y]]; injection X as ->; injection Y as ->; reflexivity.
Qed.
Definition is_u16_ (i : Z) : Prop := 0 <= i <= 65535.
Lemma names_found pool : forall ix, (Forall is_u16_ ix) -> (rmapM (name_at pool) ix = Panic <-> Exists (fun i => 258 + Z.of_nat (length pool) <= i) ix) /\ rmapM (name_at pool) ix <> Err.
Proof.
  induction ix as [|i ix IH]; intros F; cbn [rmapM].
  - split; [split; [discriminate|intros X; inversion X]|discriminate].
  - inversion F as [|? ? Hi F2]; subst. destruct (IH F2) as [I1 I2]. unfold is_u16_ in Hi.
    assert (C: (exists n, name_at pool i = Ok n /\ i < 258 + Z.of_nat (length pool)) \/ (name_at pool i = Panic /\ 258 + Z.of_nat (length pool) <= i)).
    { unfold name_at. destruct (Z.ltb_spec i 258) as [H|H].
      - destruct (nth_error apple_names (Z.to_nat i)) eqn:En; [left; eexists; split; [reflexivity|lia]|]. apply nth_error_None in En. rewrite PPost.apple_length in En. lia.
      - destruct (nth_error pool (Z.to_nat (i - 258))) eqn:En.
        + left. eexists. split; [reflexivity|]. assert (Z.to_nat (i - 258) < length pool)%nat by (apply nth_error_Some; congruence). lia.
        + right. split; [reflexivity|]. apply nth_error_None in En. lia. }
    destruct C as [(n & -> & C)|(-> & C)].
    + cbn [rbind]. destruct (rmapM (name_at pool) ix) as [l| |]; cbn [rbind]; [|congruence|].
      * split; [|discriminate]. split; [discriminate|]. intros X. inversion X; subst; [lia|]. destruct I1 as [_ I1]. discriminate (I1 H0).
      * split; [|discriminate]. split; [intros _; apply Exists_cons_tl; now apply I1|reflexivity].
    + cbn [rbind]. split; [|discriminate]. split; [intros _; now apply Exists_cons_hd|reflexivity].
Qed.

Lemma core_at d : Forall is_byte d ->
  (exists v core, number_at I32 d 0 v /\ (32 <= length d)%nat /\ postcore_de (mkrd d 0 [0%nat]) = Ok (core, mkrd d 32 [0%nat]) /\ po_version (core None) = version_of v) \/
  ((length d < 32)%nat /\ postcore_de (mkrd d 0 [0%nat]) = Err).
Proof.
  intros B. unfold postcore_de.
  assert (V: (exists v, number_at I32 d 0 v /\ de_version16dot16 (mkrd d 0 [0%nat]) = Ok (version_of v, mkrd d 4 [0%nat])) \/ ((length d < 4)%nat /\ de_version16dot16 (mkrd d 0 [0%nat]) = Err)).
  { unfold de_version16dot16, de_i32. destruct (prim_at I32 d 0 [0%nat] B) as [(v & N & E)|(N & E)].
    - left. exists v. split; [exact N|]. rewrite (bind_at _ _ _ _ _ E). reflexivity.
    - right. split; [exact N|]. exact (bind_err _ _ _ E). }
  destruct V as [(v & N & E)|(L & E)]; [rewrite (bind_at _ _ _ _ _ E)|rewrite (bind_err _ _ _ E); right; split; [lia|reflexivity]].
  clear E. prims.
  sized_step sized_fixed B L1; [|right; split; [lia|reflexivity]].
  sized_step (sized_prim I16) B L2; [|right; split; [lia|reflexivity]].
  sized_step (sized_prim I16) B L3; [|right; split; [lia|reflexivity]].
  sized_step (sized_prim U32) B L4; [|right; split; [lia|reflexivity]].
  sized_step (sized_prim U32) B L5; [|right; split; [lia|reflexivity]].
  sized_step (sized_prim U32) B L6; [|right; split; [lia|reflexivity]].
  sized_step (sized_prim U32) B L7; [|right; split; [lia|reflexivity]].
  sized_step (sized_prim U32) B L8; [|right; split; [lia|reflexivity]].
  left. eexists v, _. split; [exact N|]. split; [lia|]. split; [reflexivity|]. reflexivity.
Qed.
Lemma post_aborts d : Forall is_byte d -> (from_bytes post_de d = Panic <-> post_bad d).
Proof.
  intros B. rewrite from_panic. unfold post_de, rd_new.
  destruct (core_at d B) as [(v & core & Nv & L & E & V)|(L & E)].
  2: { rewrite (bind_err _ _ _ E). split; [discriminate|]. intros (n & ix & names & rst & _ & N & _). apply number_fits in N. cbn [width] in N. lia. }
  rewrite (bind_at _ _ _ _ _ E), V. clear E. pose proof (version_cases d v B Nv) as VC. unfold version2 in *.
  destruct (Z.eqb_spec (version_of v) 131072) as [V2|V2].
  2: { split; [discriminate|]. intros (n & ix & names & rst & X & _). apply VC in X. contradiction. }
  apply VC in V2. clear VC.
  unfold de_u16 at 1. destruct (prim_at U16 d 32 [0%nat] B) as [(n & N & E)|(N & E)].
  2: { rewrite (bind_err _ _ _ E). split; [discriminate|]. intros (n & ix & names & rst & _ & X & _). apply number_fits in X. cbn [width] in *. lia. }
  rewrite (bind_at _ _ _ _ _ E). clear E. cbn [width Nat.add].
  assert (Rn: 0 <= n <= 65535) by (destruct N as (? & _ & _ & R); exact R).
  assert (S: (exists ix, (34 + 2 * Z.to_nat n <= length d)%nat /\ length ix = Z.to_nat n /\ (forall i x, nth_error ix i = Some x -> number_at U16 d (34 + 2 * i) x) /\
     de_counted de_u16 (Z.to_nat n) (mkrd d 34 [0%nat]) = Ok (ix, mkrd d (34 + 2 * Z.to_nat n) [0%nat])) \/
    ((length d < 34 + 2 * Z.to_nat n)%nat /\ de_counted de_u16 (Z.to_nat n) (mkrd d 34 [0%nat]) = Err)).
  { destruct (Z.to_nat n) as [|n'] eqn:En; [|apply indices_at; [exact B|lia]].
    left. exists []. apply number_fits in N. cbn [width] in N. split; [lia|]. split; [reflexivity|]. split; [intros [|i] x X; discriminate X|reflexivity]. }
  destruct S as [(ix & Ld & Lx & Hx & E)|(Ld & E)].
  2: { rewrite (bind_err _ _ _ E). split; [discriminate|]. intros (n' & ix & names & rst & _ & X & Y & _ & Z1 & _). rewrite (number_unique _ _ _ _ _ X N) in Y. lia. }
  rewrite (bind_at _ _ _ _ _ E). clear E. set (r := mkrd d (34 + 2 * Z.to_nat n) [0%nat]).
  assert (Rr: rest r = skipn (34 + 2 * length ix) d) by (unfold rest, r; cbn [rd_input rd_ptr]; now rewrite Lx).
  assert (Fx: Forall is_u16_ ix).
  { apply Forall_forall. intros x Hin. apply In_nth_error in Hin as [i Hi]. destruct (Hx i x Hi) as (? & _ & _ & R). exact R. }
  assert (Ux: forall ix', length ix' = Z.to_nat n -> (forall i x, nth_error ix' i = Some x -> number_at U16 d (34 + 2 * i) x) -> ix' = ix).
  { intros ix' L' H'. apply same_nth. intros i. destruct (nth_error ix' i) as [x|] eqn:E1, (nth_error ix i) as [y|] eqn:E2.
    - f_equal. exact (number_unique _ _ _ _ _ (H' i x E1) (Hx i y E2)).
    - apply nth_error_None in E2. assert (i < length ix')%nat by (apply nth_error_Some; congruence). lia.
    - apply nth_error_None in E1. assert (i < length ix)%nat by (apply nth_error_Some; congruence). lia.
    - reflexivity. }
  pose proof (pool_inv (S (length (rd_input r) - rd_ptr r)) r B ltac:(rewrite rest_length; lia)) as PI.
  change (pool_loop (S (length (rd_input r) - rd_ptr r)) r) with (pool_de r) in PI.
  split.
  - unfold pbind at 1. destruct (pool_de r) as [[names r']| |]; [|discriminate|]; intros P.
    + destruct PI as (P1 & P2 & P3). destruct (names_found names ix Fx) as [F1 F2].
      assert (X: rmapM (name_at names) ix = Panic) by (destruct (rmapM (name_at names) ix) eqn:Er; [discriminate P|congruence|reflexivity]).
      exists n, ix, names, []. split; [exact V2|]. split; [exact N|]. split; [exact Lx|]. split; [exact Hx|]. split; [lia|].
      split; [rewrite <- Rr, P1, app_nil_r; reflexivity|]. split; [exact P2|]. split; [exact P3|]. left. split; [reflexivity|]. now apply F1.
    + destruct PI as (names & name & more & P1 & P2 & P3 & P4 & P5). exists n, ix, names, (pascal name ++ more).
      split; [exact V2|]. split; [exact N|]. split; [exact Lx|]. split; [exact Hx|]. split; [lia|].
      split; [rewrite <- Rr; exact P1|]. split; [exact P2|]. split; [exact P3|]. right. exists name, more. auto.
  - intros (n' & ix' & names & rst & _ & N' & L' & H' & _ & D & P & T & C). rewrite (number_unique _ _ _ _ _ N' N) in L'.
    rewrite (Ux ix' L' H') in *. rewrite <- Rr in D. destruct C as [(-> & C)|(name & more & -> & C1 & C2)].
    + rewrite app_nil_r in D. unfold pbind at 1. rewrite (PPost.pool_all names r P) ; [|eapply Forall_impl; [|exact T]; intros; now apply PPost.text_valid|exact D].
      destruct (names_found names ix Fx) as [[_ F1] _]. unfold plift, pbind at 1. rewrite (F1 C). reflexivity.
    + unfold pbind at 1. rewrite (pool_bad r names name more B D P T C1 C2). reflexivity.
Qed.

(** ** hmtx *)
Lemma hmtx_aborts n d : 0 <= n -> Forall is_byte d -> (from_bytes (de_hmtx n) d = Panic <-> n = 0).
Proof.
  intros Hn B. split; [|intros ->; exact (proj2 (proj2 PMetrics.hmtx_empty_refuted) d)].
  rewrite from_panic. unfold de_hmtx.
  intros P. destruct (Z.eq_dec n 0) as [H|H]; [exact H|exfalso].
  match type of P with ?p _ = _ => apply (calm_here False any p d 0%nat [0%nat]) in P; [exact P| |exact B|discriminate] end.
  eapply calm_bind; [apply (calm_counted False any); unfold de_metric; calms|]. intros ms [Lm _].
  eapply calm_bind; [apply (calm_vec _ any); calms|]. intros others _.
  destruct (rev ms) as [|m l] eqn:E; [|apply calm_ret; exact I].
  apply (f_equal (@length _)) in E. rewrite rev_length in E. cbn [length] in E. lia.
Qed.

(** ** Through the table set *)
Lemma get_raw {T} (K : codecs T) tag d s : self_contained tag ->
  (fst (ts_get K tag (ts_insert_raw tag d s)) = Panic <-> des0 K tag d = Panic).
Proof.
  intros S. unfold ts_get, get_by, load_by.
  assert (G : st_get tag (ts_insert_raw tag d s) = Some (Unloaded d)).
  { unfold ts_insert_raw. rewrite st_get_set. now destruct (list_eq_dec Z.eq_dec tag tag). }
  rewrite G, (des3_self K tag d _ S). destruct (des0 K tag d) as [l| |]; cbn [fst]; [|split; congruence|split; congruence].
  rewrite st_get_set. destruct (list_eq_dec Z.eq_dec tag tag); [|congruence]. cbn [fst]. split; congruence.
Qed.
Lemma rmap_panic {A B} (f : A -> B) x : rmap f x = Panic <-> x = Panic.
Proof. destruct x; cbn; split; congruence. Qed.
Lemma self_by tag : tag_in tag dependent_tags = false -> self_contained tag.
Proof. exact (not_dep tag). Qed.

Section Library.
Context {P : Type} (other : MName.charset -> MName.coder) (fragment : list Z -> further P -> list Z) (hash : cmapping -> Z).
Let L := library other fragment hash.
Lemma get_head d s : Forall is_byte d -> (fst (ts_get L TAG_head (ts_insert_raw TAG_head d s)) = Panic <-> head_bad d).
Proof.
  intros B. rewrite get_raw by (apply self_by; reflexivity). change (des0 L TAG_head d) with (rmap (@LHead (known (further P))) (from_bytes de_head_tbl d)).
  rewrite rmap_panic. now apply head_aborts.
Qed.
Lemma get_fvar d s : Forall is_byte d -> (fst (ts_get L TAG_fvar (ts_insert_raw TAG_fvar d s)) = Panic <-> fvar_bad d).
Proof.
  intros B. rewrite get_raw by (apply self_by; reflexivity).
  change (des0 L TAG_fvar d) with (rmap (LOther TAG_fvar) (rmap (@KRest (further P)) (rmap FFvar (from_bytes de_fvar d)))).
  rewrite !rmap_panic. now apply fvar_aborts.
Qed.
Lemma get_name d s : Forall is_byte d -> (fst (ts_get L TAG_name (ts_insert_raw TAG_name d s)) = Panic <-> name_bad d).
Proof.
  intros B. rewrite get_raw by (apply self_by; reflexivity).
  change (des0 L TAG_name d) with (rmap (LOther TAG_name) (rmap (@KRest (further P)) (rmap FName (from_bytes (MName.name_de other) d)))).
  rewrite !rmap_panic. now apply name_aborts.
Qed.
Lemma get_post d s : Forall is_byte d -> (fst (ts_get L TAG_post (ts_insert_raw TAG_post d s)) = Panic <-> post_bad d).
Proof.
  intros B. rewrite get_raw by (apply self_by; reflexivity).
  change (des0 L TAG_post d) with (rmap (LOther TAG_post) (rmap (@KPost (further P)) (from_bytes post_de d))).
  rewrite !rmap_panic. now apply post_aborts.
Qed.
Lemma get_safe tag d s : Forall is_byte d ->
  (one_of tag calm_names \/ ~ one_of tag table_names) ->
  fst (ts_get L tag (ts_insert_raw tag d s)) <> Panic.
Proof.
  intros B [H|H].
  - apply PWhole.one_of_iff, tag_in_iff in H.
    repeat destruct H as [<-|H]; try destruct H; (rewrite get_raw by (apply self_by; reflexivity)).
    + match goal with |- des0 L ?t ?d <> _ => change t with TAG_avar end. change (des0 L TAG_avar d) with (rmap (LOther TAG_avar) (rmap (@KRest (further P)) (rmap FAvar (from_bytes MAvar.avar_de d)))).
      rewrite !rmap_panic. exact (calm_never _ _ _ (calm_avar False) B).
    + match goal with |- des0 L ?t ?d <> _ => change t with TAG_cvt end. change (des0 L TAG_cvt d) with (rmap (LOther TAG_cvt) (rmap (@KRest (further P)) (rmap FCvt (from_bytes de_cvt d)))).
      rewrite !rmap_panic. exact (calm_never _ _ _ (calm_cvt False) B).
    + match goal with |- des0 L ?t ?d <> _ => change t with TAG_fpgm end. change (des0 L TAG_fpgm d) with (rmap (LOther TAG_fpgm) (rmap (@KRest (further P)) (rmap FFpgm (from_bytes de_fpgm d)))).
      rewrite !rmap_panic. exact (calm_never _ _ _ (calm_fpgm False) B).
    + match goal with |- des0 L ?t ?d <> _ => change t with TAG_gasp end. change (des0 L TAG_gasp d) with (rmap (LOther TAG_gasp) (rmap (@KGasp (further P)) (from_bytes de_gasp d))).
      rewrite !rmap_panic. exact (calm_never _ _ _ (calm_gasp False) B).
    + match goal with |- des0 L ?t ?d <> _ => change t with TAG_hhea end. change (des0 L TAG_hhea d) with (rmap (@LHhea (known (further P))) (from_bytes de_hhea d)).
      rewrite !rmap_panic. exact (calm_never _ _ _ (calm_hhea False) B).
    + match goal with |- des0 L ?t ?d <> _ => change t with TAG_maxp end. change (des0 L TAG_maxp d) with (rmap (@LMaxp (known (further P))) (from_bytes de_maxp d)).
      rewrite !rmap_panic. exact (calm_never _ _ _ (calm_maxp False) B).
    + match goal with |- des0 L ?t ?d <> _ => change t with TAG_OS2 end. change (des0 L TAG_OS2 d) with (rmap (LOther TAG_OS2) (rmap (@KRest (further P)) (rmap FOs2 (from_bytes de_os2 d)))).
      rewrite !rmap_panic. exact (calm_never _ _ _ (calm_os2 False) B).
    + match goal with |- des0 L ?t ?d <> _ => change t with TAG_prep end. change (des0 L TAG_prep d) with (rmap (LOther TAG_prep) (rmap (@KRest (further P)) (rmap FPrep (from_bytes de_fpgm d)))).
      rewrite !rmap_panic. exact (calm_never _ _ _ (calm_fpgm False) B).
    + match goal with |- des0 L ?t ?d <> _ => change t with TAG_STAT end. change (des0 L TAG_STAT d) with (rmap (LOther TAG_STAT) (rmap (@KRest (further P)) (rmap FStat (from_bytes MStat.stat_read d)))).
      rewrite !rmap_panic. exact (calm_never _ _ _ (calm_stat False) B).
  - rewrite PWhole.one_of_iff in H.
    assert (N: forall t, In t (map ascii_bytes table_names) -> MTag.bytes_eqb tag t = false).
    { intros t Ht. destruct (MTag.bytes_eqb tag t) eqn:E; [|reflexivity]. apply PTag.bytes_eqb_eq in E. subst t. apply tag_in_iff in Ht. contradiction. }
    rewrite get_raw.
    + unfold des0. rewrite (N TAG_head), (N TAG_hhea), (N TAG_maxp) by (apply tag_in_iff; reflexivity).
      destruct (tag_in tag plain_tags) eqn:Et; [|discriminate]. exfalso. apply H. apply tag_in_iff in Et. clear - Et.
      repeat destruct Et as [<-|Et]; try destruct Et; reflexivity.
    + intros Hd. apply H. clear - Hd. repeat destruct Hd as [<-|Hd]; try destruct Hd; reflexivity.
Qed.
End Library.

(** ** Derived readers *)
From Verif.Model Require MDerive MOffset.
From Verif.Proofs Require PDerive.
Lemma steady_calm {A} (p : parser A) : steady p <-> calm False any p.
Proof.
  split; intros H r B S; specialize (H r B S); destruct (p r) as [[a r']| |]; auto; [destruct H|destruct H as (X & Y & _)]; repeat split; assumption.
Qed.
Lemma calm_offset16 {A} E (p : parser A) : calm E any p -> calm E any (MOffset.de_offset false p).
Proof.
  intros H. eapply calm_bind; [apply calm_prim|]. intros off R. cbn [in_range] in R. destruct (off =? 0); [apply calm_ret; exact I|].
  intros r B S. unfold try_u. replace ((0 <=? off) && (off <? 2 ^ 16))%bool with true by lia. cbn [unwrap].
  unfold follow_offset. assert (T: exists t, top_of_table r = Ok t) by (unfold top_of_table; destruct (rd_stack r) as [|t st]; [congruence|eauto]).
  destruct T as [t ->]. cbn [rbind]. destruct (Nat.ltb (length (rd_input r)) (t + Z.to_nat off)); [exact I|].
  specialize (H (mkrd (rd_input r) (t + Z.to_nat off) (rd_stack r)) B S).
  destruct (p _) as [[x r2]| |]; [|exact I|exact H]. exact H.
Qed.
Lemma calm_closing {A} E (b : bool) (p : parser A) :
  (forall r, Forall is_byte (rd_input r) -> rd_stack r <> [] ->
     match p r with Ok (_, r') => rd_input r' = rd_input r /\ (length (rd_stack r) + (if b then 1 else 0) <= length (rd_stack r'))%nat | Err => True | Panic => E end) ->
  calm E any (MDerive.closing b p).
Proof.
  intros H r B S. unfold MDerive.closing. specialize (H r B S). destruct (p r) as [[x r1]| |]; [|exact I|exact H]. destruct H as [H1 H2].
  destruct b; [|repeat split; [exact H1|lia]]. unfold rd_pop. destruct (rd_stack r1) as [|t st] eqn:Es; [cbn in H2; lia|].
  cbn [rd_input rd_stack length] in *. repeat split; [exact H1|lia].
Qed.
Lemma calm_fields {F} E : forall ds : list (bool * parser (MDerive.value F)), Forall (fun bp => calm E any (snd bp)) ds ->
  forall r, Forall is_byte (rd_input r) -> rd_stack r <> [] ->
    match MDerive.dec_fields ds r with
    | Ok (_, r') => rd_input r' = rd_input r /\ (length (rd_stack r) + (if existsb fst ds then 1 else 0) <= length (rd_stack r'))%nat
    | Err => True | Panic => E end.
Proof.
  induction ds as [|[b p] ds IH]; intros H r B S; cbn [MDerive.dec_fields existsb fst].
  - cbn. split; [reflexivity|lia].
  - inversion H as [|? ? H1 H2]; subst. cbn [snd] in H1.
    assert (X: rd_input (if b then rd_push r else r) = rd_input r /\ length (rd_stack (if b then rd_push r else r)) = (length (rd_stack r) + if b then 1 else 0)%nat /\ rd_stack (if b then rd_push r else r) <> [])
      by (destruct b; cbn; repeat split; [lia|discriminate|lia|exact S]).
    destruct X as (X1 & X2 & X3). specialize (H1 (if b then rd_push r else r)). rewrite X1 in H1. specialize (H1 B X3).
    destruct (p _) as [[v r1]| |]; [|exact I|exact H1]. destruct H1 as (Y1 & Y2 & _).
    specialize (IH H2 r1). rewrite Y1 in IH. specialize (IH B (stack_grows _ _ X3 Y2)).
    destruct (MDerive.dec_fields ds r1) as [[vs r2]| |]; [|exact I|exact IH]. destruct IH as [Z1 Z2]. split; [exact Z1|].
    destruct b; cbn [orb]; destruct (existsb fst ds); lia.
Qed.
Lemma calm_scalar {F} E c : c <> MDerive.SDate -> calm E any (MDerive.scalar_de (F:=F) c).
Proof.
  intros N. destruct c; cbn [MDerive.scalar_de]; [..|congruence].
  - eapply calm_bind; [apply calm_prim|]. intros. apply calm_ret; exact I.
  - eapply (calm_bind _ any); [|intros ? _; apply calm_ret; exact I]. unfold de_u24.
    eapply calm_bind; [apply (calm_counted E any); calms|]. intros l [Ll _]. destruct l as [|a [|b [|c [|d l]]]]; cbn [length] in Ll; try lia. apply calm_ret; exact I.
  - calms.
  - eapply (calm_bind _ any); [apply calm_fixed|intros ? _; apply calm_ret; exact I].
  - eapply (calm_bind _ any); [apply calm_f2dot14|intros ? _; apply calm_ret; exact I].
  - unfold de_version16dot16. calms.
Qed.
Lemma calm_derived {F} (fdec : String.string -> parser F) t : (forall n, steady (fdec n)) -> plain_shape t = true -> calm False any (MDerive.dec fdec t).
Proof.
  intros HF. induction t as [c|n|w t IH|w t IH|t IH|e fs IH] using PDerive.shape_ind2; intros H; cbn [plain_shape MDerive.dec] in *.
  - apply calm_scalar. intros ->. discriminate H.
  - eapply (calm_bind _ any); [apply steady_calm, HF|intros ? _; apply calm_ret; exact I].
  - destruct w; [discriminate H|]. eapply (calm_bind _ any); [apply calm_offset16, IH; exact H|intros ? _; apply calm_ret; exact I].
  - eapply (calm_bind _ any); [|intros ? _; apply calm_ret; exact I]. destruct w.
    + unfold de_counted32. eapply calm_bind; [apply calm_prim|]. intros. eapply calm_any, (calm_counted _ any), IH; exact H.
    + eapply calm_any, (calm_counted16 _ any), IH; exact H.
  - discriminate H.
  - eapply (calm_bind _ any); [|intros ? _; apply calm_ret; exact I]. apply calm_closing. intros r B S.
    pose proof (calm_fields False (map (fun f => (MDerive.f_base f, MDerive.dec fdec (snd f))) fs)) as C.
    assert (X: existsb fst (map (fun f => (MDerive.f_base f, MDerive.dec fdec (snd f))) fs) = existsb MDerive.f_base fs).
    { clear. induction fs as [|f fs IH]; [reflexivity|]. cbn. now rewrite IH. }
    rewrite X in C. apply C; [|exact B|exact S]. apply Forall_forall. intros bp Hb. apply in_map_iff in Hb as (f & <- & Hf). cbn [snd].
    rewrite forallb_forall in H. rewrite Forall_forall in IH. apply IH; [exact Hf|]. now apply H.
Qed.

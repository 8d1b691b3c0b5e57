(** The command line tools. *)
From Coq Require Import String.
From Verif.Model Require Import MBase MTag MMap MFont MFixed MTables MMetrics MGlyph MGlyf MStore MPost MCmap MCli.
From Verif.Model Require MGvar.
From Verif.Spec Require Import SBase SReader SFont STables SGlyf SStore SCmapTable.
From Verif.Proofs Require Import PBase PMap PFont PMetrics PStore PSave PLoad.
From Verif.Proofs Require PTag PPost PCodec PTables PCompile PNames.
From Verif.Spec Require Import SCli.
From Verif.Spec Require SPost SName.
Open Scope Z_scope.

(** ** head with another checksum adjustment can be read as well *)
Lemma prim_same t d d' pos stk x r : length d = length d' ->
  firstn (prim_width t) (skipn pos d) = firstn (prim_width t) (skipn pos d') ->
  de_prim t (mkrd d pos stk) = Ok (x, r) ->
  r = mkrd d (pos + prim_width t) stk /\ de_prim t (mkrd d' pos stk) = Ok (x, mkrd d' (pos + prim_width t) stk) /\
  (pos + prim_width t <= length d)%nat.
Proof.
  intros HL HF. unfold de_prim, consume, consume_or_peek. cbn [rd_input rd_ptr rd_stack]. rewrite <- HL, <- HF.
  destruct (Nat.ltb_spec (length d) (pos + prim_width t)); [discriminate|]. intros E. injection E as <- <-. auto.
Qed.
(** Parsers that from position 12 on see the same. *)
Definition follows {A} (p : parser A) : Prop := forall d d' pos stk x r, length d = length d' ->
  skipn 12 d = skipn 12 d' -> (12 <= pos)%nat -> p (mkrd d pos stk) = Ok (x, r) ->
  exists pos', (pos <= pos')%nat /\ r = mkrd d pos' stk /\ p (mkrd d' pos stk) = Ok (x, mkrd d' pos' stk).
Lemma skipn_skipn' {A} n k (d : list A) : skipn k (skipn n d) = skipn (n + k) d.
Proof. revert d. induction n as [|n IH]; intros [|a d]; cbn [skipn Nat.add]; auto. now rewrite skipn_nil. Qed.
Lemma skipn_tail {A} (d d' : list A) n pos : skipn n d = skipn n d' -> (n <= pos)%nat -> skipn pos d = skipn pos d'.
Proof.
  intros E H. replace pos with (n + (pos - n))%nat by lia. rewrite <- !(skipn_skipn' n). now rewrite E.
Qed.
Lemma follows_prim t : follows (de_prim t).
Proof.
  intros d d' pos stk x r HL HS HP E. apply (prim_same t d d') in E as (-> & E & _); [|exact HL|now rewrite (skipn_tail d d' 12)].
  exists (pos + prim_width t)%nat. split; [lia|auto].
Qed.
Lemma follows_ret {A} (x : A) : follows (pret x).
Proof. intros d d' pos stk y r _ _ _ E. unfold pret in *. injection E as -> <-. exists pos. auto. Qed.
Lemma follows_panic {A} : follows (@ppanic A).
Proof. intros d d' pos stk y r _ _ _ E. discriminate. Qed.
Lemma follows_bind {A B} (p : parser A) (f : A -> parser B) : follows p -> (forall x, follows (f x)) -> follows (pbind p f).
Proof.
  intros Hp Hf d d' pos stk y r HL HS HP E. unfold pbind in *.
  destruct (p (mkrd d pos stk)) as [[x r1]| |] eqn:E1; try discriminate.
  destruct (Hp d d' pos stk x r1 HL HS HP E1) as (p1 & H1 & -> & ->).
  destruct (Hf x d d' p1 stk y r HL HS ltac:(lia) E) as (p2 & H2 & -> & ->). exists p2. split; [lia|auto].
Qed.
Definition goes {A} (p p' : parser A) : Prop := forall d d' pos stk x r, length d = length d' ->
  skipn 12 d = skipn 12 d' -> (12 <= pos)%nat -> p (mkrd d pos stk) = Ok (x, r) ->
  exists x' r', p' (mkrd d' pos stk) = Ok (x', r').
Lemma goes_ret {A} (x y : A) : goes (pret x) (pret y).
Proof. intros d d' pos stk z r _ _ _ E. unfold pret. eauto. Qed.
Lemma goes_bind {A B} (p : parser A) (f f' : A -> parser B) : follows p -> (forall x, goes (f x) (f' x)) -> goes (pbind p f) (pbind p f').
Proof.
  intros Hp Hf d d' pos stk y r HL HS HP E. unfold pbind in *.
  destruct (p (mkrd d pos stk)) as [[x r1]| |] eqn:E1; try discriminate.
  destruct (Hp d d' pos stk x r1 HL HS HP E1) as (p1 & H1 & -> & ->).
  exact (Hf x d d' p1 stk y r HL HS ltac:(lia) E).
Qed.
Lemma follows_date : follows de_date.
Proof.
  apply follows_bind; [apply follows_prim|]. intros x. destruct (_ && _); [apply follows_ret|apply follows_panic].
Qed.
Lemma head_readjusted w d h : length w = 4%nat -> from_bytes de_head_tbl d = Ok h ->
  (12 <= length d)%nat /\ exists h', from_bytes de_head_tbl (with_adjustment w d) = Ok h'.
Proof.
  intros Hw E. unfold from_bytes in *. unfold rd_new in *.
  destruct (de_head_tbl _) as [[x r]| |] eqn:E0; try discriminate. clear E.
  unfold de_head_tbl in E0.
  assert (L12: (12 <= length d)%nat).
  { unfold pbind at 1 in E0. destruct (de_u16 _) as [[v0 r0]| |] eqn:X0; try discriminate.
    apply (prim_same U16 d d) in X0 as (-> & _ & _); [|reflexivity..]. cbn [prim_width Nat.add] in E0.
    unfold pbind at 1 in E0. destruct (de_u16 _) as [[v1 r1]| |] eqn:X1; try discriminate.
    apply (prim_same U16 d d) in X1 as (-> & _ & _); [|reflexivity..]. cbn [prim_width Nat.add] in E0.
    unfold pbind at 1 in E0. unfold de_fixed in E0. unfold pbind at 1 in E0. destruct (de_i32 _) as [[v2 r2]| |] eqn:X2; try discriminate.
    apply (prim_same I32 d d) in X2 as (-> & _ & _); [|reflexivity..]. cbn [prim_width Nat.add] in E0. unfold pret at 1 in E0.
    unfold pbind at 1 in E0. destruct (de_u32 _) as [[v3 r3]| |] eqn:X3; try discriminate.
    apply (prim_same U32 d d) in X3 as (_ & _ & H); [exact H|reflexivity..]. }
  split; [exact L12|]. set (d' := with_adjustment w d).
  assert (HL: length d = length d').
  { unfold d', with_adjustment. rewrite !app_length, firstn_length, skipn_length. lia. }
  assert (HS: skipn 12 d = skipn 12 d').
  { unfold d', with_adjustment. rewrite app_assoc, skipn_app.
    replace (length (firstn 8 d ++ w)) with 12%nat by (rewrite app_length, firstn_length; lia).
    rewrite (skipn_all2 (n:=12) (firstn 8 d ++ w)) by (rewrite app_length, firstn_length; lia). reflexivity. }
  assert (HF: firstn 8 d = firstn 8 d').
  { unfold d', with_adjustment. rewrite firstn_app, firstn_firstn. cbn [Nat.min].
    replace (8 - length (firstn 8 d))%nat with 0%nat by (rewrite firstn_length; lia). cbn [firstn]. now rewrite app_nil_r. }
  assert (HK: forall n k, (n + k <= 8)%nat -> firstn k (skipn n d) = firstn k (skipn n d')).
  { intros n k Hk. rewrite !firstn_skipn_comm. 
    replace (firstn (n + k) d) with (firstn (n + k) (firstn 8 d)) by (rewrite firstn_firstn; f_equal; lia).
    replace (firstn (n + k) d') with (firstn (n + k) (firstn 8 d')) by (rewrite firstn_firstn; f_equal; lia). now rewrite HF. }
  unfold de_head_tbl.
  unfold pbind at 1 in E0. destruct (de_u16 (mkrd d _ _)) as [[v0 r0]| |] eqn:X0; try discriminate.
  apply (prim_same U16 d d') in X0 as (-> & X0 & _); [|exact HL|apply HK; cbn; lia]. cbn [prim_width Nat.add] in *.
  unfold pbind at 1. change (de_u16 (mkrd d' 0 [0%nat])) with (de_prim U16 (mkrd d' 0 [0%nat])). rewrite X0.
  unfold pbind at 1 in E0. destruct (de_u16 (mkrd d _ _)) as [[v1 r1]| |] eqn:X1; try discriminate.
  apply (prim_same U16 d d') in X1 as (-> & X1 & _); [|exact HL|apply HK; cbn; lia]. cbn [prim_width Nat.add] in *.
  unfold pbind at 1. change (de_u16 (mkrd d' 2 [0%nat])) with (de_prim U16 (mkrd d' 2 [0%nat])). rewrite X1.
  unfold pbind at 1 in E0. unfold de_fixed in E0 at 1. unfold pbind at 1 in E0. destruct (de_i32 (mkrd d _ _)) as [[v2 r2]| |] eqn:X2; try discriminate.
  apply (prim_same I32 d d') in X2 as (-> & X2 & _); [|exact HL|apply HK; cbn; lia]. cbn [prim_width Nat.add] in *.
  unfold pbind at 1. unfold de_fixed at 1. unfold pbind at 1. change (de_i32 (mkrd d' 4 [0%nat])) with (de_prim I32 (mkrd d' 4 [0%nat])). rewrite X2.
  unfold pret at 1. unfold pret at 1 in E0.
  unfold pbind at 1 in E0. destruct (de_u32 (mkrd d _ _)) as [[v3 r3]| |] eqn:X3; try discriminate.
  apply (prim_same U32 d d) in X3 as (-> & X3 & _); [|reflexivity..]. cbn [prim_width Nat.add] in *.
  unfold pbind at 1.
  assert (X3': exists v3', de_u32 (mkrd d' 8 [0%nat]) = Ok (v3', mkrd d' 12 [0%nat])).
  { unfold de_u32, de_prim, consume, consume_or_peek. cbn [rd_input rd_ptr rd_stack prim_width].
    destruct (Nat.ltb_spec (length d') (8 + 4)); [lia|]. eauto. }
  destruct X3' as [v3' ->].
  match type of E0 with ?P _ = _ => match goal with |- exists h', match ?P' _ with _ => _ end = _ => assert (F: goes P P') end end.
  { repeat (apply goes_bind; [first [apply follows_prim|apply follows_date]|intros ?]). apply goes_ret. }
  destruct (F d d' 12%nat [0%nat] x r HL HS ltac:(lia) E0) as (y & p2 & ->). eauto.
Qed.
(** ** hmtx can be read with one number of long metrics only *)
Lemma prim_left t r x r' : de_prim t r = Ok (x, r') -> (prim_width t <= length (rest r))%nat /\ rest r' = skipn (prim_width t) (rest r).
Proof.
  destruct r as [d pos stk]. intros E. destruct (prim_same t d d pos stk x r' eq_refl eq_refl E) as (-> & _ & L).
  unfold rest. cbn [rd_input rd_ptr]. rewrite skipn_length, skipn_skipn'. split; [lia|reflexivity].
Qed.
Lemma metric_left r x r' : de_metric r = Ok (x, r') -> (4 <= length (rest r))%nat /\ rest r' = skipn 4 (rest r).
Proof.
  unfold de_metric, pbind, pret. destruct (de_u16 r) as [[a r1]| |] eqn:E1; try discriminate.
  destruct (de_i16 r1) as [[b r2]| |] eqn:E2; try discriminate. intros [= _ <-].
  apply prim_left in E1 as [L1 R1]. apply prim_left in E2 as [L2 R2]. rewrite R1 in L2, R2. rewrite skipn_length in L2. rewrite skipn_skipn' in R2.
  cbn [prim_width] in *. split; [lia|exact R2].
Qed.
Lemma counted_left n : forall r l r', de_counted de_metric n r = Ok (l, r') -> (4 * n <= length (rest r))%nat /\ rest r' = skipn (4 * n) (rest r).
Proof.
  induction n as [|n IH]; intros r l r'; cbn [de_counted].
  - unfold pret. intros [= _ <-]. split; [lia|reflexivity].
  - unfold pbind, pret. destruct (de_metric r) as [[x r1]| |] eqn:E1; try discriminate.
    destruct (de_counted de_metric n r1) as [[xs r2]| |] eqn:E2; try discriminate. intros [= _ <-].
    apply metric_left in E1 as [L1 R1]. apply IH in E2 as [L2 R2]. rewrite R1 in L2, R2. rewrite skipn_length in L2. rewrite skipn_skipn' in R2.
    split; [lia|]. rewrite R2. f_equal. lia.
Qed.
Lemma vec_count fuel : forall r l r', (length (rest r) < fuel)%nat -> de_vec_fuel de_i16 fuel r = Ok (l, r') -> length l = (length (rest r) / 2)%nat.
Proof.
  induction fuel as [|k IH]; intros r l r' Hf; [lia|]. cbn [de_vec_fuel].
  destruct (de_i16 r) as [[x r1]| |] eqn:E1; [| |discriminate].
  - destruct (de_vec_fuel de_i16 k r1) as [[xs r2]| |] eqn:E2; try discriminate. intros E. injection E as <- <-.
    apply prim_left in E1 as [L1 R1]. cbn [prim_width] in L1, R1. 
    assert (Hl: length (rest r1) = (length (rest r) - 2)%nat) by (rewrite R1, skipn_length; reflexivity).
    apply IH in E2; [|lia]. cbn [length]. rewrite E2, Hl. pose proof (Nat.div_add (length (rest r) - 2) 1 2 ltac:(lia)) as D.
    replace (length (rest r) - 2 + 1 * 2)%nat with (length (rest r)) in D by lia. rewrite D. lia.
  - intros E. injection E as <- <-. cbn [length].
    destruct (Nat.lt_ge_cases (length (rest r)) 2) as [H|H]; [symmetry; now apply Nat.div_small|].
    exfalso. revert E1. unfold de_i16, de_prim. 
    assert (Hr: rest r = firstn 2 (rest r) ++ skipn 2 (rest r)) by (now rewrite firstn_skipn).
    assert (Hbl: length (firstn 2 (rest r)) = 2%nat) by (rewrite firstn_length_le; lia).
    cbn [prim_width]. rewrite <- Hbl at 1. rewrite (reads_consume r (firstn 2 (rest r)) (skipn 2 (rest r))); [discriminate| |exact Hr].
    intros X. rewrite X in Hbl. discriminate.
Qed.
Lemma hmtx_length n d ms : 0 <= n -> from_bytes (de_hmtx n) d = Ok ms ->
  (4 * Z.to_nat n <= length d)%nat /\ length ms = (Z.to_nat n + (length d - 4 * Z.to_nat n) / 2)%nat.
Proof.
  intros Hn. unfold from_bytes, de_hmtx, pbind.
  destruct (de_counted de_metric (Z.to_nat n) (rd_new d)) as [[l r1]| |] eqn:E; try discriminate.
  pose proof (de_counted_length _ _ _ _ _ E) as Hl. apply counted_left in E as [L R]. change (rest (rd_new d)) with d in L, R.
  destruct (de_vec de_i16 r1) as [[o r2]| |] eqn:Ev; try discriminate.
  unfold de_vec in Ev. apply vec_count in Ev; [|unfold rest; rewrite skipn_length; lia].
  destruct (rev l) as [|lastm before] eqn:Er; [discriminate|]. unfold pret. intros H. apply Ok_inj in H. subst ms.
  rewrite app_length, map_length, Ev, R, skipn_length, Hl. auto.
Qed.
Lemma hmtx_number_unique n k d ms : 0 <= n -> 0 <= k -> from_bytes (de_hmtx n) d = Ok ms -> from_bytes (de_hmtx k) d = Ok ms -> n = k.
Proof.
  intros Hn Hk E1 E2. apply hmtx_length in E1 as [L1 M1]; [|exact Hn]. apply hmtx_length in E2 as [L2 M2]; [|exact Hk].
  assert (D: forall j, (4 * j <= length d)%nat -> (j + (length d - 4 * j) / 2 + j = length d / 2)%nat).
  { intros j Hj. pose proof (Nat.div_add (length d - 4 * j) (2 * j) 2 ltac:(lia)) as X.
    replace (length d - 4 * j + 2 * j * 2)%nat with (length d) in X by lia. lia. }
  pose proof (D _ L1). pose proof (D _ L2). lia.
Qed.

Lemma from_read {A} (p : parser A) bs x : reads p bs x -> from_bytes p bs = Ok x.
Proof. intros R. rewrite <- (app_nil_r bs). now apply reads_from_bytes. Qed.

Lemma adjust_parts w (a b r : list Z) : length a = 8%nat -> length b = 4%nat -> with_adjustment w (a ++ b ++ r) = a ++ w ++ r.
Proof.
  intros La Lb. unfold with_adjustment. change 12%nat with (8 + 4)%nat. rewrite <- (skipn_skipn' 8 4). rewrite <- La, <- Lb.
  rewrite firstn_app, Nat.sub_diag, firstn_O, app_nil_r, firstn_all. f_equal. f_equal.
  rewrite (skipn_app _ a), skipn_all, Nat.sub_diag. cbn [app]. change (skipn 0 (b ++ r)) with (b ++ r).
  rewrite skipn_app, skipn_all, Nat.sub_diag. reflexivity.
Qed.

Section Cli.
Context {T : Type} (K0 : codecs T) (hash : cmapping -> Z).
Local Notation K := (MCli.K K0 hash).
Local Notation get := (bm_get lex_ltb).
Implicit Types (s : store (known T)).

Lemma write_has_maxp v s out s' : inv K s -> ~ rebuilds s -> font_write K v s = (Ok out, s') ->
  exists x, has_value K s TAG_maxp (LMaxp x).
Proof.
  intros Hi Hr E. unfold font_write, sbind in E. rewrite compile_quiet in E by assumption.
  unfold compile_gsub_gpos, sbind, unwrap_s in E.
  destruct (typed K TAG_maxp sel_maxp s) as [[o| |] s1] eqn:Et; try discriminate.
  destruct o as [x|]; [|discriminate].
  apply (typed_self K TAG_maxp sel_maxp s (Some x) s1 Hi maxp_self) in Et as (l & Hl & Es).
  destruct l; try discriminate. injection Es as ->. eauto.
Qed.

Lemma contents_maxp s m : (forall t, contents s t = option_map Raw (get t m)) ->
  forall x, has_value K s TAG_maxp (LMaxp x) <-> maxp_is m x.
Proof.
  intros C x. unfold has_value, maxp_is, bytes_of. rewrite C. 
  change (des0 K TAG_maxp) with (fun d => rmap (@LMaxp (known T)) (from_bytes de_maxp d)). cbv beta.
  split.
  - intros [H|(d & H & E)]; [destruct (get TAG_maxp m); discriminate|].
    destruct (get TAG_maxp m) as [d'|]; [|discriminate]. injection H as ->. exists d. split; [reflexivity|].
    destruct (from_bytes de_maxp d); try discriminate. now injection E as ->.
  - intros (d & -> & E). right. exists d. rewrite E. auto.
Qed.

(** A tool whose edit leaves a plain set of tables. *)
Lemma plain_out file v m edit s s' u m2 out : font_load K file = Ok (v, s) ->
  (forall t, contents s t = option_map Raw (get t m)) ->
  edit s = (Ok u, s') -> good_store K s' -> contents s' TAG_maxp = contents s TAG_maxp ->
  sorted_map lex_ltb m2 -> ~ rebuilds s' ->
  (forall t l, contents s' t = Some (Typed l) -> ~ In t [TAG_GPOS; TAG_GSUB]) ->
  (forall t, match contents s' t with
             | None => get t m2 = None
             | Some c => exists d, get t m2 = Some d /\ written K c = Ok d
             end) ->
  cli K0 hash edit file = Ok out <-> (exists x, maxp_is m x) /\ font_to_bytes v (map okd m2) = Ok out.
Proof.
  intros L C E G Cm Sm R Ty W. unfold cli. rewrite L, E.
  assert (Hx: forall x, has_value K s' TAG_maxp (LMaxp x) <-> maxp_is m x).
  { intros x. rewrite <- (contents_maxp s m C). unfold has_value. rewrite Cm. reflexivity. }
  split.
  - destruct (font_write K v s') as [[o| |] s2] eqn:Ew; try discriminate. intros [= ->].
    destruct (write_has_maxp v s' out s2 (good_inv _ _ G) R Ew) as [x Hv].
    split; [exists x; now apply Hx|].
    destruct (write_plain K v s' m2 x G Sm R Ty W Hv) as [s3 E3]. rewrite E3 in Ew. now injection Ew.
  - intros [[x Hv] F]. apply Hx in Hv.
    destruct (write_plain K v s' m2 x G Sm R Ty W Hv) as [s3 E3]. rewrite E3, F. reflexivity.
Qed.

Lemma load_inv file v s : Forall is_byte file -> font_load K file = Ok (v, s) -> exists m,
  holds file v m /\ sorted_map lex_ltb m /\ good_store K s /\ (forall t, contents s t = option_map Raw (get t m)) /\
  ((exists h, head_is m h) \/ (bytes_of m TAG_head = None /\ bytes_of m TAG_loca = None)).
Proof.
  intros HB L. destruct (from_bytes font_read_raw file) as [[v1 m]| |] eqn:Er; [|unfold font_load in L; rewrite Er in L; discriminate..].
  exists m. destruct (load_outcome K _ _ _ HB Er) as (HE & HP & H). destruct (H _ _ L) as (-> & G & C).
  unfold holds, head_is, bytes_of. split; [exact Er|]. split; [now apply read_sorted in Er|]. split; [exact G|]. split; [exact C|].
  destruct (get TAG_head m) as [d|] eqn:Eh.
  - destruct (from_bytes de_head_tbl d) as [h| |] eqn:Ed.
    + left. exists h, d. auto.
    + exfalso. assert (X: font_load K file = Err) by (apply HE; left; exists d; auto). congruence.
    + exfalso. assert (X: font_load K file = Panic) by (apply HP; exists d; auto). congruence.
  - right. split; [reflexivity|]. destruct (get TAG_loca m) as [d|] eqn:El; [|reflexivity].
    exfalso. assert (X: font_load K file = Err) by (apply HE; right; split; congruence). congruence.
Qed.
Lemma load_total file v m : Forall is_byte file -> holds file v m ->
  (exists h, head_is m h) \/ (bytes_of m TAG_head = None /\ bytes_of m TAG_loca = None) ->
  exists s, font_load K file = Ok (v, s).
Proof.
  intros HB Er U. unfold holds, head_is, bytes_of in *. destruct (load_outcome K _ _ _ HB Er) as (HE & HP & H).
  destruct (font_load K file) as [[v1 s]| |] eqn:L.
  - destruct (H _ _ eq_refl) as (-> & _). eauto.
  - exfalso. destruct (proj1 HE eq_refl) as [(d & H1 & H2)|[H1 H2]]; destruct U as [(h & d' & U1 & U2)|[U1 U2]]; congruence.
  - exfalso. destruct (proj1 HP eq_refl) as (d & H1 & H2); destruct U as [(h & d' & U1 & U2)|[U1 U2]]; congruence.
Qed.
Lemma holds_fun file v m v' m' : holds file v m -> holds file v' m' -> v = v' /\ m = m'.
Proof. unfold holds. intros -> E. now injection E. Qed.
Lemma flavour file v m : Forall is_byte file -> holds file v m -> v = SFNT_TRUETYPE \/ v = SFNT_OPENTYPE.
Proof. intros HB H. destruct (load_ok_inv file v m HB H) as (trs & (Hv & _) & _). exact Hv. Qed.
Lemma holds_tabs file v m : Forall is_byte file -> holds file v m -> good_tabs m.
Proof.
  intros HB H. pose proof (read_sorted _ _ _ H) as Sm. destruct (load_ok_inv file v m HB H) as (trs & (_ & _ & _ & _ & Hr) & _ & _ & Hd).
  apply Forall_forall. intros [t d] Hin. apply (In_get _ lex_strict) in Hin; [|exact Sm].
  destruct (Hd _ _ Hin) as (tr & Htr & <- & Hs). cbn [fst snd]. split.
  - apply In_nth_error in Htr as [n Hn]. apply (Hr n tr Hn).
  - eapply slice_bytes; eassumption.
Qed.
Lemma good_tabs_iff m : sorted_map lex_ltb m ->
  (good_tabs m <-> forall t d, get t m = Some d -> printable_tag t /\ Forall is_byte d).
Proof.
  intros Sm. unfold good_tabs. rewrite Forall_forall. split.
  - intros H t d G. apply (get_In _ lex_strict) in G. exact (H (t, d) G).
  - intros H [t d] Hin. apply (In_get _ lex_strict) in Hin; [|exact Sm]. exact (H _ _ Hin).
Qed.
Lemma get_adjusted w t m : get t (map (adjusted w) m) = option_map (fun d => snd (adjusted w (t, d))) (get t m).
Proof.
  induction m as [|[k d] m IH]; [reflexivity|]. cbn [map bm_get adjusted fst snd].
  destruct (lex_ltb t k || lex_ltb k t) eqn:E; [exact IH|]. cbn [option_map]. 
  assert (t = k) as ->; [|reflexivity].
  apply orb_false_iff in E as [E1 E2]. now apply (st_total _ lex_strict).
Qed.

(** The file written. *)
Lemma written_file v m2 out : v = SFNT_TRUETYPE \/ v = SFNT_OPENTYPE -> sorted_map lex_ltb m2 -> good_tabs m2 ->
  font_to_bytes v (map okd m2) = Ok out -> Z.of_nat (length out) < 2 ^ 32 ->
  exists w, length w = 4%nat /\ holds out v (map (adjusted w) m2).
Proof. intros Hv Sm G F Hs. apply (save_load v m2 out Hv G); auto. apply sorted_increasing. exact Sm. Qed.
Lemma rewritten f file v m m2 out : Forall is_byte file -> holds file v m -> sorted_map lex_ltb m2 -> good_tabs m2 ->
  (forall t, get t m2 = f t (get t m)) ->
  font_to_bytes v (map okd m2) = Ok out -> Z.of_nat (length out) < 2 ^ 32 -> rewrites f file out.
Proof.
  intros HB H Sm G E F Hs. destruct (written_file v m2 out (flavour _ _ _ HB H) Sm G F Hs) as (w & Hw & H2).
  exists v, m, (map (adjusted w) m2), w. split; [exact H|]. split; [exact H2|]. split; [exact Hw|].
  intros t. unfold bytes_of. rewrite get_adjusted, E. reflexivity.
Qed.
Lemma checksum_right v m2 out : sorted_map lex_ltb m2 -> good_tabs m2 -> get TAG_head m2 <> None ->
  font_to_bytes v (map okd m2) = Ok out -> word_sum out mod 2 ^ 32 = 0xB1B0AFBA.
Proof.
  intros Sm G H F. apply (save_checksum v m2 out G); [apply sorted_increasing; exact Sm| |exact F].
  destruct (get TAG_head m2) as [d|] eqn:E; [|congruence]. apply (get_In _ lex_strict) in E. exact (in_map fst _ _ E).
Qed.
Lemma succeeds v m2 : sorted_map lex_ltb m2 -> good_tabs m2 -> 
  (exists out, font_to_bytes v (map okd m2) = Ok out) <-> 
  (Z.of_nat (length m2) < 4096 /\ forall d, get TAG_head m2 = Some d -> (12 <= length d)%nat).
Proof.
  intros Sm G. split.
  - intros [out F]. destruct (font_to_bytes_inv _ _ _ F) as [Hn Hh]. split; [exact Hn|]. intros d Hd.
    apply (get_In _ lex_strict) in Hd. rewrite forallb_forall in Hh. apply Hh in Hd. unfold head_ok in Hd. cbn [fst snd] in Hd.
    change (bytes_eqb TAG_head TAG_head) with true in Hd. cbv iota in Hd. change 12%nat with (8 + 4)%nat. now apply Nat.leb_le in Hd.
  - intros [Hn Hh]. apply (save_succeeds v m2 G); [apply sorted_increasing; exact Sm|exact Hn|].
    intros d Hin. apply Hh. now apply (In_get _ lex_strict) in Hin.
Qed.

(** ** Tools that add or replace tables *)
Definition plainly (s : store (known T)) (m2 : list (list Z * list Z)) : Prop :=
  good_store K s /\ sorted_map lex_ltb m2 /\ ~ rebuilds s /\
  (forall t l, contents s t = Some (Typed l) -> ~ In t [TAG_GPOS; TAG_GSUB]) /\
  (forall t, match contents s t with
             | None => get t m2 = None
             | Some c => exists d, get t m2 = Some d /\ written K c = Ok d
             end).
Lemma tool_spec edit next file out : Forall is_byte file ->
  (forall s m, good_store K s -> sorted_map lex_ltb m -> (forall t, contents s t = option_map Raw (get t m)) ->
     exists s', edit s = (Ok tt, s') /\ contents s' TAG_maxp = contents s TAG_maxp /\ plainly s' (next m)) ->
  cli K0 hash edit file = Ok out <-> 
  exists v m, holds file v m /\ usable m /\ font_to_bytes v (map okd (next m)) = Ok out.
Proof.
  intros HB HE. split.
  - intros E. destruct (font_load K file) as [[v s]| |] eqn:L; [|unfold cli in E; rewrite L in E; discriminate..].
    destruct (load_inv _ _ _ HB L) as (m & H & Sm & G & C & U).
    destruct (HE s m G Sm C) as (s' & E1 & Cm & G' & S2 & R & Ty & W).
    destruct (proj1 (plain_out file v m edit s s' tt (next m) out L C E1 G' Cm S2 R Ty W) E) as [X Hf].
    exists v, m. split; [exact H|]. split; [split; assumption|exact Hf].
  - intros (v & m & H & [X U] & Hf). destruct (load_total file v m HB H U) as [s L].
    destruct (load_inv _ _ _ HB L) as (m' & H' & Sm & G & C & _).
    destruct (holds_fun _ _ _ _ _ H H') as [_ <-].
    destruct (HE s m G Sm C) as (s' & E1 & Cm & G' & S2 & R & Ty & W).
    apply (plain_out file v m edit s s' tt (next m) out L C E1 G' Cm S2 R Ty W). auto.
Qed.
Lemma raw_plainly s m : good_store K s -> sorted_map lex_ltb m -> (forall t, contents s t = option_map Raw (get t m)) -> plainly s m.
Proof.
  intros G Sm C. assert (N: forall t l, contents s t <> Some (Typed l)) by (intros t l; rewrite C; destruct (get t m); discriminate).
  split; [exact G|]. split; [exact Sm|]. split; [intros (_ & t & l & _ & H); now apply N in H|]. split; [intros t l H; now apply N in H|].
  intros t. rewrite C. destruct (get t m); cbn; eauto.
Qed.
Lemma raw_insert s m t d : printable_tag t -> t <> TAG_glyf -> plainly s m -> plainly (ts_insert_raw t d s) (bm_insert lex_ltb t d m).
Proof.
  intros Pt Ng (G & Sm & R & Ty & W).
  assert (C: forall t', contents (ts_insert_raw t d s) t' = if list_eq_dec Z.eq_dec t' t then Some (Raw d) else contents s t')
    by (intros t'; exact (contents_set s t _ t')).
  split; [|split; [|split; [|split]]].
  - apply inv_good; [apply inv_set; [now apply good_inv|discriminate]|]. intros t' Ht. rewrite C in Ht.
    destruct (list_eq_dec Z.eq_dec t' t) as [->|]; [exact Pt|]. now apply (good_printable K s G).
  - apply insert_sorted; [apply lex_strict|exact Sm].
  - intros (Hg & t' & l & Hin & Hl). rewrite C in Hl. destruct (list_eq_dec Z.eq_dec t' t) as [->|N]; [discriminate|].
    apply R. split; [|exists t', l; auto]. rewrite C in Hg. destruct (list_eq_dec Z.eq_dec TAG_glyf t); [congruence|exact Hg].
  - intros t' l. rewrite C. destruct (list_eq_dec Z.eq_dec t' t); [discriminate|apply Ty].
  - intros t'. rewrite C. destruct (list_eq_dec Z.eq_dec t' t) as [->|N].
    + exists d. split; [apply get_insert_same, lex_strict|reflexivity].
    + specialize (W t'). rewrite get_insert_other by (try apply lex_strict; congruence). exact W.
Qed.

Lemma other_insert s m t (x : known T) d : printable_tag t -> In t plain_tags -> t <> TAG_MATH ->
  ser_plain K t x = Ok d -> plainly s m -> plainly (ts_insert_typed t (LOther t x) s) (bm_insert lex_ltb t d m).
Proof.
  intros Pt Pl Nm Es (G & Sm & R & Ty & W).
  assert (Nt: ~ In t [TAG_GPOS; TAG_GSUB; TAG_gvar; TAG_MATH; TAG_glyf; TAG_loca; TAG_maxp]).
  { clear - Pl Nm. intros H. cbn [In plain_tags] in Pl. cbn [In] in H. 
    repeat (destruct H as [<-|H]; [repeat (destruct Pl as [Pl|Pl]; [first [discriminate Pl|congruence]|]); exact Pl|]). exact H. }
  assert (C: forall t', contents (ts_insert_typed t (LOther t x) s) t' = if list_eq_dec Z.eq_dec t' t then Some (Typed (LOther t x)) else contents s t')
    by (intros t'; exact (contents_set s t _ t')).
  split; [|split; [|split; [|split]]].
  - apply inv_good.
    + apply inv_set; [now apply good_inv|]. intros tb [= <-]. split; [|cbn; discriminate]. cbn [tb_loaded right_kind].
      split; [reflexivity|]. right; right; right. exact Pl.
    + intros t' Ht. rewrite C in Ht. destruct (list_eq_dec Z.eq_dec t' t) as [->|]; [exact Pt|]. now apply (good_printable K s G).
  - apply insert_sorted; [apply lex_strict|exact Sm].
  - intros (Hg & t' & l & Hin & Hl). rewrite C in Hl. destruct (list_eq_dec Z.eq_dec t' t) as [->|N].
    + apply Nt. clear - Hin. cbn [In] in *. tauto.
    + apply R. split; [|exists t', l; auto]. rewrite C in Hg. destruct (list_eq_dec Z.eq_dec TAG_glyf t) as [<-|]; [exfalso; apply Nt; cbn; tauto|exact Hg].
  - intros t' l. rewrite C. destruct (list_eq_dec Z.eq_dec t' t) as [->|]; [|apply Ty]. intros _ H. apply Nt. clear - H. cbn [In] in *. tauto.
  - intros t'. rewrite C. destruct (list_eq_dec Z.eq_dec t' t) as [->|N].
    + exists d. split; [apply get_insert_same, lex_strict|]. cbn [written ser_loaded].
      destruct (tag_in t [TAG_GPOS; TAG_GSUB; TAG_gvar; TAG_MATH]) eqn:Et; [|exact Es].
      exfalso. apply Nt. unfold tag_in in Et. apply existsb_exists in Et as (y & Hy & Ey). apply PTag.bytes_eqb_eq in Ey as ->.
      clear - Hy. cbn [In] in *. tauto.
    + specialize (W t'). rewrite get_insert_other by (try apply lex_strict; congruence). exact W.
Qed.

Lemma length_insert (t d : list Z) m : get t m = None -> length (bm_insert lex_ltb t d m) = S (length m).
Proof.
  induction m as [|[k x] m IH]; [reflexivity|]. cbn [bm_insert bm_get].
  destruct (lex_ltb t k) eqn:E1; cbn [orb]; [reflexivity|]. destruct (lex_ltb k t) eqn:E2; [|discriminate].
  intros H. cbn [length]. now rewrite IH.
Qed.
Lemma insert_tabs t d m : printable_tag t -> Forall is_byte d -> sorted_map lex_ltb m -> good_tabs m -> good_tabs (bm_insert lex_ltb t d m).
Proof.
  intros Pt Bd Sm G. apply good_tabs_iff; [apply insert_sorted; [apply lex_strict|exact Sm]|]. intros t' d' H.
  destruct (list_eq_dec Z.eq_dec t t') as [<-|N].
  - rewrite get_insert_same in H by apply lex_strict. injection H as <-. auto.
  - rewrite get_insert_other in H by (try apply lex_strict; congruence). now apply (proj1 (good_tabs_iff m Sm) G).
Qed.

Definition dsig_bytes : list Z := [0; 0; 0; 1; 0; 0; 0; 0].
Definition prep_bytes : list Z := [0xb8; 0x01; 0xff; 0x85; 0xb0; 0x04; 0x8d].
Definition gasp_bytes : list Z := [0; 1; 0; 1; 255; 255; 0; 15].
Definition next_added (t d : list Z) (m : list (list Z * list Z)) := match get t m with Some _ => m | None => bm_insert lex_ltb t d m end.
Definition next_hint (m : list (list Z * list Z)) := bm_insert lex_ltb TAG_prep prep_bytes (next_added TAG_gasp gasp_bytes m).

Lemma contains_iff tag s : ts_contains tag s = match contents s tag with Some _ => true | None => false end.
Proof. unfold ts_contains, contents. change (get tag s) with (st_get tag s). destruct (st_get tag s); reflexivity. Qed.

Lemma fix_out file out : Forall is_byte file ->
  fix_checksum K0 hash file = Ok out <-> exists v m, holds file v m /\ usable m /\ font_to_bytes v (map okd m) = Ok out.
Proof.
  intros HB. apply (tool_spec (slift (Ok tt)) (fun m => m) file out HB). intros s m G Sm C.
  exists s. split; [reflexivity|]. split; [reflexivity|]. now apply raw_plainly.
Qed.
Lemma dsig_out file out : Forall is_byte file ->
  add_dsig K0 hash file = Ok out <-> exists v m, holds file v m /\ usable m /\ font_to_bytes v (map okd (next_added TAG_DSIG dsig_bytes m)) = Ok out.
Proof.
  intros HB. refine (tool_spec _ (next_added TAG_DSIG dsig_bytes) file out HB _). intros s m G Sm C.
  unfold next_added. rewrite contains_iff, C. destruct (get TAG_DSIG m); cbn [option_map].
  - exists s. split; [reflexivity|]. split; [reflexivity|]. now apply raw_plainly.
  - eexists. split; [reflexivity|]. split; [unfold ts_insert_raw; now rewrite contents_set|].
    apply raw_insert; [repeat split; repeat constructor; discriminate|discriminate|now apply raw_plainly].
Qed.
Lemma hint_out file out : Forall is_byte file ->
  fix_non_hinted K0 hash file = Ok out <-> exists v m, holds file v m /\ usable m /\ font_to_bytes v (map okd (next_hint m)) = Ok out.
Proof.
  intros HB. refine (tool_spec _ next_hint file out HB _). intros s m G Sm C. cbv zeta.
  eexists. split; [reflexivity|]. unfold next_hint, next_added. rewrite contains_iff, C.
  assert (P: printable_tag TAG_prep) by (repeat split; repeat constructor; discriminate).
  assert (P2: printable_tag TAG_gasp) by (repeat split; repeat constructor; discriminate).
  destruct (get TAG_gasp m); cbn [option_map].
  - split; [unfold ts_insert_raw; now rewrite contents_set|]. apply raw_insert; [exact P|discriminate|now apply raw_plainly].
  - split; [unfold ts_insert_raw, ts_insert_typed, ts_insert; now rewrite !contents_set|].
    apply raw_insert; [exact P|discriminate|]. apply other_insert; [exact P2|cbn; tauto|discriminate|reflexivity|now apply raw_plainly].
Qed.

Lemma out_bytes v m2 out : sorted_map lex_ltb m2 -> good_tabs m2 -> font_to_bytes v (map okd m2) = Ok out -> Forall is_byte out.
Proof.
  intros Sm G F. destruct (font_to_bytes_form v m2 out (sorted_nodup _ Sm) (good_len4 _ G) F) as (_ & _ & -> & _).
  apply files_bytes; [exact G|apply wstar_ok].
Qed.
Lemma adjusted_other w t (d : list Z) : t <> TAG_head -> snd (adjusted w (t, d)) = d.
Proof. intros N. unfold adjusted. cbn [fst snd]. destruct (list_eq_dec Z.eq_dec t HEAD); [now destruct N|reflexivity]. Qed.
Lemma adjusted_head w (d : list Z) : snd (adjusted w (TAG_head, d)) = with_adjustment w d.
Proof. reflexivity. Qed.
Lemma usable_adjusted w m : length w = 4%nat -> usable m -> usable (map (adjusted w) m).
Proof.
  intros Hw [(x & d & Hd & Hx) U]. unfold usable, maxp_is, head_is, bytes_of in *. rewrite !get_adjusted. split.
  - exists x, d. rewrite Hd. cbn [option_map]. rewrite adjusted_other by discriminate. auto.
  - destruct U as [(h & dh & Hh & Eh)|[-> ->]]; [|right; auto]. left. rewrite Hh. cbn [option_map].
    rewrite adjusted_head. destruct (head_readjusted w dh h Hw Eh) as [_ [h' H]]. exists h'. eauto.
Qed.
Lemma usable_length m d : usable m -> get TAG_head m = Some d -> (12 <= length d)%nat.
Proof.
  intros [_ [(h & d' & H & E)|[H _]]] Hd; unfold bytes_of in *; [|congruence].
  assert (d' = d) as -> by congruence. exact (proj1 (head_readjusted [0; 0; 0; 0] d h eq_refl E)).
Qed.
Lemma usable_same m m' : (forall t, In t [TAG_head; TAG_maxp; TAG_loca] -> get t m' = get t m) -> usable m -> usable m'.
Proof.
  intros E. unfold usable, maxp_is, head_is, bytes_of. rewrite !E by (cbn; tauto). auto.
Qed.

Lemma next_added_spec t d m : printable_tag t -> Forall is_byte d -> sorted_map lex_ltb m -> good_tabs m ->
  sorted_map lex_ltb (next_added t d m) /\ good_tabs (next_added t d m) /\
  (forall t', get t' (next_added t d m) = added t d t' (get t' m)) /\
  Z.of_nat (length (next_added t d m)) = Z.of_nat (length m) + lacking m [t].
Proof.
  intros Pt Bd Sm G. unfold next_added, lacking, bytes_of, added. cbn [filter].
  destruct (get t m) as [d0|] eqn:E.
  - split; [exact Sm|]. split; [exact G|]. split; [|cbn [length]; lia]. intros t'. destruct (list_eq_dec Z.eq_dec t' t) as [->|]; [now rewrite E|reflexivity].
  - split; [apply insert_sorted; [apply lex_strict|exact Sm]|]. split; [now apply insert_tabs|]. split; [|rewrite length_insert by exact E; cbn [length]; lia].
    intros t'. destruct (list_eq_dec Z.eq_dec t' t) as [->|N].
    + rewrite E. apply get_insert_same, lex_strict.
    + apply get_insert_other; [apply lex_strict|congruence].
Qed.
Lemma length_replace (t d : list Z) m : sorted_map lex_ltb m -> get t m <> None -> length (bm_insert lex_ltb t d m) = length m.
Proof.
  intros Sm. induction m as [|[k x] m IH]; [intros H; now destruct H|]. cbn [bm_insert bm_get].
  destruct (lex_ltb t k) eqn:E1; cbn [orb].
  - intros H. exfalso. apply H. inversion Sm as [|? ? S1 F]; subst. cbn [map fst] in *.
    destruct (bm_get lex_ltb t m) as [y|] eqn:E; [|reflexivity]. apply (get_In _ lex_strict) in E.
    rewrite Forall_forall in F. specialize (F t (in_map fst _ _ E)). rewrite (st_asym _ lex_strict _ _ F) in E1. discriminate.
  - destruct (lex_ltb k t) eqn:E2; [|reflexivity]. intros H. cbn [length]. f_equal. apply IH; [inversion Sm; assumption|exact H].
Qed.
Lemma next_hint_spec m : sorted_map lex_ltb m -> good_tabs m ->
  sorted_map lex_ltb (next_hint m) /\ good_tabs (next_hint m) /\
  (forall t', get t' (next_hint m) = replaced TAG_prep prep_bytes t' (added TAG_gasp gasp_bytes t' (get t' m))) /\
  Z.of_nat (length (next_hint m)) = Z.of_nat (length m) + lacking m [TAG_gasp; TAG_prep].
Proof.
  intros Sm G. assert (P: printable_tag TAG_prep) by (repeat split; repeat constructor; discriminate).
  assert (P2: printable_tag TAG_gasp) by (repeat split; repeat constructor; discriminate).
  destruct (next_added_spec TAG_gasp gasp_bytes m P2) as (S1 & G1 & E1 & L1); [repeat constructor; discriminate|assumption..|].
  unfold next_hint. split; [apply insert_sorted; [apply lex_strict|exact S1]|].
  split; [apply insert_tabs; [exact P|repeat constructor; discriminate|assumption..]|]. split.
  - intros t'. unfold replaced. destruct (list_eq_dec Z.eq_dec t' TAG_prep) as [->|N].
    + apply get_insert_same, lex_strict.
    + rewrite get_insert_other by (try apply lex_strict; congruence). apply E1.
  - assert (EP: get TAG_prep (next_added TAG_gasp gasp_bytes m) = get TAG_prep m) by (rewrite E1; reflexivity).
    unfold lacking, bytes_of in *. cbn [filter] in *. destruct (get TAG_prep m) as [d|] eqn:Ep.
    + rewrite length_replace by (try assumption; rewrite EP; discriminate). rewrite L1. destruct (get TAG_gasp m); cbn [length]; lia.
    + rewrite length_insert by exact EP. destruct (get TAG_gasp m); cbn [length] in *; lia.
Qed.

(** All three at once. *)
Section One.
Variable tool : list Z -> res (list Z).
Variable next : list (list Z * list Z) -> list (list Z * list Z).
Variable f : list Z -> option (list Z) -> option (list Z).
Variable news : list (list Z).
Hypothesis tool_out : forall file out, Forall is_byte file ->
  tool file = Ok out <-> exists v m, holds file v m /\ usable m /\ font_to_bytes v (map okd (next m)) = Ok out.
Hypothesis next_spec : forall m, sorted_map lex_ltb m -> good_tabs m ->
  sorted_map lex_ltb (next m) /\ good_tabs (next m) /\ (forall t, get t (next m) = f t (get t m)) /\
  Z.of_nat (length (next m)) = Z.of_nat (length m) + lacking m news.
Hypothesis f_keeps : forall t o, In t [TAG_head; TAG_maxp; TAG_loca] -> f t o = o.
Hypothesis f_twice : forall t o, f t (f t o) = f t o.

Lemma one_works file : Forall is_byte file ->
  (exists out, tool file = Ok out) <-> exists v m, holds file v m /\ usable m /\ Z.of_nat (length m) + lacking m news < 4096.
Proof using tool_out next_spec f_keeps.
  intros HB. split.
  - intros [out E]. apply (tool_out file out HB) in E as (v & m & H & U & F).
    destruct (next_spec m (read_sorted _ _ _ H) (holds_tabs _ _ _ HB H)) as (S2 & G2 & E2 & L2).
    exists v, m. split; [exact H|]. split; [exact U|]. rewrite <- L2. apply (proj1 (succeeds v (next m) S2 G2)). eauto.
  - intros (v & m & H & U & L). destruct (next_spec m (read_sorted _ _ _ H) (holds_tabs _ _ _ HB H)) as (S2 & G2 & E2 & L2).
    destruct (proj2 (succeeds v (next m) S2 G2)) as [out F].
    + split; [rewrite L2; exact L|]. intros d Hd. rewrite E2, f_keeps in Hd by (cbn; tauto). eapply usable_length; eassumption.
    + exists out. apply tool_out; [exact HB|]. eauto.
Qed.
Lemma one_result file out : Forall is_byte file -> tool file = Ok out -> Z.of_nat (length out) < 2 ^ 32 ->
  rewrites f file out /\
  ((exists v m, holds file v m /\ bytes_of m TAG_head <> None) -> word_sum out mod 2 ^ 32 = 0xB1B0AFBA) /\
  tool out = Ok out.
Proof.
  intros HB E Hs. apply (tool_out file out HB) in E as (v & m & H & U & F).
  destruct (next_spec m (read_sorted _ _ _ H) (holds_tabs _ _ _ HB H)) as (S2 & G2 & E2 & L2).
  split; [eapply rewritten; eassumption|]. split.
  - intros (v' & m' & H' & Hh). destruct (holds_fun _ _ _ _ _ H H') as [<- <-]. apply (checksum_right v (next m) out S2 G2); [|exact F].
    rewrite E2, f_keeps by (cbn; tauto). exact Hh.
  - destruct (written_file v (next m) out (flavour _ _ _ HB H) S2 G2 F Hs) as (w & Hw & H2).
    pose proof (out_bytes v (next m) out S2 G2 F) as HB2.
    apply tool_out; [exact HB2|]. exists v, (map (adjusted w) (next m)). split; [exact H2|]. split.
    + apply usable_adjusted; [exact Hw|]. apply (usable_same m); [|exact U]. intros t Ht. now rewrite E2, f_keeps.
    + pose proof (read_sorted _ _ _ H2) as S3. pose proof (holds_tabs _ _ _ HB2 H2) as G3.
      destruct (next_spec _ S3 G3) as (S4 & _ & E4 & _).
      replace (next (map (adjusted w) (next m))) with (map (adjusted w) (next m)).
      * apply (save_load_save v (next m) out v); auto; [exact (flavour _ _ _ HB H)|apply sorted_increasing; exact S2].
      * apply (sorted_map_ext lex_ltb lex_strict); [exact S3|exact S4|]. intros t. rewrite E4, get_adjusted, E2.
        destruct (in_dec (list_eq_dec Z.eq_dec) t [TAG_head; TAG_maxp; TAG_loca]) as [Ht|Ht].
        -- now rewrite !f_keeps.
        -- destruct (f t (get t m)) as [d|] eqn:Ef; cbn [option_map].
           ++ rewrite adjusted_other by (intros ->; apply Ht; cbn; tauto). rewrite <- Ef. symmetry. apply f_twice.
           ++ rewrite <- Ef. symmetry. apply f_twice.
Qed.
End One.

Lemma added_twice t d t' o : added t d t' (added t d t' o) = added t d t' o.
Proof. unfold added. destruct (list_eq_dec _ _ _); [destruct o; reflexivity|reflexivity]. Qed.
Lemma next_same m : sorted_map lex_ltb m -> good_tabs m ->
  sorted_map lex_ltb m /\ good_tabs m /\ (forall t, get t m = nothing_new t (get t m)) /\
  Z.of_nat (length m) = Z.of_nat (length m) + lacking m [].
Proof. intros Sm G. unfold lacking. cbn [filter length]. split; [exact Sm|]. split; [exact G|]. split; [reflexivity|lia]. Qed.
Lemma fix_works file : Forall is_byte file ->
  (exists out, fix_checksum K0 hash file = Ok out) <-> exists v m, holds file v m /\ usable m /\ Z.of_nat (length m) < 4096.
Proof.
  intros HB. rewrite (one_works (fix_checksum K0 hash) (fun m => m) nothing_new [] fix_out next_same (fun _ _ _ => eq_refl) file HB).
  unfold lacking. cbn [filter length]. change (Z.of_nat 0) with 0. split; intros (v & m & H & U & L); exists v, m; (split; [exact H|split; [exact U|lia]]).
Qed.
Definition fix_result := one_result (fix_checksum K0 hash) (fun m => m) nothing_new [] fix_out next_same (fun _ _ _ => eq_refl) (fun _ _ => eq_refl).
Lemma dsig_next m : sorted_map lex_ltb m -> good_tabs m ->
  sorted_map lex_ltb (next_added TAG_DSIG dsig_bytes m) /\ good_tabs (next_added TAG_DSIG dsig_bytes m) /\ (forall t, get t (next_added TAG_DSIG dsig_bytes m) = added TAG_DSIG dsig_bytes t (get t m)) /\
  Z.of_nat (length (next_added TAG_DSIG dsig_bytes m)) = Z.of_nat (length m) + lacking m [TAG_DSIG].
Proof. apply next_added_spec; [repeat split; repeat constructor; discriminate|repeat constructor; discriminate]. Qed.
Lemma dsig_keeps t o : In t [TAG_head; TAG_maxp; TAG_loca] -> added TAG_DSIG dsig_bytes t o = o.
Proof. intros H. unfold added. destruct (list_eq_dec Z.eq_dec t TAG_DSIG) as [->|]; [|reflexivity]. cbn [In] in H. repeat (destruct H as [H|H]; [discriminate|]). destruct H. Qed.
Definition dsig_works := one_works (add_dsig K0 hash) _ _ _ dsig_out dsig_next dsig_keeps.
Definition dsig_result := one_result (add_dsig K0 hash) _ _ _ dsig_out dsig_next dsig_keeps (added_twice _ _).
Definition smooth (t : list Z) (o : option (list Z)) := replaced TAG_prep prep_bytes t (added TAG_gasp gasp_bytes t o).
Lemma hint_keeps t o : In t [TAG_head; TAG_maxp; TAG_loca] -> smooth t o = o.
Proof.
  intros H. unfold smooth, replaced, added. 
  destruct (list_eq_dec Z.eq_dec t TAG_prep) as [->|]; [|destruct (list_eq_dec Z.eq_dec t TAG_gasp) as [->|]; [|reflexivity]];
  cbn [In] in H; repeat (destruct H as [H|H]; [discriminate|]); destruct H.
Qed.
Lemma hint_twice t o : smooth t (smooth t o) = smooth t o.
Proof.
  unfold smooth, replaced, added. destruct (list_eq_dec Z.eq_dec t TAG_prep) as [->|]; [reflexivity|].
  destruct (list_eq_dec Z.eq_dec t TAG_gasp); [destruct o; reflexivity|reflexivity].
Qed.
Definition hint_works := one_works (fix_non_hinted K0 hash) next_hint smooth [TAG_gasp; TAG_prep] hint_out next_hint_spec hint_keeps.
Definition hint_result := one_result (fix_non_hinted K0 hash) next_hint smooth [TAG_gasp; TAG_prep] hint_out next_hint_spec hint_keeps hint_twice.

(** ** What looking a table up in a font just loaded gives *)
Definition right (m : list (list Z * list Z)) (l : loaded (known T)) : Prop :=
  match l with
  | LHead h => head_is m h | LLoca x => loca_is m x | LGlyf gs => glyf_is m gs
  | LHhea x => hhea_is m x | LMaxp x => maxp_is m x | LHmtx x => hmtx_is m x
  | LOther _ (KGvar g) => gvar_is m g
  | LOther _ (KPost p) => post_is m p
  | LOther _ (KCmap sts) => exists d, bytes_of m TAG_cmap = Some d /\ from_bytes cmap_de d = Ok sts
  | _ => True
  end.
(** The tables [P] are as in the file, and with each those it is read with. *)
Definition closed (P : list Z -> Prop) : Prop :=
  (P TAG_hmtx -> P TAG_hhea) /\ (P TAG_loca -> P TAG_head) /\ (P TAG_glyf -> P TAG_loca) /\ (P TAG_gvar -> P TAG_glyf).
Definition all (t : list Z) : Prop := True.
Definition metrics (t : list Z) : Prop := t = TAG_hhea \/ t = TAG_hmtx.
Lemma closed_all : closed all.
Proof. repeat split. Qed.
Lemma closed_metrics : closed metrics.
Proof. unfold metrics. repeat split; intros [X|X]; try discriminate X; left; exact X || reflexivity. Qed.

Section Fresh.
Variable P : list Z -> Prop.
Hypothesis HP : closed P.
Definition fresh (m : list (list Z * list Z)) s : Prop :=
  (forall tag d, P tag -> st_get tag s = Some (Unloaded d) -> get tag m = Some d) /\
  (forall tag t, P tag -> st_get tag s = Some (Loaded t) -> right m (tb_loaded t)) /\
  (forall tag, P tag -> st_get tag s = None -> get tag m = None).
Definition loads m (des : list Z -> list Z -> sop (loaded (known T))) : Prop := forall tag data s l s',
  fresh m s -> des tag data s = (Ok l, s') -> fresh m s' /\ (P tag -> get tag m = Some data -> right m l).
Lemma fresh_set m s t i : fresh m s -> ~ P t -> fresh m (st_set t i s).
Proof.
  intros (F1 & F2 & F3) N. split; [|split].
  1, 2: intros t' x Ht; rewrite st_get_set; destruct (list_eq_dec Z.eq_dec t' t) as [->|]; try (now elim N); [now apply F1 || now apply F2].
  intros t' Ht; rewrite st_get_set; destruct (list_eq_dec Z.eq_dec t' t) as [->|]; [discriminate|now apply F3].
Qed.
Lemma load_by_fresh m des tag s u s' : loads m des -> fresh m s -> load_by des tag s = (Ok u, s') -> fresh m s'.
Proof.
  intros HL F E. unfold load_by in E. destruct (st_get tag s) as [[d|t]|] eqn:G; [|injection E as <- <-; exact F..].
  destruct (des tag d s) as [[l| |] s1] eqn:D; try discriminate. injection E as <- <-.
  destruct (HL tag d s l s1 F D) as [(F1 & F2 & F3) R]. split; [|split].
  - intros t' d' Ht. rewrite st_get_set. destruct (list_eq_dec Z.eq_dec t' tag); [discriminate|now apply F1].
  - intros t' x Ht. rewrite st_get_set. destruct (list_eq_dec Z.eq_dec t' tag) as [->|]; [|now apply F2].
    intros [= <-]. apply R; [exact Ht|]. now apply (proj1 F).
  - intros t' Ht. rewrite st_get_set. destruct (list_eq_dec Z.eq_dec t' tag); [discriminate|now apply F3].
Qed.
Lemma typed_by_fresh {A} m des tag (sel : loaded (known T) -> option A) s o s' : loads m des -> fresh m s ->
  typed_by des tag sel s = (Ok o, s') ->
  fresh m s' /\ match o with Some a => P tag -> exists l, right m l /\ sel l = Some a | None => st_get tag s' = None end.
Proof.
  intros HL F E. unfold typed_by, sbind, get_by, slift in E.
  destruct (load_by des tag s) as [[u| |] s1] eqn:L; try discriminate.
  pose proof (load_by_fresh m des tag s u s1 HL F L) as F1.
  destruct (st_get tag s1) as [[d|t]|] eqn:G; try discriminate.
  - destruct (sel (tb_loaded t)) as [a|] eqn:Es; [|discriminate]. injection E as <- <-. split; [exact F1|].
    intros Ht. exists (tb_loaded t). split; [now apply (proj1 (proj2 F1) tag)|exact Es].
  - injection E as <- <-. auto.
Qed.
Lemma loads0 m : loads m (des0s K).
Proof.
  intros tag data s l s' F E. unfold des0s, slift in E. injection E as E <-. split; [exact F|]. intros Ht Hd.
  unfold des0 in E. destruct (MTag.bytes_eqb tag TAG_head) eqn:T1.
  { destruct (from_bytes de_head_tbl data) as [h| |] eqn:Eh; try discriminate. injection E as <-. apply PTag.bytes_eqb_eq in T1 as ->.
    exists data. auto. }
  destruct (MTag.bytes_eqb tag TAG_hhea) eqn:T2.
  { destruct (from_bytes de_hhea data) eqn:Eh; try discriminate. injection E as <-. apply PTag.bytes_eqb_eq in T2 as ->. exists data. auto. }
  destruct (MTag.bytes_eqb tag TAG_maxp) eqn:T3.
  { destruct (from_bytes de_maxp data) eqn:Eh; try discriminate. injection E as <-. apply PTag.bytes_eqb_eq in T3 as ->. exists data. auto. }
  destruct (tag_in tag plain_tags); [|injection E as <-; exact I].
  cbn [parse_plain MCli.K] in E.
  destruct (MPost.bytes_eqb tag TAG_cmap) eqn:T4.
  { destruct (from_bytes cmap_de data) eqn:Eh; try discriminate. injection E as <-. apply PPost.bytes_eqb_eq in T4 as ->. exists data. auto. }
  destruct (MPost.bytes_eqb tag TAG_post) eqn:T5.
  { destruct (from_bytes post_de data) eqn:Eh; try discriminate. injection E as <-. apply PPost.bytes_eqb_eq in T5 as ->. exists data. auto. }
  destruct (MPost.bytes_eqb tag TAG_gasp). { destruct (from_bytes de_gasp data); try discriminate. injection E as <-. exact I. }
  destruct (parse_plain K0 tag data); try discriminate. injection E as <-. exact I.
Qed.
Lemma loads1 m : loads m (des1 K).
Proof.
  intros tag data s l s' F E. unfold des1 in E. destruct (tag_in tag [TAG_GPOS; TAG_GSUB]).
  { unfold sbind at 1 in E. destruct (typed_by _ _ _ s) as [[o| |] s1] eqn:E1; try discriminate.
    destruct (typed_by_fresh m _ _ _ _ _ _ (loads0 m) F E1) as [F1 _].
    destruct o as [mx|]; [|discriminate]. cbn in E. destruct (parse_layout K0 tag _ data); try discriminate. injection E as <- <-. split; [exact F1|intros; exact I]. }
  destruct (MTag.bytes_eqb tag TAG_hmtx) eqn:T0.
  { unfold sbind at 1 in E. destruct (typed_by _ _ _ s) as [[o| |] s1] eqn:E1; try discriminate.
    destruct (typed_by_fresh m _ _ _ _ _ _ (loads0 m) F E1) as [F1 R].
    destruct o as [hh|]; [|discriminate]. unfold sbind, need, slift in E. destruct (from_bytes _ data) as [x| |] eqn:Ex; try discriminate. injection E as <- <-. split; [exact F1|].
    intros Ht Hd. apply PTag.bytes_eqb_eq in T0 as ->. destruct (R (proj1 HP Ht)) as (lh & Rh & Es). destruct lh; try discriminate. injection Es as ->.
    exists hh, data. auto. }
  destruct (MTag.bytes_eqb tag TAG_loca) eqn:T1; [|now apply (loads0 m tag data s)].
  unfold sbind at 1 in E. destruct (typed_by _ _ _ s) as [[o| |] s1] eqn:E1; try discriminate.
  destruct (typed_by_fresh m _ _ _ _ _ _ (loads0 m) F E1) as [F1 R].
  destruct o as [h|]; [|discriminate]. unfold sbind, need, slift in E.
  destruct (from_bytes _ data) as [x| |] eqn:Ex; try discriminate. injection E as <- <-. split; [exact F1|].
  intros Ht Hd. apply PTag.bytes_eqb_eq in T1 as ->. destruct (R (proj1 (proj2 HP) Ht)) as (lh & Rh & Es). destruct lh; try discriminate. injection Es as ->.
  exists h, data. auto.
Qed.
Lemma loads2 m : loads m (des2 K).
Proof.
  intros tag data s l s' F E. unfold des2 in E.
  destruct (MTag.bytes_eqb tag TAG_glyf) eqn:T1; [|now apply (loads1 m tag data s)].
  unfold sbind at 1 in E. destruct (typed_by _ _ _ s) as [[o| |] s1] eqn:E1; try discriminate.
  destruct (typed_by_fresh m _ _ _ _ _ _ (loads1 m) F E1) as [F1 R].
  destruct o as [h|]; [|discriminate]. unfold sbind, need, slift in E.
  destruct (de_glyf data h) as [x| |] eqn:Ex; try discriminate. injection E as <- <-. split; [exact F1|].
  intros Ht Hd. apply PTag.bytes_eqb_eq in T1 as ->. destruct (R (proj1 (proj2 (proj2 HP)) Ht)) as (lh & Rh & Es). destruct lh; try discriminate. injection Es as ->.
  exists h, data. auto.
Qed.
Lemma loads3 m : loads m (des3 K).
Proof.
  intros tag data s l s' F E. unfold des3 in E.
  destruct (MTag.bytes_eqb tag TAG_gvar) eqn:T1; [|now apply (loads2 m tag data s)].
  unfold sbind at 1 in E. destruct (typed_by _ _ _ s) as [[o| |] s1] eqn:E1; try discriminate.
  destruct (typed_by_fresh m _ _ _ _ _ _ (loads2 m) F E1) as [F1 R].
  destruct o as [gs|]; [|discriminate]. unfold sbind, need, slift in E.
  destruct (rmapM gvar_coords_and_ends gs) as [ces| |] eqn:Ec; try discriminate. cbn [rbind parse_gvar MCli.K] in E.
  destruct (from_bytes _ data) as [x| |] eqn:Ex; try discriminate. injection E as <- <-. split; [exact F1|].
  intros Ht Hd. apply PTag.bytes_eqb_eq in T1 as ->. destruct (R (proj2 (proj2 (proj2 HP)) Ht)) as (lh & Rh & Es). destruct lh; try discriminate. injection Es as ->.
  exists gs, ces, data. auto.
Qed.
Lemma load_fresh file v s m : holds file v m -> font_load K file = Ok (v, s) -> fresh m s.
Proof.
  intros H L. unfold font_load in L. unfold holds in H. rewrite H in L. cbn [rbind] in L.
  destruct (loader_finish K (loader_add m)) as [[u| |] s1] eqn:E; try discriminate. injection L as <-.
  unfold loader_finish, sbind in E.
  destruct (load_if_needed K TAG_head (loader_add m)) as [[u1| |] s2] eqn:E1; try discriminate.
  refine (load_by_fresh m _ _ _ _ _ (loads3 m) _ E). refine (load_by_fresh m _ _ _ _ _ (loads3 m) _ E1).
  split; [|split].
  - intros tag d _. rewrite get_loader. destruct (get tag m); [intros [= ->]; reflexivity|discriminate].
  - intros tag t _. rewrite get_loader. destruct (get tag m); discriminate.
  - intros tag _. rewrite get_loader. destruct (get tag m); [discriminate|reflexivity].
Qed.
Lemma quiet_typed3 {A} tag (sel : loaded (known T) -> option A) : quiet K (typed K tag sel).
Proof.
  unfold typed, typed_by. apply quiet_bind; [apply quiet_ts_get|]. intros [t|]; [destruct (sel (tb_loaded t))|]; apply quiet_slift.
Qed.
Lemma same_good s s' : good_store K s -> inv K s' -> same s s' -> good_store K s'.
Proof. intros G I1 S1. apply inv_good; [exact I1|]. intros t Ht. rewrite <- (S1 t) in Ht. now apply (good_printable K s G). Qed.
Lemma typed_fresh {A} m tag (sel : loaded (known T) -> option A) s o s' : fresh m s -> inv K s ->
  unwrap_s (typed K tag sel) s = (Ok o, s') ->
  fresh m s' /\ inv K s' /\ same s s' /\
  match o with Some a => P tag -> exists l, right m l /\ sel l = Some a | None => contents s tag = None end.
Proof.
  intros F G E. unfold unwrap_s in E. destruct (typed K tag sel s) as [[o'| |] s1] eqn:E1; try discriminate. injection E as -> ->.
  destruct (typed_by_fresh m _ _ _ _ _ _ (loads3 m) F E1) as [F1 R].
  pose proof (quiet_typed3 tag sel s G) as [I1 S1]. rewrite E1 in I1, S1. cbn [snd] in *.
  split; [exact F1|]. split; [exact I1|]. split; [exact S1|]. destruct o; [exact R|].
  rewrite (S1 tag). unfold contents. unfold st_get in R. now rewrite R.
Qed.
Lemma get_table_fresh {A} m tag (sel : loaded (known T) -> option A) s a s' : fresh m s -> good_store K s ->
  get_table K0 hash tag sel s = (Ok a, s') ->
  fresh m s' /\ good_store K s' /\ same s s' /\ (P tag -> exists l, right m l /\ sel l = Some a).
Proof.
  intros F G E. unfold get_table in E. unfold sbind at 1 in E.
  destruct (unwrap_s (typed K tag sel) s) as [[o| |] s1] eqn:E1; try discriminate. unfold slift in E. injection E as E <-.
  destruct o as [a'|]; [|discriminate]. injection E as ->.
  destruct (typed_fresh m _ _ _ _ _ F (good_inv _ _ G) E1) as (F1 & I1 & S1 & R).
  split; [exact F1|]. split; [|split; [exact S1|exact R]]. eapply same_good; eassumption.
Qed.
End Fresh.

(** ** Tools that look into tables *)
Lemma cli_inv edit file out : Forall is_byte file -> cli K0 hash edit file = Ok out ->
  exists v m s s' s'', holds file v m /\ sorted_map lex_ltb m /\ good_store K s /\
    (forall t, contents s t = option_map Raw (get t m)) /\ (forall P, closed P -> fresh P m s) /\
    edit s = (Ok tt, s') /\ font_write K v s' = (Ok out, s'').
Proof.
  intros HB E. unfold cli in E. destruct (font_load K file) as [[v s]| |] eqn:L; try discriminate.
  destruct (load_inv _ _ _ HB L) as (m & H & Sm & G & C & U).
  destruct (edit s) as [[[]| |] s'] eqn:Ee; try discriminate.
  destruct (font_write K v s') as [[o| |] s''] eqn:Ew; try discriminate. injection E as ->.
  exists v, m, s, s', s''. repeat (split; [assumption|]). split; [|auto]. intros P HP. eapply load_fresh; eassumption.
Qed.
Lemma bind_ok {A B} (x : sop A) (f : A -> sop (T:=known T) B) s b s' : sbind x f s = (Ok b, s') ->
  exists a s1, x s = (Ok a, s1) /\ f a s1 = (Ok b, s').
Proof. unfold sbind. destruct (x s) as [[a| |] s1]; try discriminate. eauto. Qed.

(** Saving a set of tables that is [m2], when nothing was left to compile. *)
Lemma plain_write v s m2 out s' : plainly s m2 -> font_write K v s = (Ok out, s') -> font_to_bytes v (map okd m2) = Ok out.
Proof.
  intros (G & Sm & R & Ty & W) E. destruct (write_has_maxp v s out s' (good_inv _ _ G) R E) as [x Hv].
  destruct (write_plain K v s m2 x G Sm R Ty W Hv) as [s3 E3]. rewrite E3 in E. now injection E.
Qed.
Lemma insert_bytes v m t d out : v = SFNT_TRUETYPE \/ v = SFNT_OPENTYPE -> sorted_map lex_ltb m -> good_tabs m -> printable_tag t -> t <> TAG_head ->
  font_to_bytes v (map okd (bm_insert lex_ltb t d m)) = Ok out -> Z.of_nat (length out) < 2 ^ 32 -> Forall is_byte out -> Forall is_byte d.
Proof.
  intros Hv Sm G Pt Nt F Hs HB.
  assert (Si: sorted_map lex_ltb (bm_insert lex_ltb t d m)) by (apply insert_sorted; [apply lex_strict|exact Sm]).
  assert (PT: ptabs (bm_insert lex_ltb t d m)).
  { apply Forall_forall. intros [t' x] Hx. cbn [fst]. apply (In_get _ lex_strict) in Hx; [|exact Si].
    destruct (list_eq_dec Z.eq_dec t t') as [<-|N]; [exact Pt|]. rewrite get_insert_other in Hx by (try apply lex_strict; congruence).
    apply (get_In _ lex_strict) in Hx. unfold good_tabs in G. rewrite Forall_forall in G. apply (G _ Hx). }
  destruct (save_load_bytes v _ out Hv PT (proj2 (sorted_tags_spec _) Si) F Hs HB) as (w & Hw & Hr).
  pose proof (holds_tabs out v _ HB Hr) as G2.
  assert (Hg: get t (map (adjusted w) (bm_insert lex_ltb t d m)) = Some d).
  { rewrite get_adjusted, get_insert_same by apply lex_strict. cbn [option_map]. now rewrite adjusted_other. }
  apply (get_In _ lex_strict) in Hg. unfold good_tabs in G2. rewrite Forall_forall in G2. apply (G2 _ Hg).
Qed.
Lemma replaced_out v m t d file out : Forall is_byte file -> holds file v m -> printable_tag t -> t <> TAG_head ->
  font_to_bytes v (map okd (bm_insert lex_ltb t d m)) = Ok out -> Z.of_nat (length out) < 2 ^ 32 -> Forall is_byte out ->
  rewrites (replaced t d) file out /\
  ((exists v m, holds file v m /\ bytes_of m TAG_head <> None) -> word_sum out mod 2 ^ 32 = 0xB1B0AFBA).
Proof.
  intros HB H Pt Nt F Hs HBo. pose proof (read_sorted _ _ _ H) as Sm. pose proof (holds_tabs _ _ _ HB H) as G.
  pose proof (insert_bytes v m t d out (flavour _ _ _ HB H) Sm G Pt Nt F Hs HBo) as Bd.
  assert (Si: sorted_map lex_ltb (bm_insert lex_ltb t d m)) by (apply insert_sorted; [apply lex_strict|exact Sm]).
  pose proof (insert_tabs t d m Pt Bd Sm G) as Gi. split.
  - apply (rewritten _ file v m _ out HB H Si Gi); [|exact F|exact Hs]. intros t'. unfold replaced.
    destruct (list_eq_dec Z.eq_dec t' t) as [->|N]; [apply get_insert_same, lex_strict|]. apply get_insert_other; [apply lex_strict|congruence].
  - intros (v' & m' & H' & Hh). destruct (holds_fun _ _ _ _ _ H H') as [<- <-]. apply (checksum_right v _ out Si Gi); [|exact F].
    rewrite get_insert_other by (try apply lex_strict; congruence). exact Hh.
Qed.
Lemma plain_result v m s s' file out : Forall is_byte file -> holds file v m -> plainly s m ->
  font_write K v s = (Ok out, s') -> Z.of_nat (length out) < 2 ^ 32 ->
  rewrites nothing_new file out /\
  ((exists v m, holds file v m /\ bytes_of m TAG_head <> None) -> word_sum out mod 2 ^ 32 = 0xB1B0AFBA).
Proof.
  intros HB H P E Hs. pose proof (plain_write v s m out s' P E) as F.
  pose proof (read_sorted _ _ _ H) as Sm. pose proof (holds_tabs _ _ _ HB H) as G. split.
  - now apply (rewritten _ file v m m out HB H Sm G).
  - intros (v' & m' & H' & Hh). destruct (holds_fun _ _ _ _ _ H H') as [<- <-]. now apply (checksum_right v m out Sm G).
Qed.
Lemma same_raw s s' m : (forall t, contents s t = option_map Raw (get t m)) -> same s s' -> forall t, contents s' t = option_map Raw (get t m).
Proof. intros C S1 t. now rewrite <- (S1 t). Qed.

Lemma optimize_result mc file out : Forall is_byte file -> optimize_gvar K0 hash mc file = Ok out ->
  Z.of_nat (length out) < 2 ^ 32 -> Forall is_byte out ->
  ((exists v m, holds file v m /\ bytes_of m TAG_head <> None) -> word_sum out mod 2 ^ 32 = 0xB1B0AFBA) /\
  exists v m, holds file v m /\
    match bytes_of m TAG_gvar with
    | None => rewrites nothing_new file out
    | Some _ => exists gs gv d, glyf_is m gs /\ gvar_is m gv /\ MGvar.gvar_ser mc gv (Some gs) = Ok d /\ rewrites (replaced TAG_gvar d) file out
    end.
Proof.
  intros HB E Hs HBo. destruct (cli_inv _ _ _ HB E) as (v & m & s & s' & s'' & H & Sm & G & C & F & Ee & Ew).
  rewrite contains_iff, C in Ee. unfold bytes_of. destruct (get TAG_gvar m) as [d0|] eqn:Eg; cbn [option_map] in Ee.
  - pose proof (F all closed_all) as F0. clear F.
    apply bind_ok in Ee as (h & s1 & E1 & Ee). destruct (get_table_fresh all closed_all m _ _ _ _ _ F0 G E1) as (F1 & G1 & S1 & _).
    apply bind_ok in Ee as (mx & s2 & E2 & Ee). destruct (get_table_fresh all closed_all m _ _ _ _ _ F1 G1 E2) as (F2 & G2 & S2 & _).
    apply bind_ok in Ee as (lo & s3 & E3 & Ee). destruct (get_table_fresh all closed_all m _ _ _ _ _ F2 G2 E3) as (F3 & G3 & S3 & _).
    apply bind_ok in Ee as (gs & s4 & E4 & Ee). destruct (get_table_fresh all closed_all m _ _ _ _ _ F3 G3 E4) as (F4 & G4 & S4 & R4).
    apply bind_ok in Ee as (gv & s5 & E5 & Ee). destruct (get_table_fresh all closed_all m _ _ _ _ _ F4 G4 E5) as (F5 & G5 & S5 & R5).
    apply bind_ok in Ee as (d & s6 & E6 & Ee). unfold slift in E6. injection E6 as E6 <-. unfold smodify in Ee. injection Ee as <-.
    pose proof (same_raw _ _ _ (same_raw _ _ _ (same_raw _ _ _ (same_raw _ _ _ (same_raw _ _ _ C S1) S2) S3) S4) S5) as C5.
    assert (P5: plainly (ts_insert_raw TAG_gvar d s5) (bm_insert lex_ltb TAG_gvar d m)).
    { apply raw_insert; [split; [reflexivity|repeat constructor; cbn; discriminate]|discriminate|]. now apply raw_plainly. }
    pose proof (plain_write _ _ _ _ _ P5 Ew) as Ff.
    destruct (replaced_out v m TAG_gvar d file out HB H) as [A B]; try assumption.
    { split; [reflexivity|repeat constructor; cbn; discriminate]. } { discriminate. }
    split; [exact B|]. exists v, m. split; [exact H|]. rewrite Eg. exists gs, gv, d.
    destruct (R4 I) as (l4 & Rl4 & Sl4). destruct l4; try discriminate. injection Sl4 as ->.
    destruct (R5 I) as (l5 & Rl5 & Sl5). destruct l5 as [| | | | | |? [| | | |]|]; try discriminate. injection Sl5 as ->.
    split; [exact Rl4|]. split; [exact Rl5|]. split; [exact E6|exact A].
  - injection Ee as <-. destruct (plain_result v m s s'' file out HB H (raw_plainly s m G Sm C) Ew Hs) as [A B].
    split; [exact B|]. exists v, m. split; [exact H|]. rewrite Eg. exact A.
Qed.

(** ** The number of long metrics after glyf is rebuilt *)
Lemma not_metrics t : In t [TAG_glyf; TAG_loca; TAG_head] -> ~ metrics t.
Proof. unfold metrics. intros [<-|[<-|[<-|[]]]] [X|X]; discriminate X. Qed.
Lemma slift_inv {A} (r : res A) s a s' : slift (T:=known T) r s = (Ok a, s') -> r = Ok a /\ s' = s.
Proof. unfold slift. intros E. injection E as -> <-. auto. Qed.
Lemma unwrap_inv {A} (o : option A) a : unwrap o = Ok a -> o = Some a.
Proof. destruct o; cbn; [intros [= ->]; reflexivity|discriminate]. Qed.
Lemma compile_hhea m s s' : inv K s -> fresh metrics m s -> rebuilds s -> compile_glyf_loca_maxp K s = (Ok tt, s') ->
  match contents s TAG_hmtx with
  | None => contents s' TAG_hhea = contents s TAG_hhea
  | Some _ => exists ms n hh, hmtx_is m ms /\ number_of_hmetrics ms = Ok n /\ hhea_is m hh /\
      contents s' TAG_hhea = Some (Typed (LHhea (set_hmetrics hh n)))
  end.
Proof.
  intros Hi F R E. unfold compile_glyf_loca_maxp in E.
  destruct (serialized TAG_glyf s && serialized TAG_loca s && serialized TAG_maxp s) eqn:Es.
  { exfalso. destruct R as [_ (tag & l & Hin & Hc)]. assert (serialized tag s = false) by (apply serialized_iff; eauto).
    apply andb_true_iff in Es as [Es E3]. apply andb_true_iff in Es as [E1 E2].
    destruct Hin as [<-|[<-|[<-|[]]]]; congruence. }
  apply bind_ok in E as (o & s1 & E1 & E). destruct (typed_fresh metrics closed_metrics m _ _ _ _ _ F Hi E1) as (F1 & I1 & S1 & R1).
  destruct o as [gs|]; [|exfalso; now apply (proj1 R)].
  apply bind_ok in E as ([[out loca] is32] & s2 & E2 & E). apply slift_inv in E2 as [_ ->].
  apply bind_ok in E as ([] & s3 & E3 & E). unfold smodify in E3. injection E3 as <-.
  apply bind_ok in E as ([] & s4 & E4 & E). unfold smodify in E4. injection E4 as <-.
  set (s4 := ts_insert_raw TAG_loca loca (ts_insert_raw TAG_glyf out s1)) in E.
  assert (F4: fresh metrics m s4) by (apply fresh_set; [apply fresh_set; [exact F1|]|]; apply not_metrics; cbn; tauto).
  assert (I4: inv K s4) by (apply inv_set; [apply inv_set; [exact I1|discriminate]|discriminate]).
  assert (C4: forall t, metrics t -> contents s4 t = contents s t).
  { intros t Ht. unfold s4. etransitivity; [exact (contents_set _ TAG_loca _ t)|]. destruct (list_eq_dec Z.eq_dec t TAG_loca) as [->|]; [now apply not_metrics in Ht; [|cbn; tauto]|].
    etransitivity; [exact (contents_set _ TAG_glyf _ t)|]. destruct (list_eq_dec Z.eq_dec t TAG_glyf) as [->|]; [now apply not_metrics in Ht; [|cbn; tauto]|]. symmetry. apply S1. }
  clearbody s4. clear S1 F1 I1 E1 s1.
  apply bind_ok in E as (om & s5 & E5 & E). destruct (typed_fresh metrics closed_metrics m _ _ _ _ _ F4 I4 E5) as (F5 & I5 & S5 & _).
  apply bind_ok in E as (mx & s6 & E6 & E). apply slift_inv in E6 as [_ ->].
  apply bind_ok in E as (n & s7 & E7 & E). apply slift_inv in E7 as [_ ->].
  apply bind_ok in E as (oh & s8 & E8 & E). destruct (typed_fresh metrics closed_metrics m _ _ _ _ _ F5 I5 E8) as (F8 & I8 & S8 & _).
  apply bind_ok in E as (h & s9 & E9 & E). apply slift_inv in E9 as [_ ->].
  apply bind_ok in E as ([] & s10 & E10 & E). unfold smodify in E10. injection E10 as <-.
  set (s10 := ts_insert_typed TAG_head _ s8) in E.
  assert (F10: fresh metrics m s10) by (apply fresh_set; [exact F8|]; apply not_metrics; cbn; tauto).
  assert (I10: inv K s10).
  { apply inv_set; [exact I8|]. intros t [= <-]. split; [reflexivity|discriminate]. }
  assert (C10: forall t, metrics t -> contents s10 t = contents s t).
  { intros t Ht. unfold s10. etransitivity; [exact (contents_set _ TAG_head _ t)|]. destruct (list_eq_dec Z.eq_dec t TAG_head) as [->|]; [now apply not_metrics in Ht; [|cbn; tauto]|].
    rewrite <- (S8 t), <- (S5 t). now apply C4. }
  clearbody s10.
  apply bind_ok in E as (ohm & s11 & E11 & E). destruct (typed_fresh metrics closed_metrics m _ _ _ _ _ F10 I10 E11) as (F11 & I11 & S11 & R11).
  destruct ohm as [ms|].
  - apply bind_ok in E as (k & s12 & E12 & E). apply slift_inv in E12 as [Ek ->].
    apply bind_ok in E as (ohh & s13 & E13 & E). destruct (typed_fresh metrics closed_metrics m _ _ _ _ _ F11 I11 E13) as (F13 & I13 & S13 & R13).
    destruct (R11 (or_intror eq_refl)) as (l & Rl & Sl). destruct l as [| | |x| | | |]; try discriminate. injection Sl as ->.
    destruct (contents s TAG_hmtx) as [c|] eqn:Ec.
    2: { exfalso. rewrite <- C10 in Ec by (right; reflexivity). unfold unwrap_s in E11. rewrite (typed_absent K _ _ _ Ec) in E11. discriminate. }
    destruct ohh as [hh|].
    + destruct (R13 (or_introl eq_refl)) as (l & Rh & Sh). destruct l as [|y| | | | | |]; try discriminate. injection Sh as ->.
      unfold smodify in E. injection E as <-. exists ms, k, hh. split; [exact Rl|]. split; [exact Ek|]. split; [exact Rh|].
      etransitivity; [exact (contents_set s13 TAG_hhea _ TAG_hhea)|reflexivity].
    + exfalso. destruct Rl as (hh & d & (d' & Hd & _) & _). unfold bytes_of in Hd.
      assert (X: st_get TAG_hhea s11 = None) by (unfold contents in R13; unfold st_get; destruct (get TAG_hhea s11); [discriminate|reflexivity]).
      apply (proj2 (proj2 F11)) in X; [congruence|now left].
  - rewrite C10 in R11 by (right; reflexivity). rewrite R11. apply slift_inv in E as [_ ->]. rewrite <- (S11 TAG_hhea). apply C10. now left.
Qed.

(** ** Flattening *)
Lemma layouts_raw s s' : inv K s -> (forall t l, In t [TAG_GPOS; TAG_GSUB] -> contents s t <> Some (Typed l)) ->
  compile_gsub_gpos K s = (Ok tt, s') -> same s s'.
Proof.
  intros Hi Hr E t. destruct (gsub_gpos_spec K s s' Hi E) as (_ & O & R & _).
  destruct (in_dec (list_eq_dec Z.eq_dec) t [TAG_GPOS; TAG_GSUB]) as [N|N]; [|symmetry; now apply O].
  destruct (contents s t) as [[d|l]|] eqn:Ec; [symmetry; now apply R|exfalso; now apply (Hr t l)|].
  unfold compile_gsub_gpos in E.
  apply bind_ok in E as (om & sa & Ea & E). 
  assert (Qa: inv K sa /\ same s sa).
  { unfold unwrap_s in Ea. destruct (typed K TAG_maxp sel_maxp s) as [[o| |] x] eqn:Et; try discriminate. injection Ea as -> ->.
    pose proof (quiet_typed3 TAG_maxp sel_maxp s Hi) as Q0. rewrite Et in Q0. exact Q0. }
  destruct Qa as [Ia Sa].
  apply bind_ok in E as (m & sb & Eb & E). apply slift_inv in Eb as [_ ->].
  apply bind_ok in E as ([] & sc & Ecc & E).
  destruct (layout_spec K _ _ _ _ Ia Ecc) as (Ic & Oc & Pc). destruct (layout_spec K _ _ _ _ Ic E) as (Id & Od & Pd).
  rewrite (Sa t) in Ec. destruct N as [<-|[<-|[]]].
  - rewrite Ec in Pc. rewrite Od by discriminate. congruence.
  - assert (Y: contents sc TAG_GSUB = None) by (rewrite Oc by discriminate; exact Ec). rewrite Y in Pd. congruence.
Qed.
Lemma glyf_saved v m s1 gs' file out s'' : Forall is_byte file -> holds file v m -> good_store K s1 -> fresh metrics m s1 ->
  (forall t, contents s1 t = option_map Raw (get t m)) -> font_write K v (ts_insert_typed TAG_glyf (LGlyf gs') s1) = (Ok out, s'') ->
  Z.of_nat (length out) < 2 ^ 32 -> Forall is_byte out ->
  exists m' w gl lo is32 h, holds out v m' /\ length w = 4%nat /\
    compile_glyf gs' = Ok (gl, lo, is32) /\ head_is m h /\
    bytes_of m' TAG_glyf = Some gl /\ bytes_of m' TAG_loca = Some lo /\
    bytes_of m' TAG_head = Some (with_adjustment w (ser_head_tbl (set_loc_format h (if is32 : bool then 1 else 0)))) /\
    (forall t, ~ In t [TAG_glyf; TAG_loca; TAG_head; TAG_hhea] -> bytes_of m' t = bytes_of m t) /\
    match bytes_of m TAG_hmtx with
    | None => bytes_of m' TAG_hhea = bytes_of m TAG_hhea
    | Some _ => exists ms n hh, hmtx_is m ms /\ number_of_hmetrics ms = Ok n /\ hhea_is m hh /\
        bytes_of m' TAG_hhea = Some (ser_hhea (set_hmetrics hh n))
    end.
Proof.
  intros HB H G1 F1 C1 Ew Hs HBo.
  set (s2 := ts_insert_typed TAG_glyf (LGlyf gs') s1) in Ew.
  assert (C2: forall t, contents s2 t = if list_eq_dec Z.eq_dec t TAG_glyf then Some (Typed (LGlyf gs')) else option_map Raw (get t m)).
  { intros t. unfold s2. etransitivity; [exact (contents_set s1 TAG_glyf _ t)|]. destruct (list_eq_dec Z.eq_dec t TAG_glyf); [reflexivity|apply C1]. }
  assert (F2: fresh metrics m s2) by (apply fresh_set; [exact F1|]; apply not_metrics; cbn; tauto).
  assert (G2: good_store K s2).
  { apply inv_good.
    - apply inv_set; [now apply good_inv|]. intros t [= <-]. split; [reflexivity|discriminate].
    - intros t Ht. rewrite C2 in Ht. destruct (list_eq_dec Z.eq_dec t TAG_glyf) as [->|]; [split; [reflexivity|repeat constructor; cbn; discriminate]|].
      apply (good_printable K s1 G1). now rewrite C1. }
  clearbody s2.
  assert (R: rebuilds s2).
  { split; [rewrite C2; discriminate|]. exists TAG_glyf, (LGlyf gs'). split; [now left|rewrite C2; reflexivity]. }
  pose proof (good_inv _ _ G2) as I2.
  destruct (font_write_spec K v s2 out s'' I2 Ew) as (s3 & tabs & Ec & El & I3 & I4 & Ef & Hst & Hk & Hw & Hin & Hf).
  destruct (compile_spec K _ _ I2 Ec) as [_ [[N _]|(_ & gs0 & gl & lo & is32 & h & Hl & Hc & Hv1 & _ & A & B & D & _ & O)]]; [now elim N|].
  specialize (Hl (LGlyf gs') ltac:(rewrite C2; reflexivity)). injection Hl as <-.
  pose proof (compile_hhea m _ _ I2 F2 R Ec) as Hh.
  assert (S34: same s3 s'').
  { apply layouts_raw; [exact I3| |exact El]. intros t l Ht. rewrite O, C2.
    - destruct (list_eq_dec Z.eq_dec t TAG_glyf) as [->|]; [now destruct Ht as [X|[X|[]]]; discriminate X|]. destruct (get t m); discriminate.
    - intros X. destruct Ht as [<-|[<-|[]]]; destruct X as [X|[X|[X|[X|[]]]]]; discriminate X. }
  assert (PT: ptabs tabs).
  { apply Forall_forall. intros [t x] Hx. cbn [fst]. apply (printable_after K v s2 out s'' G2 Ew). destruct (Hin t x Hx) as (c' & Hc' & _). congruence. }
  destruct (save_load_bytes v tabs out (flavour _ _ _ HB H) PT (proj2 (sorted_tags_spec tabs) Hst) Ef Hs HBo) as (w & Hlw & Hr).
  assert (W: forall t, bytes_of (map (adjusted w) tabs) t =
     match contents s3 t with Some c => match written K c with Ok d => Some (snd (adjusted w (t, d))) | _ => None end | None => None end).
  { intros t. unfold bytes_of. rewrite get_adjusted. rewrite (S34 t). destruct (contents s'' t) as [c|] eqn:Ect.
    - destruct (Hw _ _ Ect) as (d & Hd & ->). now rewrite Hd.
    - destruct (get t tabs) eqn:Eg; [|reflexivity]. exfalso. apply (proj1 (Hk t)); [congruence|exact Ect]. }
  assert (O': forall t, ~ In t [TAG_glyf; TAG_loca; TAG_head; TAG_hhea] -> bytes_of (map (adjusted w) tabs) t = bytes_of m t).
  { intros t Ht. rewrite W, O by exact Ht. rewrite C2. destruct (list_eq_dec Z.eq_dec t TAG_glyf) as [->|]; [elim Ht; cbn; tauto|].
    unfold bytes_of. destruct (get t m); [|reflexivity]. cbn [option_map written]. rewrite adjusted_other; [reflexivity|]. intros ->. apply Ht. cbn. tauto. }
  exists (map (adjusted w) tabs), w, gl, lo, is32, h.
  split; [exact Hr|]. split; [exact Hlw|]. split; [exact Hc|].
  split. { destruct Hv1 as [X|(d & X & Y)].
    - rewrite C2 in X. cbn in X. destruct (get TAG_head m); discriminate.
    - rewrite C2 in X. unfold head_is, bytes_of. destruct (get TAG_head m) as [d'|] eqn:Eh; [|discriminate]. injection X as ->.
      exists d. split; [reflexivity|]. change (rmap (@LHead (known T)) (from_bytes de_head_tbl d) = Ok (LHead h)) in Y.
      destruct (from_bytes de_head_tbl d); try discriminate. now injection Y as ->. }
  split; [rewrite W, A; reflexivity|]. split; [rewrite W, B; reflexivity|]. split; [rewrite W, D; reflexivity|]. split; [exact O'|].
  rewrite C2 in Hh. unfold bytes_of at 1. cbn [list_eq_dec] in Hh. 
  change (if list_eq_dec Z.eq_dec TAG_hmtx TAG_glyf then _ else ?x) with x in Hh. destruct (get TAG_hmtx m) as [d|] eqn:Em; cbn [option_map] in Hh.
  - destruct Hh as (ms & n & hh & X1 & X2 & X3 & X4). exists ms, n, hh. split; [exact X1|]. split; [exact X2|]. split; [exact X3|]. rewrite W, X4. reflexivity.
  - rewrite W, Hh, C2. change (if list_eq_dec Z.eq_dec TAG_hhea TAG_glyf then _ else ?x) with x. unfold bytes_of. destruct (get TAG_hhea m); reflexivity.
Qed.

Lemma flatten_result file out : Forall is_byte file -> flatten K0 hash file = Ok out ->
  Z.of_nat (length out) < 2 ^ 32 -> Forall is_byte out ->
  exists v m m' w gs gs' gl lo is32 h, holds file v m /\ holds out v m' /\ length w = 4%nat /\
    glyf_is m gs /\ flatten_components gs = Ok gs' /\ compile_glyf gs' = Ok (gl, lo, is32) /\ head_is m h /\
    bytes_of m' TAG_glyf = Some gl /\ bytes_of m' TAG_loca = Some lo /\
    bytes_of m' TAG_head = Some (with_adjustment w (ser_head_tbl (set_loc_format h (if is32 : bool then 1 else 0)))) /\
    (forall t, ~ In t [TAG_glyf; TAG_loca; TAG_head; TAG_hhea] -> bytes_of m' t = bytes_of m t) /\
    match bytes_of m TAG_hmtx with
    | None => bytes_of m' TAG_hhea = bytes_of m TAG_hhea
    | Some _ => exists ms n hh, hmtx_is m ms /\ number_of_hmetrics ms = Ok n /\ hhea_is m hh /\
        bytes_of m' TAG_hhea = Some (ser_hhea (set_hmetrics hh n))
    end.
Proof.
  intros HB E Hs HBo. destruct (cli_inv _ _ _ HB E) as (v & m & s & s' & s'' & H & Sm & G & C & F & Ee & Ew).
  apply bind_ok in Ee as (gs & s1 & E1 & Ee).
  destruct (get_table_fresh all closed_all m _ _ _ _ _ (F _ closed_all) G E1) as (_ & G1 & S1 & R1).
  destruct (get_table_fresh metrics closed_metrics m _ _ _ _ _ (F _ closed_metrics) G E1) as (F1 & _).
  destruct (R1 I) as (l & Rl & Sl). destruct l as [| | | | |x| |]; try discriminate. injection Sl as ->. cbn [right] in Rl.
  apply bind_ok in Ee as (gs' & s2 & E2 & Ee). apply slift_inv in E2 as [E2 ->]. unfold smodify in Ee. injection Ee as <-.
  destruct (glyf_saved v m s1 gs' file out s'' HB H G1 F1 (same_raw _ _ _ C S1) Ew Hs HBo) as (m' & w & gl & lo & is32 & h & X1 & X2 & X3 & X4 & X5).
  exists v, m, m', w, gs, gs', gl, lo, is32, h. tauto.
Qed.

Lemma head_fun m h h' : head_is m h -> head_is m h' -> h = h'.
Proof. intros (d & A & B) (d' & A' & B'). congruence. Qed.
Lemma hhea_fun m h h' : hhea_is m h -> hhea_is m h' -> h = h'.
Proof. intros (d & A & B) (d' & A' & B'). congruence. Qed.
Lemma hmtx_fun m h h' : hmtx_is m h -> hmtx_is m h' -> h = h'.
Proof. intros (hh & d & A & B & C) (hh' & d' & A' & B' & C'). rewrite (hhea_fun _ _ _ A A') in C. congruence. Qed.
Lemma glyf_fun m gs gs' : glyf_is m gs -> glyf_is m gs' -> gs = gs'.
Proof.
  intros (l & d & (h & e & A & B & C) & D & E) (l' & d' & (h' & e' & A' & B' & C') & D' & E').
  rewrite (head_fun _ _ _ A A') in C. congruence.
Qed.
Lemma head_adjustment w h : length w = 4%nat -> Forall is_byte w ->
  exists h', with_adjustment w (ser_head_tbl h) = ser_head_tbl h' /\ (head_tbl_ok h -> head_tbl_ok h') /\ hd_indexToLocFormat h' = hd_indexToLocFormat h.
Proof.
  intros Lw Bw. exists (mk_head_tbl (hd_majorVersion h) (hd_minorVersion h) (hd_fontRevision h) (be_value w)
    (hd_magicNumber h) (hd_flags h) (hd_unitsPerEm h) (hd_created h) (hd_modified h)
    (hd_xMin h) (hd_yMin h) (hd_xMax h) (hd_yMax h) (hd_macStyle h) (hd_lowestRecPPEM h)
    (hd_fontDirectionHint h) (hd_indexToLocFormat h) (hd_glyphDataFormat h)).
  assert (Bw': Forall byte w) by (now apply PCodec.is_byte_byte).
  split; [|split].
  - unfold with_adjustment, ser_head_tbl. cbn [hd_majorVersion hd_minorVersion hd_fontRevision hd_checksumAdjustment
    hd_magicNumber hd_flags hd_unitsPerEm hd_created hd_modified hd_xMin hd_yMin hd_xMax hd_yMax hd_macStyle hd_lowestRecPPEM
    hd_fontDirectionHint hd_indexToLocFormat hd_glyphDataFormat concat].
    set (R := ser_u32 (hd_magicNumber h) ++ _).
    assert (Hw: ser_u32 (be_value w) = w) by (unfold ser_u32; change (ser_prim U32) with (be_bytes 4); rewrite <- Lw; now apply be_bytes_value).
    rewrite Hw. exact (adjust_parts w (ser_u16 (hd_majorVersion h) ++ ser_u16 (hd_minorVersion h) ++ ser_fixed (hd_fontRevision h)) (ser_u32 (hd_checksumAdjustment h)) R eq_refl eq_refl).
  - unfold head_tbl_ok. cbn [hd_majorVersion hd_minorVersion hd_fontRevision hd_checksumAdjustment
    hd_magicNumber hd_flags hd_unitsPerEm hd_created hd_modified hd_xMin hd_yMin hd_xMax hd_yMax hd_macStyle hd_lowestRecPPEM
    hd_fontDirectionHint hd_indexToLocFormat hd_glyphDataFormat].
    pose proof (be_value_range w Bw') as X. rewrite Lw in X. 
    assert (in_range U32 (be_value w)) by (unfold in_range; cbn in *; lia). tauto.
  - reflexivity.
Qed.

(** The bytes the checksum adjustment consists of. *)
Lemma adjustment_bytes out v m' w d : Forall is_byte out -> holds out v m' -> bytes_of m' TAG_head = Some (with_adjustment w d) -> Forall is_byte w.
Proof.
  intros HB H E. pose proof (holds_tabs _ _ _ HB H) as G. unfold bytes_of in E. apply (get_In _ lex_strict) in E.
  unfold good_tabs in G. rewrite Forall_forall in G. destruct (G _ E) as [_ X]. cbn [snd] in X. unfold with_adjustment in X.
  apply Forall_app in X as [_ X]. now apply Forall_app in X as [X _].
Qed.
Lemma saved_outlines out v m' w gs' gl lo is32 h : Forall is_byte out -> holds out v m' -> length w = 4%nat ->
  compile_glyf gs' = Ok (gl, lo, is32) -> bytes_of m' TAG_glyf = Some gl -> bytes_of m' TAG_loca = Some lo ->
  bytes_of m' TAG_head = Some (with_adjustment w (ser_head_tbl (set_loc_format h (if is32 : bool then 1 else 0)))) ->
  Forall glyph_fine gs' -> head_tbl_ok h -> exists gs'', glyf_is m' gs'' /\ Forall2 glyph_same gs' gs''.
Proof.
  intros HBo H1 Lw A3 B1 B2 B3 Fine Hok.
  assert (Sv: exists gs'', Forall2 survives gs' gs'' /\ Forall2 glyph_same gs' gs'').
  { clear - Fine. induction Fine as [|g l Hg Hl (l'' & I1 & I2)]; [exists []; split; constructor|].
    destruct (PCompile.fine_survives g Hg) as (g' & X & Y & _). exists (g' :: l''). split; constructor; auto. }
  destruct Sv as (gs'' & V1 & V2). destruct (PCompile.glyf_roundtrip gs' gs'' gl lo is32 A3 V1) as (idx & R1 & R2).
  exists gs''. split; [|exact V2].
  destruct (head_adjustment w (set_loc_format h (if is32 then 1 else 0)) Lw (adjustment_bytes _ _ _ _ _ HBo H1 B3)) as (h' & Eh & Ok' & Fm).
  exists idx, gl. split; [|split; assumption]. exists h', lo. split; [|split; [exact B2|]].
  - exists (ser_head_tbl h'). split; [congruence|]. apply (fun X => from_read _ _ _ (PTables.reads_head_tbl h' (Ok' X))).
    unfold head_tbl_ok in *. unfold set_loc_format. cbn [hd_majorVersion hd_minorVersion hd_fontRevision hd_checksumAdjustment
    hd_magicNumber hd_flags hd_unitsPerEm hd_created hd_modified hd_xMin hd_yMin hd_xMax hd_yMax hd_macStyle hd_lowestRecPPEM
    hd_fontDirectionHint hd_indexToLocFormat hd_glyphDataFormat].
    assert (in_range I16 (if is32 then 1 else 0)) by (unfold in_range; destruct is32; cbn; lia). tauto.
  - rewrite Fm. cbn [set_loc_format hd_indexToLocFormat]. destruct is32; exact R1.
Qed.
Lemma flatten_outlines file out v m gs gs' h : Forall is_byte file -> flatten K0 hash file = Ok out ->
  Z.of_nat (length out) < 2 ^ 32 -> Forall is_byte out ->
  holds file v m -> glyf_is m gs -> flatten_components gs = Ok gs' -> Forall glyph_fine gs' -> head_is m h -> head_tbl_ok h ->
  exists m' gs'', holds out v m' /\ glyf_is m' gs'' /\ Forall2 glyph_same gs' gs''.
Proof.
  intros HB E Hs HBo H Hg Hf Fine Hh Hok.
  destruct (flatten_result file out HB E Hs HBo) as (v' & m0 & m' & w & gs0 & gs1 & gl & lo & is32 & h0 & H0 & H1 & Lw & A1 & A2 & A3 & A4 & B1 & B2 & B3 & _).
  destruct (holds_fun _ _ _ _ _ H H0) as [<- <-]. rewrite <- (glyf_fun _ _ _ Hg A1) in A2. rewrite Hf in A2. injection A2 as <-.
  rewrite <- (head_fun _ _ _ Hh A4) in B3.
  destruct (saved_outlines out v m' w gs' gl lo is32 h HBo H1 Lw A3 B1 B2 B3 Fine Hok) as (gs'' & X & Y). eauto.
Qed.
Lemma flatten_metrics file out v m ms hh : Forall is_byte file -> flatten K0 hash file = Ok out ->
  Z.of_nat (length out) < 2 ^ 32 -> Forall is_byte out ->
  holds file v m -> hmtx_is m ms -> hhea_is m hh -> hhea_ok hh ->
  exists m', holds out v m' /\ (hmtx_is m' ms <-> number_of_hmetrics ms = Ok (hh_numberOfHMetrics hh)).
Proof.
  intros HB E Hs HBo H Hm Hh Hok.
  destruct (flatten_result file out HB E Hs HBo) as (v' & m0 & m' & w & gs0 & gs1 & gl & lo & is32 & h0 & H0 & H1 & Lw & A1 & A2 & A3 & A4 & B1 & B2 & B3 & O & M).
  destruct (holds_fun _ _ _ _ _ H H0) as [<- <-]. exists m'. split; [exact H1|].
  pose proof Hm as (hh1 & d & Hh1 & Hd & Rd). rewrite Hd in M. destruct M as (ms1 & n & hh2 & X1 & X2 & X3 & X4).
  rewrite <- (hmtx_fun _ _ _ Hm X1) in X2. rewrite <- (hhea_fun _ _ _ Hh X3) in X4. rewrite <- (hhea_fun _ _ _ Hh Hh1) in Rd. clear X1 X3 Hh1 ms1 hh1 hh2.
  assert (Hn: 0 <= n <= 65535).
  { unfold number_of_hmetrics in X2. destruct (rev ms); [injection X2 as <-; lia|].
    unfold try_u in X2. destruct ((0 <=? _) && _) eqn:Et in X2; [|discriminate]. cbn in X2. injection X2 as <-. lia. }
  assert (Hh': hhea_is m' (set_hmetrics hh n)).
  { exists (ser_hhea (set_hmetrics hh n)). split; [exact X4|]. apply (fun X => from_read _ _ _ (PTables.reads_hhea _ X)).
    unfold hhea_ok in *. unfold set_hmetrics. cbn [hh_majorVersion hh_minorVersion hh_ascender hh_descender hh_lineGap
      hh_advanceWidthMax hh_minLeftSideBearing hh_minRightSideBearing hh_xMaxExtent hh_caretSlopeRise hh_caretSlopeRun hh_caretOffset hh_reserved0 hh_reserved1
      hh_reserved2 hh_reserved3 hh_metricDataFormat hh_numberOfHMetrics].
    assert (in_range U16 n) by (unfold in_range; cbn; lia). tauto. }
  assert (Hd': bytes_of m' TAG_hmtx = Some d).
  { rewrite O; [exact Hd|]. intros [Y|[Y|[Y|[Y|[]]]]]; discriminate Y. }
  assert (Hk: 0 <= hh_numberOfHMetrics hh) by (unfold hhea_ok, in_range in Hok; cbn in Hok; lia).
  split.
  - intros (hh' & d' & Y1 & Y2 & Y3). rewrite <- (hhea_fun _ _ _ Hh' Y1) in Y3. rewrite Hd' in Y2. injection Y2 as <-.
    rewrite X2. f_equal. apply (hmtx_number_unique n (hh_numberOfHMetrics hh) d ms); try lia; assumption.
  - intros X. rewrite X2 in X. injection X as ->. exists (set_hmetrics hh (hh_numberOfHMetrics hh)), d. auto.
Qed.

(** ** Renaming glyphs *)
Lemma post_written v s s'' (x : known T) out m : good_store K s -> (forall t, contents s t = option_map Raw (get t m)) ->
  font_write K v (ts_insert_typed TAG_post (LOther TAG_post x) s) = (Ok out, s'') -> exists d, ser_plain K TAG_post x = Ok d.
Proof.
  intros G C Ew. set (s2 := ts_insert_typed TAG_post (LOther TAG_post x) s) in Ew.
  assert (C2: forall t, contents s2 t = if list_eq_dec Z.eq_dec t TAG_post then Some (Typed (LOther TAG_post x)) else option_map Raw (get t m)).
  { intros t. etransitivity; [exact (contents_set s TAG_post _ t)|]. destruct (list_eq_dec Z.eq_dec t TAG_post); [reflexivity|apply C]. }
  assert (I2: inv K s2).
  { apply inv_set; [now apply good_inv|]. intros tb [= <-]. split; [|cbn; discriminate]. cbn [tb_loaded right_kind].
    split; [reflexivity|]. right; right; right. cbn. tauto. }
  clearbody s2.
  assert (N2: ~ rebuilds s2).
  { intros (_ & t & l & Hin & Hl). rewrite C2 in Hl. destruct (list_eq_dec Z.eq_dec t TAG_post) as [->|_].
    - destruct Hin as [X|[X|[X|[]]]]; discriminate X.
    - destruct (get t m); discriminate. }
  destruct (font_write_spec K v s2 out s'' I2 Ew) as (s3 & tabs & Ec & El & I3 & I4 & Ef & Hst & Hk & Hw & Hin & Hf).
  rewrite (compile_quiet K s2 I2 N2) in Ec. injection Ec as <-.
  assert (S34: same s2 s'').
  { apply layouts_raw; [exact I3| |exact El]. intros t l Ht. rewrite C2. destruct (list_eq_dec Z.eq_dec t TAG_post) as [->|].
    - destruct Ht as [X|[X|[]]]; discriminate X.
    - destruct (get t m); discriminate. }
  destruct (Hw TAG_post (Typed (LOther TAG_post x))) as (d & Hd & _); [rewrite <- (S34 TAG_post), C2; reflexivity|].
  exists d. exact Hd.
Qed.
Lemma rename_result drop file out : Forall is_byte file -> rename_glyphs K0 hash drop file = Ok out ->
  Z.of_nat (length out) < 2 ^ 32 -> Forall is_byte out ->
  ((exists v m, holds file v m /\ bytes_of m TAG_head <> None) -> word_sum out mod 2 ^ 32 = 0xB1B0AFBA) /\
  exists v m mx sts, holds file v m /\ maxp_is m mx /\ cmap_is m sts /\
    match bytes_of m TAG_post with
    | None => rewrites nothing_new file out
    | Some _ => exists p, post_is m p /\
        if drop then rewrites nothing_new file out
        else exists names names' d, po_glyphnames p = Some names /\
          rename_loop (Z.to_nat (num_glyphs mx)) 0 (reversed sts) names = Ok names' /\
          post_ser (set_names p names') = Ok d /\ rewrites (replaced TAG_post d) file out
    end.
Proof.
  intros HB E Hs HBo. destruct (cli_inv _ _ _ HB E) as (v & m & s & s' & s'' & H & Sm & G & C & F & Ee & Ew).
  pose proof (F all closed_all) as F0. clear F.
  apply bind_ok in Ee as (mx & s1 & E1 & Ee). destruct (get_table_fresh all closed_all m _ _ _ _ _ F0 G E1) as (F1 & G1 & S1 & R1).
  destruct (R1 I) as (l1 & Rl1 & Sl1). destruct l1; try discriminate. injection Sl1 as ->. cbn [right] in Rl1.
  apply bind_ok in Ee as (oc & s2 & E2 & Ee). destruct (typed_fresh all closed_all m _ _ _ _ _ F1 (good_inv _ _ G1) E2) as (F2 & I2 & S2 & R2).
  assert (G2: good_store K s2) by (eapply same_good; eassumption).
  apply bind_ok in Ee as (op & s3 & E3 & Ee). destruct (typed_fresh all closed_all m _ _ _ _ _ F2 I2 E3) as (F3 & I3 & S3 & R3).
  assert (G3: good_store K s3) by (eapply same_good; eassumption).
  pose proof (same_raw _ _ _ C S1) as C1. pose proof (same_raw _ _ _ C1 S2) as C2. pose proof (same_raw _ _ _ C2 S3) as C3.
  assert (Hc: exists sts, cmap_is m sts /\ match oc with Some sts => reversed sts | None => [] end = reversed sts).
  { unfold cmap_is. destruct oc as [sts|].
    - destruct (R2 I) as (l2 & Rl2 & Sl2). destruct l2 as [| | | | | |? [| | | |]|]; try discriminate. injection Sl2 as ->. destruct Rl2 as (d & X & Y).
      exists sts. rewrite X. auto.
    - exists []. rewrite C1 in R2. unfold bytes_of. destruct (get TAG_cmap m); [discriminate|]. split; reflexivity. }
  destruct Hc as (sts & Hc & Er). rewrite Er in Ee. clear Er.
  assert (P3: plainly s3 m) by (now apply raw_plainly).
  destruct op as [p|].
  - destruct (R3 I) as (l3 & Rl3 & Sl3). destruct l3 as [| | | | | |? [| | | |]|]; try discriminate. injection Sl3 as ->. cbn [right] in Rl3.
    pose proof Rl3 as (dp & Hdp & _). destruct drop.
    + apply slift_inv in Ee as [_ ->]. destruct (plain_result v m s3 s'' file out HB H P3 Ew Hs) as [A B].
      split; [exact B|]. exists v, m, mx, sts. split; [exact H|]. split; [exact Rl1|]. split; [exact Hc|]. rewrite Hdp. exists p. auto.
    + apply bind_ok in Ee as (names & s4 & E4 & Ee). apply slift_inv in E4 as [E4 ->]. apply unwrap_inv in E4.
      apply bind_ok in Ee as (names' & s5 & E5 & Ee). apply slift_inv in E5 as [E5 ->]. unfold smodify in Ee. injection Ee as <-.
      destruct (post_written v s3 s'' _ out m G3 C3 Ew) as [d Hd].
      assert (Pt: printable_tag TAG_post) by (split; [reflexivity|repeat constructor; cbn; discriminate]).
      assert (P5: plainly (ts_insert_typed TAG_post (LOther TAG_post (KPost (set_names p names'))) s3) (bm_insert lex_ltb TAG_post d m)).
      { apply other_insert; [exact Pt|cbn; tauto|discriminate|exact Hd|exact P3]. }
      pose proof (plain_write _ _ _ _ _ P5 Ew) as Ff.
      destruct (replaced_out v m TAG_post d file out HB H Pt ltac:(discriminate) Ff Hs HBo) as [A B].
      split; [exact B|]. exists v, m, mx, sts. split; [exact H|]. split; [exact Rl1|]. split; [exact Hc|]. rewrite Hdp. exists p. split; [exact Rl3|].
      exists names, names', d. auto.
  - apply slift_inv in Ee as [_ ->]. destruct (plain_result v m s3 s'' file out HB H P3 Ew Hs) as [A B].
    split; [exact B|]. exists v, m, mx, sts. split; [exact H|]. split; [exact Rl1|]. split; [exact Hc|].
    rewrite C2 in R3. unfold bytes_of. destruct (get TAG_post m); [discriminate|]. exact A.
Qed.
(** *** The characters *)
Lemma cmap_chars file v m sts : Forall is_byte file -> holds file v m -> cmap_is m sts -> forall c g, reaches sts c g -> 0 <= c < 2 ^ 32.
Proof.
  intros HB H Hc. unfold cmap_is in Hc. pose proof (holds_tabs _ _ _ HB H) as G. unfold good_tabs in G. rewrite Forall_forall in G.
  destruct (bytes_of m TAG_cmap) as [d|] eqn:E; [|subst sts; intros c g (st & [] & _)].
  apply (PNames.cmap_codes d); [|exact Hc]. apply (G (TAG_cmap, d)). now apply (get_In _ lex_strict).
Qed.
Lemma rename_names file out : Forall is_byte file -> rename_glyphs K0 hash false file = Ok out ->
  Z.of_nat (length out) < 2 ^ 32 -> Forall is_byte out ->
  exists v m mx sts, holds file v m /\ maxp_is m mx /\ cmap_is m sts /\
    match bytes_of m TAG_post with
    | None => rewrites nothing_new file out
    | Some _ => exists p names names' d, post_is m p /\ po_glyphnames p = Some names /\
        Z.to_nat (num_glyphs mx) <= length names /\ length names' = length names /\
        (forall k, k < Z.to_nat (num_glyphs mx) -> renamed sts (Z.of_nat k) (nth k names []) (nth k names' [])) /\
        (forall k, Z.to_nat (num_glyphs mx) <= k -> nth k names' [] = nth k names []) /\
        post_ser (set_names p names') = Ok d /\ rewrites (replaced TAG_post d) file out
    end%nat.
Proof.
  intros HB E Hs HBo. destruct (rename_result false file out HB E Hs HBo) as (_ & v & m & mx & sts & H & Hm & Hc & R).
  exists v, m, mx, sts. split; [exact H|]. split; [exact Hm|]. split; [exact Hc|].
  destruct (bytes_of m TAG_post); [|exact R]. destruct R as (p & Hp & names & names' & d & A1 & A2 & A3 & A4).
  destruct (PNames.rename_loop_ok sts _ names names' (cmap_chars file v m sts HB H Hc) A2) as (B1 & B2 & B3 & B4).
  exists p, names, names', d. auto 10.
Qed.
(** *** Reading the new names *)
Lemma production_text c x : production c x -> SPost.text x.
Proof.
  intros H. assert (A: Forall (fun b => 0 <= b <= 127) x).
  { assert (D: forall ds n, spells ds n -> Forall (fun b => 0 <= b <= 127) ds).
    { intros ds n X. apply PNames.spells_hex in X. rewrite Forall_forall in *. intros b Hb. destruct (X b Hb) as [v Hv]. unfold hex in Hv. lia. }
    destruct H as [[_ ->]|[(_ & _ & ds & -> & Hd)|(_ & ds & -> & Hd)]].
    - cbn. repeat constructor; discriminate.
    - apply Forall_app. split; [cbn; repeat constructor; discriminate|eauto].
    - apply Forall_app. split; [cbn; repeat constructor; discriminate|eauto]. }
  exists x. split.
  - eapply Forall_impl; [|exact A]. intros b Hb. cbv beta in Hb. unfold SName.scalar. left. clear - Hb. lia.
  - clear H. induction A as [|b x Hb _ IH]; [reflexivity|]. cbn [map concat]. rewrite <- IH. unfold SPost.utf8_char.
    destruct (Z.leb_spec b 127); [reflexivity|lia].
Qed.
Lemma post_version m p names : post_is m p -> po_glyphnames p = Some names -> po_version p = version2.
Proof.
  intros (d & _ & E) N. unfold from_bytes in E. destruct (post_de (rd_new d)) as [[q r]| |] eqn:Ep; try discriminate. injection E as ->.
  unfold post_de, pbind in Ep. destruct (postcore_de (rd_new d)) as [[core r1]| |] eqn:Ec; try discriminate.
  destruct (Z.eqb_spec (po_version (core None)) version2) as [V|_].
  - unfold pbind in Ep. destruct (de_u16 r1) as [[n r2]| |]; try discriminate.
    destruct (de_counted de_u16 (Z.to_nat n) r2) as [[os r3]| |]; try discriminate.
    destruct (pool_de r3) as [[tb r4]| |]; try discriminate. unfold plift in Ep. destruct (rmapM (name_at tb) os) as [ns| |]; try discriminate.
    unfold pret in Ep. injection Ep as <- _. rewrite <- V.
    assert (X: forall o o', po_version (core o) = po_version (core o')).
    { clear - Ec. unfold postcore_de, pbind in Ec.
      repeat match type of Ec with (match ?x with _ => _ end) = _ => destruct x as [[? ?]| |]; try discriminate | _ => idtac end.
      unfold pret in Ec. injection Ec as <- _. reflexivity. }
    apply X.
  - unfold pret in Ep. injection Ep as <- _. exfalso.
    assert (X: po_glyphnames (core None) = None).
    { clear - Ec. unfold postcore_de, pbind in Ec.
      repeat match type of Ec with (match ?x with _ => _ end) = _ => destruct x as [[? ?]| |]; try discriminate | _ => idtac end.
      unfold pret in Ec. injection Ec as <- _. reflexivity. }
    congruence.
Qed.
Lemma post_fun m p p' : post_is m p -> post_is m p' -> p = p'.
Proof. intros (d & A & B) (d' & A' & B'). congruence. Qed.
Lemma maxp_fun m p p' : maxp_is m p -> maxp_is m p' -> p = p'.
Proof. intros (d & A & B) (d' & A' & B'). congruence. Qed.
Lemma rename_read_back file out v m p names : Forall is_byte file -> rename_glyphs K0 hash false file = Ok out ->
  Z.of_nat (length out) < 2 ^ 32 -> Forall is_byte out ->
  holds file v m -> post_is m p -> SPost.post_fields_ok p -> po_glyphnames p = Some names -> Forall SPost.text names ->
  exists mx sts m' names', maxp_is m mx /\ cmap_is m sts /\ holds out v m' /\ length names' = length names /\
    (forall k, k < Z.to_nat (num_glyphs mx) -> renamed sts (Z.of_nat k) (nth k names []) (nth k names' []))%nat /\
    (forall k, Z.to_nat (num_glyphs mx) <= k -> nth k names' [] = nth k names [])%nat /\
    (post_is m' (set_names p names') <-> SPost.names_fit names').
Proof.
  intros HB E Hs HBo H Hp Hok Hn Ht.
  destruct (rename_names file out HB E Hs HBo) as (v0 & m0 & mx & sts & H0 & Hm & Hc & R).
  destruct (holds_fun _ _ _ _ _ H H0) as [<- <-]. pose proof Hp as (dp & Hdp & _). rewrite Hdp in R.
  destruct R as (p0 & names0 & names' & d & P0 & N0 & A1 & A2 & A3 & A4 & A5 & v1 & m1 & m' & w & H1 & H2 & Lw & W).
  rewrite <- (post_fun _ _ _ Hp P0) in *. rewrite Hn in N0. injection N0 as <-. clear P0.
  destruct (holds_fun _ _ _ _ _ H H1) as [<- <-].
  exists mx, sts, m', names'. split; [exact Hm|]. split; [exact Hc|]. split; [exact H2|]. split; [exact A2|]. split; [exact A3|]. split; [exact A4|].
  assert (Wp: bytes_of m' TAG_post = Some d) by (rewrite (W TAG_post); reflexivity).
  assert (Hok': SPost.post_fields_ok (set_names p names')) by exact Hok.
  assert (Hv: po_version (set_names p names') = version2) by exact (post_version m p names Hp Hn).
  assert (Ht': Forall SPost.text names').
  { apply Forall_forall. intros x Hx. apply (In_nth _ _ []) in Hx as (k & Hk & <-). rewrite Forall_forall in Ht.
    assert (Hold: SPost.text (nth k names [])) by (apply Ht, nth_In; lia).
    destruct (Nat.lt_ge_cases k (Z.to_nat (num_glyphs mx))) as [L|L]; [|now rewrite A4].
    destruct (A3 k L) as [(c & _ & _ & P)|[_ ->]]; [now apply (production_text c)|exact Hold]. }
  unfold post_is. rewrite Wp. split.
  - intros (d' & [= <-] & X). eapply PPost.post_lost2; [exact Hok'|exact Hv|reflexivity|exact Ht'|exact A5|exact X].
  - intros Fit. exists d. split; [reflexivity|].
    destruct (PPost.post_roundtrip2 (set_names p names') names' Hok' Hv eq_refl Ht' Fit) as [X Y]. rewrite X in A5. injection A5 as <-. exact Y.
Qed.

(** ** Writing to the file that was read *)
Lemma in_place_cases edit file :
  cli_in_place K0 hash edit file = match cli K0 hash edit file with Ok out => out | _ => cli_in_place K0 hash edit file end /\
  (cli K0 hash edit file = Panic -> cli_in_place K0 hash edit file = file \/ cli_in_place K0 hash edit file = []).
Proof.
  unfold cli_in_place, cli. destruct (font_load K file) as [[v s]| |]; auto. destruct (edit s) as [[u| |] s']; auto.
  destruct (font_write K v s') as [[out| |] s'']; auto. split; [reflexivity|discriminate].
Qed.
End Cli.

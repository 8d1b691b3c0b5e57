(** Exactly which bytes make the reader of a glyph abort. *)
From Verif.Model Require Import MBase MFixed MTables MGlyph MGlyf.
From Verif.Spec Require Import SBase SReader SCalm SStop SOutline.
From Verif.Proofs Require Import PBase PCalm PStop.
From Verif.Proofs Require PGlyph.

Lemma bits f : contains f F_REPEAT = Z.testbit f 3 /\ contains f F_XSHORT = Z.testbit f 1 /\ contains f F_XSAME = Z.testbit f 4 /\
  contains f F_YSHORT = Z.testbit f 2 /\ contains f F_YSAME = Z.testbit f 5.
Proof.
  split; [exact (PGlyph.contains_bit f 3 ltac:(lia))|]. split; [exact (PGlyph.contains_bit f 1 ltac:(lia))|]. split; [exact (PGlyph.contains_bit f 4 ltac:(lia))|].
  split; [exact (PGlyph.contains_bit f 2 ltac:(lia))|exact (PGlyph.contains_bit f 5 ltac:(lia))].
Qed.
Lemma prim_ok t d k st v : Forall is_byte d -> number_at t d k v -> de_prim t (mkrd d k st) = Ok (v, mkrd d (k + width t) st).
Proof.
  intros B N. destruct (prim_at t d k st B) as [(w & N' & E)|(L & _)]; [|apply number_fits in N; lia].
  now rewrite (number_unique _ _ _ _ _ N N').
Qed.

(** ** Flags *)
Lemma still_flags : forall fuel n, still (de_flags fuel n).
Proof.
  induction fuel as [|k IH]; intros [|n]; cbn [de_flags]; try apply still_ret. prims. apply still_bind; [apply still_prim|intros f].
  destruct (contains f F_REPEAT); stills; apply IH.
Qed.
Lemma flags_sound d st : Forall is_byte d -> forall fuel n q fl r, (n <= fuel)%nat -> de_flags fuel n (mkrd d q st) = Ok (fl, r) ->
  exists q', r = mkrd d q' st /\ flagged d q n fl q' /\ (n <= length fl)%nat.
Proof.
  intros B. induction fuel as [|k IH]; intros [|n] q fl r Hn; try lia.
  - cbn [de_flags]. unfold pret. intros [= <- <-]. exists q. repeat split; [constructor|lia].
  - cbn [de_flags]. unfold pret. intros [= <- <-]. exists q. repeat split; [constructor|lia].
  - cbn [de_flags]. prims. destruct (prim_at U8 d q st B) as [(f & N & E)|(L & E)]; [|rewrite (bind_err _ _ _ E); discriminate].
    rewrite (bind_at _ _ _ _ _ E). clear E. cbn [width]. destruct (bits f) as (-> & _). destruct (Z.testbit f 3) eqn:Eb.
    + destruct (prim_at U8 d (q + 1) st B) as [(t & N2 & E)|(L & E)]; [|rewrite (bind_err _ _ _ E); discriminate].
      rewrite (bind_at _ _ _ _ _ E). clear E. cbn [width]. replace (q + 1 + 1)%nat with (q + 2)%nat by lia.
      unfold pbind. destruct (de_flags k (S n - S (Z.to_nat t)) (mkrd d (q + 2) st)) as [[fs r']| |] eqn:E; [|discriminate|discriminate].
      unfold pret. intros X. apply Ok_inj in X. injection X as <- <-.
      apply IH in E as (q' & -> & F & L); [|lia]. exists q'. split; [reflexivity|]. split.
      * apply flagged_often; try assumption.
      * cbn [List.length app repeat]. rewrite app_length, repeat_length. lia.
    + unfold pbind. destruct (de_flags k (S n - 1) (mkrd d (q + 1) st)) as [[fs r']| |] eqn:E; [|discriminate|discriminate].
      unfold pret. intros X. apply Ok_inj in X. injection X as <- <-. replace (S n - 1)%nat with n in E by lia.
      apply IH in E as (q' & -> & F & L); [|lia]. exists q'. split; [reflexivity|]. split; [now apply flagged_once|cbn; lia].
Qed.
Lemma flags_complete d st : Forall is_byte d -> forall q n fl q', flagged d q n fl q' -> forall fuel, (n <= fuel)%nat ->
  de_flags fuel n (mkrd d q st) = Ok (fl, mkrd d q' st).
Proof.
  intros B q n fl q' F. induction F as [q|q n f fl q' N Eb F IH|q n f t fl q' N Eb N2 F IH]; intros fuel Hn.
  - destruct fuel; reflexivity.
  - destruct fuel as [|k]; [lia|]. cbn [de_flags]. prims. rewrite (bind_at _ _ _ _ _ (prim_ok U8 d q st f B N)). destruct (bits f) as (-> & _). rewrite Eb.
    replace (S n - 1)%nat with n by lia. cbn [width]. rewrite (bind_at _ _ _ _ _ (IH k ltac:(lia))). reflexivity.
  - destruct fuel as [|k]; [lia|]. cbn [de_flags]. prims. rewrite (bind_at _ _ _ _ _ (prim_ok U8 d q st f B N)). destruct (bits f) as (-> & _). rewrite Eb.
    cbn [width]. rewrite (bind_at _ _ _ _ _ (prim_ok U8 d (q + 1) st t B N2)). cbn [width]. replace (q + 1 + 1)%nat with (q + 2)%nat by lia.
    replace (S n - S (Z.to_nat t))%nat with (n - Z.to_nat t)%nat by lia. rewrite (bind_at _ _ _ _ _ (IH k ltac:(lia))). reflexivity.
Qed.

(** ** Coordinates *)
Section Coords.
Context (d : list Z) (B : Forall is_byte d) (short same mshort msame : Z)
  (Hs : forall f, contains f mshort = Z.testbit f short) (Ha : forall f, contains f msame = Z.testbit f same).
Lemma step_unique q f v v' : step_at d short same q f v -> step_at d short same q f v' -> v = v'.
Proof.
  unfold step_at. destruct (Z.testbit f short).
  - intros (b & N & ->) (b' & N' & ->). now rewrite (number_unique _ _ _ _ _ N N').
  - destruct (Z.testbit f same); [congruence|apply number_unique].
Qed.
Lemma leaves_cons q s f fl : leaves d short same q s (f :: fl) <->
  exists v, step_at d short same q f v /\ (~ is_short (s + v) \/ (is_short (s + v) /\ leaves d short same (q + step_size short same f) (s + v) fl)).
Proof.
  split.
  - intros (pre & g & post & s' & q' & v & E & W & S & R). destruct pre as [|h pre].
    + injection E as <- <-. inversion W; subst. exists v. auto.
    + injection E as <- ->. inversion W as [|? ? ? ? v0 ? ? S0 R0 W0]; subst. exists v0. split; [exact S0|]. right. split; [exact R0|].
      exists pre, g, post, s', q', v. auto.
  - intros (v & S & [R|[R (pre & g & post & s' & q' & v' & -> & W & S' & R')]]).
    + exists [], f, fl, s, q, v. split; [reflexivity|]. split; [constructor|auto].
    + exists (f :: pre), g, post, s', q', v'. split; [reflexivity|]. split; [econstructor; eassumption|auto].
Qed.
Lemma walk_cons q s f fl s' q' : walk d short same q s (f :: fl) s' q' <->
  exists v, step_at d short same q f v /\ is_short (s + v) /\ walk d short same (q + step_size short same f) (s + v) fl s' q'.
Proof. split; [intros W; inversion W; subst; eauto|]. intros (v & S & R & W). econstructor; eassumption. Qed.
Lemma one_step st q f (last : Z) :
  let p := if contains f mshort then
           (c <-- de_u8 ;; if contains f msame then plift (chk_i 16 (last + c)) else plift (chk_i 16 (last - c)))
         else if contains f msame then pret last else (c <-- de_i16 ;; plift (chk_i 16 (last + c))) in
  is_short last ->
  (exists v, step_at d short same q f v /\ is_short (last + v) /\ p (mkrd d q st) = Ok (last + v, mkrd d (q + step_size short same f) st)) \/
  (exists v, step_at d short same q f v /\ ~ is_short (last + v) /\ p (mkrd d q st) = Panic) \/
  ((forall v, ~ step_at d short same q f v) /\ p (mkrd d q st) = Err).
Proof.
  cbv zeta. intros Hl. rewrite Hs, Ha. unfold step_at, step_size, is_short in *. prims. destruct (Z.testbit f short).
  - destruct (prim_at U8 d q st B) as [(b & N & E)|(L & E)].
    2: { right. right. split; [intros v (b & N & _); apply number_fits in N; lia|exact (bind_err _ _ _ E)]. }
    rewrite (bind_at _ _ _ _ _ E). cbn [width]. destruct (Z.testbit f same).
    + destruct (chk_i_cases (last + b)) as [(R & E2)|(R & E2)]; unfold plift; rewrite E2; [left|right; left]; exists b; (split; [eauto|auto]).
    + destruct (chk_i_cases (last - b)) as [(R & E2)|(R & E2)]; unfold plift; rewrite E2; [left|right; left]; exists (- b); replace (last + - b) with (last - b) by lia; (split; [eauto|auto]).
  - destruct (Z.testbit f same).
    + left. exists 0. rewrite Z.add_0_r, Nat.add_0_r. auto.
    + destruct (prim_at I16 d q st B) as [(b & N & E)|(L & E)].
      2: { right. right. split; [intros v N; apply number_fits in N; lia|exact (bind_err _ _ _ E)]. }
      rewrite (bind_at _ _ _ _ _ E). cbn [width].
      destruct (chk_i_cases (last + b)) as [(R & E2)|(R & E2)]; unfold plift; rewrite E2; [left|right; left]; exists b; auto.
Qed.
Lemma coords_cases st : forall fl q s, is_short s ->
  (~ leaves d short same q s fl /\ exists vs s' q', length vs = length fl /\ walk d short same q s fl s' q' /\ de_coords mshort msame s fl (mkrd d q st) = Ok (vs, mkrd d q' st)) \/
  (leaves d short same q s fl /\ (forall s' q', ~ walk d short same q s fl s' q') /\ de_coords mshort msame s fl (mkrd d q st) = Panic) \/
  (~ leaves d short same q s fl /\ (forall s' q', ~ walk d short same q s fl s' q') /\ de_coords mshort msame s fl (mkrd d q st) = Err).
Proof.
  induction fl as [|f fl IH]; intros q s Rs; cbn [de_coords].
  - left. split.
    + intros (pre & g & post & s' & q' & v & E & _). destruct pre; discriminate E.
    + exists [], s, q. split; [reflexivity|]. split; [constructor|reflexivity].
  - destruct (one_step st q f s Rs) as [(v & S & R & E)|[(v & S & R & E)|(S & E)]].
    + rewrite (bind_at _ _ _ _ _ E). clear E.
      destruct (IH (q + step_size short same f)%nat (s + v) R) as [(X & vs & s' & q' & L & W & E)|[(X & W & E)|(X & W & E)]].
      * left. rewrite leaves_cons. split.
        -- intros (v' & S' & [R'|[_ X']]); rewrite (step_unique _ _ _ _ S' S) in *; contradiction.
        -- exists ((s + v) :: vs), s', q'. split; [cbn; lia|]. split; [apply walk_cons; eauto|]. rewrite (bind_at _ _ _ _ _ E). reflexivity.
      * right. left. rewrite leaves_cons. split; [eauto|]. split.
        -- intros s' q' W'. apply walk_cons in W' as (v' & S' & _ & W'). rewrite (step_unique _ _ _ _ S' S) in W'. exact (W _ _ W').
        -- exact (bind_panic _ _ _ E).
      * right. right. rewrite leaves_cons. split; [|split].
        -- intros (v' & S' & [R'|[_ X']]); rewrite (step_unique _ _ _ _ S' S) in *; contradiction.
        -- intros s' q' W'. apply walk_cons in W' as (v' & S' & _ & W'). rewrite (step_unique _ _ _ _ S' S) in W'. exact (W _ _ W').
        -- exact (bind_err _ _ _ E).
    + right. left. rewrite leaves_cons. split; [eauto|]. split; [|exact (bind_panic _ _ _ E)].
      intros s' q' W'. apply walk_cons in W' as (v' & S' & R' & _). rewrite (step_unique _ _ _ _ S' S) in R'. contradiction.
    + right. right. rewrite leaves_cons. split; [|split; [|exact (bind_err _ _ _ E)]].
      * intros (v' & S' & _). exact (S v' S').
      * intros s' q' W'. apply walk_cons in W' as (v' & S' & _). exact (S v' S').
Qed.
Lemma walk_unique : forall fl q s a b a' b', walk d short same q s fl a b -> walk d short same q s fl a' b' -> a = a' /\ b = b'.
Proof.
  induction fl as [|f fl IH]; intros q s a b a' b' W W'.
  - inversion W; inversion W'; subst. auto.
  - apply walk_cons in W as (v & S & _ & W). apply walk_cons in W' as (v' & S' & _ & W'). rewrite (step_unique _ _ _ _ S' S) in W'. exact (IH _ _ _ _ _ _ W W').
Qed.
End Coords.

(** ** Contours *)
Lemma split_panic {A} (l : list A) : forall ends start,
  (split_contours l start ends = Panic <-> exists i e, nth_error ends i = Some e /\ ((e < nth i (start :: ends) 0)%nat \/ (length l < e)%nat)) /\
  split_contours l start ends <> Err.
Proof.
  induction ends as [|e ends IH]; intros start; cbn [split_contours].
  - split; [|discriminate]. split; [discriminate|]. intros ([|i] & x & X & _); discriminate X.
  - unfold slice_range. destruct (IH e) as [I1 I2]. destruct ((e <? start)%nat || (length l <? e)%nat) eqn:Eb; cbn [rbind].
    + split; [|discriminate]. split; [intros _|reflexivity]. exists 0%nat, e. split; [reflexivity|]. cbn [nth]. lia.
    + assert (X: split_contours l e ends = Panic <-> exists i x, nth_error (e :: ends) i = Some x /\ ((x < nth i (start :: e :: ends) 0)%nat \/ (length l < x)%nat)).
      { rewrite I1. split.
        - intros (i & x & X & Y). exists (S i), x. auto.
        - intros ([|i] & x & X & Y); [cbn in X, Y; injection X as <-; lia|]. exists i, x. auto. }
      destruct (split_contours l e ends); cbn [rbind]; (split; [rewrite <- X|]; [split; congruence|congruence]).
Qed.
Lemma zip_length : forall xs ys fl, length xs = length fl -> length ys = length fl -> length (zip_points xs ys fl) = length fl.
Proof. induction xs as [|x xs IH]; intros [|y ys] [|f fl] H1 H2; cbn in *; try lia. rewrite IH; lia. Qed.
Lemma ends_at d st : Forall is_byte d -> forall n k,
  (exists l, length l = n /\ (forall i a, nth_error l i = Some a -> u16_at d (k + 2 * i) a) /\
     (n = 0%nat \/ (k + 2 * n <= length d)%nat) /\ de_counted de_u16_unwrap n (mkrd d k st) = Ok (l, mkrd d (k + 2 * n) st)) \/
  ((0 < n)%nat /\ (length d < k + 2 * n)%nat /\ de_counted de_u16_unwrap n (mkrd d k st) = Panic).
Proof.
  intros B. induction n as [|n IH]; intros k; cbn [de_counted].
  - left. exists []. repeat split; [intros [|i] a; discriminate|now left|]. unfold pret. do 2 f_equal. f_equal. lia.
  - destruct (prim_at U16 d k st B) as [(a & Ra & E)|(L & E)]; cbn [width] in *.
    + assert (E': de_u16_unwrap (mkrd d k st) = Ok (a, mkrd d (k + 2) st)) by (unfold de_u16_unwrap, de_u16; now rewrite E).
      rewrite (bind_at _ _ _ _ _ E'). pose proof (number_fits _ _ _ _ Ra) as La. cbn [width] in La.
      destruct (IH (k + 2)%nat) as [(l & Hl & Hr & Hn & E2)|(Hn & L2 & E2)].
      * left. exists (a :: l). split; [cbn; lia|]. split; [|split].
        -- intros [|i] b; cbn [nth_error]; [intros [= <-]; now replace (k + 2 * 0)%nat with k by lia|].
           intros Hi. apply Hr in Hi. now replace (k + 2 * S i)%nat with (k + 2 + 2 * i)%nat by lia.
        -- right. destruct Hn; [subst n|]; lia.
        -- rewrite (bind_at _ _ _ _ _ E2). unfold pret. do 2 f_equal. f_equal. lia.
      * right. split; [lia|]. split; [lia|]. exact (bind_panic _ _ _ E2).
    + assert (E': de_u16_unwrap (mkrd d k st) = Panic) by (unfold de_u16_unwrap, de_u16; now rewrite E).
      right. split; [lia|]. split; [lia|]. exact (bind_panic _ _ _ E').
Qed.

(** ** Glyphs made of components *)
Lemma still_err {A} : still (@perr A).
Proof. intros d k st B. exact I. Qed.
Lemma still_component : still de_component.
Proof.
  unfold de_component, de_f64_f2dot14, de_f2dot14. prims. stills.
  - destruct (negb _); [apply still_bind|].
    + destruct (contains _ C_WORDS); stills.
    + intros mp. destruct (contains _ _); [apply still_err|apply still_ret].
    + destruct (contains _ C_WORDS); stills.
  - match goal with x : (_ * _ * _)%type |- _ => destruct x as [[mp x'] y'] end. apply still_bind; [|intros [[[? ?] ?] ?]; apply still_ret].
    destruct (contains _ C_SCALE); [stills|]. destruct (contains _ C_XYSCALE); [stills|]. destruct (contains _ C_2X2); stills.
Qed.
Lemma still_components : forall fuel, still (de_components fuel).
Proof.
  induction fuel as [|k IH]; cbn [de_components]; [apply still_err|]. apply still_bind; [apply still_component|intros c].
  destruct (contains _ C_MORE); [|apply still_ret]. apply still_bind; [exact IH|intros [[cs ov] hi]; apply still_ret].
Qed.
Lemma still_instructions : still de_instructions.
Proof. unfold de_instructions. prims. apply still_bind; [apply still_prim|intros n]. destruct (0 <? n); stills. Qed.
Lemma instructions_at d k st : Forall is_byte d ->
  (exists m l, number_at I16 d k m /\ (k + 2 + Z.to_nat m <= length d)%nat /\ de_instructions (mkrd d k st) = Ok (l, mkrd d (k + 2 + Z.to_nat m) st)) \/
  ((forall m, number_at I16 d k m -> (length d < k + 2 + Z.to_nat m)%nat) /\ de_instructions (mkrd d k st) = Err).
Proof.
  intros B. unfold de_instructions. prims. destruct (prim_at I16 d k st B) as [(m & N & E)|(L & E)]; cbn [width] in *.
  2: { right. split; [intros m N; apply number_fits in N; cbn [width] in N; lia|exact (bind_err _ _ _ E)]. }
  rewrite (bind_at _ _ _ _ _ E). pose proof (number_fits _ _ _ _ N) as F. cbn [width] in F. destruct (0 <? m) eqn:Em.
  - destruct (items_at _ _ _ d st (item_prim U8 d st B) (Z.to_nat m) (k + 2)) as [(l & _ & _ & [Z0|L] & E2)|(_ & L & E2)]; cbn [width] in *; [lia| |].
    + left. exists m, l. split; [exact N|]. split; [lia|]. rewrite E2. do 2 f_equal. f_equal. lia.
    + right. split; [|exact E2]. intros m' N'. rewrite (number_unique _ _ _ _ _ N' N). lia.
  - left. exists m, []. split; [exact N|]. split; [lia|]. unfold pret. do 2 f_equal. f_equal. lia.
Qed.
Lemma last_map {A B} (f : A -> B) a : forall l b, l <> [] -> last (map f l) b = f (last l a).
Proof. induction l as [|x [|y l] IH]; intros b H; [contradiction|reflexivity|]. cbn [map last] in *. apply IH. discriminate. Qed.

Lemma glyph_stops : stops de_glyph glyph_bad.
Proof.
  intros d k st B. unfold de_glyph. prims.
  destruct (prim_at I16 d k st B) as [(n & N & E)|(L & E)]; cbn [width] in *.
  2: { rewrite (bind_err _ _ _ E). split; [discriminate|]. intros (n & N & _). apply number_fits in N. cbn [width] in N. lia. }
  rewrite (bind_at _ _ _ _ _ E). clear E.
  assert (Short: (length d < k + 10)%nat -> ~ glyph_bad d k) by (intros L (n' & _ & _ & L' & _); lia).
  do 4 (match goal with |- pbind _ _ (mkrd _ ?q _) = Panic <-> _ =>
      let E := fresh "E" in let F := fresh "F" in destruct (prim_at I16 d q st B) as [(? & F & E)|(? & E)]; cbn [width] in *;
      [rewrite (bind_at _ _ _ _ _ E); clear E; apply number_fits in F; cbn [width] in F|
       rewrite (bind_err _ _ _ E); split; [discriminate|intros X; exfalso; apply Short in X; [exact X|lia]]] end).
  assert (F10: (k + 10 <= length d)%nat) by lia. replace (k + 2 + 2 + 2 + 2 + 2)%nat with (k + 10)%nat by lia.
  destruct (n <? 1) eqn:En.
  { split.
    - intros X. exfalso. revert X. apply still_not; [|exact B]. apply still_bind.
      + intros d' k' st' B'. apply still_components. exact B'.
      + intros [[cs ov] hi]. apply still_bind; [destruct hi; [apply still_instructions|apply still_ret]|intros ?; apply still_ret].
    - intros (n' & N' & Hn & _). rewrite (number_unique _ _ _ _ _ N' N) in Hn. lia. }
  assert (Bad: glyph_bad d k <-> (length d < k + 10 + 2 * Z.to_nat n)%nat \/ outline_bad d k (Z.to_nat n)).
  { split; [|intros H; exists n; split; [exact N|]; split; [lia|auto]]. intros (n' & N' & _ & _ & H). now rewrite (number_unique _ _ _ _ _ N' N) in H. }
  rewrite Bad. clear Bad Short. destruct (ends_at d st B (Z.to_nat n) (k + 10)) as [(ends & Hl & Hr & Hn & E)|(_ & L & E)].
  2: { rewrite (bind_panic _ _ _ E). tauto. }
  rewrite (bind_at _ _ _ _ _ E). clear E. cbv zeta.
  assert (Hd: (k + 10 + 2 * Z.to_nat n <= length d)%nat) by lia. clear Hn.
  assert (Ends: forall ends', length ends' = Z.to_nat n -> (forall i e, nth_error ends' i = Some e -> u16_at d (k + 10 + 2 * i) e) -> ends' = ends).
  { intros ends' L' R'. apply nth_ext with (d := 0) (d' := 0); [lia|]. intros i Hi.
    assert (X: nth_error ends' i = Some (nth i ends' 0)) by (apply nth_error_nth'; lia).
    assert (Y: nth_error ends i = Some (nth i ends 0)) by (apply nth_error_nth'; lia).
    exact (number_unique _ _ _ _ _ (R' _ _ X) (Hr _ _ Y)). }
  destruct (instructions_at d (k + 10 + 2 * Z.to_nat n) st B) as [(m & il & Nm & Lm & E)|(Lm & E)].
  2: { rewrite (bind_err _ _ _ E). split; [discriminate|]. intros [X|(ends' & m & fl & q & _ & _ & Nm & L & _)]; [lia|]. apply Lm in Nm. lia. }
  rewrite (bind_at _ _ _ _ _ E). clear E. replace (k + 10 + 2 * Z.to_nat n + 2 + Z.to_nat m)%nat with (k + 12 + 2 * Z.to_nat n + Z.to_nat m)%nat in * by lia.
  set (q0 := (k + 12 + 2 * Z.to_nat n + Z.to_nat m)%nat) in *.
  rewrite (last_map (fun x => S (Z.to_nat x)) 0) by (intros ->; cbn in Hl; lia).
  set (np := S (Z.to_nat (last ends 0))) in *.
  assert (Bad: forall P, (outline_bad d k (Z.to_nat n) <-> P) -> ((length d < k + 10 + 2 * Z.to_nat n)%nat \/ outline_bad d k (Z.to_nat n) <-> P)).
  { intros P H. rewrite H. split; [intros [X|X]; [lia|exact X]|auto]. }
  rewrite (Bad _ (iff_refl _)). clear Bad.
  assert (Fl: forall ends' m' fl q, length ends' = Z.to_nat n -> (forall i e, nth_error ends' i = Some e -> u16_at d (k + 10 + 2 * i) e) ->
    number_at I16 d (k + 10 + 2 * Z.to_nat n) m' -> flagged d (k + 12 + 2 * Z.to_nat n + Z.to_nat m') (S (Z.to_nat (last ends' 0))) fl q ->
    ends' = ends /\ de_flags np np (mkrd d q0 st) = Ok (fl, mkrd d q st)).
  { intros ends' m' fl q L' R' Nm' F'. pose proof (Ends _ L' R') as ->. rewrite (number_unique _ _ _ _ _ Nm' Nm) in F'. split; [reflexivity|].
    apply (flags_complete d st B _ _ _ _ F'). apply Nat.le_refl. }
  pose proof (still_flags np np d q0 st B) as Sf. destruct (de_flags np np (mkrd d q0 st)) as [[fl r]| |] eqn:Ef.
  3: { contradiction. }
  2: { rewrite (bind_err _ _ _ Ef). split; [discriminate|]. intros (ends' & m' & fl & q & L' & R' & Nm' & _ & F' & _). destruct (Fl _ _ _ _ L' R' Nm' F') as [_ X]. discriminate X. }
  clear Sf. destruct (flags_sound d st B _ _ _ _ _ (Nat.le_refl _) Ef) as (q & -> & Ff & Lf).
  rewrite (bind_at _ _ _ _ _ Ef). clear Ef.
  assert (Bad: outline_bad d k (Z.to_nat n) <-> leaves d 1 4 q 0 fl \/
     exists x q', walk d 1 4 q 0 fl x q' /\
       (leaves d 2 5 q' 0 fl \/
        ((exists y q'', walk d 2 5 q' 0 fl y q'') /\
         exists i e, nth_error ends i = Some e /\
           (Z.of_nat (length fl) <= e \/ exists e', nth_error ends (S i) = Some e' /\ e' < e)))).
  { split.
    - intros (ends' & m' & fl' & q' & L' & R' & Nm' & _ & F' & X). destruct (Fl _ _ _ _ L' R' Nm' F') as [-> Y].
      apply Ok_inj in Y. injection Y as <- <-. exact X.
    - intros X. exists ends, m, fl, q. auto 7. }
  rewrite Bad. clear Bad Fl Ends.
  assert (R0: is_short 0) by (unfold is_short; lia).
  destruct (coords_cases d B 1 4 F_XSHORT F_XSAME (fun f => proj1 (proj2 (bits f))) (fun f => proj1 (proj2 (proj2 (bits f)))) st fl q 0 R0)
    as [(X & xs & xe & q' & Lx & W & E)|[(X & W & E)|(X & W & E)]].
  2: { rewrite (bind_panic _ _ _ E). tauto. }
  2: { rewrite (bind_err _ _ _ E). split; [discriminate|]. intros [Y|(xe & q' & Y & _)]; [contradiction|]. destruct (W _ _ Y). }
  rewrite (bind_at _ _ _ _ _ E). clear E.
  assert (Bad: forall P : nat -> Prop, (leaves d 1 4 q 0 fl \/ exists x q', walk d 1 4 q 0 fl x q' /\ P q') <-> P q').
  { intros P. split; [|intros H; right; eauto]. intros [Y|(x9 & q9 & Y & H)]; [contradiction|]. destruct (walk_unique d 1 4 _ _ _ _ _ _ _ W Y) as [_ <-]. exact H. }
  rewrite (Bad (fun q' => leaves d 2 5 q' 0 fl \/
        ((exists y q'', walk d 2 5 q' 0 fl y q'') /\
         exists i e, nth_error ends i = Some e /\
           (Z.of_nat (length fl) <= e \/ exists e', nth_error ends (S i) = Some e' /\ e' < e)))). clear Bad.
  destruct (coords_cases d B 2 5 F_YSHORT F_YSAME (fun f => proj1 (proj2 (proj2 (proj2 (bits f))))) (fun f => proj2 (proj2 (proj2 (proj2 (bits f))))) st fl q' 0 R0)
    as [(Xy & ys & ye & q'' & Ly & Wy & E)|[(Xy & Wy & E)|(Xy & Wy & E)]].
  2: { rewrite (bind_panic _ _ _ E). tauto. }
  2: { rewrite (bind_err _ _ _ E). split; [discriminate|]. intros [Y|((ye & q'' & Y) & _)]; [contradiction|]. destruct (Wy _ _ Y). }
  rewrite (bind_at _ _ _ _ _ E). clear E.
  destruct (split_panic (zip_points xs ys fl) (map (fun x => S (Z.to_nat x)) ends) 0) as [Sp Se]. rewrite (zip_length _ _ _ Lx Ly) in Sp.
  assert (Nn: forall i e, nth_error ends i = Some e -> 0 <= e) by (intros i e Hi; apply Hr, u16_range in Hi; lia).
  assert (Map: (exists i e, nth_error (map (fun x => S (Z.to_nat x)) ends) i = Some e /\ ((e < nth i (0 :: map (fun x => S (Z.to_nat x)) ends) 0)%nat \/ (length fl < e)%nat)) <->
    exists i e, nth_error ends i = Some e /\ (Z.of_nat (length fl) <= e \/ exists e', nth_error ends (S i) = Some e' /\ e' < e)).
  { split.
    - intros (i & e & Hi & Hor). rewrite nth_error_map in Hi. destruct (nth_error ends i) as [v|] eqn:Ei; [|discriminate]. cbn [option_map] in Hi. injection Hi as <-.
      pose proof (Nn _ _ Ei). destruct Hor as [Hlt|Hlen]; [|exists i, v; split; [exact Ei|left; lia]].
      destruct i as [|i]; cbn [nth] in Hlt; [lia|].
      assert (Hi': (S i < length ends)%nat) by (apply nth_error_Some; rewrite Ei; discriminate).
      destruct (nth_error ends i) as [w|] eqn:Ew; [|apply nth_error_None in Ew; lia].
      assert (Z1: nth_error (map (fun x => S (Z.to_nat x)) ends) i = Some (S (Z.to_nat w))) by (rewrite nth_error_map, Ew; reflexivity).
      rewrite (nth_error_nth _ _ _ Z1) in Hlt. exists i, w. split; [exact Ew|]. right. exists v. split; [exact Ei|lia].
    - intros (i & e & Hi & [Hlen|(e' & Hi' & Hlt)]).
      + exists i, (S (Z.to_nat e)). rewrite nth_error_map, Hi. split; [reflexivity|]. pose proof (Nn _ _ Hi). right. lia.
      + exists (S i), (S (Z.to_nat e')). rewrite nth_error_map, Hi'. split; [reflexivity|]. left. cbn [nth].
        assert (Z1: nth_error (map (fun x => S (Z.to_nat x)) ends) i = Some (S (Z.to_nat e))) by (rewrite nth_error_map, Hi; reflexivity).
        rewrite (nth_error_nth _ _ _ Z1). pose proof (Nn _ _ Hi'). lia. }
  rewrite Map in Sp.
  transitivity (split_contours (zip_points xs ys fl) 0 (map (fun x => S (Z.to_nat x)) ends) = Panic).
  - unfold pbind, plift. destruct (split_contours (zip_points xs ys fl) 0 (map (fun x => S (Z.to_nat x)) ends)); [split; discriminate|split; discriminate|tauto].
  - rewrite Sp. split; [intros H; right; split; [eauto|exact H]|]. intros [Y|[_ H]]; [contradiction|exact H].
Qed.

(** ** The table of glyphs *)
Lemma glyf_stops d locs : Forall is_byte d -> (de_glyf d locs = Panic <->
  exists i off gs, nth_error locs i = Some (Some off) /\ glyph_bad d (Z.to_nat off) /\ de_glyf d (firstn i locs) = Ok gs).
Proof.
  intros B. induction locs as [|o locs IH].
  - split; [discriminate|]. intros ([|i] & off & gs & X & _); discriminate X.
  - unfold de_glyf in *. cbn [rmapM]. destruct o as [off|].
    + pose proof (glyph_stops d (Z.to_nat off) [0%nat] B) as G.
      destruct (de_glyph (mkrd d (Z.to_nat off) [0%nat])) as [[g r]| |] eqn:E; cbn [rbind].
      * match goal with |- rbind ?X _ = Panic <-> _ => transitivity (X = Panic) end.
        { destruct (rmapM _ locs); cbn [rbind]; split; congruence. }
        rewrite IH. split.
        -- intros (i & off' & gs & H1 & H2 & H3). exists (S i), off', (g :: gs). split; [exact H1|]. split; [exact H2|].
           cbn [firstn rmapM]. rewrite E. cbn [rbind]. now rewrite H3.
        -- intros ([|i] & off' & gs & H1 & H2 & H3).
           ++ injection H1 as <-. apply G in H2. discriminate H2.
           ++ cbn [firstn rmapM] in H3. rewrite E in H3. cbn [rbind] in H3.
              match type of H3 with rbind ?X _ = _ => destruct X as [gs'| |] eqn:E3; cbn [rbind] in H3; try discriminate H3 end.
              exists i, off', gs'. auto.
      * split; [discriminate|]. intros ([|i] & off' & gs & H1 & H2 & H3).
        -- injection H1 as <-. apply G in H2. discriminate H2.
        -- cbn [firstn rmapM] in H3. rewrite E in H3. discriminate H3.
      * split; [intros _|reflexivity]. exists 0%nat, off, []. split; [reflexivity|]. split; [now apply G|reflexivity].
    + cbn [rbind]. match goal with |- rbind ?X _ = Panic <-> _ => transitivity (X = Panic) end.
      { destruct (rmapM _ locs); cbn [rbind]; split; congruence. }
      rewrite IH. split.
      * intros (i & off' & gs & H1 & H2 & H3). exists (S i), off', (empty_glyph :: gs). split; [exact H1|]. split; [exact H2|].
        cbn [firstn rmapM rbind]. now rewrite H3.
      * intros ([|i] & off' & gs & H1 & H2 & H3); [discriminate H1|].
        cbn [firstn rmapM rbind] in H3. match type of H3 with rbind ?X _ = _ => destruct X as [gs'| |] eqn:E3; cbn [rbind] in H3; try discriminate H3 end.
        exists i, off', gs'. auto.
Qed.

From Coq Require Import List ZArith Bool Lia.
Import ListNotations.
From Verif.Model Require Import MBase MTag MTagMacro.
From Verif.Spec Require Import SBase SName SPost STagMacro.
From Verif.Proofs Require Import PBase PTag.
Open Scope Z_scope.

Lemma hex_digit_iff c v : hex_digit c = Some v <-> hexit c v.
Proof.
  unfold hex_digit, hexit. destruct ((48 <=? c) && (c <=? 57)) eqn:E1; [split; [intros [= <-]; lia|intros H; f_equal; lia]|].
  destruct ((97 <=? c) && (c <=? 102)) eqn:E2; [split; [intros [= <-]; lia|intros H; f_equal; lia]|].
  destruct ((65 <=? c) && (c <=? 70)) eqn:E3; [split; [intros [= <-]; lia|intros H; f_equal; lia]|].
  split; [discriminate|lia].
Qed.
Lemma hex_digit_none c : (forall v, ~ hexit c v) -> hex_digit c = None.
Proof. intros H. destruct (hex_digit c) eqn:E; [|reflexivity]. apply hex_digit_iff in E. now apply H in E. Qed.
Lemma white_iff c : is_whitespace c = true <-> white_space c.
Proof.
  unfold is_whitespace, white_space. rewrite !orb_true_iff, existsb_exists. split.
  - intros [[H|(x & Hx & E)]|H]; [left; lia| |right; right; lia]. apply Z.eqb_eq in E. subst x. tauto.
  - intros [H|[H|H]]; [left; left; lia| |right; lia]. left. right. exists c. split; [exact H|apply Z.eqb_refl].
Qed.
Lemma scalar_iff c : is_scalar c = true <-> scalar c.
Proof. unfold is_scalar, scalar. lia. Qed.
Lemma char_bytes_eq c : char_bytes c = utf8_char c.
Proof.
  unfold char_bytes, utf8_char. replace (c <? 128) with (c <=? 127) by lia. replace (c <? 2048) with (c <=? 2047) by lia.
  replace (c <? 65536) with (c <=? 65535) by lia. reflexivity.
Qed.
Lemma str_bytes_eq s : str_bytes s = utf8 s.
Proof. unfold str_bytes, utf8. f_equal. apply map_ext. exact char_bytes_eq. Qed.

Lemma skip_white_spec ws s : Forall white_space ws -> (forall c s', s = c :: s' -> ~ white_space c) -> skip_white (ws ++ s) = s.
Proof.
  intros H Hs. induction H as [|c ws Hc H IH]; cbn [app skip_white].
  - destruct s as [|c s']; [reflexivity|]. cbn [skip_white]. destruct (is_whitespace c) eqn:E; [|reflexivity].
    apply white_iff in E. now apply (Hs c s') in E.
  - apply white_iff in Hc. now rewrite Hc.
Qed.

Lemma backslash_u_spec ds vs s : hexits ds vs -> forall digits ch, (0 < digits)%nat -> (digits + length vs <= 6)%nat ->
  is_scalar (fold_left (fun a v => 16 * a + v) vs ch) = true ->
  backslash_u digits ch (ds ++ 125 :: s) = Ok (fold_left (fun a v => 16 * a + v) vs ch, s).
Proof.
  intros H. induction H as [|ds vs H IH|c v ds vs Hc H IH]; intros digits ch H0 Hd Hs; cbn [app backslash_u].
  - replace (hex_digit 125) with (@None Z) by reflexivity. replace (125 =? 95) with false by reflexivity. replace (125 =? 125) with true by reflexivity.
    cbn [andb]. destruct (Nat.eqb_spec digits 0); [lia|]. cbn [negb]. cbn [fold_left] in *. now rewrite Hs.
  - replace (hex_digit 95) with (@None Z) by reflexivity. replace (95 =? 95) with true by reflexivity. cbn [andb].
    destruct (Nat.eqb_spec digits 0); [lia|]. cbn [negb]. now apply IH.
  - apply hex_digit_iff in Hc. rewrite Hc. cbn [length] in Hd. destruct (Nat.eqb_spec digits 6); [lia|].
    cbn [fold_left] in *. replace (ch * 16 + v) with (16 * ch + v) by lia. apply IH; [lia|lia|exact Hs].
Qed.

Lemma cook_spec s v : spells white_space s v -> forall fuel, (length s < fuel)%nat -> cook fuel (s ++ [34]) = Ok v.
Proof.
  intros H. induction H as [|c s v N1 N2 N3 H IH|e c s v Hi H IH|h l a b s v Hh Hl Hle H IH|h a ds vs s v Hh Hd Hlen Hsc H IH|ws s v Hw Hs H IH];
    intros [|k] Hf; cbn [length app] in *; try lia.
  - reflexivity.
  - cbn [cook]. destruct (Z.eqb_spec c 34); [lia|]. destruct (Z.eqb_spec c 92); [lia|]. destruct (Z.eqb_spec c 13); [lia|].
    rewrite IH by lia. reflexivity.
  - cbn [cook]. replace (92 =? 34) with false by reflexivity. replace (92 =? 92) with true by reflexivity.
    cbn [In] in Hi. repeat (destruct Hi as [Hi|Hi]; [injection Hi as <- <-; cbn [Z.eqb Pos.eqb]; rewrite IH by lia; reflexivity|]). contradiction.
  - cbn [cook]. replace (92 =? 34) with false by reflexivity. replace (92 =? 92) with true by reflexivity. replace (120 =? 120) with true by reflexivity.
    apply hex_digit_iff in Hh. apply hex_digit_iff in Hl. rewrite Hh, Hl.
    destruct (Z.leb_spec (16 * a + b) 128); [|lia]. rewrite IH by lia. reflexivity.
  - cbn [cook]. replace (92 =? 34) with false by reflexivity. replace (92 =? 92) with true by reflexivity.
    replace (117 =? 120) with false by reflexivity. replace (117 =? 117) with true by reflexivity. replace (123 =? 123) with true by reflexivity.
    apply hex_digit_iff in Hh. rewrite <- app_assoc. cbn [app backslash_u]. rewrite Hh. cbn [Nat.eqb].
    apply scalar_iff in Hsc. unfold hex_value in *. cbn [fold_left] in *. replace (0 * 16 + a) with (16 * 0 + a) by lia.
    rewrite (backslash_u_spec ds vs (s ++ [34]) Hd) by (try lia; exact Hsc). cbn [rbind fst snd].
    rewrite IH by (rewrite app_length in Hf; cbn [length] in Hf; lia). reflexivity.
  - cbn [cook]. replace (92 =? 34) with false by reflexivity. replace (92 =? 92) with true by reflexivity.
    cbn [Z.eqb Pos.eqb orb]. rewrite <- app_assoc, skip_white_spec; [|exact Hw|].
    + apply IH. rewrite app_length in Hf. lia.
    + intros c s' E. destruct s as [|c0 s0]; cbn [app] in E; injection E as <- _; [unfold white_space; cbn [In]; lia|eapply Hs; reflexivity].
Qed.

Lemma trim_start_spec q w : Forall (eq 34) q -> (forall c w', w = c :: w' -> c <> 34) -> trim_start (q ++ w) = w.
Proof.
  intros H Hw. induction H as [|c q Hc H IH]; cbn [app trim_start].
  - destruct w as [|c w']; [reflexivity|]. cbn [trim_start]. destruct (Z.eqb_spec c 34); [|reflexivity]. exfalso. eapply Hw; [reflexivity|assumption].
  - subst c. exact IH.
Qed.
Lemma trim_quotes_spec v w : unquoted v w -> trim_quotes v = w.
Proof.
  intros (q & q' & -> & Hq & Hq' & Hw & Hw'). unfold trim_quotes.
  destruct w as [|c w0].
  - cbn [app]. assert (E: trim_start (q ++ q') = []).
    { rewrite <- (app_nil_r (q ++ q')). apply trim_start_spec; [now apply Forall_app|discriminate]. }
    rewrite E. reflexivity.
  - rewrite trim_start_spec; [|exact Hq|intros c' w' E; injection E as <- _; eapply Hw; reflexivity].
    rewrite rev_app_distr, trim_start_spec; [apply rev_involutive|now apply Forall_rev|].
    intros c' w' E. apply (f_equal (@rev Z)) in E. rewrite rev_involutive in E. cbn [rev] in E. eapply Hw'. exact E.
Qed.
Lemma unquoted_ex v : exists w, unquoted v w.
Proof.
  assert (A: forall v, exists q w, v = q ++ w /\ Forall (eq 34) q /\ (forall c w', w = c :: w' -> c <> 34)).
  { clear v. induction v as [|c v (q & w & -> & Hq & Hw)]; [exists [], []; repeat split; [constructor|discriminate]|].
    destruct (Z.eq_dec c 34) as [->|N].
    - exists (34 :: q), w. repeat split; [now constructor|exact Hw].
    - exists [], (c :: q ++ w). repeat split; [constructor|]. intros c' w' E. injection E as <- _. exact N. }
  destruct (A v) as (q & w & -> & Hq & Hw). destruct (A (rev w)) as (q' & w' & E & Hq' & Hw').
  apply (f_equal (@rev Z)) in E. rewrite rev_involutive, rev_app_distr in E. exists (rev w'), q, (rev q').
  rewrite E. split; [reflexivity|]. split; [exact Hq|]. split; [now apply Forall_rev|]. split.
  - intros c w0 E0. apply (Hw c (w0 ++ rev q')). rewrite E, E0. reflexivity.
  - intros c w0 E0. apply (f_equal (@rev Z)) in E0. rewrite rev_involutive, rev_app_distr in E0. eapply Hw'. exact E0.
Qed.

Lemma utf8_printable w : Forall (fun b => 32 <= b <= 126) (utf8 w) -> utf8 w = w /\ Forall (fun b => 32 <= b <= 126) w.
Proof.
  unfold utf8. induction w as [|c w IH]; cbn [map concat]; [split; [reflexivity|constructor]|].
  intros H. apply Forall_app in H as [Hc H]. destruct (IH H) as [-> Hw].
  assert (L: 32 <= c <= 126).
  { unfold utf8_char in Hc. destruct (c <=? 127) eqn:E1; [inversion Hc; lia|]. destruct (c <=? 2047) eqn:E2; [inversion Hc; lia|].
    destruct (c <=? 65535) eqn:E3; inversion Hc; lia. }
  unfold utf8_char. replace (c <=? 127) with true by lia. split; [reflexivity|now constructor].
Qed.
Lemma utf8_ascii w : Forall (fun b => 32 <= b <= 126) w -> utf8 w = w.
Proof.
  unfold utf8. intros H. induction H as [|c w Hc H IH]; cbn [map concat]; [reflexivity|]. rewrite IH. unfold utf8_char.
  replace (c <=? 127) with true by lia. reflexivity.
Qed.

Lemma byte_string_plain s r : ~ In 34 s -> ~ In 92 s -> byte_string (s ++ 34 :: r) = Ok (s, r).
Proof.
  intros H1 H2. induction s as [|c s IH]; cbn [app byte_string]; [reflexivity|]. cbn [In] in *.
  destruct (Z.eqb_spec c 34); [intuition|]. destruct (Z.eqb_spec c 92); [intuition|].
  rewrite IH by tauto. reflexivity.
Qed.
Lemma byte_string_length n : forall s bs r, (length s <= n)%nat -> byte_string s = Ok (bs, r) ->
  (length bs + 1 + length r <= length s)%nat /\
  (length s = (length bs + 1 + length r)%nat -> s = bs ++ 34 :: r /\ ~ In 34 bs /\ ~ In 92 bs).
Proof.
  induction n as [|n IH]; intros [|c s1] bs r Hn; cbn [length] in Hn; try lia; cbn [byte_string]; try discriminate.
  destruct (Z.eqb_spec c 34) as [->|N1].
  { intros [= <- <-]. cbn [length app In]. split; [lia|]. intros _. split; [reflexivity|tauto]. }
  destruct (Z.eqb_spec c 92) as [->|N2].
  - destruct s1 as [|b s2]; [discriminate|]. cbn [length] in Hn. destruct (b =? 120).
    + destruct s2 as [|b0 [|b1 s3]]; try discriminate. destruct (hex_digit b0); [|discriminate]. destruct (hex_digit b1); [|discriminate].
      destruct (byte_string s3) as [[bs' r']| |] eqn:E; cbn [rbind]; try discriminate. intros [= <- <-].
      cbn [length] in Hn. destruct (IH s3 bs' r' ltac:(lia) E) as [L _]. cbn [length fst snd]. split; lia.
    + destruct (find _ _) as [[x y]|]; [|discriminate].
      destruct (byte_string s2) as [[bs' r']| |] eqn:E; cbn [rbind]; try discriminate. intros [= <- <-].
      destruct (IH s2 bs' r' ltac:(lia) E) as [L _]. cbn [length fst snd]. split; lia.
  - destruct (byte_string s1) as [[bs' r']| |] eqn:E; cbn [rbind]; try discriminate. intros [= <- <-].
    destruct (IH s1 bs' r' ltac:(lia) E) as [L H]. cbn [length fst snd]. split; [lia|]. intros HL. destruct H as (-> & H1 & H2); [lia|].
    split; [reflexivity|]. cbn [In]. intuition congruence.
Qed.

Lemma last_snoc (A : Type) (l : list A) x d : last (l ++ [x]) d = x.
Proof. induction l as [|a l IH]; [reflexivity|]. cbn [app]. destruct (l ++ [x]) eqn:E; [now destruct l|]. exact IH. Qed.

Lemma app_same_length {A} (l l' r r' : list A) : l ++ r = l' ++ r' -> length l = length l' -> l = l'.
Proof.
  revert l'. induction l as [|a l IH]; intros [|a' l'] E L; cbn [length] in L; try lia; [reflexivity|].
  cbn [app] in E. injection E as <- E. f_equal. apply IH; [exact E|lia].
Qed.
Lemma expand_iff_trim s v w t toks : spells white_space s v -> unquoted v w ->
  expand_tag (Literal (34 :: s ++ [34]) :: toks) = Ok t <-> tag_from_raw (utf8 w) = TagOk t /\ ~ In 34 w /\ ~ In 92 w.
Proof.
  intros Hs Hu. cbn [expand_tag]. unfold tag_literal. replace (34 =? 34) with true by reflexivity.
  replace (last (34 :: s ++ [34]) 0 =? 34) with true by (rewrite app_comm_cons, last_snoc; reflexivity). cbn [andb].
  rewrite (cook_spec s v Hs) by (rewrite app_length; cbn [length]; lia). cbn [rbind].
  rewrite (trim_quotes_spec v w Hu), str_bytes_eq.
  destruct (tag_from_raw (utf8 w)) as [t'|e] eqn:E; cbn [rbind]; [|split; [discriminate|intros [H _]; discriminate]].
  apply tag_from_raw_ok in E as (HL & HP & ->). destruct (utf8_printable w HP) as [E HP']. rewrite E in HL, HP |- *.
  rewrite app_assoc. set (pad := repeat 32 (4 - length w)).
  assert (Lp: length (w ++ pad) = 4%nat) by (unfold pad; rewrite app_length, repeat_length; lia).
  assert (Np: ~ In 34 pad /\ ~ In 92 pad) by (unfold pad; split; intros H; apply repeat_spec in H; discriminate).
  split.
  - destruct (byte_string ((w ++ pad) ++ [34; 41; 32; 125])) as [[bs r]| |] eqn:B; cbn [rbind]; try discriminate.
    cbn [fst snd]. destruct (bytes_eqb r [41; 32; 125] && (length bs =? 4)%nat) eqn:C; [|discriminate]. intros [= <-].
    apply andb_prop in C as [C1 C2]. apply Nat.eqb_eq in C2.
    assert (Er: length r = 3%nat).
    { clear -C1. destruct r as [|a [|b [|c [|d r]]]]; cbn [bytes_eqb] in C1; rewrite ?andb_false_r in C1; try discriminate. reflexivity. }
    destruct (byte_string_length _ _ _ _ (Nat.le_refl _) B) as [_ H]. destruct H as (Eq & H1 & H2).
    { rewrite app_length, Lp. cbn [length]. lia. }
    assert (Ew: w ++ pad = bs) by (apply (app_same_length _ _ _ _ Eq); lia).
    split; [now rewrite Ew|]. rewrite <- Ew in H1, H2. split; intros H; [apply H1|apply H2]; apply in_or_app; now left.
  - intros ([= <-] & H1 & H2). rewrite byte_string_plain by (intros H; apply in_app_or in H; tauto).
    cbn [rbind fst snd]. rewrite Lp. replace (bytes_eqb [41; 32; 125] [41; 32; 125]) with true by reflexivity. reflexivity.
Qed.

Lemma spells_one_line s v : ~ In 10 s -> spells ascii_blank s v -> spells white_space s v.
Proof.
  intros N H. induction H as [|c s v N1 N2 N3 H IH|e c s v Hi H IH|h l a b s v Hh Hl Hle H IH|h a ds vs s v Hh Hd Hlen Hsc H IH|ws s v Hw Hs H IH]; cbn [In] in N.
  - constructor.
  - apply sp_char; tauto.
  - apply sp_escape; tauto.
  - apply sp_hex; tauto.
  - apply sp_unicode; try assumption. apply IH. intros Hi. apply N. do 4 right. apply in_or_app. right. now right.
  - tauto.
Qed.
Lemma spells_printable s v : Forall (fun b => 32 <= b <= 126) v -> spells ascii_blank s v -> spells white_space s v.
Proof.
  intros P H. induction H as [|c s v N1 N2 N3 H IH|e c s v Hi H IH|h l a b s v Hh Hl Hle H IH|h a ds vs s v Hh Hd Hlen Hsc H IH|ws s v Hw Hs H IH].
  - constructor.
  - inversion P; subst. apply sp_char; tauto.
  - inversion P; subst. apply sp_escape; tauto.
  - inversion P; subst. apply sp_hex; tauto.
  - inversion P; subst. apply sp_unicode; tauto.
  - apply sp_continued; [| |now apply IH].
    + eapply Forall_impl; [|exact Hw]. unfold ascii_blank, white_space. cbn [In]. intros; lia.
    + intros c s' -> W. specialize (Hs c s' eq_refl).
      assert (A: 32 <= c <= 126); [|unfold ascii_blank, white_space in *; cbn [In] in W; lia].
      inversion H; subst; try lia. inversion P; subst. lia.
Qed.

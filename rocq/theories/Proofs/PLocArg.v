(** What ttf-instantiate understands: numbers. *)
From Coq Require Import List ZArith Lia Bool QArith Qabs Qpower Lqa.
Import ListNotations.
From Verif.Model Require Import MBase MFixed MFloat MFloat32 MTag MMap MVarModel MInst MLocArg.
From Verif.Spec Require Import SFloat SLocArg.
From Verif.Proofs Require Import PBase PFixed PFloat PFloat32 PRound PDivide PTag.
Open Scope Z_scope.
Ltac Zify.zify_post_hook ::= idtac.

(** ** Texts *)
Definition ends (f : Z -> bool) (y : list Z) : Prop := match y with [] => True | b :: _ => f b = false end.
Lemma span_ok f l x y : span f l = (x, y) -> l = x ++ y /\ Forall (fun b => f b = true) x /\ ends f y.
Proof.
  revert x y. induction l as [|b l IH]; intros x y H; cbn [span] in H.
  - injection H as <- <-. repeat constructor.
  - destruct (f b) eqn:E.
    + destruct (span f l) as [u v] eqn:S0. injection H as <- <-. destruct (IH _ _ eq_refl) as (-> & F & T).
      split; [reflexivity|]. split; [now constructor|exact T].
    + injection H as <- <-. split; [reflexivity|]. split; [constructor|exact E].
Qed.
Lemma span_app f x y : Forall (fun b => f b = true) x -> ends f y -> span f (x ++ y) = (x, y).
Proof.
  intros F T. induction F as [|b x Hb F IH]; cbn [app span].
  - destruct y as [|b y]; cbn [span]; [reflexivity|]. cbn in T. now rewrite T.
  - now rewrite Hb, IH.
Qed.

Lemma is_digit_iff b : is_digit b = true <-> 48 <= b <= 57.
Proof. unfold is_digit. lia. Qed.
Lemma value_snoc ds b : digits_value (ds ++ [b]) = 10 * digits_value ds + (b - 48).
Proof. unfold digits_value. now rewrite fold_left_app. Qed.
Lemma value_app ds es : digits_value (ds ++ es) = digits_value ds * 10 ^ Z.of_nat (length es) + digits_value es.
Proof.
  induction es as [|b es IH] using rev_ind.
  - rewrite app_nil_r. cbn. change (10 ^ Z.of_nat 0) with 1. lia.
  - rewrite app_assoc, !value_snoc, IH, app_length. cbn [length].
    replace (Z.of_nat (length es + 1)) with (Z.succ (Z.of_nat (length es))) by lia.
    rewrite Z.pow_succ_r by lia. ring.
Qed.
Lemma digits_iff ds n : digits ds n <-> Forall (fun b => is_digit b = true) ds /\ n = digits_value ds.
Proof.
  split.
  - induction 1 as [|ds n d _ [F E] Hd]; [split; [constructor|reflexivity]|]. split.
    + apply Forall_app. split; [exact F|]. constructor; [apply is_digit_iff; lia|constructor].
    + rewrite value_snoc, E. lia.
  - intros [F ->]. induction ds as [|b ds IH] using rev_ind; [constructor|].
    apply Forall_app in F. destruct F as [F Fb]. inversion_clear Fb as [|? ? B _]. apply is_digit_iff in B.
    rewrite value_snoc. replace [b] with [48 + (b - 48)] by (f_equal; lia). constructor; [now apply IH|lia].
Qed.

(** ** Signs and exponents *)
Definition sgn_of (neg : bool) : Z := if neg then -1 else 1.
Lemma signed_mul neg z : signed neg z = sgn_of neg * z.
Proof. destruct neg; cbn [signed sgn_of]; lia. Qed.
Lemma sign_neg sg k : sign sg k -> exists neg, k = sgn_of neg.
Proof. intros []; [exists false|exists false|exists true]; reflexivity. Qed.
Lemma take_sign_ok s neg r : take_sign s = (neg, r) -> exists sg, s = sg ++ r /\ sign sg (sgn_of neg).
Proof.
  unfold take_sign. intros H.
  assert (C: s = 43 :: r /\ neg = false \/ s = 45 :: r /\ neg = true \/ s = r /\ neg = false).
  { destruct s as [|b s]; [injection H as <- <-; auto|].
    destruct b as [|b|b]; try (injection H as <- <-; auto).
    do 6 (destruct b as [b|b|]; try (injection H as <- <-; auto)). }
  destruct C as [[-> ->]|[[-> ->]|[-> ->]]]; [exists [43]|exists [45]|exists []]; split; try reflexivity; constructor.
Qed.
Definition unsigned (s : list Z) : Prop := match s with [] => True | b :: _ => b <> 43 /\ b <> 45 end.
Lemma take_sign_none r : unsigned r -> take_sign r = (false, r).
Proof.
  unfold unsigned, take_sign. destruct r as [|b r]; [reflexivity|]. intros [A B].
  destruct b as [|b|b]; try reflexivity. do 6 (destruct b as [b|b|]; try reflexivity; try congruence).
Qed.
Lemma take_sign_app sg k r : sign sg k -> unsigned r -> exists neg, take_sign (sg ++ r) = (neg, r) /\ k = sgn_of neg.
Proof.
  intros [] U; cbn [app].
  - exists false. split; [now apply take_sign_none|reflexivity].
  - exists false. split; reflexivity.
  - exists true. split; reflexivity.
Qed.
Lemma digits_unsigned ds s : ds <> [] -> Forall (fun b => is_digit b = true) ds -> unsigned (ds ++ s).
Proof.
  intros N F. destruct F as [|b ds Hb F]; [congruence|]. cbn. apply is_digit_iff in Hb. lia.
Qed.

Lemma lower_101 c : lower c = 101 <-> c = 101 \/ c = 69.
Proof. unfold lower. destruct ((65 <=? c) && (c <=? 90)) eqn:E; lia. Qed.
Lemma span_all ds : Forall (fun b => is_digit b = true) ds -> span is_digit ds = (ds, []).
Proof. intros F. rewrite <- (app_nil_r ds) at 1. apply span_app; [exact F|exact I]. Qed.
Lemma exponent_ok t e : parse_exponent t = Some e <-> exponent t e.
Proof.
  split.
  - unfold parse_exponent. destruct t as [|c r]; [intros H; injection H as <-; constructor|].
    destruct (Z.eqb_spec (lower c) 101) as [L|]; [|discriminate]. apply lower_101 in L.
    destruct (take_sign r) as [neg r1] eqn:T. destruct (take_sign_ok _ _ _ T) as (sg & -> & SG).
    destruct (span is_digit r1) as [ds y] eqn:P. destruct (span_ok _ _ _ _ P) as (-> & F & _).
    destruct ds as [|d ds]; [discriminate|]. destruct y as [|]; [|discriminate].
    intros H. injection H as <-. rewrite signed_mul, app_nil_r. apply (exponent_some c sg (sgn_of neg) (d :: ds) (digits_value (d :: ds)) L SG ltac:(discriminate)). now apply digits_iff.
  - intros []; [reflexivity|]. apply digits_iff in H2. destruct H2 as [F ->].
    unfold parse_exponent. apply lower_101 in H. rewrite H, Z.eqb_refl.
    pose proof (digits_unsigned ds [] H1 F) as U. rewrite app_nil_r in U.
    destruct (take_sign_app s k ds H0 U) as (neg & -> & ->).
    rewrite span_all by exact F. destruct ds as [|d ds]; [congruence|]. now rewrite signed_mul.
Qed.

(** ** The value *)
Definition decimal_value (m e : Z) : Q := (inject_Z m * Qpower 10 e)%Q.
Lemma pow10_pos e : (0 < Qpower 10 e)%Q.
Proof. apply Qpower_0_lt. reflexivity. Qed.
Lemma pow10_Z n : 0 <= n -> (inject_Z (10 ^ n) == Qpower 10 n)%Q.
Proof. intros H. rewrite Zpower_Qpower by exact H. reflexivity. Qed.
Lemma pow10_add a b : (Qpower 10 (a + b) == Qpower 10 a * Qpower 10 b)%Q.
Proof. apply Qpower_plus. discriminate. Qed.

Lemma decimal_nearest m e : nearest24 (decimal_value m e) (val (f32_decimal m e)).
Proof.
  unfold f32_decimal, decimal_value. destruct (Z.leb_spec 0 e) as [H|H].
  - rewrite rnd24_rndp. split; [apply rndp_rep; lia|]. intros r R.
    assert (E: (inject_Z m * Qpower 10 e == val (Dy (m * 10 ^ e) 0))%Q).
    { rewrite val_Dy, inject_Z_mult, pow10_Z by lia. change (Qpower 2 0) with 1%Q. ring. }
    rewrite E. apply rndp_nearest; [lia|exact R].
  - rewrite f32_div_fdiv. split; [apply rndp_rep; lia|]. intros r R.
    assert (P: 0 < 10 ^ (- e)) by (apply Z.pow_pos_nonneg; lia).
    assert (E: (inject_Z m * Qpower 10 e == val (Dy m 0) / val (Dy (10 ^ (- e)) 0))%Q).
    { rewrite !val_Dy. change (Qpower 2 0) with 1%Q. rewrite pow10_Z by lia.
      rewrite !Qmult_1_r. pose proof (pow10_pos (- e)) as P1.
      assert (P2: (Qpower 10 e * Qpower 10 (- e) == 1)%Q) by (rewrite <- pow10_add; replace (e + - e) with 0 by lia; reflexivity).
      set (a := Qpower 10 e) in *. set (b := Qpower 10 (- e)) in *.
      field_simplify_eq; [|intros Z0; lra]. rewrite <- Qmult_assoc, P2. ring. }
    rewrite E. apply fdiv_nearest; [lia| |exact R]. cbn [mant]. lia.
Qed.
Lemma nearest24_ext q q' r : (q == q')%Q -> nearest24 q r -> nearest24 q' r.
Proof.
  intros E [R N]. split; [exact R|]. intros r' R'. rewrite <- E. now apply N.
Qed.
Lemma digits_decimal k ip fp e :
  (inject_Z k * (inject_Z (digits_value ip) + inject_Z (digits_value fp) / Qpower 10 (Z.of_nat (length fp))) * Qpower 10 e ==
   decimal_value (k * digits_value (ip ++ fp)) (e - Z.of_nat (length fp)))%Q.
Proof.
  unfold decimal_value. rewrite value_app. set (n := Z.of_nat (length fp)). assert (N: 0 <= n) by (unfold n; lia). clearbody n.
  rewrite inject_Z_mult, inject_Z_plus, inject_Z_mult, pow10_Z by exact N. unfold Z.sub.
  rewrite pow10_add, Qpower_opp. pose proof (pow10_pos n) as P. set (a := Qpower 10 n) in *.
  field. intros E. lra.
Qed.

(** ** Words *)
Lemma letters_lower w s : Forall (fun l => 97 <= l <= 122) w -> letters w s <-> map lower s = w.
Proof.
  intros F. revert s. induction F as [|l w Hl F IH]; intros s.
  - split; [intros H; inversion H; reflexivity|]. destruct s; [constructor|discriminate].
  - destruct s as [|c s]; [split; [intros H; inversion H|discriminate]|]. cbn [map]. split.
    + intros H. inversion H; subst. f_equal; [|now apply IH].
      unfold lower. destruct ((65 <=? c) && (c <=? 90)) eqn:E; lia.
    + intros H. injection H as H1 H2. constructor; [|now apply IH].
      unfold lower in H1. destruct ((65 <=? c) && (c <=? 90)) eqn:E; lia.
Qed.
Lemma lower_first w s : Forall (fun l => 97 <= l <= 122) w -> w <> [] -> map lower s = w ->
  exists c r, s = c :: r /\ is_digit c = false /\ c <> 46 /\ c <> 43 /\ c <> 45.
Proof.
  intros F N E. destruct s as [|c r]; [now rewrite <- E in N|]. exists c, r. split; [reflexivity|].
  rewrite <- E in F. inversion_clear F as [|? ? L _]. unfold lower in L. unfold is_digit.
  destruct ((65 <=? c) && (c <=? 90)) eqn:X; lia.
Qed.
Lemma az_inf : Forall (fun l => 97 <= l <= 122) [105; 110; 102]. Proof. repeat constructor; discriminate. Qed.
Lemma az_infinity : Forall (fun l => 97 <= l <= 122) [105; 110; 102; 105; 110; 105; 116; 121]. Proof. repeat constructor; discriminate. Qed.
Lemma az_nan : Forall (fun l => 97 <= l <= 122) [110; 97; 110]. Proof. repeat constructor; discriminate. Qed.

Lemma number_sound neg r t : parse_number neg r = Some t ->
  exists x q, t = Finite x /\ nearest24 q (val x) /\ forall sg, sign sg (sgn_of neg) -> decimal (sg ++ r) q.
Proof.
  unfold parse_number. destruct (span is_digit r) as [ip r1] eqn:P1. destruct (span_ok _ _ _ _ P1) as (-> & F1 & T1).
  set (rr := match r1 with 46 :: r => span is_digit r | _ => ([], r1) end).
  assert (C: exists fp r2, rr = (fp, r2) /\ Forall (fun b => is_digit b = true) fp /\
            (r1 = 46 :: fp ++ r2 \/ fp = [] /\ r1 = r2)).
  { unfold rr. destruct r1 as [|b r1']; [exists [], []; auto|]. destruct (Z.eq_dec b 46) as [->|N].
    - destruct (span is_digit r1') as [fp r2] eqn:P2. destruct (span_ok _ _ _ _ P2) as (-> & F2 & _). exists fp, r2. auto.
    - exists [], (b :: r1'). split; [|auto]. destruct b as [|b|b]; try reflexivity.
      do 6 (destruct b as [b|b|]; try reflexivity; try congruence). }
  destruct C as (fp & r2 & -> & F2 & SH).
  destruct (ip ++ fp) as [|d ds] eqn:D; [discriminate|].
  destruct (parse_exponent r2) as [e|] eqn:PE; [|discriminate]. apply exponent_ok in PE.
  intros H. injection H as <-. rewrite <- D, signed_mul.
  eexists _, (decimal_value (sgn_of neg * digits_value (ip ++ fp)) (e - Z.of_nat (length fp))).
  split; [reflexivity|]. split; [apply decimal_nearest|].
  intros sg SG. exists sg, (sgn_of neg), ip, (digits_value ip), fp, (digits_value fp), r2, e.
  split; [exact SG|]. split; [now apply digits_iff|]. split; [now apply digits_iff|]. split; [congruence|].
  split; [exact PE|]. split.
  - destruct SH as [-> | [-> ->]]; [now left|right]. split; [reflexivity|]. now rewrite <- ?app_assoc.
  - symmetry. apply digits_decimal.
Qed.

Lemma exponent_ends t e : exponent t e -> ends is_digit t /\ match t with 46 :: _ => False | _ => True end.
Proof. intros []; [split; exact I|]. destruct H as [-> | ->]; split; reflexivity || exact I. Qed.
Lemma number_complete neg ip fp t e r : Forall (fun b => is_digit b = true) ip -> Forall (fun b => is_digit b = true) fp ->
  ip ++ fp <> [] -> exponent t e -> (r = ip ++ [46] ++ fp ++ t \/ fp = [] /\ r = ip ++ t) ->
  parse_number neg r = Some (Finite (f32_decimal (sgn_of neg * digits_value (ip ++ fp)) (e - Z.of_nat (length fp)))).
Proof.
  intros F1 F2 N X SH. destruct (exponent_ends t e X) as [T1 T2].
  assert (K: exists r1, span is_digit r = (ip, r1) /\ match r1 with 46 :: r => span is_digit r | _ => ([], r1) end = (fp, t)).
  { destruct SH as [-> | [-> ->]].
    - exists (46 :: fp ++ t). split; [apply span_app; [exact F1|reflexivity]|]. now apply span_app.
    - exists t. split; [now apply span_app|]. destruct t as [|b t]; [reflexivity|].
      destruct b as [|b|b]; try reflexivity. do 6 (destruct b as [b|b|]; try reflexivity; try contradiction). }
  destruct K as (r1 & K1 & K2). unfold parse_number. rewrite K1, K2.
  apply exponent_ok in X. rewrite X. destruct (ip ++ fp); [congruence|now rewrite signed_mul].
Qed.

Lemma eqb_bytes a b : bytes_eqb a b = true <-> a = b.
Proof. apply bytes_eqb_eq. Qed.
Lemma eqb_no a b : a <> b -> bytes_eqb a b = false.
Proof. intros N. destruct (bytes_eqb a b) eqn:E; [apply eqb_bytes in E; congruence|reflexivity]. Qed.

Lemma parse_finite s q : decimal s q -> exists x, parse_f32 s = Some (Finite x) /\ nearest24 q (val x).
Proof.
  intros (sg & k & ip & i & fp & f & t & e & SG & D1 & D2 & N & X & SH & E).
  apply digits_iff in D1. destruct D1 as [F1 ->]. apply digits_iff in D2. destruct D2 as [F2 ->].
  assert (C: exists r, s = sg ++ r /\ (r = ip ++ [46] ++ fp ++ t \/ fp = [] /\ r = ip ++ t)).
  { destruct SH as [-> | [-> ->]]; eexists; split; try reflexivity; auto. }
  destruct C as (r & -> & SH').
  assert (First: exists c r', r = c :: r' /\ (is_digit c = true \/ c = 46)).
  { destruct F1 as [|b ip Hb F1]; [|destruct SH' as [-> | [-> ->]]; cbn [app]; eauto].
    destruct SH' as [-> | [-> ->]]; [cbn [app]; eauto|exfalso; now apply N]. }
  destruct First as (c & r' & Er & Hc).
  assert (U: unsigned r). { rewrite Er. cbn. unfold is_digit in Hc. lia. }
  destruct (take_sign_app sg k r SG U) as (neg & T & ->).
  unfold parse_f32. rewrite T.
  assert (NW: forall w, Forall (fun l => 97 <= l <= 122) w -> w <> [] -> bytes_eqb (map lower r) w = false).
  { intros w A B. apply eqb_no. intros L. destruct (lower_first w r A B L) as (c' & r0 & E0 & D & D' & _).
    rewrite Er in E0. injection E0 as -> _. destruct Hc; congruence. }
  rewrite (NW _ az_inf), (NW _ az_infinity), (NW _ az_nan) by discriminate. cbn [orb].
  rewrite (number_complete neg ip fp t e r F1 F2 N X SH'). eexists. split; [reflexivity|].
  eapply nearest24_ext; [|apply decimal_nearest]. rewrite E. symmetry. apply digits_decimal.
Qed.

Lemma parse_sound s t : parse_f32 s = Some t ->
  match t with
  | Finite x => exists q, decimal s q /\ nearest24 q (val x)
  | Infinite neg => infinity_text s (sgn_of neg)
  | NotANumber => nan_text s
  end.
Proof.
  unfold parse_f32. destruct (take_sign s) as [neg r] eqn:T. destruct (take_sign_ok _ _ _ T) as (sg & -> & SG).
  destruct (bytes_eqb (map lower r) [105; 110; 102]) eqn:E1; cbn [orb].
  { intros H. injection H as <-. exists sg, r. split; [reflexivity|]. split; [exact SG|]. left. apply letters_lower; [apply az_inf|]. now apply eqb_bytes. }
  destruct (bytes_eqb (map lower r) [105; 110; 102; 105; 110; 105; 116; 121]) eqn:E2.
  { intros H. injection H as <-. exists sg, r. split; [reflexivity|]. split; [exact SG|]. right. apply letters_lower; [apply az_infinity|]. now apply eqb_bytes. }
  destruct (bytes_eqb (map lower r) [110; 97; 110]) eqn:E3.
  { intros H. injection H as <-. exists sg, (sgn_of neg), r. split; [reflexivity|]. split; [exact SG|]. apply letters_lower; [apply az_nan|]. now apply eqb_bytes. }
  intros H. destruct (number_sound _ _ _ H) as (x & q & -> & N & D). exists q. auto.
Qed.
Lemma word_unsigned w s : Forall (fun l => 97 <= l <= 122) w -> w <> [] -> map lower s = w -> unsigned s.
Proof. intros A B L. destruct (lower_first w s A B L) as (c & r & -> & _ & _ & C). exact C. Qed.
Lemma parse_infinite s k : infinity_text s k -> exists neg, parse_f32 s = Some (Infinite neg) /\ k = sgn_of neg.
Proof.
  intros (sg & w & -> & SG & L).
  assert (L': map lower w = [105; 110; 102] \/ map lower w = [105; 110; 102; 105; 110; 105; 116; 121]).
  { destruct L as [L|L]; [left|right]; (apply letters_lower in L; [exact L|]); [apply az_inf|apply az_infinity]. }
  assert (U: unsigned w). { destruct L' as [L'|L']; eapply word_unsigned; try exact L'; try discriminate; [apply az_inf|apply az_infinity]. }
  destruct (take_sign_app sg k w SG U) as (neg & T & ->). exists neg. split; [|reflexivity].
  unfold parse_f32. rewrite T. destruct L' as [-> | ->]; reflexivity.
Qed.
Lemma parse_nan s : nan_text s -> parse_f32 s = Some NotANumber.
Proof.
  intros (sg & k & w & -> & SG & L). apply letters_lower in L; [|apply az_nan].
  assert (U: unsigned w) by (eapply word_unsigned; try exact L; try discriminate; apply az_nan).
  destruct (take_sign_app sg k w SG U) as (neg & T & ->).
  unfold parse_f32. rewrite T, L. reflexivity.
Qed.

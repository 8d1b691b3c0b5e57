(** Packed points. *)
From Verif.Model Require Import MBase MFixed MGlyph MPacked.
From Verif.Spec Require Import SBase SGlyph SPacked.
From Verif.Proofs Require Import PBase PCodec PTables PGlyph PGlyphFmt PPacked.

Lemma lor_high a b k : 0 <= k -> 0 <= b < 2 ^ k -> Z.lor (a * 2 ^ k) b = a * 2 ^ k + b.
Proof.
  intros Hk Hb. assert (E: Z.land (a * 2 ^ k) b = 0).
  { apply Z.bits_inj'. intros n Hn. rewrite Z.land_spec, Z.bits_0.
    destruct (Z_lt_ge_dec n k) as [H|H].
    - rewrite Z.mul_pow2_bits_low by lia. reflexivity.
    - replace (Z.testbit b n) with false; [apply andb_false_r|]. symmetry.
      rewrite <- (Z.mod_small b (2 ^ k)) by exact Hb. apply Z.mod_pow2_bits_high. lia. }
  rewrite <- Z.lxor_lor by exact E. symmetry. now apply Z.add_nocarry_lxor.
Qed.

Lemma ctl_point m : 0 <= m < 128 ->
  Z.land m 0x7f = m /\ Z.land m 0x80 = 0 /\
  Z.land (0x80 + m) 0x7f = m /\ Z.land (0x80 + m) 0x80 = 0x80 /\ Z.lor m 0x80 = 0x80 + m.
Proof.
  intros H. pose (P m := (Z.land m 0x7f =? m) && (Z.land m 0x80 =? 0) &&
    (Z.land (0x80 + m) 0x7f =? m) && (Z.land (0x80 + m) 0x80 =? 0x80) && (Z.lor m 0x80 =? 0x80 + m)).
  assert (E : P m = true) by (apply (for_range 128); [vm_compute; reflexivity|lia]).
  unfold P in E. repeat (apply andb_true_iff in E; destruct E as [E ?]).
  repeat match goal with X : (_ =? _) = true |- _ => apply Z.eqb_eq in X end.
  repeat apply conj; assumption.
Qed.

(** ** Reading *)
Lemma rg_u8 v : in_range U8 v -> reads de_u8 (ser_u8 v) v.
Proof. intros H. apply reads_u8. cbn in H. lia. Qed.
Lemma map_u8_id l : Forall (in_range U8) l -> concat (map ser_u8 l) = l.
Proof.
  induction 1 as [|x l Hx Hl IH]; [reflexivity|]. cbn [map concat]. rewrite IH, ser_u8_byte by (cbn in Hx; lia). reflexivity.
Qed.
Lemma map_words_u l : map word l = map ser_u16 l.
Proof. apply map_ext. exact word_u16. Qed.

Lemma point_run_bytes ds : (1 <= length ds <= 128)%nat -> Forall (in_range U8) ds ->
  reads de_point_run ((Z.of_nat (length ds) - 1) :: ds) ds.
Proof.
  intros Hn Hv. destruct (ctl_point (Z.of_nat (length ds) - 1)) as (K1&K2&?&?&?); [lia|].
  unfold de_point_run. apply reads_cons_u8; [lia|]. rewrite K1, K2. cbn [Z.gtb Z.compare].
  replace (Z.to_nat (Z.of_nat (length ds) - 1 + 1)) with (length ds) by lia.
  pose proof (reads_counted de_u8 ser_u8 ds) as R. rewrite map_u8_id in R by exact Hv. apply R.
  eapply Forall_impl; [|exact Hv]. exact rg_u8.
Qed.
Lemma point_run_words ds : (1 <= length ds <= 128)%nat -> Forall (in_range U16) ds ->
  reads de_point_run ((0x80 + (Z.of_nat (length ds) - 1)) :: concat (map word ds)) ds.
Proof.
  intros Hn Hv. destruct (ctl_point (Z.of_nat (length ds) - 1)) as (?&?&K1&K2&?); [lia|].
  unfold de_point_run. apply reads_cons_u8; [lia|]. rewrite K1, K2. cbn [Z.gtb Z.compare].
  replace (Z.to_nat (Z.of_nat (length ds) - 1 + 1)) with (length ds) by lia.
  rewrite map_words_u. apply reads_counted. eapply Forall_impl; [|exact Hv]. exact rg_u16.
Qed.
Lemma points_step k run rb rest bs : (1 <= length run)%nat -> reads de_point_run rb run ->
  reads (de_point_runs k (length rest)) bs rest ->
  reads (de_point_runs (S k) (length (run ++ rest))) (rb ++ bs) (run ++ rest).
Proof.
  intros H1 H2 H3. rewrite app_length. destruct (length run + length rest)%nat as [|m] eqn:E; [lia|].
  cbn [de_point_runs]. eapply reads_bind; [exact H2|]. cbn beta.
  replace (S m - length run)%nat with (length rest) by lia. now apply (reads_map _ (fun l => run ++ l)).
Qed.
Lemma reads_point_runs ds bs : point_runs ds bs -> forall k, (length ds <= k)%nat ->
  reads (de_point_runs k (length ds)) bs ds.
Proof.
  induction 1 as [|vs ds bs Hn Hv H IH|vs ds bs Hn Hv H IH]; intros k Hk.
  - destruct k; exact (reads_pret []).
  - rewrite app_length in Hk. destruct k as [|k]; [lia|]. rewrite app_comm_cons.
    apply points_step; [lia|now apply point_run_bytes|apply IH; lia].
  - rewrite app_length in Hk. destruct k as [|k]; [lia|]. rewrite app_comm_cons.
    apply points_step; [lia|now apply point_run_words|apply IH; lia].
Qed.
Lemma gaps_length l : forall last, length (gaps last l) = length l.
Proof. induction l as [|p l IH]; intros last; cbn [gaps length]; [reflexivity|]. now rewrite IH. Qed.
Lemma cumsum_gaps l : forall last, Forall (in_range U16) l -> cumsum last (gaps last l) = Ok l.
Proof.
  induction l as [|p l IH]; intros last H; [reflexivity|]. inversion H as [|? ? Hp Hl]; subst. cbn [gaps cumsum].
  replace (last + (p - last)) with p by lia. unfold chk_u. cbn in Hp. change (2 ^ 16) with 65536.
  replace ((0 <=? p) && (p <? 65536)) with true by lia. cbn [rbind]. now rewrite (IH p Hl).
Qed.
Lemma points_read pts bs : (1 <= length pts <= 127)%nat -> Forall (in_range U16) pts ->
  point_runs (gaps 0 pts) bs -> reads de_points (Z.of_nat (length pts) :: bs) (Some pts).
Proof.
  intros Hn Hp Hr. unfold de_points.
  change (Z.of_nat (length pts) :: bs) with ([Z.of_nat (length pts)] ++ bs).
  eapply reads_bind.
  - unfold de_point_count. apply reads_cons_u8; [lia|]. replace (Z.of_nat (length pts) >? 127) with false by lia. apply reads_pret.
  - cbn beta. replace (Z.of_nat (length pts) =? 0) with false by lia. rewrite <- (app_nil_r bs).
    eapply reads_bind.
    + rewrite Nat2Z.id, <- (gaps_length pts 0). now apply reads_point_runs.
    + cbn beta. rewrite (cumsum_gaps pts 0) by exact Hp. exact (reads_pret (Some pts)).
Qed.
Lemma points_read_none : reads de_points [0] None.
Proof.
  unfold de_points. change [0] with ([0] ++ []). apply (reads_bind _ _ _ _ 0); [|exact (reads_pret None)].
  unfold de_point_count. apply reads_cons_u8; [lia|]. exact (reads_pret 0).
Qed.

(** ** Writing *)
Lemma shiftr8 d : 0 <= d < 65536 -> u8 (Z.shiftr d 8) = (d / 256) mod 256 /\ Z.land d 0xff = d mod 256.
Proof.
  intros H. split.
  - rewrite Z.shiftr_div_pow2 by lia. reflexivity.
  - change 0xff with (Z.ones 8). now rewrite Z.land_ones.
Qed.
Lemma u8_id z : 0 <= z < 256 -> u8 z = z.
Proof. intros. unfold u8. now apply wrap_u_id. Qed.

Definition run_shape (ub : option bool) (gs run : list Z) : Prop :=
  match ub with
  | Some true => run = gs /\ Forall (in_range U8) gs
  | Some false => run = concat (map word gs)
  | None => gs = [] /\ run = []
  end.
Lemma point_run_inv l : forall rl ub last run ub' la b,
  point_run rl ub last l = Ok (run, ub', la, b) ->
  exists a, l = a ++ b /\ gaps last l = gaps last a ++ gaps la b /\
    Forall (fun g => 0 <= g < 65536) (gaps last a) /\ run_shape ub' (gaps last a) run /\
    (forall u, ub = Some u -> ub' = Some u) /\
    ((rl < 127)%nat -> l <> [] -> ub' <> None /\ (ub = None -> a <> [])) /\
    ((rl <= 128)%nat -> (rl + length run <= 128)%nat) /\
    (ub' = Some false -> b <> [] -> (127 <= rl + length run)%nat).
Proof.
  induction l as [|c l IH]; intros rl ub last run ub' la b; cbn [point_run].
  - intros H. apply Ok_inj in H. injection H as <- <- <- <-. exists []. cbn [app gaps].
    repeat match goal with |- _ /\ _ => split end;
      [reflexivity|reflexivity|constructor|destruct ub as [[]|]; cbn; auto|auto|congruence|cbn; lia|congruence].
  - destruct (rl <? 127)%nat eqn:Er.
    2:{ intros H. apply Ok_inj in H. injection H as <- <- <- <-. apply Nat.ltb_ge in Er. exists []. cbn [app gaps].
        repeat match goal with |- _ /\ _ => split end;
          [reflexivity|reflexivity|constructor|destruct ub as [[]|]; cbn; auto|auto|lia|cbn; lia|cbn; lia]. }
    apply Nat.ltb_lt in Er. unfold chk_u. change (2 ^ 16) with 65536.
    destruct ((0 <=? c - last) && (c - last <? 65536)) eqn:Eg; cbn [rbind]; [|discriminate].
    set (small := (0 <=? c - last) && (c - last <=? 255)).
    assert (Hg: 0 <= c - last < 65536) by lia.
    destruct (shiftr8 _ Hg) as [S1 S2].
    set (u := match ub with Some b => b | None => small end).
    assert (Hu: forall v, ub = Some v -> u = v) by (intros v Ev; unfold u; now rewrite Ev).
    assert (Hn: ub = None -> u = small) by (intros Ev; unfold u; now rewrite Ev).
    clearbody u. destruct (u && negb small) eqn:E1.
    { intros H. apply Ok_inj in H. injection H as <- <- <- <-. exists []. cbn [app gaps].
      assert (Eu: u = true) by (destruct u; [reflexivity|discriminate]). subst u.
      assert (Es: small = false) by (destruct small; [discriminate|reflexivity]).
      repeat match goal with |- _ /\ _ => split end;
        [reflexivity|reflexivity|constructor|cbn; auto| | |cbn; lia|discriminate].
      - intros v Hv. f_equal. now apply Hu.
      - intros _ _. split; [discriminate|]. intros Hv. apply Hn in Hv. congruence. }
    destruct u.
    + assert (Es: small = true) by (destruct small; [reflexivity|discriminate]).
      destruct (point_run (S rl) (Some true) c l) as [[[[r1 u1] la1] b1]| |] eqn:E; cbn [rbind]; try discriminate.
      intros H. apply Ok_inj in H. injection H as <- <- <- <-.
      destruct (IH _ _ _ _ _ _ _ E) as (a & -> & G & F & Sh & P1 & P2 & P3 & P4).
      rewrite (P1 true eq_refl) in *. cbn [run_shape] in Sh. destruct Sh as [-> Sh].
      exists (c :: a). cbn [app gaps]. rewrite u8_id by (unfold small in Es; lia).
      repeat match goal with |- _ /\ _ => split end;
        [reflexivity|now rewrite G|constructor; [exact Hg|exact F]| | | | |discriminate].
      * cbn [run_shape]. split; [reflexivity|]. constructor; [cbn; unfold small in Es; lia|exact Sh].
      * intros v Hv. f_equal. now apply Hu.
      * intros _ _. split; discriminate.
      * intros _. cbn [length]. specialize (P3 ltac:(lia)). lia.
    + destruct (point_run (S (S rl)) (Some false) c l) as [[[[r1 u1] la1] b1]| |] eqn:E; cbn [rbind]; try discriminate.
      intros H. apply Ok_inj in H. injection H as <- <- <- <-.
      destruct (IH _ _ _ _ _ _ _ E) as (a & -> & G & F & Sh & P1 & P2 & P3 & P4).
      rewrite (P1 false eq_refl) in *. cbn [run_shape] in Sh. subst r1.
      exists (c :: a). cbn [app gaps]. rewrite S1, S2.
      repeat match goal with |- _ /\ _ => split end;
        [reflexivity|now rewrite G|constructor; [exact Hg|exact F]|reflexivity| | | |].
      * intros v Hv. f_equal. now apply Hu.
      * intros _ _. split; discriminate.
      * intros _. cbn [length]. specialize (P3 ltac:(lia)). lia.
      * intros _ Hb. cbn [length]. specialize (P4 eq_refl Hb). lia.
Qed.
Lemma point_run_panic l : forall rl ub last, point_run rl ub last l = Panic ->
  Exists (fun g => g < 0 \/ 65536 <= g) (gaps last l).
Proof.
  induction l as [|c l IH]; intros rl ub last; cbn [point_run gaps]; [discriminate|].
  destruct (rl <? 127)%nat; [|discriminate]. unfold chk_u. change (2 ^ 16) with 65536.
  destruct ((0 <=? c - last) && (c - last <? 65536)) eqn:Eg; cbn [rbind]; [|left; lia].
  set (u := match ub with Some b => b | None => _ end). intros H. right. revert H.
  destruct (u && _); [discriminate|].
  destruct u; match goal with |- context [point_run ?a ?b ?c ?d] => destruct (point_run a b c d) as [[[[? ?] ?] ?]| |] eqn:E end;
    cbn [rbind]; try discriminate; intros _; eapply IH; exact E.
Qed.
Lemma point_run_err l : forall rl ub last, point_run rl ub last l <> Err.
Proof.
  induction l as [|c l IH]; intros rl ub last; cbn [point_run gaps]; [discriminate|].
  destruct (rl <? 127)%nat; [|discriminate]. unfold chk_u.
  destruct ((0 <=? c - last) && (c - last <? 2 ^ 16)) eqn:Eg; cbn [rbind]; [|discriminate].
  set (u := match ub with Some b => b | None => _ end). intros H. revert H.
  destruct (u && _); [discriminate|].
  destruct u; match goal with |- context [point_run ?a ?b ?c ?d] => pose proof (IH a b c); destruct (point_run a b c d) as [[[[? ?] ?] ?]| |] eqn:E end;
    cbn [rbind]; try discriminate; congruence.
Qed.

(** One turn of the outer loop. *)
Lemma runs_step k last l bs : (length l <= S k)%nat -> l <> [] -> ser_point_runs (S k) last l = Ok bs ->
  exists a la b ub run bs', l = a ++ b /\ a <> [] /\ gaps last l = gaps last a ++ gaps la b /\
    Forall (fun g => 0 <= g < 65536) (gaps last a) /\ run_shape (Some ub) (gaps last a) run /\
    (1 <= length run <= 127)%nat /\ (ub = false -> b <> [] -> (126 <= length run)%nat) /\
    ser_point_runs k la b = Ok bs' /\ (length b <= k)%nat /\
    bs = (if ub then Z.of_nat (length run) - 1 else 0x80 + (Z.of_nat (length run) - 1)) :: run ++ bs'.
Proof.
  intros Hk Hne H. destruct l as [|c l]; [congruence|]. cbn [ser_point_runs] in H.
  destruct (point_run 1 None last (c :: l)) as [[[[run ub] la] b]| |] eqn:E; cbn [rbind] in H; try discriminate.
  destruct (point_run_inv _ _ _ _ _ _ _ _ E) as (a & E1 & G & F & Sh & _ & P2 & P3 & P4).
  destruct (P2 ltac:(lia) Hne) as [Hu Ha]. destruct ub as [ub|]; [|congruence]. cbn [unwrap rbind] in H.
  specialize (Ha eq_refl). specialize (P3 ltac:(lia)).
  assert (Hr: (1 <= length run <= 127)%nat).
  { split; [|lia]. destruct a as [|a0 a]; [congruence|]. destruct ub; cbn [run_shape gaps] in Sh.
    - destruct Sh as [-> _]. cbn [length]. lia.
    - subst run. cbn [map concat word app length]. lia. }
  rewrite u8_id in H by lia.
  unfold chk_u in H. replace ((0 <=? Z.of_nat (S (length run)) - 2) && (Z.of_nat (S (length run)) - 2 <? 2 ^ 8)) with true in H
    by (change (2 ^ 8) with 256; lia). cbn [rbind] in H.
  destruct (ser_point_runs k la b) as [bs'| |] eqn:Eb; cbn [rbind] in H; try discriminate.
  apply Ok_inj in H. exists a, la, b, ub, run, bs'.
  assert (Hb: (length b <= k)%nat) by (eapply app_longer; [exact E1|exact Ha|exact Hk]).
  repeat match goal with |- _ /\ _ => split end; auto; try lia.
  - intros -> Hb'. specialize (P4 eq_refl Hb'). lia.
  - rewrite <- H. f_equal. destruct ub; [lia|].
    replace (Z.of_nat (S (length run)) - 2) with (Z.of_nat (length run) - 1) by lia.
    apply ctl_point. lia.
Qed.

Lemma ser_runs_nonneg k : forall l last bs, (length l <= k)%nat -> ser_point_runs k last l = Ok bs ->
  Forall (fun g => 0 <= g < 65536) (gaps last l).
Proof.
  induction k as [|k IH]; intros l last bs Hk H.
  - destruct l; [constructor|cbn in Hk; lia].
  - destruct l as [|c l]; [constructor|].
    destruct (runs_step k last (c :: l) bs Hk ltac:(discriminate) H) as (a & la & b & ub & run & bs' & E & _ & G & F & _ & _ & _ & H' & Hb & _).
    rewrite G. apply Forall_app. split; [exact F|]. eapply IH; eassumption.
Qed.
Lemma ser_runs_panic k : forall l last, ser_point_runs k last l = Panic -> (length l <= k)%nat ->
  Exists (fun g => g < 0 \/ 65536 <= g) (gaps last l).
Proof.
  induction k as [|k IH]; intros l last H Hk.
  - destruct l; [discriminate|cbn in Hk; lia].
  - destruct l as [|c l]; [discriminate|]. cbn [ser_point_runs] in H.
    destruct (point_run 1 None last (c :: l)) as [[[[run ub] la] b]| |] eqn:E; cbn [rbind] in H; [|discriminate|].
    2:{ eapply point_run_panic; exact E. }
    destruct (point_run_inv _ _ _ _ _ _ _ _ E) as (a & E1 & G & F & Sh & _ & P2 & P3 & P4).
    destruct (P2 ltac:(lia) ltac:(discriminate)) as [Hu Ha]. destruct ub as [ub|]; [|congruence]. cbn [unwrap rbind] in H.
    specialize (Ha eq_refl). specialize (P3 ltac:(lia)).
    assert (Hr: (1 <= length run <= 127)%nat).
    { split; [|lia]. destruct a as [|a0 a]; [congruence|]. destruct ub; cbn [run_shape gaps] in Sh.
      - destruct Sh as [-> _]. cbn [length]. lia.
      - subst run. cbn [map concat word app length]. lia. }
    rewrite u8_id in H by lia.
    unfold chk_u in H. replace ((0 <=? Z.of_nat (S (length run)) - 2) && (Z.of_nat (S (length run)) - 2 <? 2 ^ 8)) with true in H
      by (change (2 ^ 8) with 256; lia). cbn [rbind] in H.
    rewrite G. apply Exists_app. right. apply (IH b la).
    + destruct (ser_point_runs k la b); cbn [rbind] in H; congruence.
    + eapply app_longer; [exact E1|exact Ha|exact Hk].
Qed.
Lemma ser_runs_err k : forall l last, ser_point_runs k last l <> Err.
Proof.
  induction k as [|k IH]; intros [|c l] last; try discriminate. cbn [ser_point_runs].
  pose proof (point_run_err (c :: l) 1 None last).
  destruct (point_run 1 None last (c :: l)) as [[[[run ub] la] b]| |]; cbn [rbind]; try congruence.
  destruct ub; cbn [unwrap rbind]; [|discriminate]. unfold chk_u. destruct (_ && _); cbn [rbind]; [|discriminate].
  specialize (IH b la). destruct (ser_point_runs k la b); cbn [rbind]; congruence.
Qed.

Lemma gaps_bound l : forall last, 0 <= last -> Forall (in_range U16) l -> Forall (fun g => g < 65536) (gaps last l).
Proof.
  induction l as [|p l IH]; intros last Hl H; [constructor|]. inversion H as [|? ? Hp Hr]; subst. cbn in Hp.
  cbn [gaps]. constructor; [lia|]. apply IH; [lia|exact Hr].
Qed.
Lemma ser_points_some pts : exists h, h <> [] /\
  ser_points (Some pts) = (runs <- ser_point_runs (length pts) 0 pts ;; Ok (h ++ runs)).
Proof.
  eexists. split; [|reflexivity]. intros H. apply (f_equal (@length Z)) in H. destruct (_ <=? _); discriminate H.
Qed.
Lemma points_written_iff pts : Forall (in_range U16) pts ->
  ((exists bs, ser_points (Some pts) = Ok bs) <-> Forall (fun g => 0 <= g) (gaps 0 pts)) /\
  ((exists bs, ser_points (Some pts) = Ok bs) \/ ser_points (Some pts) = Panic).
Proof.
  intros Hp. destruct (ser_points_some pts) as (h & _ & ->). pose proof (gaps_bound pts 0 ltac:(lia) Hp) as B.
  split.
  - split.
    + intros [bs H]. destruct (ser_point_runs (length pts) 0 pts) as [rs| |] eqn:E; cbn [rbind] in H; try discriminate.
      apply ser_runs_nonneg in E; [|lia]. eapply Forall_impl; [|exact E]. cbn. lia.
    + intros H. destruct (ser_point_runs (length pts) 0 pts) as [rs| |] eqn:E; cbn [rbind]; [eauto| |].
      * now apply ser_runs_err in E.
      * apply ser_runs_panic in E; [|lia]. apply Exists_exists in E as (g & Hg & Hc). rewrite Forall_forall in H, B.
        specialize (H g Hg). specialize (B g Hg). cbn in *. lia.
  - destruct (ser_point_runs (length pts) 0 pts) as [rs| |] eqn:E; cbn [rbind]; eauto. now apply ser_runs_err in E.
Qed.

Lemma ser_runs_bytes k : forall l last bs, (length l <= k)%nat -> Forall (fun g => 0 <= g <= 255) (gaps last l) ->
  ser_point_runs k last l = Ok bs -> point_runs (gaps last l) bs.
Proof.
  induction k as [|k IH]; intros l last bs Hk Hg H.
  - destruct l; [|cbn in Hk; lia]. apply Ok_inj in H. subst. constructor.
  - destruct l as [|c l]; [apply Ok_inj in H; subst; constructor|].
    assert (Hub: forall run ub la b, point_run 1 None last (c :: l) = Ok (run, Some ub, la, b) -> ub = true).
    { intros run ub la b E. cbn [point_run] in E. unfold chk_u in E. inversion Hg as [|? ? Hc Hg']; subst.
      change (2 ^ 16) with 65536 in E. replace ((0 <=? c - last) && (c - last <? 65536)) with true in E by lia. cbn [rbind] in E.
      replace ((0 <=? c - last) && (c - last <=? 255)) with true in E by lia. change (1 <? 127)%nat with true in E. cbn [andb negb] in E. cbv iota in E.
      destruct (point_run 2 (Some true) c l) as [[[[r1 u1] la1] b1]| |] eqn:E'; cbn [rbind] in E; try discriminate.
      apply Ok_inj in E. injection E as _ -> _ _. destruct (point_run_inv _ _ _ _ _ _ _ _ E') as (? & _ & _ & _ & _ & P & _).
      specialize (P true eq_refl). congruence. }
    destruct (runs_step k last (c :: l) bs Hk ltac:(discriminate) H) as (a & la & b & ub & run & bs' & E & Ha & G & F & Sh & Hr & _ & H' & Hb & ->).
    assert (ub = true).
    { cbn [ser_point_runs] in H. destruct (point_run 1 None last (c :: l)) as [[[[run1 ub1] la1] b1]| |] eqn:E1; cbn [rbind] in H; try discriminate.
      destruct ub; [reflexivity|]. exfalso.
      destruct ub1 as [ub1|]; cbn [unwrap rbind] in H; [|discriminate].
      rewrite (Hub _ _ _ _ eq_refl) in H.
      destruct (chk_u 8 (u8 (Z.of_nat (S (length run1))) - 2)) as [n| |] eqn:En; cbn [rbind] in H; try discriminate.
      destruct (ser_point_runs k la1 b1); cbn [rbind] in H; try discriminate. apply Ok_inj in H. injection H as H _.
      destruct (point_run_inv _ _ _ _ _ _ _ _ E1) as (? & _ & _ & _ & _ & _ & _ & P3 & _). specialize (P3 ltac:(lia)).
      rewrite u8_id in En by lia. unfold chk_u in En. destruct (_ && _); [|discriminate]. apply Ok_inj in En. lia. }
    subst ub. cbn [run_shape] in Sh. destruct Sh as [-> Sh]. rewrite G. apply pr_bytes; [lia|exact Sh|].
    apply IH; [exact Hb| |exact H']. rewrite G in Hg. now apply Forall_app in Hg.
Qed.

Lemma points_roundtrip pts : points_ok pts -> Forall (in_range U16) pts ->
  exists bs, ser_points (Some pts) = Ok bs /\ reads_back de_points bs (Some pts) /\ bs <> [] /\ reads de_points bs (Some pts).
Proof.
  intros [Hn Hg] Hp. destruct (proj2 (proj1 (points_written_iff pts Hp))) as [bs Hb].
  { eapply Forall_impl; [|exact Hg]. cbn. lia. }
  exists bs. split; [exact Hb|]. unfold ser_points in Hb.
  rewrite u16_id in Hb by lia. replace (Z.of_nat (length pts) <=? 128) with true in Hb by lia.
  rewrite u8_id in Hb by lia.
  destruct (ser_point_runs (length pts) 0 pts) as [rs| |] eqn:E; cbn [rbind] in Hb; try discriminate.
  apply Ok_inj in Hb. rewrite ser_u8_byte in Hb by lia. subst bs. cbn [app].
  apply ser_runs_bytes in E; [|lia|exact Hg]. pose proof (points_read pts rs Hn Hp E) as R.
  repeat split; [now apply reads_reads_back|discriminate|exact R].
Qed.

(** ** What is not read back *)
Lemma consume_err r n : (length (rest r) < n)%nat -> consume r n = Err.
Proof.
  intros H. rewrite rest_length in H. unfold consume, consume_or_peek.
  destruct (length (rd_input r) <? rd_ptr r + n)%nat eqn:E; [reflexivity|]. apply Nat.ltb_ge in E. lia.
Qed.
Lemma consume_ok_rest r n bs r' : consume r n = Ok (bs, r') -> length (rest r) = (n + length (rest r'))%nat /\ r' = adv r n.
Proof.
  unfold consume, consume_or_peek. destruct (length (rd_input r) <? rd_ptr r + n)%nat eqn:E; [discriminate|].
  intros H. apply Ok_inj in H. injection H as _ <-. apply Nat.ltb_ge in E. rewrite !rest_length. cbn [rd_input rd_ptr]. split; [lia|reflexivity].
Qed.
Lemma counted_err n : forall r, (length (rest r) < 2 * n)%nat -> de_counted de_u16 n r = Err.
Proof.
  induction n as [|n IH]; intros r H; [lia|]. cbn [de_counted]. unfold pbind at 1. unfold de_u16 at 1, de_prim.
  destruct (consume r (prim_width U16)) as [[bs r']| |] eqn:E; [|reflexivity|].
  - apply consume_ok_rest in E as [E ->]. unfold pbind. rewrite IH; [reflexivity|]. cbn [prim_width] in *. lia.
  - exfalso. revert E. unfold consume, consume_or_peek. destruct (_ <? _)%nat; discriminate.
Qed.
Lemma word_gap_err k : forall l last bs, (length l <= k)%nat -> (length l <= 63)%nat ->
  Exists (fun g => 255 < g) (gaps last l) -> ser_point_runs k last l = Ok bs ->
  forall r, rest r = bs -> de_point_runs k (length l) r = Err.
Proof.
  induction k as [|k IH]; intros l last bs Hk Hl Hx H r Hr.
  - destruct l; [inversion Hx|cbn in Hk; lia].
  - destruct l as [|c l]; [inversion Hx|].
    destruct (runs_step k last (c :: l) bs Hk ltac:(discriminate) H) as (a & la & b & ub & run & bs' & E & Ha & G & F & Sh & Hrl & Hfull & H' & Hb & ->).
    assert (Lab: length (c :: l) = (length a + length b)%nat) by (rewrite E; apply app_length).
    destruct ub.
    + cbn [run_shape] in Sh. destruct Sh as [-> Sh]. rewrite gaps_length in *.
      assert (R: de_point_run r = Ok (gaps last a, adv r (S (length a)))).
      { pose proof (point_run_bytes (gaps last a)) as R. rewrite gaps_length in R. specialize (R ltac:(lia) Sh r bs').
        rewrite R; [cbn [length]; now rewrite gaps_length|]. rewrite Hr. reflexivity. }
      cbn [de_point_runs]. destruct (length (c :: l)) as [|m] eqn:Em; [discriminate|].
      cbn [de_point_runs]. unfold pbind at 1. rewrite R. unfold pbind. rewrite gaps_length.
      replace (S m - length a)%nat with (length b) by lia.
      rewrite (IH b la bs'); [reflexivity|exact Hb|lia| |exact H'|].
      * rewrite G in Hx. apply Exists_app in Hx as [Hx|Hx]; [|exact Hx]. exfalso.
        apply Exists_exists in Hx as (g & Hg & Hg'). rewrite Forall_forall in Sh. specialize (Sh g Hg). cbn in Sh. lia.
      * rewrite rest_adv, Hr. change (S (length a)) with (1 + length a)%nat. cbn [skipn plus].
        rewrite <- (gaps_length a last). apply skipn_app_exact.
    + cbn [run_shape] in Sh. assert (Lr: length run = (2 * length a)%nat).
      { subst run. clear. revert last. induction a as [|x a IHa]; intros last; [reflexivity|].
        cbn [gaps map concat word app length]. rewrite IHa. lia. }
      assert (b = []). { destruct b; [reflexivity|]. exfalso. specialize (Hfull eq_refl ltac:(discriminate)).
        cbn [length] in *. lia. }
      subst b. cbn [length] in *. assert (bs' = []) by (destruct k; apply Ok_inj in H'; now subst). subst bs'.
      destruct (length (c :: l)) as [|m] eqn:Em; [discriminate|]. cbn [de_point_runs]. unfold pbind at 1.
      assert (R: de_point_run r = Err).
      { unfold de_point_run. unfold pbind at 1.
        assert (R8: de_u8 r = Ok (0x80 + (Z.of_nat (length run) - 1), adv r 1)).
        { pose proof (reads_u8 (0x80 + (Z.of_nat (length run) - 1)) ltac:(lia)) as R. rewrite ser_u8_byte in R by lia.
          apply (R r (run ++ [])). exact Hr. }
        rewrite R8. destruct (ctl_point (Z.of_nat (length run) - 1)) as (?&?&K1&K2&?); [lia|]. rewrite K1, K2.
        change (128 >? 0) with true. cbv iota. apply counted_err.
        rewrite rest_adv, Hr. cbn [skipn]. rewrite app_nil_r, Lr. lia. }
      now rewrite R.
Qed.
Lemma word_gap_unreadable pts bs : (length pts <= 63)%nat -> Exists (fun g => 255 < g) (gaps 0 pts) ->
  ser_points (Some pts) = Ok bs -> from_bytes de_points bs = Err.
Proof.
  intros Hn Hx H. unfold ser_points in H. rewrite u16_id in H by lia.
  replace (Z.of_nat (length pts) <=? 128) with true in H by lia. rewrite u8_id in H by lia.
  destruct (ser_point_runs (length pts) 0 pts) as [rs| |] eqn:E; cbn [rbind] in H; try discriminate.
  apply Ok_inj in H. rewrite ser_u8_byte in H by lia. subst bs. cbn [app].
  assert (Hn0: pts <> []) by (intros ->; inversion Hx).
  assert (Hn1: (1 <= length pts)%nat) by (destruct pts; [congruence|cbn; lia]).
  unfold from_bytes, de_points. unfold pbind at 1.
  assert (R: de_point_count (rd_new (Z.of_nat (length pts) :: rs)) = Ok (Z.of_nat (length pts), adv (rd_new (Z.of_nat (length pts) :: rs)) 1)).
  { assert (R: reads de_point_count [Z.of_nat (length pts)] (Z.of_nat (length pts))).
    { unfold de_point_count. apply reads_cons_u8; [lia|]. replace (Z.of_nat (length pts) >? 127) with false by lia. apply reads_pret. }
    apply (R _ rs). reflexivity. }
  rewrite R. replace (Z.of_nat (length pts) =? 0) with false by lia. unfold pbind at 1. rewrite Nat2Z.id.
  rewrite (word_gap_err _ _ _ _ (le_n _) Hn Hx E); reflexivity.
Qed.

Lemma point_runs_len k : forall n r l r', (n <= k)%nat -> de_point_runs k n r = Ok (l, r') -> (n <= length l)%nat.
Proof.
  assert (C: forall A (p : parser A) m r l r', de_counted p m r = Ok (l, r') -> length l = m).
  { intros A p. induction m as [|m IH]; intros r l r' H; cbn [de_counted] in H; [now injection H as <- _|].
    unfold pbind in H. destruct (p r) as [[x r1]| |]; try discriminate.
    destruct (de_counted p m r1) as [[xs r2]| |] eqn:E; try discriminate. injection H as <- _. cbn. f_equal. eapply IH; exact E. }
  assert (R1: forall r l r', de_point_run r = Ok (l, r') -> (1 <= length l)%nat).
  { intros r l r' H. unfold de_point_run, pbind in H. destruct (de_u8 r) as [[c r1]| |]; try discriminate.
    assert (0 <= Z.land c 0x7f) by (apply Z.land_nonneg; lia).
    destruct (Z.land c 128 >? 0); apply C in H; lia. }
  induction k as [|k IH]; intros n r l r' Hn H; [lia|]. destruct n as [|n]; [lia|].
  cbn [de_point_runs] in H. unfold pbind in H. destruct (de_point_run r) as [[run r1]| |] eqn:E; try discriminate.
  destruct (de_point_runs k (S n - length run) r1) as [[xs r2]| |] eqn:E2; try discriminate.
  unfold pret in H. apply Ok_inj in H. injection H as <- _. apply R1 in E. apply IH in E2; [|lia]. rewrite app_length. lia.
Qed.
Lemma cumsum_len l : forall acc r, cumsum acc l = Ok r -> length r = length l.
Proof.
  induction l as [|x l IH]; intros acc r H; cbn [cumsum] in H; [apply Ok_inj in H; now subst|].
  unfold chk_u in H. destruct (_ && _); cbn [rbind] in H; [|discriminate].
  destruct (cumsum (acc + x) l) as [t| |] eqn:E; cbn [rbind] in H; try discriminate. apply Ok_inj in H. subst. cbn. f_equal. eauto.
Qed.
Lemma points_len r c r' p r'' : de_point_count r = Ok (c, r') -> de_points r = Ok (Some p, r'') ->
  (Z.to_nat c <= length p)%nat.
Proof.
  intros Hc H. unfold de_points, pbind at 1 in H. rewrite Hc in H. destruct (c =? 0); [discriminate|].
  unfold pbind at 1 in H. destruct (de_point_runs (Z.to_nat c) (Z.to_nat c) r') as [[l r1]| |] eqn:E; try discriminate.
  apply point_runs_len in E; [|lia]. unfold pbind, plift in H. destruct (cumsum 0 l) as [q| |] eqn:E2; try discriminate.
  unfold pret in H. apply Ok_inj in H. injection H as <- _. apply cumsum_len in E2. lia.
Qed.
Lemma count_two c1 c2 : 128 <= c1 < 256 -> 0 <= c2 < 256 -> reads de_point_count [c1; c2] (c1 * 256 + c2).
Proof.
  intros H1 H2. unfold de_point_count. apply reads_cons_u8; [lia|]. replace (c1 >? 127) with true by lia.
  apply reads_cons_u8; [lia|]. change 0xff with (Z.ones 8). rewrite Z.land_ones by lia. change (2 ^ 8) with 256.
  rewrite Z.mod_small by lia. rewrite Z.shiftl_mul_pow2 by lia. rewrite lor_high by (change (2 ^ 8) with 256; lia). apply reads_pret.
Qed.
Lemma many_points_lost pts bs : (128 <= Z.of_nat (length pts) < 32768) ->
  ser_points (Some pts) = Ok bs -> from_bytes de_points bs <> Ok (Some pts).
Proof.
  intros Hn H. set (n := Z.of_nat (length pts)) in *.
  assert (Hc: exists c1 c2 tl, bs = [c1; c2] ++ tl /\ 128 <= c1 < 256 /\ 0 <= c2 < 256).
  { unfold ser_points in H. fold n in H. rewrite u16_id in H by lia.
    destruct (ser_point_runs (length pts) 0 pts) as [rs| |] eqn:E; cbn [rbind] in H; try discriminate. apply Ok_inj in H. subst bs.
    destruct (n <=? 128) eqn:E1.
    - rewrite u8_id, ser_u8_byte by lia. destruct (length pts) as [|k] eqn:Ek; [lia|].
      apply runs_step in E as (a & la & b & ub & run & bs' & _ & _ & _ & _ & _ & Hr & _ & _ & _ & ->); [|lia|intros ->; discriminate].
      exists n, (if ub then Z.of_nat (length run) - 1 else 128 + (Z.of_nat (length run) - 1)), (run ++ bs').
      split; [reflexivity|]. destruct ub; lia.
    - replace (Z.lor n 32768) with (32768 + n).
      2:{ rewrite Z.lor_comm. change 32768 with (1 * 2 ^ 15). symmetry. apply lor_high; [lia|]. change (2 ^ 15) with 32768. lia. }
      rewrite ser_u16_eq. do 3 eexists. split; [reflexivity|]. lia. }
  destruct Hc as (c1 & c2 & tl & -> & H1 & H2).
  pose proof (count_two c1 c2 H1 H2 (rd_new ([c1; c2] ++ tl)) tl eq_refl) as R.
  unfold from_bytes. destruct (de_points (rd_new ([c1; c2] ++ tl))) as [[p r]| |] eqn:E; try discriminate.
  intros Hp. apply Ok_inj in Hp. subst p. pose proof (points_len _ _ _ _ _ R E). lia.
Qed.

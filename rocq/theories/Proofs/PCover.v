(** Coverage tables and class definitions. *)
From Coq Require Import Sorted.
From Verif.Model Require Import MBase MMap MLayout.
From Verif.Spec Require Import SBase SGlyph SLayout.
From Verif.Proofs Require Import PBase PCodec PMap PTables PGlyphFmt PPoints.

Lemma chk16 z : 0 <= z <= 65535 -> chk_u 16 z = Ok z.
Proof. intros H. unfold chk_u. change (2 ^ 16) with 65536. replace ((0 <=? z) && (z <? 65536)) with true by lia. reflexivity. Qed.
Lemma chk16_inv z v : chk_u 16 z = Ok v -> v = z /\ 0 <= z <= 65535.
Proof. unfold chk_u. change (2 ^ 16) with 65536. destruct ((0 <=? z) && (z <? 65536)) eqn:E; [|discriminate]. intros [= <-]. lia. Qed.
Lemma chk16_panic z : ~ 0 <= z <= 65535 -> chk_u 16 z = Panic.
Proof. intros H. unfold chk_u. change (2 ^ 16) with 65536. replace ((0 <=? z) && (z <? 65536)) with false by lia. reflexivity. Qed.

(** ** Intervals *)
Lemma map_add_seq (s t : Z) k : s + Z.of_nat k = t -> forall n j, map (fun i => s + Z.of_nat i) (seq (k + j) n) = map (fun i => t + Z.of_nat i) (seq j n).
Proof.
  intros H. induction n as [|n IH]; intros j; [reflexivity|].
  cbn [seq map]. f_equal; [lia|]. replace (S (k + j)) with (k + S j)%nat by lia. apply IH.
Qed.
Lemma interval_cons s e : s <= e -> interval s e = s :: interval (s + 1) e.
Proof.
  intros H. unfold interval. replace (Z.to_nat (e - s + 1)) with (S (Z.to_nat (e - (s + 1) + 1))) by lia. cbn [seq map].
  f_equal; [lia|]. exact (map_add_seq s (s + 1) 1 eq_refl _ 0).
Qed.
Lemma interval_nil s e : e < s -> interval s e = [].
Proof. intros H. unfold interval. replace (Z.to_nat (e - s + 1)) with 0%nat by lia. reflexivity. Qed.
Lemma interval_length s e : length (interval s e) = Z.to_nat (e - s + 1).
Proof. unfold interval. now rewrite map_length, seq_length. Qed.
Lemma interval_In s e x : In x (interval s e) <-> s <= x <= e.
Proof.
  unfold interval. rewrite in_map_iff. split.
  - intros (i & <- & Hi). apply in_seq in Hi. lia.
  - intros H. exists (Z.to_nat (x - s)). split; [lia|]. apply in_seq. lia.
Qed.
Lemma interval_last s e d : s <= e -> last (interval s e) d = e.
Proof.
  intros H. remember (Z.to_nat (e - s)) as n eqn:E. revert s H E. induction n as [|n IH]; intros s H E.
  - assert (s = e) by lia. subst. rewrite interval_cons, interval_nil by lia. reflexivity.
  - rewrite interval_cons by lia. assert (X: interval (s + 1) e <> []) by (rewrite interval_cons by lia; discriminate).
    cbn [last]. destruct (interval (s + 1) e) eqn:E2; [now elim X|]. rewrite <- E2. apply IH; lia.
Qed.
Lemma zrange_interval s e : zrange s (e + 1) = interval s e.
Proof. unfold zrange, interval. do 3 f_equal. lia. Qed.

(** ** Slices *)
Definition linked {A} (next : A -> A -> bool) := fix linked (l : list A) : Prop :=
  match l with a :: ((b :: _) as l') => next a b = true /\ linked l' | _ => True end.
Lemma slices_length_pos {A} next (l : list A) sl : slices next l = Ok sl -> l <> [] -> exists h t, sl = h :: t /\ exists x r, l = x :: r /\ exists h', h = x :: h'.
Proof.
  intros H Hl. destruct l as [|x l]; [now elim Hl|]. cbn [slices] in H. destruct l as [|y l].
  - injection H as <-. exists [x], []. split; [reflexivity|]. exists x, []. split; [reflexivity|]. now exists [].
  - destruct (next x y) as [b| |]; cbn [rbind] in H; try discriminate. destruct (slices next (y :: l)) as [r| |]; cbn [rbind] in H; try discriminate.
    injection H as <-. destruct b; [destruct r as [|h t]|]; eexists; eexists; (split; [reflexivity|]); exists x, (y :: l); (split; [reflexivity|]); eexists; reflexivity.
Qed.
Section Slices.
Context {A : Type} (nextr : A -> A -> res bool) (nextb : A -> A -> bool).
Hypothesis Hn : forall a b c, nextr a b = Ok c -> c = nextb a b.
Lemma slices_spec l sl : slices nextr l = Ok sl ->
  concat sl = l /\ Forall (fun s => s <> [] /\ linked nextb s) sl.
Proof.
  revert sl. induction l as [|x l IH]; intros sl H; [injection H as <-; split; [reflexivity|constructor]|].
  cbn [slices] in H. destruct l as [|y l].
  - injection H as <-. split; [reflexivity|]. constructor; [|constructor]. split; [discriminate|exact I].
  - destruct (nextr x y) as [b| |] eqn:En; cbn [rbind] in H; try discriminate.
    destruct (slices nextr (y :: l)) as [r| |] eqn:Es; cbn [rbind] in H; try discriminate. injection H as <-.
    destruct (IH r eq_refl) as [Hc Hf]. apply Hn in En. subst b. destruct (nextb x y) eqn:Eb.
    + destruct (slices_length_pos _ _ _ Es) as (h & t & -> & x' & l' & E & h' & ->); [discriminate|]. injection E as <- <-.
      inversion Hf as [|? ? [_ Hh] Ht]; subst. split; [cbn in *; congruence|]. constructor; [|exact Ht]. split; [discriminate|].
      cbn [linked]. split; [exact Eb|exact Hh].
    + split; [cbn in *; congruence|]. constructor; [|exact Hf]. split; [discriminate|exact I].
Qed.
End Slices.
Lemma slices_ok {A} (nextr : A -> A -> res bool) l : (forall a b, In a (removelast l) -> exists c, nextr a b = Ok c) -> exists sl, slices nextr l = Ok sl.
Proof.
  induction l as [|x l IH]; intros H; [now exists []|]. cbn [slices]. destruct l as [|y l]; [eexists; reflexivity|].
  destruct (H x y) as [c Ec]; [now left|]. rewrite Ec. cbn [rbind].
  destruct IH as [sl Es]; [intros a b Ha; apply H; now right|]. rewrite Es. eexists; reflexivity.
Qed.
Lemma slices_panic {A} (nextr : A -> A -> res bool) l a : (forall b, nextr a b = Panic) -> (forall x y, nextr x y <> Err) ->
  In a (removelast l) -> slices nextr l = Panic.
Proof.
  intros Hp He. induction l as [|x l IH]; intros H; [elim H|]. cbn [slices]. destruct l as [|y l]; [elim H|].
  destruct H as [->|H]; [now rewrite Hp|]. destruct (nextr x y) as [c| |] eqn:Ec; cbn [rbind]; [|now elim (He x y)|reflexivity].
  now rewrite (IH H).
Qed.

(** ** Coverage *)
Definition cov_nextb (a b : Z) : bool := a + 1 =? b.
Lemma cov_next_b a b c : cov_next a b = Ok c -> c = cov_nextb a b.
Proof.
  unfold cov_next. destruct (chk_u 16 (a + 1)) eqn:E; cbn [rbind]; try discriminate. apply chk16_inv in E as [-> _]. now intros [= <-].
Qed.
Lemma cov_linked s : s <> [] -> linked cov_nextb s -> exists a e, a <= e /\ s = interval a e.
Proof.
  induction s as [|x s IH]; intros H L; [now elim H|]. destruct s as [|y s].
  - exists x, x. split; [lia|]. rewrite interval_cons, interval_nil by lia. reflexivity.
  - cbn [linked] in L. destruct L as [L1 L2]. destruct IH as (a & e & Hae & E); [discriminate|exact L2|].
    rewrite interval_cons in E by exact Hae. injection E as -> E. unfold cov_nextb in L1. exists x, e. split; [lia|].
    rewrite (interval_cons x) by lia. f_equal. replace (x + 1) with a by lia. rewrite interval_cons by exact Hae. now rewrite E.
Qed.
Lemma cov_runs l : forall sl, cov_slices l = Ok sl -> length sl = runs l.
Proof.
  unfold cov_slices. induction l as [|x l IH]; intros sl H; [injection H as <-; reflexivity|].
  cbn [slices runs] in *. destruct l as [|y l]; [injection H as <-; reflexivity|].
  destruct (cov_next x y) as [b| |] eqn:En; cbn [rbind] in H; try discriminate.
  destruct (slices cov_next (y :: l)) as [r| |] eqn:Es; cbn [rbind] in H; try discriminate. injection H as <-.
  specialize (IH r eq_refl). apply cov_next_b in En. subst b. unfold cov_nextb. destruct (Z.eqb_spec (x + 1) y).
  - destruct (slices_length_pos _ _ _ Es) as (h & t & -> & _); [discriminate|]. destruct (Z.eq_dec y (x + 1)); [exact IH|lia].
  - destruct (Z.eq_dec y (x + 1)); [lia|]. cbn [length]. now rewrite IH.
Qed.
Definition slice_range (s : list Z) (i : Z) : Z * Z * Z := (hd 0 s, last s 0, i).
Fixpoint slice_ranges (i : Z) (sl : list (list Z)) : list (Z * Z * Z) :=
  match sl with [] => [] | s :: sl' => slice_range s i :: slice_ranges (i + Z.of_nat (length s)) sl' end.

Lemma cov_slice_range s i : (exists a e, a <= e /\ s = interval a e) -> range_glyphs (slice_range s i) = s /\ hd 0 s <= last s 0.
Proof.
  intros (a & e & H & ->). unfold range_glyphs, slice_range. cbn [fst snd].
  rewrite (interval_last a e 0 H). replace (hd 0 (interval a e)) with a by now rewrite (interval_cons a e H). split; [reflexivity|exact H].
Qed.
Definition run_list (s : list Z) : Prop := exists a e, a <= e /\ s = interval a e.
Lemma slice_ranges_spec sl : Forall run_list sl -> Forall (Forall is_u16) sl ->
  forall i, 0 <= i -> i + Z.of_nat (length (concat sl)) <= 65535 ->
  concat (map range_glyphs (slice_ranges i sl)) = concat sl /\ Forall range_ok (slice_ranges i sl) /\ indexed i (slice_ranges i sl) /\
  cov_records i sl = Ok (concat (map range_words (slice_ranges i sl))) /\ length (slice_ranges i sl) = length sl.
Proof.
  induction sl as [|s sl IH]; intros Hr Hu i Hi Hb; [repeat split; constructor|].
  inversion Hr as [|? ? Hs Hr']; subst. inversion Hu as [|? ? Hus Hu']; subst. cbn [concat] in Hb. rewrite app_length in Hb.
  destruct (IH Hr' Hu' (i + Z.of_nat (length s))) as (I1 & I2 & I3 & I4 & I5); [lia|lia|].
  destruct (cov_slice_range s i Hs) as [R1 R2]. cbn [slice_ranges map concat indexed length].
  assert (S: exists x s', s = x :: s' /\ is_u16 x /\ is_u16 (last s 0)).
  { destruct Hs as (a & e & Hae & ->). rewrite (interval_last a e 0 Hae). rewrite (interval_cons a e Hae) in *. exists a, (interval (a + 1) e).
    rewrite Forall_forall in Hus. split; [reflexivity|]. split; [apply Hus; now left|]. apply Hus. rewrite <- (interval_cons a e Hae). apply interval_In. lia. }
  destruct S as (x & s' & Es & Hx & Hl). split; [now rewrite R1, I1|]. split.
  - constructor; [|exact I2]. unfold range_ok, slice_range. cbn [fst snd]. rewrite Es in *. cbn [hd] in *. repeat split; try apply Hx; try apply Hl; try lia.
  - rewrite R1. split; [split; [reflexivity|exact I3]|]. split; [|now rewrite I5]. cbn [cov_records]. rewrite Es at 1.
    rewrite u16_id by lia. rewrite chk16 by lia. cbn [rbind]. rewrite I4. cbn [rbind]. unfold range_words at 2, slice_range. cbn [fst snd].
    rewrite !word_u16. rewrite <- !app_assoc. rewrite Es. reflexivity.
Qed.
Lemma nondecreasing_sorted l : is_sorted l = true <-> nondecreasing l.
Proof.
  induction l as [|a l IH]; [split; [intros; exact I|reflexivity]|]. cbn [is_sorted nondecreasing]. destruct l as [|b l]; [split; [intros; exact I|reflexivity]|].
  rewrite andb_true_iff, IH. intuition lia.
Qed.
Lemma ser_counted_words l : Z.of_nat (length l) <= 65535 -> ser_counted (fun g => Ok (ser_u16 g)) l = Ok (word (Z.of_nat (length l)) ++ words l).
Proof.
  intros H. unfold ser_counted. rewrite (rmapM_Ok _ ser_u16) by reflexivity. cbn [rbind]. rewrite u16_id by lia. unfold words.
  now rewrite word_u16, map_words_u.
Qed.
Lemma cov_slices_facts g sl : cov_slices g = Ok sl -> Forall is_u16 g ->
  concat sl = g /\ Forall run_list sl /\ Forall (Forall is_u16) sl.
Proof.
  intros H Hg. destruct (slices_spec cov_next cov_nextb cov_next_b g sl H) as [Hc Hf]. split; [exact Hc|]. split.
  - eapply Forall_impl; [|exact Hf]. intros s [H1 H2]. now apply cov_linked.
  - rewrite <- Hc in Hg. clear -Hg. induction sl as [|s sl IH]; constructor; apply Forall_app in Hg as [H1 H2]; auto.
Qed.
Lemma runs_le g : (runs g <= length g)%nat.
Proof. induction g as [|x [|y g] IH]; cbn [runs length] in *; [lia|lia|]. destruct (Z.eq_dec y (x + 1)); lia. Qed.

Notation cov_compact := ranges_shorter.
Lemma cov_ser_inv g bs : Forall is_u16 g -> Z.of_nat (length g) <= 65535 -> cov_ser g = Ok bs ->
  (~ cov_compact g /\ bs = word 1 ++ word (Z.of_nat (length g)) ++ words g) \/
  (cov_compact g /\ exists rs, bs = word 2 ++ word (Z.of_nat (length rs)) ++ concat (map range_words rs) /\
     Forall range_ok rs /\ indexed 0 rs /\ concat (map range_glyphs rs) = g /\ length rs = runs g).
Proof.
  intros Hg Hl H. unfold cov_ser, cov_format in H. destruct (cov_slices g) as [sl| |] eqn:Es; cbn [rbind] in H; try discriminate.
  pose proof (cov_runs g sl Es) as Hr. destruct (cov_slices_facts g sl Es Hg) as (Hc & Hru & Hu).
  pose proof (nondecreasing_sorted g) as Hs.
  destruct ((length g =? 0)%nat || negb (is_sorted g) || (length g <=? length sl * 3)%nat) eqn:E; cbn [rbind] in H.
  - change (1 =? 1) with true in H. cbn iota in H. rewrite ser_counted_words in H by exact Hl. cbn [rbind] in H. apply Ok_inj in H. subst bs. left.
    split; [|now rewrite word_u16]. intros [N1 N2]. apply Hs in N1. rewrite N1, Hr in E. cbn in E. lia.
  - change (2 =? 1) with false in H. cbn iota in H. right.
    destruct (slice_ranges_spec sl Hru Hu 0) as (R1 & R2 & R3 & R4 & R5); [lia|rewrite Hc; lia|]. rewrite R4 in H. cbn [rbind] in H. apply Ok_inj in H. subst bs.
    apply orb_false_iff in E as [E E3]. apply orb_false_iff in E as [E1 E2]. rewrite Hr in E3. split; [split; [apply Hs; now destruct (is_sorted g)|lia]|].
    exists (slice_ranges 0 sl). rewrite R5, Hr. rewrite u16_id by (pose proof (runs_le g); lia). rewrite !word_u16. repeat split; auto. now rewrite R1, Hc.
Qed.
Lemma cov_written_format g bs : Forall is_u16 g -> Z.of_nat (length g) <= 65535 -> cov_ser g = Ok bs -> cov_bytes bs g.
Proof.
  intros Hg Hl H. destruct (cov_ser_inv g bs Hg Hl H) as [[_ ->]|[_ (rs & -> & H1 & H2 & <- & H3)]].
  - now constructor.
  - constructor; auto. rewrite H3. pose proof (runs_le (concat (map range_glyphs rs))). lia.
Qed.
Lemma cov_written_iff g : Forall is_u16 g -> Z.of_nat (length g) <= 65535 ->
  ((exists bs, cov_ser g = Ok bs) <-> ~ In 65535 (removelast g)).
Proof.
  intros Hg Hl. split.
  - intros [bs H] Hin. unfold cov_ser in H. assert (P: cov_slices g = Panic).
    { unfold cov_slices. apply slices_panic with 65535; [reflexivity| |exact Hin]. intros x y. unfold cov_next, chk_u. now destruct (_ && _). }
    rewrite P in H. discriminate.
  - intros Hin. destruct (slices_ok cov_next g) as [sl Es].
    { intros a b Ha. unfold cov_next. assert (Ha': In a g). { clear -Ha. induction g as [|x g IH]; [elim Ha|]. destruct g as [|y g]; [elim Ha|]. destruct Ha as [->|Ha]; [now left|right; now apply IH]. }
      rewrite Forall_forall in Hg. specialize (Hg a Ha'). unfold is_u16 in Hg. assert (a <> 65535) by (intros ->; now apply Hin).
      rewrite chk16 by lia. eexists; reflexivity. }
    fold (cov_slices g) in Es. destruct (cov_slices_facts g sl Es Hg) as (Hc & Hru & Hu).
    unfold cov_ser, cov_format. rewrite Es. cbn [rbind]. destruct (_ || _ || _); cbn [rbind].
    + change (1 =? 1) with true. cbn iota. rewrite ser_counted_words by exact Hl. eexists; reflexivity.
    + change (2 =? 1) with false. cbn iota. destruct (slice_ranges_spec sl Hru Hu 0) as (_ & _ & _ & R4 & _); [lia|rewrite Hc; lia|].
      rewrite R4. eexists; reflexivity.
Qed.
Lemma words_length l : length (words l) = (2 * length l)%nat.
Proof. unfold words. induction l as [|x l IH]; [reflexivity|]. cbn [map concat]. rewrite app_length, IH. cbn [length word]. lia. Qed.
Lemma range_words_length l : length (concat (map range_words l)) = (6 * length l)%nat.
Proof. induction l as [|x l IH]; [reflexivity|]. cbn [map concat]. rewrite app_length, IH. unfold range_words. rewrite !app_length. cbn [length word]. lia. Qed.
Lemma cov_size_written g bs : Forall is_u16 g -> Z.of_nat (length g) <= 65535 -> cov_ser g = Ok bs ->
  cov_size g = Ok (length bs).
Proof.
  intros Hg Hl H. pose proof (cov_ser_inv g bs Hg Hl H) as Hi. unfold cov_ser in H.
  unfold cov_size. destruct (cov_slices g) as [sl| |] eqn:Es; cbn [rbind] in H; try discriminate.
  pose proof (cov_runs g sl Es) as Hr. destruct (cov_format g) as [f| |] eqn:Ef; cbn [rbind] in *; try discriminate.
  f_equal. unfold cov_format in Ef. rewrite Es in Ef. cbn [rbind] in Ef. pose proof (nondecreasing_sorted g) as Hs. apply Ok_inj in Ef.
  destruct Hi as [[N ->]|[[N1 N2] (rs & -> & _ & _ & _ & Hrs)]].
  - destruct ((length g =? 0)%nat || negb (is_sorted g) || (length g <=? length sl * 3)%nat) eqn:E; subst f.
    + change (1 =? 1) with true. rewrite !app_length, words_length. cbn [length word]. lia.
    + exfalso. apply N. apply orb_false_iff in E as [E E3]. apply orb_false_iff in E as [E1 E2]. rewrite Hr in E3.
      split; [apply Hs; now destruct (is_sorted g)|lia].
  - destruct ((length g =? 0)%nat || negb (is_sorted g) || (length g <=? length sl * 3)%nat) eqn:E; subst f.
    + exfalso. apply Hs in N1. rewrite N1, Hr in E. cbn in E. lia.
    + change (2 =? 1) with false. rewrite !app_length, range_words_length, Hrs, Hr. cbn [length word]. lia.
Qed.

(** Reading *)
Lemma reads_plift {A} (x : res A) v : x = Ok v -> reads (plift x) [] v.
Proof. intros ->. exact (reads_pret v). Qed.
Lemma reads_words l : Forall is_u16 l -> Z.of_nat (length l) <= 65535 -> reads (de_counted16 de_u16) (word (Z.of_nat (length l)) ++ words l) l.
Proof.
  intros Hl Hn. unfold de_counted16. eapply reads_bind; [rewrite word_u16; apply reads_u16; lia|]. cbn beta. rewrite Nat2Z.id.
  unfold words. rewrite map_words_u. apply reads_counted. eapply Forall_impl; [|exact Hl]. intros z Hz. apply reads_u16. unfold is_u16 in Hz. lia.
Qed.
Lemma reads_triple r : is_u16 (fst (fst r)) -> is_u16 (snd (fst r)) -> is_u16 (snd r) -> reads de_triple (range_words r) r.
Proof.
  destruct r as [[a b] c]. unfold range_words, is_u16, de_triple. cbn [fst snd]. intros. rewrite !word_u16.
  eapply reads_bind; [apply reads_u16; lia|]. eapply reads_bind; [apply reads_u16; lia|].
  apply (reads_map de_u16 (fun c => (a, b, c))). apply reads_u16; lia.
Qed.
Lemma reads_triples rs : Forall range_ok rs -> Z.of_nat (length rs) <= 65535 ->
  reads (de_counted16 de_triple) (word (Z.of_nat (length rs)) ++ concat (map range_words rs)) rs.
Proof.
  intros Hl Hn. unfold de_counted16. eapply reads_bind; [rewrite word_u16; apply reads_u16; lia|]. cbn beta. rewrite Nat2Z.id.
  apply reads_counted. eapply Forall_impl; [|exact Hl]. intros z (H1 & H2 & H3 & _). now apply reads_triple.
Qed.
Lemma cov_expand_ok rs : Forall range_ok rs -> ~ In 65535 (concat (map range_glyphs rs)) -> cov_expand rs = Ok (concat (map range_glyphs rs)).
Proof.
  induction 1 as [|[[s e] i] rs (H1 & H2 & H3 & H4) Hrs IH]; intros Hn; [reflexivity|]. cbn [cov_expand map concat] in *. unfold range_glyphs at 1 in Hn. cbn [fst snd] in *.
  assert (e <> 65535). { intros ->. apply Hn. apply in_or_app. left. apply interval_In. lia. }
  unfold is_u16 in H2. rewrite chk16 by lia. cbn [rbind]. rewrite IH by (intros X; apply Hn; apply in_or_app; now right). cbn [rbind].
  now rewrite zrange_interval.
Qed.
Lemma cov_expand_panic rs : Forall range_ok rs -> In 65535 (concat (map range_glyphs rs)) -> cov_expand rs = Panic.
Proof.
  induction 1 as [|[[s e] i] rs (H1 & H2 & H3 & H4) Hrs IH]; intros Hn; [elim Hn|]. cbn [cov_expand map concat] in *. unfold range_glyphs at 1 in Hn. cbn [fst snd] in *.
  unfold is_u16 in *. destruct (Z.eq_dec e 65535) as [->|].
  - now rewrite chk16_panic by lia.
  - rewrite chk16 by lia. cbn [rbind]. apply in_app_or in Hn as [Hn|Hn]; [apply interval_In in Hn; lia|]. now rewrite (IH Hn).
Qed.
Lemma cov_every_read bs g : cov_bytes bs g -> firstn 2 bs = word 1 \/ ~ In 65535 g -> reads cov_de bs g.
Proof.
  intros H Hn. unfold cov_de. destruct H as [gs Hg Hl|rs Hr Hl Hi].
  - eapply reads_bind; [rewrite word_u16; apply reads_u16; lia|]. change (1 =? 1) with true. cbn iota. now apply reads_words.
  - destruct Hn as [Hn|Hn]; [discriminate|]. eapply reads_bind; [rewrite (word_u16 2); apply reads_u16; lia|]. change (2 =? 1) with false. cbn iota.
    eapply reads_bind'; [symmetry; apply app_nil_r|now apply reads_triples|]. apply reads_plift. now apply cov_expand_ok.
Qed.
Lemma reads_step {A B} (p : parser A) (f : A -> parser B) bs a r post : reads p bs a -> rest r = bs ++ post ->
  pbind p f r = f a (adv r (length bs)).
Proof. intros H Hr. unfold pbind. now rewrite (H r post Hr). Qed.
Lemma cov_unreadable rs post : Forall range_ok rs -> Z.of_nat (length rs) <= 65535 -> In 65535 (concat (map range_glyphs rs)) ->
  from_bytes cov_de ((word 2 ++ word (Z.of_nat (length rs)) ++ concat (map range_words rs)) ++ post) = Panic.
Proof.
  intros Hr Hl Hn. unfold from_bytes, cov_de. rewrite <- app_assoc.
  rewrite (reads_step de_u16 _ (word 2) 2 _ ((word (Z.of_nat (length rs)) ++ concat (map range_words rs)) ++ post));
    [|rewrite (word_u16 2); apply reads_u16; lia|reflexivity].
  change (2 =? 1) with false. cbn iota.
  rewrite (reads_step (de_counted16 de_triple) _ (word (Z.of_nat (length rs)) ++ concat (map range_words rs)) rs _ post);
    [|now apply reads_triples|rewrite rest_adv; apply skipn_app_exact].
  unfold plift. now rewrite cov_expand_panic.
Qed.
Lemma in_removelast_last (g : list Z) x : In x g -> ~ In x (removelast g) -> last g 0 = x.
Proof.
  induction g as [|a g IH]; intros H1 H2; [elim H1|]. destruct g as [|b g].
  - destruct H1 as [->|[]]. reflexivity.
  - cbn [removelast last] in *. destruct H1 as [->|H1]; [elim H2; now left|]. apply IH; [exact H1|]. intros X. apply H2. now right.
Qed.
Lemma last_in (g : list Z) d : g <> [] -> In (last g d) g.
Proof. induction g as [|a [|b g] IH]; intros H; [now elim H|now left|]. right. apply IH. discriminate. Qed.
Lemma cov_roundtrip g bs : Forall is_u16 g -> Z.of_nat (length g) <= 65535 -> cov_ser g = Ok bs ->
  (~ (cov_compact g /\ last g 0 = 65535) -> reads cov_de bs g) /\
  (cov_compact g /\ last g 0 = 65535 -> forall post, from_bytes cov_de (bs ++ post) = Panic).
Proof.
  intros Hg Hl H. pose proof (proj1 (cov_written_iff g Hg Hl) (ex_intro _ bs H)) as Hw. pose proof (cov_written_format g bs Hg Hl H) as Hf.
  destruct (cov_ser_inv g bs Hg Hl H) as [[N E]|[C (rs & E & H1 & H2 & H3 & H4)]]; subst bs; split.
  - intros _. apply cov_every_read; [exact Hf|now left].
  - intros [C _]. now elim N.
  - intros Hn. apply cov_every_read; [exact Hf|right]. intros Hin. apply Hn. split; [exact C|now apply in_removelast_last].
  - intros [_ Hla] post. apply cov_unreadable; auto.
    + rewrite H4. pose proof (runs_le g). lia.
    + rewrite H3, <- Hla. apply last_in. intros ->. destruct C as [_ C]. cbn in C. lia.
Qed.
Lemma cov_length g bs : Forall is_u16 g -> Z.of_nat (length g) <= 65535 -> cov_ser g = Ok bs ->
  (nondecreasing g -> length bs = Nat.min (4 + 2 * length g) (4 + 6 * runs g)) /\ (length bs <= 4 + 2 * length g)%nat.
Proof.
  intros Hg Hl H. destruct (cov_ser_inv g bs Hg Hl H) as [[N ->]|[[_ C] (rs & -> & _ & _ & _ & R)]].
  - rewrite !app_length, words_length. cbn [length word]. split; [|lia]. intros Hn. unfold ranges_shorter in N.
    assert (~ (3 * runs g < length g)%nat) by tauto. lia.
  - rewrite !app_length, range_words_length, R. cbn [length word]. split; [intros _|]; lia.
Qed.

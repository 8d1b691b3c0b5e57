(** Compiling and re-reading the glyf and loca tables. *)
From Coq Require Import List ZArith Lia Bool.
From Verif.Model Require Import MBase MFixed MFloat MTables MMetrics MGlyph MGlyf.
From Verif.Spec Require Import SBase SReader SMetrics SGlyph SGlyf.
From Verif.Proofs Require Import PBase PCodec PReader PFont PMetrics PGlyph PGlyf PAffine.
Import ListNotations.
Open Scope Z_scope.

Lemma slice_mid pre bs post : slice (pre ++ bs ++ post) (length pre) (length bs) bs.
Proof.
  repeat split; [rewrite !app_length; lia|]. intros i Hi.
  rewrite nth_error_app2 by lia. rewrite nth_error_app1 by lia. f_equal; lia.
Qed.
Lemma slice_split buf pos n bs : slice buf pos n bs -> exists pre post, buf = pre ++ bs ++ post /\ length pre = pos /\ length bs = n.
Proof.
  rewrite slice_eq. intros [H E]. exists (firstn pos buf), (skipn n (skipn pos buf)). subst bs.
  rewrite firstn_skipn, firstn_skipn. rewrite !firstn_length, skipn_length. repeat split; lia.
Qed.

Lemma concat_nth {A} (f : A -> list Z) w l i x : (forall y, length (f y) = w) -> nth_error l i = Some x ->
  slice (concat (map f l)) (i * w) w (f x).
Proof.
  intros Hw Hi. apply nth_error_split in Hi as (l1 & l2 & -> & <-).
  rewrite map_app, concat_app. cbn [map concat].
  assert (E: length (concat (map f l1)) = (length l1 * w)%nat).
  { clear - Hw. induction l1; cbn; [reflexivity|]. rewrite app_length, Hw, IHl1. lia. }
  rewrite <- E. rewrite <- (Hw x). apply slice_mid.
Qed.
Lemma concat_len {A} (f : A -> list Z) w l : (forall y, length (f y) = w) -> length (concat (map f l)) = (length l * w)%nat.
Proof. intros Hw. induction l; cbn; [reflexivity|]. rewrite app_length, Hw, IHl. lia. Qed.

Lemma pad4_spec l : exists z, pad4 l = l ++ z /\ Z.of_nat (length (pad4 l)) = 4 * ((Z.of_nat (length l) + 3) / 4).
Proof.
  unfold pad4. eexists. split; [reflexivity|]. rewrite app_length, repeat_length. lia.
Qed.

Lemma ser_nonempty g bs : is_empty_glyph g = false -> ser_glyph g = Ok bs -> (0 < length bs)%nat.
Proof.
  unfold ser_glyph. intros ->. destruct (has_components g).
  - destruct (ser_components _ _); cbn [rbind]; try discriminate. intros H; apply Ok_inj in H; subst. cbn. lia.
  - destruct (end_points g); cbn [rbind]; try discriminate.
    destruct (compile_deltas g) as [[[? ?] ?]| |]; cbn [rbind]; try discriminate.
    intros H; apply Ok_inj in H; subst. cbn. lia.
Qed.

(** Consecutive offsets, each glyph placed between its two. *)
Fixpoint laid_out (buf : list Z) (gs : list glyph) (offs : list Z) : Prop :=
  match gs, offs with
  | [], [_] => True
  | g :: gs', a :: ((b :: _) as offs') => placed buf g a b /\ laid_out buf gs' offs'
  | _, _ => False
  end.

Lemma try_u32_cases z : 0 <= z -> (z < 4294967296 /\ unwrap (try_u 32 z) = Ok z) \/ (4294967296 <= z /\ unwrap (try_u 32 z) = Panic).
Proof.
  intros H. unfold try_u. change (2 ^ 32) with 4294967296.
  destruct ((0 <=? z) && (z <? 4294967296)) eqn:E; [left|right]; split; auto; lia.
Qed.

Lemma placed_app buf post g a b : placed buf g a b -> placed (buf ++ post) g a b.
Proof.
  unfold placed. destruct (is_empty_glyph g); auto. intros (bs & E & H & H1). exists bs. split; [exact E|]. split; [|exact H1].
  apply slice_split in H as (p & q & -> & <- & _). rewrite <- !app_assoc. apply slice_mid.
Qed.

Lemma compile_glyphs_spec gs : forall out fin idx,
  Z.of_nat (length out) mod 4 = 0 ->
  compile_glyphs gs out = Ok (fin, idx) ->
  (exists tl, fin = out ++ tl) /\ Z.of_nat (length fin) mod 4 = 0 /\ length idx = length gs /\
  hd_error (idx ++ [Z.of_nat (length fin)]) = Some (Z.of_nat (length out)) /\
  Forall (fun x => x mod 4 = 0 /\ 0 <= x <= Z.of_nat (length fin) /\ x < 4294967296) idx /\
  laid_out fin gs (idx ++ [Z.of_nat (length fin)]).
Proof.
  induction gs as [|g gs IH]; intros out fin idx Hm H; cbn [compile_glyphs] in H.
  - apply Ok_inj in H. injection H as <- <-. cbn. repeat split; auto. exists []. now rewrite app_nil_r.
  - destruct (try_u32_cases (Z.of_nat (length out)) ltac:(lia)) as [[Hl E]|[Hl E]]; rewrite E in H; [|discriminate]. cbn [rbind] in H.
    assert (Hn: exists out', (if is_empty_glyph g then Ok out else (bs <- unwrap_r (ser_glyph g) ;; Ok (pad4 (out ++ bs)))) = Ok out' /\
      (exists tl, out' = out ++ tl) /\ Z.of_nat (length out') mod 4 = 0 /\
      placed out' g (Z.of_nat (length out)) (Z.of_nat (length out'))).
    { destruct (is_empty_glyph g) eqn:Ee.
      - exists out. repeat split; auto. { exists []. now rewrite app_nil_r. } unfold placed. now rewrite Ee.
      - destruct (ser_glyph g) as [bs| |] eqn:Es; try discriminate. cbn [unwrap_r rbind] in *.
        destruct (pad4_spec (out ++ bs)) as (z & Ep & Elen). exists (pad4 (out ++ bs)).
        pose proof (ser_nonempty g bs Ee Es) as Hb.
        split; [reflexivity|]. split; [exists (bs ++ z); now rewrite Ep, app_assoc|]. split; [rewrite Elen; lia|].
        unfold placed. rewrite Ee. exists bs. split; [exact Es|]. rewrite Nat2Z.id.
        split; [rewrite Ep, <- app_assoc; apply slice_mid|].
        rewrite Elen. rewrite app_length. lia. }
    destruct Hn as (out' & E1 & (tl & Etl) & Hm' & Hp). rewrite E1 in H. cbn [rbind] in H.
    destruct (compile_glyphs gs out') as [[fin' idx']| |] eqn:Ec; try discriminate. cbn [rbind] in H.
    apply Ok_inj in H. injection H as -> <-.
    destruct (IH out' fin idx' Hm' Ec) as ((tl2 & Efin) & I1 & I2 & I3 & I4 & I5).
    split; [exists (tl ++ tl2); rewrite Efin, Etl; now rewrite app_assoc|]. split; [exact I1|].
    split; [cbn; congruence|]. split; [reflexivity|].
    assert (Hle: (length out <= length fin)%nat) by (rewrite Efin, Etl, !app_length; lia).
    split.
    { constructor; [|exact I4]. lia. }
    cbn [app laid_out]. destruct (idx' ++ [Z.of_nat (length fin)]) as [|b rest] eqn:Er; [discriminate|].
    cbn in I3. injection I3 as ->. split; [|exact I5].
    rewrite Efin. apply placed_app. exact Hp.
Qed.

(** Success: every glyph can be written and the padded total fits 32 bits. *)
Lemma padded_nonneg l : 0 <= padded_total l.
Proof. induction l; cbn [padded_total]; lia. Qed.
Lemma compile_glyphs_total gs bss : Forall2 (fun g bs => ser_glyph g = Ok bs) gs bss ->
  forall out, Z.of_nat (length out) mod 4 = 0 ->
  Z.of_nat (length out) + padded_total (map (@length Z) bss) < 4294967296 ->
  exists fin idx, compile_glyphs gs out = Ok (fin, idx) /\
    Z.of_nat (length fin) = Z.of_nat (length out) + padded_total (map (@length Z) bss).
Proof.
  induction 1 as [|g bs gs bss Hg F IH]; intros out Hm Hlt; cbn [compile_glyphs map padded_total] in *.
  - exists out, []. split; [reflexivity|lia].
  - pose proof (padded_nonneg (map (@length Z) bss)) as Hnn.
    destruct (try_u32_cases (Z.of_nat (length out)) ltac:(lia)) as [[_ E]|[Hl _]]; [|lia]. rewrite E. cbn [rbind].
    destruct (is_empty_glyph g) eqn:Ee.
    + assert (bs = []) by (unfold ser_glyph in Hg; rewrite Ee in Hg; apply Ok_inj in Hg; auto). subst bs.
      cbn [length] in *. change (4 * ((Z.of_nat 0 + 3) / 4)) with 0 in *. cbn [rbind].
      destruct (IH out Hm ltac:(lia)) as (fin & idx & Ec & El). rewrite Ec. cbn [rbind].
      exists fin, (Z.of_nat (length out) :: idx). split; [reflexivity|lia].
    + rewrite Hg. cbn [unwrap_r rbind]. destruct (pad4_spec (out ++ bs)) as (z & Ep & Elen).
      rewrite app_length in Elen.
      destruct (IH (pad4 (out ++ bs)) ltac:(rewrite Elen; lia)) as (fin & idx & Ec & El); [rewrite Elen; lia|].
      rewrite Ec. cbn [rbind]. exists fin, (Z.of_nat (length out) :: idx). split; [reflexivity|]. rewrite El, Elen. lia.
Qed.

(** ** The loca bytes *)
Lemma be_value_be_bytes n v : 0 <= v < 256 ^ Z.of_nat n -> be_value (be_bytes n v) = v.
Proof.
  intros H. rewrite be_value_bytes. now apply Z.mod_small.
Qed.

Lemma loca_entry32 idx i x : nth_error idx i = Some x -> 0 <= x < 4294967296 ->
  loca_entry true (concat (map ser_u32 idx)) i x.
Proof.
  intros Hi Hx. exists (ser_u32 x). split; [apply concat_nth with (f := ser_u32); auto; intros; apply be_bytes_length|].
  rewrite digits_value_eq. unfold ser_u32, ser_prim. rewrite be_value_be_bytes; [lia|]. exact Hx.
Qed.
Lemma loca_entry16 idx i x : nth_error idx i = Some x -> 0 <= x <= 131071 ->
  loca_entry false (concat (map (fun x => ser_u16 (u16 (x / 2))) idx)) i (2 * (x / 2)).
Proof.
  intros Hi Hx. exists (ser_u16 (u16 (x / 2))).
  split; [apply concat_nth with (f := fun x => ser_u16 (u16 (x / 2))); auto; intros; apply be_bytes_length|].
  rewrite digits_value_eq, u16_id by lia. unfold ser_u16, ser_prim. rewrite be_value_be_bytes; [lia|].
  change (256 ^ Z.of_nat (prim_width U16)) with 65536. lia.
Qed.

Lemma loca_entry_fun is32 data i a b : loca_entry is32 data i a -> loca_entry is32 data i b -> a = b.
Proof.
  intros (x & Hx & ->) (y & Hy & ->). now rewrite (slice_fun _ _ _ _ _ Hx Hy).
Qed.

Lemma laid_out_zero buf gs n : Forall (fun g => is_empty_glyph g = true) gs -> length gs = n ->
  laid_out buf gs (repeat 0 (S n)).
Proof.
  revert n. induction gs as [|g gs IH]; intros n H E; cbn in E; subst n; cbn [repeat laid_out]; auto.
  inversion H; subst. split; [unfold placed; now rewrite H2|]. apply (IH (length gs)); auto.
Qed.

Lemma laid_out_len buf gs : forall offs, laid_out buf gs offs -> length offs = S (length gs).
Proof.
  induction gs as [|g gs IH]; intros [|a offs] H; cbn [laid_out] in H; try contradiction.
  - destruct offs; [reflexivity|contradiction].
  - destruct offs as [|b offs]; [contradiction|]. destruct H as [_ H]. cbn [length]. f_equal. apply IH in H. cbn in H. exact H.
Qed.
Lemma laid_out_nth buf gs : forall offs, laid_out buf gs offs -> forall i g a b,
  nth_error gs i = Some g -> nth_error offs i = Some a -> nth_error offs (S i) = Some b -> placed buf g a b.
Proof.
  induction gs as [|g0 gs IH]; intros [|a0 [|b0 offs]] H i g a b Hg Ha Hb; cbn [laid_out] in H; try contradiction;
    try (destruct i; discriminate).
  destruct H as [H0 H]. destruct i as [|i].
  - cbn in Hg, Ha, Hb. congruence.
  - cbn [nth_error] in Hg, Ha, Hb. eapply IH; eauto.
Qed.

(** All glyphs empty: nothing is written. *)
Lemma compile_empty gs : forall out fin idx, compile_glyphs gs out = Ok (fin, idx) -> fin = [] -> out = [] ->
  Forall (fun g => is_empty_glyph g = true) gs /\ idx = repeat 0 (length gs).
Proof.
  induction gs as [|g gs IH]; intros out fin idx H Hf Ho; subst; cbn [compile_glyphs] in H.
  - apply Ok_inj in H. injection H as <-. split; auto.
  - change (unwrap (try_u 32 (Z.of_nat (length (@nil Z))))) with (Ok 0) in H. cbn [rbind] in H.
    destruct (is_empty_glyph g) eqn:Ee.
    + cbn [rbind] in H. destruct (compile_glyphs gs []) as [[f i]| |] eqn:Ec; try discriminate. cbn [rbind] in H.
      apply Ok_inj in H. injection H as -> <-. destruct (IH [] [] i Ec eq_refl eq_refl) as [I1 ->]. split; [auto|reflexivity].
    + destruct (ser_glyph g) as [bs| |] eqn:Es; try discriminate. cbn [unwrap_r rbind] in H.
      destruct (compile_glyphs gs _) as [[f i]| |] eqn:Ec; try discriminate. cbn [rbind] in H.
      apply Ok_inj in H. injection H as -> _.
      destruct (pad4_spec ([] ++ bs)) as (z & Ep & Elen).
      destruct (compile_glyphs_spec gs _ _ _ ltac:(rewrite Elen; lia) Ec) as ((tl & Efin) & _).
      rewrite Ep in Efin. apply ser_nonempty in Es; [|exact Ee]. destruct bs; [cbn in Es; lia|discriminate].
Qed.

Lemma compile_glyf_spec gs buf loca is32 : compile_glyf gs = Ok (buf, loca, is32) ->
  exists offs,
    length loca = (length offs * (if is32 then 4 else 2))%nat /\
    (forall i a, nth_error offs i = Some a -> loca_entry is32 loca i a) /\
    laid_out buf gs offs /\
    Forall (fun a => 0 <= a <= Z.of_nat (length buf)) offs /\
    (is32 = true <-> 65535 < Z.of_nat (length buf)).
Proof.
  unfold compile_glyf. destruct (compile_glyphs gs []) as [[out0 idx0]| |] eqn:Ec; try discriminate. cbn [rbind].
  destruct (compile_glyphs_spec gs [] out0 idx0 eq_refl Ec) as (_ & Hm & Hlen & _ & Hall & Hlaid).
  destruct out0 as [|b0 out0'] eqn:Eo.
  - destruct (compile_empty gs [] [] idx0 Ec eq_refl eq_refl) as [He ->].
    change (unwrap (try_u 32 (Z.of_nat (length [0])))) with (Ok 1). cbn [rbind].
    change (65535 <? Z.of_nat (length [0])) with false. cbv iota.
    intros H; apply Ok_inj in H. injection H as <- <- <-.
    exists (repeat 0 (S (length gs))).
    replace (concat (map (fun x => ser_u16 (u16 (x / 2))) (repeat 0 (length gs) ++ [1])))
      with (concat (map (fun x => ser_u16 (u16 (x / 2))) (repeat 0 (S (length gs))))).
    2:{ replace (repeat 0 (S (length gs))) with (repeat 0 (length gs) ++ [0]) by (symmetry; apply (repeat_cons (length gs) 0)).
        rewrite !map_app, !concat_app. reflexivity. }
    split; [apply concat_len; intros; apply be_bytes_length|]. split.
    { intros i a Hi. assert (a = 0) by (apply nth_error_In, repeat_spec in Hi; auto). subst a.
      apply (loca_entry16 _ _ 0 Hi). lia. }
    split; [now apply laid_out_zero|]. split.
    { apply Forall_forall. intros x Hx. apply repeat_spec in Hx. subst x. cbn. lia. }
    cbn. split; [discriminate|lia].
  - rewrite <- Eo in *. replace (match out0 with [] => [0] | _ => out0 end) with out0 by (rewrite Eo; reflexivity).
    clear Eo b0 out0'.
    destruct (try_u32_cases (Z.of_nat (length out0)) ltac:(lia)) as [[Hl E]|[Hl E]]; rewrite E; [|discriminate]. cbn [rbind].
    intros H; apply Ok_inj in H. injection H as <- <- <-.
    set (offs := idx0 ++ [Z.of_nat (length out0)]) in *. exists offs.
    assert (Hall': Forall (fun x => x mod 4 = 0 /\ 0 <= x <= Z.of_nat (length out0) /\ x < 4294967296) offs).
    { apply Forall_app. split; [exact Hall|]. constructor; [lia|constructor]. }
    rewrite Forall_forall in Hall'.
    assert (Hn: forall i a, nth_error offs i = Some a -> a mod 4 = 0 /\ 0 <= a <= Z.of_nat (length out0) /\ a < 4294967296)
      by (intros i a Hi; apply Hall'; eapply nth_error_In; exact Hi).
    destruct (65535 <? Z.of_nat (length out0)) eqn:E32.
    + split; [apply concat_len; intros; apply be_bytes_length|]. split.
      { intros i a Hi. apply loca_entry32; auto. specialize (Hn i a Hi). lia. }
      split; [exact Hlaid|]. split; [apply Forall_forall; intros x Hx; specialize (Hall' x Hx); lia|].
      split; auto. intros _. lia.
    + split; [apply concat_len; intros; apply be_bytes_length|]. split.
      { intros i a Hi. specialize (Hn i a Hi). replace a with (2 * (a / 2)) by lia.
        apply (loca_entry16 _ _ a Hi). lia. }
      split; [exact Hlaid|]. split; [apply Forall_forall; intros x Hx; specialize (Hall' x Hx); lia|].
      split; [discriminate|lia].
Qed.

Lemma compile_glyf_total gs bss : Forall2 (fun g bs => ser_glyph g = Ok bs) gs bss ->
  padded_total (map (@length Z) bss) < 4294967296 -> exists r, compile_glyf gs = Ok r.
Proof.
  intros F Hlt. destruct (compile_glyphs_total gs bss F [] eq_refl) as (fin & idx & E & El); [cbn [length]; lia|].
  unfold compile_glyf. rewrite E. cbn [rbind]. cbn [length] in El.
  destruct fin as [|b f].
  - change (unwrap (try_u 32 (Z.of_nat (length [0])))) with (Ok 1). cbn [rbind]. eauto.
  - destruct (try_u32_cases (Z.of_nat (length (b :: f))) ltac:(lia)) as [[_ E']|[Hl _]]; [|lia].
    rewrite E'. cbn [rbind]. eauto.
Qed.

(** ** Reading the tables back *)
Lemma glyf_roundtrip gs gs' buf loca is32 : compile_glyf gs = Ok (buf, loca, is32) ->
  Forall2 survives gs gs' ->
  exists idx, from_bytes (de_loca is32) loca = Ok idx /\ de_glyf buf idx = Ok gs'.
Proof.
  intros H F. destruct (compile_glyf_spec _ _ _ _ H) as (offs & Hlen & Hent & Hlaid & _ & _).
  pose proof (laid_out_len _ _ _ Hlaid) as Hol.
  destruct (loca_spec is32 loca) as (idx & E & Hil & Hidx). exists idx. split; [exact E|].
  assert (Hil': length idx = length gs).
  { rewrite Hil, Hlen, Hol. destruct is32; rewrite Nat.div_mul by lia; lia. }
  unfold de_glyf. apply rmapM_fwd.
  assert (Hfl: length gs = length gs') by (clear - F; induction F; cbn; congruence).
  assert (Hpt: forall i o g', nth_error idx i = Some o -> nth_error gs' i = Some g' ->
    match o with
    | None => Ok empty_glyph
    | Some off => match de_glyph (mkrd buf (Z.to_nat off) [0%nat]) with Ok (g, _) => Ok g | Err => Err | Panic => Panic end
    end = Ok g').
  { intros i o g' Ho Hg'. destruct (Forall2_nth_r _ _ _ F _ _ Hg') as (g & Hg & Hs).
    assert (Hi: (i < length idx)%nat) by (apply nth_error_Some; congruence).
    destruct (nth_error offs i) as [a|] eqn:Ea; [|apply nth_error_None in Ea; lia].
    destruct (nth_error offs (S i)) as [b|] eqn:Eb; [|apply nth_error_None in Eb; lia].
    destruct (Hidx i Hi) as (a' & b' & La & Lb & En).
    assert (a' = a) by (eapply loca_entry_fun; eauto). assert (b' = b) by (eapply loca_entry_fun; eauto). subst a' b'.
    rewrite En in Ho. injection Ho as <-.
    pose proof (laid_out_nth _ _ _ Hlaid _ _ _ _ Hg Ea Eb) as Hp. unfold placed in Hp. unfold survives in Hs.
    destruct (is_empty_glyph g).
    - subst. rewrite Z.eqb_refl. reflexivity.
    - destruct Hp as (bs & Es & Hsl & H0 & _ & Hlt). destruct Hs as (bs' & Es' & Hr).
      rewrite Es in Es'. apply Ok_inj in Es'. subst bs'.
      replace (a =? b) with false by lia.
      apply slice_split in Hsl as (pre & post & -> & El & _). rewrite <- El. rewrite Hr. reflexivity. }
  clear - Hpt Hil' Hfl. revert gs' Hpt Hfl. assert (Hx: length idx = length gs) by exact Hil'. clear Hil'. revert gs Hx.
  induction idx as [|o idx IH]; intros gs Hx gs' Hpt Hfl; destruct gs as [|g gs]; try discriminate; destruct gs' as [|g' gs']; try discriminate.
  - constructor.
  - constructor; [apply (Hpt 0%nat o g'); reflexivity|].
    apply (IH gs); [cbn in Hx; congruence| |cbn in Hfl; congruence].
    intros i o' g'' A B. apply (Hpt (S i) o' g''); auto.
Qed.

(** ** Contour ends for gvar *)
Definition zsum (l : list Z) : Z := fold_right Z.add 0 l.

Lemma contour_ends_ok cs : forall acc, 0 < acc \/ (match cs with [] => True | c :: _ => c <> [] end) -> 0 <= acc ->
  acc + Z.of_nat (length (concat cs)) < 2 ^ 64 ->
  contour_ends acc cs = Ok (running acc (map (fun c => Z.of_nat (length c)) cs)).
Proof.
  induction cs as [|c cs IH]; intros acc Hs Ha Hlt; [reflexivity|].
  cbn [contour_ends map running concat] in *. rewrite app_length in Hlt.
  assert (Hp: 0 < acc + Z.of_nat (length c)).
  { destruct Hs as [Hs|Hs]; [lia|]. destruct c; [congruence|]. cbn [length]. lia. }
  unfold chk_u. replace ((0 <=? acc + Z.of_nat (length c) - 1) && (acc + Z.of_nat (length c) - 1 <? 2 ^ 64)) with true
    by (change (2 ^ 64) with 18446744073709551616 in *; lia).
  cbn [rbind]. rewrite IH; [reflexivity|left; exact Hp|lia|lia].
Qed.
Lemma running_app a : forall acc b, running acc (a ++ b) = running acc a ++ running (acc + zsum a) b.
Proof.
  unfold zsum. induction a as [|x a IH]; intros acc b; cbn [app running fold_right].
  - f_equal; lia.
  - rewrite IH. cbn [app]. do 2 f_equal. f_equal. lia.
Qed.
Lemma running_bound ns : forall acc x, Forall (fun n => 0 <= n) ns -> In x (running acc ns) -> x <= acc + zsum ns - 1.
Proof.
  unfold zsum. induction ns as [|n ns IH]; intros acc x Hn Hx; [destruct Hx|]. inversion Hn; subst. cbn [running fold_right In] in *.
  assert (Hz: 0 <= fold_right Z.add 0 ns) by (clear - H2; induction H2; cbn; lia).
  destruct Hx as [<-|Hx]; [lia|]. specialize (IH (acc + n) x H2 Hx). lia.
Qed.
Lemma running_last ns d : ns <> [] -> last (running 0 ns) d = zsum ns - 1.
Proof.
  destruct ns as [|n ns _] using rev_ind; [congruence|]. intros _. rewrite running_app. cbn [running]. rewrite last_last.
  unfold zsum. rewrite fold_right_app. cbn [fold_right]. 
  assert (E: forall l a, fold_right Z.add a l = fold_right Z.add 0 l + a) by (induction l; intros; cbn; [lia|rewrite IHl; lia]).
  rewrite (E ns (n + 0)). lia.
Qed.
Lemma zsum_app a b : zsum (a ++ b) = zsum a + zsum b.
Proof. unfold zsum. induction a; cbn [app fold_right]; lia. Qed.
Lemma push_end_running ns : Forall (fun n => 0 <= n) ns ->
  push_end (running 0 ns) = running 0 (ns ++ [1]).
Proof.
  intros Hn. rewrite running_app. unfold push_end. f_equal. cbn [running]. destruct ns as [|n ns]; [reflexivity|].
  assert (Hr: running 0 (n :: ns) <> []) by discriminate.
  destruct (running 0 (n :: ns)) as [|e es] eqn:Er; [congruence|]. rewrite <- Er. f_equal.
  assert (Hmax: zmax_list (running 0 (n :: ns)) = zsum (n :: ns) - 1).
  { apply Z.le_antisymm.
    - pose proof (running_bound (n :: ns) 0 (zmax_list (running 0 (n :: ns))) Hn) as Hb.
      rewrite Z.add_0_l in Hb. apply Hb. apply max_In. rewrite Er. discriminate.
    - apply max_spec. rewrite <- (running_last (n :: ns) 0) by discriminate.
      rewrite Er. clear. revert e. induction es as [|x es IH]; intros e; [now left|]. right. apply IH. }
  rewrite Hmax. lia.
Qed.
Lemma push_ends_running k : forall ns, Forall (fun n => 0 <= n) ns ->
  push_ends k (running 0 ns) = running 0 (ns ++ repeat 1 k).
Proof.
  induction k as [|k IH]; intros ns Hn; cbn [push_ends repeat].
  - now rewrite app_nil_r.
  - rewrite push_end_running by exact Hn. rewrite IH by (apply Forall_app; split; [exact Hn|repeat constructor; lia]).
    rewrite <- app_assoc. reflexivity.
Qed.
Lemma zsum_len cs : zsum (map (fun c : list point => Z.of_nat (length c)) cs) = Z.of_nat (length (concat cs)).
Proof. unfold zsum. induction cs as [|c cs IH]; cbn [map fold_right concat]; [reflexivity|]. rewrite app_length. lia. Qed.
Lemma zsum_ones k : zsum (repeat 1 k) = Z.of_nat k.
Proof. unfold zsum. induction k as [|k IH]; cbn [repeat fold_right]; lia. Qed.

Lemma gvar_ends g : Z.of_nat (length (concat (g_contours g))) < 2 ^ 64 ->
  let groups := map (fun c => Z.of_nat (length c)) (g_contours g) ++ repeat 1 (length (g_comps g) + 4) in
  (match g_contours g with [] => True | c :: _ => c <> [] end ->
   gvar_coords_and_ends g = Ok
     (map (fun p => (pt_x p, pt_y p)) (concat (g_contours g))
      ++ map (fun c => (f_as_i16 (af_e (cp_trans c)), f_as_i16 (af_f (cp_trans c)))) (g_comps g)
      ++ [(0, 0); (0, 0); (0, 0); (0, 0)], running 0 groups)) /\
  (match g_contours g with [] => False | c :: _ => c = [] end -> gvar_coords_and_ends g = Panic).
Proof.
  intros Hlt groups. split.
  - intros Hf. unfold gvar_coords_and_ends.
    rewrite contour_ends_ok; [|right; exact Hf|lia|lia]. cbn [rbind].
    rewrite push_ends_running by (apply Forall_forall; intros x Hx; apply in_map_iff in Hx as (c & <- & _); lia).
    fold groups.
    rewrite running_last by (unfold groups; intros E; apply app_eq_nil in E as [_ E]; rewrite Nat.add_comm in E; discriminate).
    unfold groups at 1. rewrite zsum_app, zsum_len, zsum_ones.
    rewrite !app_length, !map_length. cbn [length].
    match goal with |- (if ?b then _ else _) = _ => replace b with true by lia end. reflexivity.
  - intros Hf. unfold gvar_coords_and_ends. destruct (g_contours g) as [|c cs]; [contradiction|]. subst c. reflexivity.
Qed.

Lemma fine_survives g : glyph_fine g -> exists g', survives g g' /\ glyph_same g g' /\ exists bs, ser_glyph g = Ok bs.
Proof.
  intros [He|[(H1 & H2 & H3 & H4 & H5 & H6)|H]]; unfold survives.
  - rewrite He. exists empty_glyph. split; [reflexivity|]. unfold glyph_same, ser_glyph. rewrite He. split; eauto.
  - destruct (simple_roundtrip g H1 H2 H3 H4 H5 H6) as (bs & E & R).
    destruct H1 as (Hc & Hn & _).
    assert (Ee: is_empty_glyph g = false) by (unfold is_empty_glyph; rewrite Hc; destruct (g_contours g); [congruence|reflexivity]).
    rewrite Ee. exists g. split; [exists bs; split; [exact E|apply reads_reads_back, R]|]. split; [|eauto].
    unfold glyph_same. rewrite Ee, Hc. reflexivity.
  - destruct (composite_roundtrip g H) as (bs & g' & E & R & S1). destruct H as (Hc & _).
    assert (Ee: is_empty_glyph g = false) by (unfold is_empty_glyph; destruct (g_comps g); [congruence|reflexivity]).
    rewrite Ee. exists g'. split; [exists bs; split; [exact E|apply reads_reads_back, R]|]. split; [|eauto].
    unfold glyph_same. rewrite Ee. destruct (g_comps g) eqn:Eg; [congruence|exact S1].
Qed.

Lemma save_reload gs : Forall glyph_fine gs ->
  (forall bss, Forall2 (fun g bs => ser_glyph g = Ok bs) gs bss -> padded_total (map (@length Z) bss) < 4294967296) ->
  exists buf loca is32 idx gs', compile_glyf gs = Ok (buf, loca, is32) /\
    from_bytes (de_loca is32) loca = Ok idx /\ de_glyf buf idx = Ok gs' /\ Forall2 glyph_same gs gs'.
Proof.
  intros Hf Ht.
  assert (H: exists gs' bss, Forall2 survives gs gs' /\ Forall2 glyph_same gs gs' /\ Forall2 (fun g bs => ser_glyph g = Ok bs) gs bss).
  { clear Ht. induction Hf as [|g gs Hg Hf (gs' & bss & I1 & I2 & I3)].
    - exists [], []. repeat constructor.
    - destruct (fine_survives g Hg) as (g' & A & B & bs & C). exists (g' :: gs'), (bs :: bss). repeat constructor; auto. }
  destruct H as (gs' & bss & H1 & H2 & H3).
  destruct (compile_glyf_total gs bss H3 (Ht bss H3)) as [[[buf loca] is32] E].
  destruct (glyf_roundtrip gs gs' buf loca is32 E H1) as (idx & E1 & E2).
  exists buf, loca, is32, idx, gs'. auto.
Qed.

(** What a compiled table looks like, glyph by glyph. *)
Lemma compile_addressable gs buf loca is32 : compile_glyf gs = Ok (buf, loca, is32) ->
  exists offs, length offs = S (length gs) /\
    length loca = (length offs * (if is32 then 4 else 2))%nat /\
    (forall i a, nth_error offs i = Some a -> loca_entry is32 loca i a /\ 0 <= a <= Z.of_nat (length buf)) /\
    (forall i g a b, nth_error gs i = Some g -> nth_error offs i = Some a -> nth_error offs (S i) = Some b ->
       a <= b /\ placed buf g a b) /\
    (is32 = true <-> 65535 < Z.of_nat (length buf)).
Proof.
  intros H. destruct (compile_glyf_spec _ _ _ _ H) as (offs & H1 & H2 & H3 & H4 & H5).
  exists offs. split; [eapply laid_out_len; eauto|]. split; [exact H1|]. split; [|split; [|exact H5]].
  - intros i a Hi. split; [auto|]. rewrite Forall_forall in H4. apply H4. eapply nth_error_In; eauto.
  - intros i g a b Hg Ha Hb. pose proof (laid_out_nth _ _ _ H3 _ _ _ _ Hg Ha Hb) as Hp. split; [|exact Hp].
    unfold placed in Hp. destruct (is_empty_glyph g); [lia|]. destruct Hp as (bs & _ & _ & _ & _ & L). lia.
Qed.

(** ** maxp statistics *)
Lemma max0_spec l : is_max l (max0 l).
Proof.
  destruct l as [|x l]; [left; auto|right]. split; [apply max_In; discriminate|]. intros y Hy. now apply max_spec.
Qed.
Lemma max0_range l b : 0 <= b -> Forall (fun x => 0 <= x <= b) l -> 0 <= max0 l <= b.
Proof.
  intros Hb H. rewrite Forall_forall in H. destruct (max0_spec l) as [[_ ->]|[Hi _]]; [lia|]. now apply H.
Qed.
Definition t1 (x : Z * Z * Z) := fst (fst x).
Definition t2 (x : Z * Z * Z) := snd (fst x).
Definition t3 (x : Z * Z * Z) := snd x.
Lemma fold3 infos : forall a b c, 
  fold_left (fun l r => let '(a, b, c) := l in let '(a', b', c') := r in (Z.max a a', Z.max b b', Z.max c c')) infos (a, b, c)
  = (fold_left Z.max (map t1 infos) a, fold_left Z.max (map t2 infos) b, fold_left Z.max (map t3 infos) c).
Proof. induction infos as [|[[x y] z] l IH]; intros a b c; [reflexivity|]. cbn [fold_left map t1 t2 t3 fst snd]. apply IH. Qed.
Lemma fold_max0 l : Forall (fun x => 0 <= x) l -> is_max l (fold_left Z.max l 0).
Proof.
  intros H. destruct (fold_max_spec l 0) as [H1 H2]. destruct l as [|x l]; [left; auto|right].
  split.
  - destruct H2 as [H2|H2]; [|exact H2]. rewrite <- H2. left. inversion H; subst.
    specialize (H1 x (or_intror (or_introl eq_refl))). lia.
  - intros y Hy. apply H1. now right.
Qed.

Lemma maxp_stats gs n fuel : (n <= fuel)%nat ->
  Forall (fun g => nested gs n (g_comps g)) gs ->
  Z.of_nat (length gs) <= 65535 ->
  Forall (fun g => num_points g <= 65535 /\ num_contours g <= 65535 /\ Z.of_nat (length (g_comps g)) <= 65535) gs ->
  (forall g np nc md, In g gs -> counted gs (g_comps g) 1 np nc md -> np <= 65535 /\ nc <= 65535 /\ md <= 65535) ->
  exists infos m, as_maxp10 fuel gs = Ok (mk_maxp 65536 (Maxp10 m)) /\
    Forall2 (fun g x => counted gs (g_comps g) 1 (t1 x) (t2 x) (t3 x)) (filter has_components gs) infos /\
    m10_numGlyphs m = Z.of_nat (length gs) /\
    is_max (map num_points gs) (m10_maxPoints m) /\ is_max (map num_contours gs) (m10_maxContours m) /\
    is_max (map t1 infos) (m10_maxCompositePoints m) /\ is_max (map t2 infos) (m10_maxCompositeContours m) /\
    is_max (map (fun g => Z.of_nat (length (g_comps g))) gs) (m10_maxComponentElements m) /\
    is_max (map t3 infos) (m10_maxComponentDepth m).
Proof.
  intros Hf Hn Hl Hs Hc.
  assert (H: exists infos, rmapM (fun g => composite_values fuel gs (g_comps g) 1) (filter has_components gs) = Ok infos /\
     Forall2 (fun g x => counted gs (g_comps g) 1 (t1 x) (t2 x) (t3 x)) (filter has_components gs) infos).
  { assert (Hin: forall g, In g (filter has_components gs) -> In g gs /\ g_comps g <> []).
    { intros g Hg. apply filter_In in Hg as [A B]. split; [exact A|now apply hc_true]. }
    rewrite Forall_forall in Hn. revert Hin. generalize (filter has_components gs).
    induction l as [|g l IH]; intros Hin; [exists []; split; [reflexivity|constructor]|].
    destruct IH as (infos & E & F); [intros; apply Hin; now right|].
    destruct (Hin g (or_introl eq_refl)) as [Hg Hgc].
    destruct (counted_exists gs n _ (Hn g Hg) 1) as (np & nc & md & Hct).
    destruct (Hc g _ _ _ Hg Hct) as (B1 & B2 & B3).
    exists ((np, nc, md) :: infos). cbn [rmapM]. rewrite (counted_ok gs g n np nc md fuel) by auto. cbn [rbind]. rewrite E.
    split; [reflexivity|]. constructor; [exact Hct|exact F]. }
  destruct H as (infos & E & F). unfold as_maxp10. rewrite E. cbn [rbind]. rewrite fold3.
  assert (Hnn: Forall (fun x => 0 <= t1 x /\ 0 <= t2 x /\ 0 <= t3 x) infos).
  { clear - F. induction F as [|g x l l' H F IH]; constructor; auto. apply counted_bounds in H. lia. }
  assert (P: forall f : glyph -> Z, (forall g, In g gs -> 0 <= f g <= 65535) -> u16 (max0 (map f gs)) = max0 (map f gs)).
  { intros f Hr. apply u16_id. assert (0 <= max0 (map f gs) <= 65535); [|lia]. apply max0_range; [lia|].
    apply Forall_forall. intros x Hx. apply in_map_iff in Hx as (g & <- & Hg). auto. }
  rewrite Forall_forall in Hs.
  rewrite (P num_points) by (intros g Hg; specialize (Hs g Hg); unfold num_points in *; lia).
  rewrite (P num_contours) by (intros g Hg; specialize (Hs g Hg); unfold num_contours in *; lia).
  rewrite (P (fun g => Z.of_nat (length (g_comps g)))) by (intros g Hg; specialize (Hs g Hg); lia).
  rewrite u16_id by lia. unfold maxp_new10. exists infos. eexists. split; [reflexivity|]. split; [exact F|].
  cbn [m10_numGlyphs m10_maxPoints m10_maxContours m10_maxCompositePoints m10_maxCompositeContours m10_maxComponentElements m10_maxComponentDepth].
  split; [reflexivity|]. split; [apply max0_spec|]. split; [apply max0_spec|].
  split; [|split; [|split; [apply max0_spec|]]]; apply fold_max0; apply Forall_map; eapply Forall_impl; try exact Hnn; cbn beta; intros; lia.
Qed.

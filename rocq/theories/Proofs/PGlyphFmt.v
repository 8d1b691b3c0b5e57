(** The glyph format: what is written obeys it, and anything that obeys it is read. *)
From Coq Require Import QArith.
From Verif.Model Require Import MFixed MFloat MGlyph.
From Verif.Spec Require Import SBase SFloat SGlyph.
From Verif.Proofs Require Import PBase PCodec PTables PMetrics PGlyph.
Open Scope Z_scope.

Lemma word_u16 z : word z = ser_u16 z.
Proof. unfold word, ser_u16, ser_prim. cbn [prim_width be_bytes]. change (256 ^ Z.of_nat 1) with 256. change (256 ^ Z.of_nat 0) with 1. now rewrite Z.div_1_r. Qed.
Lemma word_i16 z : word z = ser_i16 z.
Proof. exact (word_u16 z). Qed.

Lemma read_flags fl bs : flag_bytes fl bs -> forall k, (length fl <= k)%nat -> reads (de_flags k (length fl)) bs fl.
Proof.
  induction 1 as [|f fl bs Hf Hr Hfl IH|f n fl bs Hf Hr Hn Hfl IH]; intros k Hk.
  - destruct k; exact (reads_pret []).
  - change (length (f :: fl)) with (S (length fl)) in *. destruct k as [|k]; [lia|]. unfold de_flags; fold de_flags.
    replace (f :: bs) with (ser_u8 f ++ bs) by (rewrite ser_u8_byte by (unfold is_byte in Hf; lia); reflexivity).
    eapply reads_bind; [apply reads_u8; unfold is_byte in Hf; lia|]. cbn beta.
    change F_REPEAT with (2 ^ 3). rewrite contains_bit, Hr by lia.
    replace (S (length fl) - 1)%nat with (length fl) by lia.
    apply (reads_map _ (fun l => f :: l)). apply IH. lia.
  - rewrite app_length, repeat_length in *. destruct k as [|k]; [lia|].
    replace (S (Z.to_nat n) + length fl)%nat with (S (Z.to_nat n + length fl)) by lia.
    unfold de_flags; fold de_flags.
    replace (f :: n :: bs) with (ser_u8 f ++ ser_u8 n ++ bs)
      by (rewrite !ser_u8_byte by (unfold is_byte in *; lia); reflexivity).
    eapply reads_bind; [apply reads_u8; unfold is_byte in Hf; lia|]. cbn beta.
    change F_REPEAT with (2 ^ 3). rewrite contains_bit, Hr by lia.
    eapply reads_bind; [apply reads_u8; unfold is_byte in Hn; lia|]. cbn beta.
    replace (S (Z.to_nat n + length fl) - S (Z.to_nat n))%nat with (length fl) by lia.
    apply (reads_map _ (fun l => repeat f (S (Z.to_nat n)) ++ l)). apply IH. lia.
Qed.

Lemma read_coords short same last fl vs bs : 0 <= short -> 0 <= same -> coord_bytes short same last fl vs bs ->
  Forall (in_range I16) vs -> reads (de_coords (2 ^ short) (2 ^ same) last fl) bs vs.
Proof.
  intros H1 H2. induction 1 as [last|last f fl d vs bs Hs Hm Hd Hc IH|last f fl d vs bs Hs Hm Hd Hc IH|
    last f fl vs bs Hs Hm Hc IH|last f fl d vs bs Hs Hm Hd Hc IH]; intros Hv; [exact (reads_pret [])| | | |];
    inversion Hv as [|? ? Hv1 Hv2]; subst; rewrite de_coords_cons; unfold coord_step; rewrite !contains_bit, Hs, Hm by lia.
  - change (d :: bs) with ([d] ++ bs). eapply reads_bind; [|apply (reads_map _ (fun l => last + d :: l)); now apply IH].
    rewrite <- (app_nil_r [d]). replace [d] with (ser_u8 d) by (rewrite ser_u8_byte by (unfold is_byte in Hd; lia); reflexivity).
    eapply reads_bind; [apply reads_u8; unfold is_byte in Hd; lia|]. cbn beta. now apply reads_plift, chk_i16_ok.
  - change (d :: bs) with ([d] ++ bs). eapply reads_bind; [|apply (reads_map _ (fun l => last - d :: l)); now apply IH].
    rewrite <- (app_nil_r [d]). replace [d] with (ser_u8 d) by (rewrite ser_u8_byte by (unfold is_byte in Hd; lia); reflexivity).
    eapply reads_bind; [apply reads_u8; unfold is_byte in Hd; lia|]. cbn beta. now apply reads_plift, chk_i16_ok.
  - change bs with ([] ++ bs). eapply reads_bind; [apply reads_pret|]. apply (reads_map _ (fun l => last :: l)). now apply IH.
  - eapply reads_bind; [|apply (reads_map _ (fun l => last + d :: l)); now apply IH].
    rewrite <- (app_nil_r (word d)), word_i16. eapply reads_bind; [now apply rg_i16|]. cbn beta. now apply reads_plift, chk_i16_ok.
Qed.

Lemma coord_len short same last fl vs bs : coord_bytes short same last fl vs bs -> length fl = length vs.
Proof. induction 1; cbn [length]; congruence. Qed.

Lemma zip_back fl : forall pts, map pt_on pts = map (fun f => Z.testbit f 0) fl ->
  zip_points (map pt_x pts) (map pt_y pts) fl = pts.
Proof.
  induction fl as [|f fl IH]; intros [|p pts] H; try discriminate; [reflexivity|]. cbn [map zip_points] in *.
  assert (H': map pt_on pts = map (fun f => Z.testbit f 0) fl) by congruence.
  assert (H0: pt_on p = Z.testbit f 0) by congruence. rewrite IH by exact H'. change F_ON with (2 ^ 0).
  rewrite contains_bit, <- H0 by lia. now destruct p.
Qed.

Lemma ends_spec : forall (cs : list (list point)) n, (n = 0%nat -> match cs with [] => True | c :: _ => c <> [] end) ->
  Z.of_nat (n + length (concat cs)) <= 65535 ->
  Forall (in_range U16) (end_indices (Z.of_nat n) cs) /\
  map (fun x => S (Z.to_nat x)) (end_indices (Z.of_nat n) cs) = cums n cs.
Proof.
  induction cs as [|c cs IH]; intros n Hn Hl; cbn [end_indices cums]; [split; [constructor|reflexivity]|].
  cbn [concat] in Hl. rewrite app_length in Hl.
  assert (Hpos: (0 < n + length c)%nat) by (destruct n; [specialize (Hn eq_refl); destruct c; [congruence|cbn; lia]|lia]).
  replace (Z.of_nat n + Z.of_nat (length c)) with (Z.of_nat (n + length c)) by lia.
  destruct (IH (n + length c)%nat) as [A B]; [lia|lia|]. split.
  - constructor; [cbn; lia|exact A].
  - cbn [map]. rewrite B. f_equal. lia.
Qed.
Lemma ends_length (cs : list (list point)) n : length (end_indices n cs) = length cs.
Proof. revert n. induction cs; intros n; cbn [end_indices length]; [reflexivity|]. now rewrite IHcs. Qed.

(** Every encoding of a glyph is read as that glyph. *)
Lemma reads_encoding g bs : simple_glyph g -> Z.of_nat (length (g_contours g)) <= 32767 ->
  Z.of_nat (length (concat (g_contours g))) <= 65535 ->
  (exists c cs, g_contours g = c :: cs /\ c <> []) -> Z.of_nat (length (g_instr g)) <= 32767 ->
  glyph_encoding g bs -> reads de_glyph bs g.
Proof.
  intros (Hc & Hne & (B1 & B2 & B3 & B4) & Hp & Hib) Hs1 Hs2 Hfirst Hin (flags & fb & xb & yb & Hfb & Hx & Hy & Hon & Hov & ->).
  rewrite !word_u16. erewrite (map_ext word) by (exact word_u16).
  assert (Hf0: match g_contours g with [] => True | c :: _ => c <> [] end) by (destruct Hfirst as (c & cs & -> & H); exact H).
  destruct (ends_spec (g_contours g) 0 (fun _ => Hf0)) as [Her Hem]; [cbn; lia|]. change (Z.of_nat 0) with 0 in *.
  assert (Hpc: Forall point_ok (concat (g_contours g))) by (apply Forall_concat; exact Hp).
  assert (Hvx: Forall (in_range I16) (map pt_x (concat (g_contours g)))).
  { apply Forall_map. eapply Forall_impl; [|exact Hpc]. intros p [H _]. exact H. }
  assert (Hvy: Forall (in_range I16) (map pt_y (concat (g_contours g)))).
  { apply Forall_map. eapply Forall_impl; [|exact Hpc]. intros p [_ H]. exact H. }
  pose proof (coord_len _ _ _ _ _ _ Hx) as Hfl. rewrite map_length in Hfl.
  match goal with |- reads de_glyph ?b _ =>
    apply (eq_ind (mk_glyph (g_xMin g) (g_xMax g) (g_yMin g) (g_yMax g) (g_contours g) (g_instr g) [] (g_overlap g))
             (fun x => reads de_glyph b x)); [|rewrite <- Hc; destruct g; reflexivity] end.
  unfold de_glyph.
  eapply reads_bind; [apply rg_i16; cbn; lia|]. cbn beta.
  eapply reads_bind; [now apply rg_i16|]. cbn beta.
  eapply reads_bind; [now apply rg_i16|]. cbn beta.
  eapply reads_bind; [now apply rg_i16|]. cbn beta.
  eapply reads_bind; [now apply rg_i16|]. cbn beta.
  assert (Hn0: (0 < length (g_contours g))%nat) by (destruct (g_contours g); [congruence|cbn; lia]).
  destruct (Z.ltb_spec (Z.of_nat (length (g_contours g))) 1); [lia|].
  rewrite Nat2Z.id. rewrite <- (ends_length (g_contours g) 0).
  eapply reads_bind.
  { apply reads_counted. eapply Forall_impl; [|exact Her]. intros; now apply reads_u16_unwrap. }
  cbn beta zeta. rewrite app_assoc.
  eapply reads_bind.
  { rewrite <- (u16_id (Z.of_nat (length (g_instr g)))) by lia. now apply reads_instructions. }
  cbn beta.
  rewrite Hem. rewrite last_cums by exact Hne. cbn [Nat.add]. rewrite <- Hfl.
  eapply reads_bind; [apply read_flags; [exact Hfb|lia]|]. cbn beta.
  eapply reads_bind; [apply (read_coords 1 4); [lia|lia|exact Hx|exact Hvx]|]. cbn beta.
  rewrite <- (app_nil_r yb). eapply reads_bind; [apply (read_coords 2 5); [lia|lia|exact Hy|exact Hvy]|]. cbn beta.
  rewrite zip_back by exact Hon.
  replace (existsb (fun f => contains f F_OVERLAP) flags) with (g_overlap g).
  2:{ rewrite Hov. clear. induction flags as [|f fl IH]; [reflexivity|]. cbn [existsb]. rewrite IH.
      change F_OVERLAP with (2 ^ 6). now rewrite contains_bit by lia. }
  eapply (reads_bind _ _ [] []).
  { apply reads_plift. exact (split_contours_cums (g_contours g) []). }
  cbn beta. apply reads_pret.
Qed.

(** What is written is an encoding. *)
Lemma enc_coord short same last d f fl vs bs fx bx : 0 <= short -> 0 <= same ->
  enc_delta (2 ^ short) (2 ^ same) d = (fx, bx) ->
  contains f (2 ^ short) = negb (d =? 0) && ((-255 <=? d) && (d <=? 255)) ->
  contains f (2 ^ same) = (d =? 0) || ((0 <? d) && (d <=? 255)) ->
  in_range I16 d -> coord_bytes short same (last + d) fl vs bs ->
  coord_bytes short same last (f :: fl) (last + d :: vs) (bx ++ bs).
Proof.
  intros P1 P2 He Hs Hm Hd Hc. rewrite contains_bit in Hs, Hm by assumption. unfold enc_delta in He.
  destruct (Z.eqb_spec d 0) as [->|N].
  - injection He as <- <-. cbn in Hs, Hm. rewrite Z.add_0_r in *. cbn [app]. now constructor.
  - destruct ((-255 <=? d) && (d <=? 255)) eqn:E.
    + destruct (Z.ltb_spec 0 d).
      * injection He as <- <-. replace (u8 d) with d by (unfold u8, wrap_u; change (2 ^ 8) with 256; rewrite Z.mod_small; lia). cbn [app].
        apply cb_plus; [exact Hs|rewrite Hm; lia|unfold is_byte; lia|exact Hc].
      * injection He as <- <-. replace (u8 (- d)) with (- d) by (unfold u8, wrap_u; change (2 ^ 8) with 256; rewrite Z.mod_small; lia). cbn [app].
        replace (last + d) with (last - - d) in * by lia.
        apply cb_minus; [exact Hs|rewrite Hm; lia|unfold is_byte; lia|exact Hc].
    + injection He as <- <-. rewrite <- word_i16. apply cb_word; [exact Hs|rewrite Hm; lia|exact Hd|exact Hc].
Qed.

Lemma deltas_encoding : forall pts lx ly, Forall point_ok pts -> steps_fit lx ly pts ->
  exists fs xs ys, compile_deltas_from lx ly pts = Ok (fs, xs, ys) /\ flag_bytes fs fs /\
    coord_bytes 1 4 lx fs (map pt_x pts) xs /\ coord_bytes 2 5 ly fs (map pt_y pts) ys /\
    map pt_on pts = map (fun f => Z.testbit f 0) fs /\ existsb (fun f => Z.testbit f 6) fs = false.
Proof.
  induction pts as [|p pts IH]; intros lx ly Hok Hfit; cbn [compile_deltas_from steps_fit] in *.
  - exists [], [], []. repeat split; constructor.
  - destruct Hfit as (Hx & Hy & Hfit). inversion Hok as [|? ? Hp Hok']; subst.
    destruct (IH (pt_x p) (pt_y p) Hok' Hfit) as (fs & xs & ys & E & Hf & Rx & Ry & Ho & Hv).
    rewrite !chk_i16_ok by assumption. cbn [rbind].
    destruct (enc_delta F_XSHORT F_XSAME (pt_x p - lx)) as [fx bx] eqn:Ex.
    destruct (enc_delta F_YSHORT F_YSAME (pt_y p - ly)) as [fy by_] eqn:Ey.
    rewrite E. cbn [rbind].
    pose proof (enc_delta_flag _ _ _ _ _ Ex) as Hfx. pose proof (enc_delta_flag _ _ _ _ _ Ey) as Hfy.
    pose proof (flag_bits (pt_on p) (pt_x p - lx) (pt_y p - ly)) as Hb. cbv zeta in Hb.
    rewrite <- Hfx, <- Hfy in Hb.
    set (flag := Z.lor (Z.lor (if pt_on p then F_ON else 0) fx) fy) in *. clearbody flag.
    destruct Hb as (B1 & B2 & B3 & B4 & B5 & B6 & B7 & B8).
    exists (flag :: fs), (bx ++ xs), (by_ ++ ys). split; [reflexivity|].
    change F_REPEAT with (2 ^ 3) in B6. change F_OVERLAP with (2 ^ 6) in B7. change F_ON with (2 ^ 0) in B5.
    rewrite contains_bit in B5, B6, B7 by lia.
    split; [constructor; [unfold is_byte; lia|exact B6|exact Hf]|]. cbn [map existsb]. split; [|split; [|split]].
    + replace (pt_x p) with (lx + (pt_x p - lx)) at 1 by lia. eapply (enc_coord 1 4); try eassumption; try lia.
      now replace (lx + (pt_x p - lx)) with (pt_x p) by lia.
    + replace (pt_y p) with (ly + (pt_y p - ly)) at 1 by lia. eapply (enc_coord 2 5); try eassumption; try lia.
      now replace (ly + (pt_y p - ly)) with (pt_y p) by lia.
    + now rewrite B5, Ho.
    + now rewrite B7, Hv.
Qed.

Lemma end_points_ends : forall (cs : list (list point)) n es, end_points_from (n - 1) cs = Ok es ->
  Z.of_nat (length (concat cs)) <= 32767 -> 0 <= n ->
  concat (map ser_u16 es) = concat (map word (end_indices n cs)).
Proof.
  induction cs as [|c cs IH]; intros n es; cbn [end_points_from end_indices]; [intros E; apply Ok_inj in E; now subst|].
  cbn [concat]. rewrite app_length. destruct (chk_i 16 _) as [v| |] eqn:Ev; cbn [rbind]; try discriminate.
  intros H Hl Hn. apply chk_i16_inv in Ev as [-> Hr]. rewrite i16_id in * by lia.
  replace (n - 1 + Z.of_nat (length c)) with (n + Z.of_nat (length c) - 1) in * by lia.
  destruct (end_points_from _ cs) as [es'| |] eqn:Ee; cbn [rbind] in H; try discriminate. apply Ok_inj in H. subst es.
  cbn [map concat]. rewrite (IH _ _ Ee) by lia. f_equal. rewrite word_u16. unfold ser_u16, ser_prim. cbn [prim_width].
  apply be_bytes_cong. unfold u16, wrap_u. change (256 ^ Z.of_nat 2) with 65536. change (2 ^ 16) with 65536. now rewrite Z.mod_mod.
Qed.

Lemma written_encoding g bs : simple_glyph g -> simple_sizes g -> g_overlap g = false ->
  Z.of_nat (length (g_instr g)) <= 65535 -> ser_glyph g = Ok bs -> glyph_encoding g bs.
Proof.
  intros (Hc & Hne & _ & Hp & _) [Hs1 Hs2] Hov Hi.
  unfold ser_glyph, is_empty_glyph, has_components, end_points, compile_deltas, has_components.
  rewrite Hc. cbn [is_nil negb andb].
  replace (is_nil (g_contours g)) with false by (destruct (g_contours g); [congruence|reflexivity]).
  destruct (end_points_from (-1) (g_contours g)) as [es| |] eqn:Ees; cbn [rbind]; try discriminate.
  destruct (compile_deltas_from 0 0 (concat (g_contours g))) as [[[fs xs] ys]| |] eqn:Ed; cbn [rbind]; try discriminate.
  intros E; apply Ok_inj in E. subst bs.
  pose proof (compile_deltas_ok_fit _ _ _ _ Ed) as Hfit.
  assert (Hpc: Forall point_ok (concat (g_contours g))) by (apply Forall_concat; exact Hp).
  destruct (deltas_encoding _ _ _ Hpc Hfit) as (fs' & xs' & ys' & Ed' & Hf & Hx & Hy & Ho & Hv).
  rewrite Ed in Ed'. injection Ed' as <- <- <-.
  exists fs, fs, xs, ys. cbv zeta. split; [exact Hf|]. split; [exact Hx|]. split; [exact Hy|]. split; [exact Ho|]. split; [now rewrite Hov, Hv|].
  rewrite <- (end_points_ends (g_contours g) 0 es Ees) by lia.
  rewrite i16_id by lia. rewrite u16_id by lia. rewrite !word_i16. rewrite <- !app_assoc. reflexivity.
Qed.

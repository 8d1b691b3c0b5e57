(** Proofs about glyph serialization. *)
From Coq Require Import QArith Qpower Lqa Qabs.
From Verif.Model Require Import MFixed MFloat MGlyph.
From Verif.Spec Require Import SBase SFloat SGlyph.
From Verif.Proofs Require Import PBase PCodec PFixed PFloat PReader PTables PMetrics.
Open Scope Z_scope.

Ltac if_true := match goal with |- context [if ?b then _ else _] => replace b with true by lia end.

Lemma contains_bit f k : 0 <= k -> contains f (2 ^ k) = Z.testbit f k.
Proof.
  intros Hk. unfold contains.
  assert (E: Z.land f (2 ^ k) = if Z.testbit f k then 2 ^ k else 0).
  { apply Z.bits_inj'. intros n Hn. rewrite Z.land_spec, Z.pow2_bits_eqb by exact Hk.
    destruct (Z.eqb_spec k n) as [->|N].
    - rewrite andb_true_r. destruct (Z.testbit f n); [now rewrite Z.pow2_bits_true|now rewrite Z.bits_0].
    - rewrite andb_false_r. destruct (Z.testbit f k); [|now rewrite Z.bits_0].
      now rewrite Z.pow2_bits_false. }
  rewrite E. destruct (Z.testbit f k).
  - apply Z.eqb_refl.
  - assert (0 < 2 ^ k) by (apply Z.pow_pos_nonneg; lia). lia.
Qed.

(** ** Coordinates *)
Definition coord_step (short same last flag : Z) : parser Z :=
  if contains flag short then
    (c <-- de_u8 ;;
     if contains flag same then plift (chk_i 16 (last + c)) else plift (chk_i 16 (last - c)))
  else if contains flag same then pret last
  else (c <-- de_i16 ;; plift (chk_i 16 (last + c))).

Lemma de_coords_cons short same last flag fl :
  de_coords short same last (flag :: fl) =
  (v <-- coord_step short same last flag ;; vs <-- de_coords short same v fl ;; pret (v :: vs)).
Proof. reflexivity. Qed.

Lemma reads_plift {A} (x : res A) a : x = Ok a -> reads (plift x) [] a.
Proof. intros ->. exact (reads_pret a). Qed.

Lemma chk_i16_ok z : in_range I16 z -> chk_i 16 z = Ok z.
Proof.
  intros [H1 H2]. cbn in *. unfold chk_i. change (2 ^ (16 - 1)) with 32768.
  if_true. reflexivity.
Qed.
Lemma chk_i16_inv z v : chk_i 16 z = Ok v -> v = z /\ in_range I16 z.
Proof.
  unfold chk_i. change (2 ^ (16 - 1)) with 32768.
  destruct ((_ <=? z) && (z <? 32768)) eqn:E; [|discriminate].
  intros H; apply Ok_inj in H. cbn. lia.
Qed.

Lemma u8_byte_list v : 0 <= v < 256 -> [u8 v] = ser_u8 v.
Proof. intros H. rewrite ser_u8_byte by exact H. unfold u8, wrap_u. change (2 ^ 8) with 256. now rewrite Z.mod_small. Qed.

Lemma coord_step_reads short same last d flag fx bx :
  enc_delta short same d = (fx, bx) ->
  contains flag short = negb (d =? 0) && ((-255 <=? d) && (d <=? 255)) ->
  contains flag same = (d =? 0) || ((0 <? d) && (d <=? 255)) ->
  in_range I16 d -> in_range I16 (last + d) ->
  reads (coord_step short same last flag) bx (last + d).
Proof.
  intros He Hs Hm Hd Hl. unfold enc_delta in He. unfold coord_step. rewrite Hs, Hm. clear Hs Hm.
  destruct (Z.eqb_spec d 0) as [->|N].
  - injection He as <- <-. cbn [negb andb orb]. rewrite Z.add_0_r. apply reads_pret.
  - cbn [negb andb orb].
    destruct ((-255 <=? d) && (d <=? 255)) eqn:E.
    + destruct (Z.ltb_spec 0 d).
      * injection He as <- <-. replace ((true && (d <=? 255))) with true by lia.
        rewrite u8_byte_list by lia. rewrite <- (app_nil_r (ser_u8 d)).
        eapply reads_bind; [apply reads_u8; lia|]. cbn beta. apply reads_plift, chk_i16_ok, Hl.
      * injection He as <- <-. cbn [andb].
        rewrite u8_byte_list by lia. rewrite <- (app_nil_r (ser_u8 (- d))).
        eapply reads_bind; [apply reads_u8; lia|]. cbn beta.
        replace (last - - d) with (last + d) by lia. apply reads_plift, chk_i16_ok, Hl.
    + injection He as <- <-. replace ((0 <? d) && (d <=? 255)) with false by lia.
      rewrite <- (app_nil_r (ser_i16 d)). eapply reads_bind; [now apply rg_i16|]. cbn beta.
      apply reads_plift, chk_i16_ok, Hl.
Qed.

(** The flag of a point holds exactly the bits of its two coordinate encodings. *)
Lemma enc_delta_flag short same d fx bx : enc_delta short same d = (fx, bx) ->
  fx = (if d =? 0 then same else if (-255 <=? d) && (d <=? 255) then if 0 <? d then Z.lor short same else short else 0).
Proof.
  unfold enc_delta. destruct (d =? 0); [congruence|]. destruct ((-255 <=? d) && (d <=? 255)); [|congruence].
  destruct (0 <? d); congruence.
Qed.

Lemma flag_bits on dx dy :
  let fx := (if dx =? 0 then F_XSAME else if (-255 <=? dx) && (dx <=? 255) then if 0 <? dx then Z.lor F_XSHORT F_XSAME else F_XSHORT else 0) in
  let fy := (if dy =? 0 then F_YSAME else if (-255 <=? dy) && (dy <=? 255) then if 0 <? dy then Z.lor F_YSHORT F_YSAME else F_YSHORT else 0) in
  let flag := Z.lor (Z.lor (if on : bool then F_ON else 0) fx) fy in
  contains flag F_XSHORT = negb (dx =? 0) && ((-255 <=? dx) && (dx <=? 255)) /\
  contains flag F_XSAME = (dx =? 0) || ((0 <? dx) && (dx <=? 255)) /\
  contains flag F_YSHORT = negb (dy =? 0) && ((-255 <=? dy) && (dy <=? 255)) /\
  contains flag F_YSAME = (dy =? 0) || ((0 <? dy) && (dy <=? 255)) /\
  contains flag F_ON = on /\ contains flag F_REPEAT = false /\ contains flag F_OVERLAP = false /\
  0 <= flag < 256.
Proof.
  assert (Hc: forall d, (d =? 0) = true /\ ((-255 <=? d) && (d <=? 255)) = true /\ (0 <? d) = false /\ (d <=? 255) = true
     \/ (d =? 0) = false /\ ((-255 <=? d) && (d <=? 255)) = true /\ (0 <? d) = true /\ (d <=? 255) = true
     \/ (d =? 0) = false /\ ((-255 <=? d) && (d <=? 255)) = true /\ (0 <? d) = false /\ (d <=? 255) = true
     \/ (d =? 0) = false /\ ((-255 <=? d) && (d <=? 255)) = false /\ ((0 <? d) && (d <=? 255)) = false).
  { intros d. lia. }
  cbv zeta.
  destruct (Hc dx) as [(A & B & C & D)|[(A & B & C & D)|[(A & B & C & D)|(A & B & C)]]];
  destruct (Hc dy) as [(A' & B' & C' & D')|[(A' & B' & C' & D')|[(A' & B' & C' & D')|(A' & B' & C')]]];
  rewrite ?A, ?B, ?C, ?D, ?A', ?B', ?C', ?D'; destruct on; cbn; repeat split; try reflexivity; vm_compute; discriminate.
Qed.

Definition plain_flag (f : Z) : Prop :=
  contains f F_REPEAT = false /\ contains f F_OVERLAP = false /\ 0 <= f < 256.

Lemma compile_deltas_spec : forall pts lx ly,
  Forall point_ok pts -> steps_fit lx ly pts ->
  exists fs xs ys, compile_deltas_from lx ly pts = Ok (fs, xs, ys) /\
    length fs = length pts /\ Forall plain_flag fs /\
    reads (de_coords F_XSHORT F_XSAME lx fs) xs (map pt_x pts) /\
    reads (de_coords F_YSHORT F_YSAME ly fs) ys (map pt_y pts) /\
    zip_points (map pt_x pts) (map pt_y pts) fs = pts.
Proof.
  induction pts as [|p pts IH]; intros lx ly Hok Hfit; cbn [compile_deltas_from steps_fit] in *.
  - exists [], [], []. repeat split; auto; exact (reads_pret []).
  - destruct Hfit as (Hx & Hy & Hfit). inversion Hok as [|? ? Hp Hok']; subst.
    destruct (IH (pt_x p) (pt_y p) Hok' Hfit) as (fs & xs & ys & E & Hl & Hf & Rx & Ry & Hz).
    rewrite !chk_i16_ok by assumption. cbn [rbind].
    destruct (enc_delta F_XSHORT F_XSAME (pt_x p - lx)) as [fx bx] eqn:Ex.
    destruct (enc_delta F_YSHORT F_YSAME (pt_y p - ly)) as [fy by_] eqn:Ey.
    rewrite E. cbn [rbind].
    pose proof (enc_delta_flag _ _ _ _ _ Ex) as Hfx. pose proof (enc_delta_flag _ _ _ _ _ Ey) as Hfy.
    pose proof (flag_bits (pt_on p) (pt_x p - lx) (pt_y p - ly)) as Hb. cbv zeta in Hb.
    rewrite <- Hfx, <- Hfy in Hb.
    set (flag := Z.lor (Z.lor (if pt_on p then F_ON else 0) fx) fy) in *. clearbody flag.
    destruct Hb as (B1 & B2 & B3 & B4 & B5 & B6 & B7 & B8).
    exists (flag :: fs), (bx ++ xs), (by_ ++ ys).
    destruct Hp as [Hpx Hpy].
    split; [reflexivity|]. split; [cbn; lia|]. split; [constructor; [repeat split; auto; lia|exact Hf]|].
    split; [|split].
    + rewrite de_coords_cons. eapply reads_bind.
      * eapply coord_step_reads; eauto. replace (lx + (pt_x p - lx)) with (pt_x p) by lia. exact Hpx.
      * cbn beta. replace (lx + (pt_x p - lx)) with (pt_x p) by lia.
        apply (reads_map _ (fun vs => pt_x p :: vs)). exact Rx.
    + rewrite de_coords_cons. eapply reads_bind.
      * eapply coord_step_reads; eauto. replace (ly + (pt_y p - ly)) with (pt_y p) by lia. exact Hpy.
      * cbn beta. replace (ly + (pt_y p - ly)) with (pt_y p) by lia.
        apply (reads_map _ (fun vs => pt_y p :: vs)). exact Ry.
    + cbn [map zip_points]. rewrite Hz, B5. destruct p; reflexivity.
Qed.

Lemma compile_deltas_ok_fit : forall pts lx ly v, compile_deltas_from lx ly pts = Ok v -> steps_fit lx ly pts.
Proof.
  induction pts as [|p pts IH]; intros lx ly v; cbn [compile_deltas_from steps_fit]; [auto|].
  destruct (chk_i 16 (pt_x p - lx)) as [x| |] eqn:E1; try discriminate.
  destruct (chk_i 16 (pt_y p - ly)) as [y| |] eqn:E2; try discriminate. cbn [rbind].
  apply chk_i16_inv in E1. apply chk_i16_inv in E2.
  destruct (enc_delta _ _ x), (enc_delta _ _ y).
  destruct (compile_deltas_from (pt_x p) (pt_y p) pts) as [v'| |] eqn:E; try discriminate.
  intros _. split; [tauto|]. split; [tauto|]. eapply IH; eauto.
Qed.

Lemma reads_flags : forall fs, Forall plain_flag fs -> reads (de_flags (length fs) (length fs)) fs fs.
Proof.
  induction fs as [|f fs IH]; intros H; [exact (reads_pret [])|].
  inversion H as [|? ? (Hr & _ & Hb) H']; subst.
  change (length (f :: fs)) with (S (length fs)). unfold de_flags; fold de_flags.
  replace (f :: fs) with (ser_u8 f ++ fs) by (rewrite ser_u8_byte by exact Hb; reflexivity).
  eapply reads_bind; [apply reads_u8; exact Hb|]. cbn beta. rewrite Hr.
  replace (S (length fs) - 1)%nat with (length fs) by lia.
  replace (ser_u8 f ++ fs) with (f :: fs) by (rewrite ser_u8_byte by exact Hb; reflexivity).
  apply (reads_map _ (fun l => f :: l)). now apply IH.
Qed.

(** ** Contours *)
Fixpoint cums {A} (n : nat) (cs : list (list A)) : list nat :=
  match cs with [] => [] | c :: cs' => (n + length c)%nat :: cums (n + length c) cs' end.

Lemma split_contours_cums {A} (cs : list (list A)) : forall pre,
  split_contours (pre ++ concat cs) (length pre) (cums (length pre) cs) = Ok cs.
Proof.
  induction cs as [|c cs IH]; intros pre; cbn [cums split_contours concat]; [reflexivity|].
  unfold slice_range. rewrite !app_length.
  replace ((length pre + length c <? length pre)%nat || (length pre + (length c + length (concat cs)) <? length pre + length c)%nat)
    with false by lia.
  replace (length pre + length c - length pre)%nat with (length c) by lia.
  rewrite skipn_app_exact, firstn_app_exact. cbn [rbind].
  rewrite app_assoc, <- app_length, IH. reflexivity.
Qed.

Lemma last_cons_default {A} (x : A) l d : last (x :: l) d = last l x.
Proof.
  revert x d. induction l as [|y l IH]; intros x d; [reflexivity|].
  change (last (x :: y :: l) d) with (last (y :: l) d). now rewrite !IH.
Qed.

Lemma last_cums {A} (cs : list (list A)) : forall n d, cs <> [] ->
  last (cums n cs) d = (n + length (concat cs))%nat.
Proof.
  induction cs as [|c cs IH]; intros n d H; [congruence|]. cbn [cums concat]. rewrite app_length.
  destruct cs as [|c' cs].
  - cbn. lia.
  - rewrite last_cons_default, IH by discriminate. lia.
Qed.

Lemma end_points_spec : forall (cs : list (list point)) n,
  Z.of_nat (n + length (concat cs)) <= 32767 ->
  (n = 0%nat -> match cs with [] => True | c :: _ => c <> [] end) ->
  exists es, end_points_from (Z.of_nat n - 1) cs = Ok es /\ length es = length cs /\
    Forall (in_range U16) es /\ map (fun x => S (Z.to_nat x)) es = cums n cs.
Proof.
  induction cs as [|c cs IH]; intros n Hn Hne; cbn [end_points_from cums].
  - exists []. repeat split; constructor.
  - cbn [concat] in Hn. rewrite app_length in Hn.
    assert (Hpos: (0 < n + length c)%nat).
    { destruct n; [|lia]. specialize (Hne eq_refl). destruct c; [congruence|cbn; lia]. }
    rewrite i16_id by lia. rewrite chk_i16_ok by (cbn; lia). cbn [rbind].
    replace (Z.of_nat n - 1 + Z.of_nat (length c)) with (Z.of_nat (n + length c) - 1) by lia.
    destruct (IH (n + length c)%nat) as (es & E & Hl & Hr & Hm); [lia|lia|].
    rewrite E. cbn [rbind]. rewrite u16_id by lia. eexists. split; [reflexivity|].
    split; [cbn; lia|]. split; [constructor; [cbn; lia|exact Hr]|]. cbn [map]. rewrite Hm. f_equal. lia.
Qed.

Lemma reads_u16_unwrap v : in_range U16 v -> reads de_u16_unwrap (ser_u16 v) v.
Proof.
  intros H r post Hr. unfold de_u16_unwrap. now rewrite (rg_u16 v H r post Hr).
Qed.

Lemma bytes_ser_u8 l : Forall is_byte l -> concat (map ser_u8 l) = l.
Proof.
  induction 1 as [|b l Hb Hl IH]; [reflexivity|]. cbn [map concat]. rewrite IH.
  rewrite ser_u8_byte by (unfold is_byte in Hb; lia). reflexivity.
Qed.

Lemma reads_instructions l : Forall is_byte l -> Z.of_nat (length l) <= 32767 ->
  reads de_instructions (ser_u16 (u16 (Z.of_nat (length l))) ++ l) l.
Proof.
  intros Hb Hl. unfold de_instructions. rewrite u16_id by lia.
  change (ser_u16 (Z.of_nat (length l))) with (ser_i16 (Z.of_nat (length l))).
  eapply reads_bind; [apply rg_i16; cbn; lia|]. cbn beta.
  destruct (Z.ltb_spec 0 (Z.of_nat (length l))).
  - rewrite Nat2Z.id. rewrite <- (bytes_ser_u8 l Hb) at 2. apply reads_counted.
    apply Forall_impl with (P := is_byte); [|exact Hb]. intros a Ha. apply reads_u8. unfold is_byte in Ha; lia.
  - destruct l; [exact (reads_pret [])|cbn in *; lia].
Qed.

Lemma existsb_overlap fs : Forall plain_flag fs -> existsb (fun f => contains f F_OVERLAP) fs = false.
Proof. induction 1 as [|f fs (_ & H & _) _ IH]; [reflexivity|]. cbn [existsb]. now rewrite H, IH. Qed.

Lemma simple_reads g bs : simple_glyph g -> simple_sizes g ->
  (match g_contours g with [] => True | c :: _ => c <> [] end) ->
  Z.of_nat (length (g_instr g)) <= 32767 ->
  ser_glyph g = Ok bs ->
  reads de_glyph bs (mk_glyph (g_xMin g) (g_xMax g) (g_yMin g) (g_yMax g) (g_contours g) (g_instr g) [] false).
Proof.
  intros (Hc & Hne & (B1 & B2 & B3 & B4) & Hp & Hib) [Hs1 Hs2] Hfirst Hin.
  unfold ser_glyph, is_empty_glyph, has_components, end_points, compile_deltas, has_components.
  rewrite Hc. cbn [is_nil negb andb].
  replace (is_nil (g_contours g)) with false by (destruct (g_contours g); [congruence|reflexivity]).
  destruct (end_points_spec (g_contours g) 0) as (es & Ees & Hel & Her & Hem); [lia|auto|].
  change (Z.of_nat 0 - 1) with (-1) in Ees. rewrite Ees. cbn [rbind].
  destruct (compile_deltas_from 0 0 (concat (g_contours g))) as [[[fs xs] ys]| |] eqn:Ed; try discriminate.
  cbn [rbind]. intros E; apply Ok_inj in E. subst bs.
  pose proof (compile_deltas_ok_fit _ _ _ _ Ed) as Hfit.
  assert (Hpc: Forall point_ok (concat (g_contours g))) by (apply Forall_concat; exact Hp).
  destruct (compile_deltas_spec _ _ _ Hpc Hfit) as (fs' & xs' & ys' & Ed' & Hfl & Hff & Rx & Ry & Hz).
  rewrite Ed in Ed'. injection Ed' as <- <- <-.
  rewrite i16_id by lia. rewrite <- !app_assoc.
  unfold de_glyph.
  eapply reads_bind; [apply rg_i16; cbn; lia|]. cbn beta.
  eapply reads_bind; [now apply rg_i16|]. cbn beta.
  eapply reads_bind; [now apply rg_i16|]. cbn beta.
  eapply reads_bind; [now apply rg_i16|]. cbn beta.
  eapply reads_bind; [now apply rg_i16|]. cbn beta.
  assert (Hn0: (0 < length (g_contours g))%nat) by (destruct (g_contours g); [congruence|cbn; lia]).
  destruct (Z.ltb_spec (Z.of_nat (length (g_contours g))) 1); [lia|].
  rewrite Nat2Z.id. rewrite <- Hel.
  eapply reads_bind.
  { apply reads_counted. eapply Forall_impl; [|exact Her]. intros; now apply reads_u16_unwrap. }
  cbn beta zeta. rewrite app_assoc.
  eapply reads_bind; [now apply reads_instructions|]. cbn beta.
  rewrite Hem. rewrite last_cums by exact Hne. cbn [Nat.add]. rewrite <- Hfl.
  eapply reads_bind; [now apply reads_flags|]. cbn beta.
  eapply reads_bind; [exact Rx|]. cbn beta.
  rewrite <- (app_nil_r ys). eapply reads_bind; [exact Ry|]. cbn beta.
  rewrite Hz, existsb_overlap by exact Hff.
  eapply (reads_bind _ _ [] []).
  { apply reads_plift. exact (split_contours_cums (g_contours g) []). }
  cbn beta. apply reads_pret.
Qed.

Lemma ser_simple_ok g : simple_glyph g -> simple_sizes g ->
  (match g_contours g with [] => True | c :: _ => c <> [] end) ->
  steps_fit 0 0 (concat (g_contours g)) -> exists bs, ser_glyph g = Ok bs.
Proof.
  intros (Hc & Hne & _ & Hp & _) [_ Hs2] Hfirst Hfit.
  unfold ser_glyph, is_empty_glyph, has_components, end_points, compile_deltas, has_components.
  rewrite Hc. cbn [is_nil negb andb].
  replace (is_nil (g_contours g)) with false by (destruct (g_contours g); [congruence|reflexivity]).
  destruct (end_points_spec (g_contours g) 0) as (es & Ees & _); [lia|auto|].
  change (Z.of_nat 0 - 1) with (-1) in Ees. rewrite Ees. cbn [rbind].
  assert (Hpc: Forall point_ok (concat (g_contours g))) by (apply Forall_concat; exact Hp).
  destruct (compile_deltas_spec _ _ _ Hpc Hfit) as (fs' & xs' & ys' & -> & _). cbn [rbind]. eauto.
Qed.

(** What any successful parse of a simple glyph looks like. *)
Lemma de_instructions_len r l r' : de_instructions r = Ok (l, r') -> Z.of_nat (length l) <= 32767.
Proof.
  unfold de_instructions, pbind. destruct (de_i16 r) as [[n r1]| |] eqn:E; try discriminate.
  assert (Hn: n <= 32767).
  { revert E. unfold de_i16, de_prim. destruct (consume r _) as [[b r2]| |]; try discriminate.
    intros E; apply Ok_inj in E. injection E as <- _. cbn [prim_signed].
    destruct (wrap_i_spec 16 (be_value b)) as [H _]; [lia|].
    change (wrap_i 16 (be_value b) <= 32767). change (2 ^ (16 - 1)) with 32768 in H. lia. }
  destruct (Z.ltb_spec 0 n).
  - intros H1. apply de_counted_length in H1. lia.
  - unfold pret. intros H1. injection H1 as <- _. cbn. lia.
Qed.

Lemma de_simple_shape r g r' : de_glyph r = Ok (g, r') -> g_contours g <> [] ->
  Z.of_nat (length (g_instr g)) <= 32767 /\
  match g_contours g with [] => True | c :: _ => c <> [] end.
Proof.
  unfold de_glyph, pbind.
  destruct (de_i16 r) as [[nc r1]| |]; try discriminate.
  destruct (de_i16 r1) as [[b1 r2]| |]; try discriminate.
  destruct (de_i16 r2) as [[b2 r3]| |]; try discriminate.
  destruct (de_i16 r3) as [[b3 r4]| |]; try discriminate.
  destruct (de_i16 r4) as [[b4 r5]| |]; try discriminate.
  destruct (nc <? 1).
  - destruct (de_components _ r5) as [[[[cs ov] hi] r6]| |]; try discriminate.
    destruct ((if hi then de_instructions else pret []) r6) as [[il r7]| |]; try discriminate.
    unfold pret. intros H; apply Ok_inj in H. injection H as <- _. cbn. congruence.
  - destruct (de_counted de_u16_unwrap (Z.to_nat nc) r5) as [[es r6]| |]; try discriminate.
    destruct (de_instructions r6) as [[il r7]| |] eqn:Ei; try discriminate.
    destruct (de_flags _ _ r7) as [[fs r8]| |]; try discriminate.
    destruct (de_coords _ _ _ fs r8) as [[xs r9]| |]; try discriminate.
    destruct (de_coords _ _ _ fs r9) as [[ys r10]| |]; try discriminate.
    unfold plift. destruct (split_contours _ 0 _) as [cs| |] eqn:Es; try discriminate.
    unfold pret. intros H; apply Ok_inj in H. injection H as <- _. cbn [g_contours g_instr]. intros Hne.
    split; [eapply de_instructions_len; eauto|].
    destruct es as [|e es]; cbn [map split_contours] in Es; [injection Es as <-; congruence|].
    unfold slice_range in Es.
    destruct ((S (Z.to_nat e) <? 0)%nat || (length (zip_points xs ys fs) <? S (Z.to_nat e))%nat) eqn:Eb; [discriminate|].
    cbn [rbind] in Es. destruct (split_contours _ _ _); try discriminate. cbn [rbind] in Es.
    apply Ok_inj in Es. subst cs. intros E. apply (f_equal (@length _)) in E.
    rewrite firstn_length_le in E; [cbn in E; lia|]. cbn [skipn]. lia.
Qed.

Lemma simple_iff g : simple_glyph g -> simple_sizes g ->
  ((exists bs, ser_glyph g = Ok bs /\ from_bytes de_glyph bs = Ok g) <->
   (g_overlap g = false /\ (exists c cs, g_contours g = c :: cs /\ c <> []) /\
    steps_fit 0 0 (concat (g_contours g)) /\ Z.of_nat (length (g_instr g)) <= 32767)).
Proof.
  intros Hg Hs. pose proof Hg as (Hc & Hne & _). split.
  - intros (bs & E & D). unfold from_bytes in D.
    destruct (de_glyph (rd_new bs)) as [[g' r']| |] eqn:Eg; try discriminate.
    apply Ok_inj in D. subst g'. destruct (de_simple_shape _ _ _ Eg Hne) as [Hi Hf].
    pose proof (simple_reads g bs Hg Hs Hf Hi E) as R.
    specialize (R (rd_new bs) [] ltac:(rewrite app_nil_r; reflexivity)). rewrite Eg in R.
    apply Ok_inj in R. injection R as R _.
    split; [rewrite R; reflexivity|]. split.
    { destruct (g_contours g) as [|c cs]; [congruence|]. eauto. }
    split; [|exact Hi]. revert E.
    unfold ser_glyph, is_empty_glyph, has_components, compile_deltas, has_components.
    rewrite Hc. cbn [is_nil negb andb].
    destruct (is_nil (g_contours g)) eqn:En; [destruct (g_contours g); [congruence|discriminate]|].
    destruct (end_points g); try discriminate. cbn [rbind].
    destruct (compile_deltas_from 0 0 (concat (g_contours g))) eqn:Ed; try discriminate.
    intros _. eapply compile_deltas_ok_fit; eauto.
  - intros (Ho & (c & cs & Ec & Hcn) & Hfit & Hi).
    assert (Hf: match g_contours g with [] => True | c :: _ => c <> [] end) by (rewrite Ec; exact Hcn).
    destruct (ser_simple_ok g Hg Hs Hf Hfit) as [bs E]. exists bs. split; [exact E|].
    pose proof (simple_reads g bs Hg Hs Hf Hi E) as R.
    rewrite <- (app_nil_r bs). rewrite (reads_from_bytes _ _ _ [] R). f_equal.
    destruct g; cbn in *; subst; reflexivity.
Qed.

Lemma simple_roundtrip g : simple_glyph g -> simple_sizes g ->
  g_overlap g = false -> (exists c cs, g_contours g = c :: cs /\ c <> []) ->
  steps_fit 0 0 (concat (g_contours g)) -> Z.of_nat (length (g_instr g)) <= 32767 ->
  exists bs, ser_glyph g = Ok bs /\ reads de_glyph bs g.
Proof.
  intros Hg Hs Ho (c & cs & Ec & Hcn) Hfit Hi. pose proof Hg as (Hc & _).
  assert (Hf: match g_contours g with [] => True | c :: _ => c <> [] end) by (rewrite Ec; exact Hcn).
  destruct (ser_simple_ok g Hg Hs Hf Hfit) as [bs E]. exists bs. split; [exact E|].
  pose proof (simple_reads g bs Hg Hs Hf Hi E) as R. destruct g; cbn in *; subst; exact R.
Qed.

(** ** Components *)
Lemma f2_packed x k : in_range I16 k -> (val x == inject_Z k / 16384)%Q -> f2dot14_as_packed (rnd24 x) = Some k.
Proof.
  intros Hk Hx. cbn in Hk.
  assert (E14: (Qpower 2 (-14) == / 16384)%Q) by reflexivity.
  assert (H1: (val (rnd24 x) == inject_Z k / 16384)%Q).
  { rewrite rnd24_rndp, rndp_exact; [exact Hx|lia|]. exists k, (-14). split; [lia|].
    rewrite Hx, val_Dy, E14. reflexivity. }
  assert (H2: (val (f32_scale (rnd24 x) 14) == inject_Z k)%Q).
  { unfold f32_scale. rewrite val_Dy, p2_add.
    change (inject_Z (mant (rnd24 x)) * (Qpower 2 (expo (rnd24 x)) * Qpower 2 14) == inject_Z k)%Q.
    rewrite Qmult_assoc. fold (val (rnd24 x)). rewrite H1. change (Qpower 2 14) with 16384%Q. field. }
  unfold f2dot14_as_packed, ot_round.
  set (y := f32_scale (rnd24 x) 14) in *.
  assert (H3: (val (f32_add y (Dy 1 (-1))) == inject_Z k + (1 # 2))%Q).
  { change (f32_add y (Dy 1 (-1))) with (rndp 24 (dy_add y (Dy 1 (-1)))).
    assert (Ev: (val (dy_add y (Dy 1 (-1))) == inject_Z k + (1 # 2))%Q).
    { rewrite val_add, H2. apply Qplus_comp; [reflexivity|]. reflexivity. }
    rewrite rndp_exact; [exact Ev|lia|]. exists (2 * k + 1), (-1). split; [lia|].
    rewrite Ev, val_Dy, inject_Z_plus, inject_Z_mult. change (Qpower 2 (-1)) with (/ 2)%Q.
    change (inject_Z 2) with 2%Q. change (inject_Z 1) with 1%Q. field. }
  change (f32_floor (f32_add y (Dy 1 (-1)))) with (dy_floor (f32_add y (Dy 1 (-1)))).
  rewrite (floor_unique _ k).
  - unfold sat_i32, try_i. change (2 ^ (16 - 1)) with 32768.
    replace (Z.max (- 2 ^ 31) (Z.min (2 ^ 31 - 1) k)) with k by lia.
    if_true. reflexivity.
  - rewrite H3. lra.
  - rewrite H3, inject_Z_plus. change (inject_Z 1) with 1%Q. lra.
Qed.

Lemma f2_ser x k : in_range I16 k -> (val x == inject_Z k / 16384)%Q ->
  ser_f2dot14_of_f64 x = Ok (ser_i16 k).
Proof. intros Hk Hx. unfold ser_f2dot14_of_f64, ser_f2dot14. now rewrite (f2_packed x k). Qed.

Lemma f2_reads k : in_range I16 k -> reads de_f64_f2dot14 (ser_i16 k) (Dy k (-14)).
Proof.
  intros Hk. unfold de_f64_f2dot14, de_f2dot14.
  assert (E: Dy k (-14) = f2dot14_from_packed k).
  { unfold f2dot14_from_packed, f32_of_int. rewrite rnd24_small; [reflexivity|]. cbn in Hk. lia. }
  rewrite E. apply (reads_map _ f2dot14_from_packed). now apply rg_i16.
Qed.

Lemma val_k k : (val (Dy k (-14)) == inject_Z k / 16384)%Q.
Proof. rewrite val_Dy. reflexivity. Qed.

Lemma div_inj_k j k : (inject_Z j / 16384 == inject_Z k / 16384)%Q -> j = k.
Proof.
  intros H. assert (inject_Z j == inject_Z k)%Q.
  { setoid_replace (inject_Z j) with (inject_Z j / 16384 * 16384)%Q by field. rewrite H. field. }
  now apply inject_Z_injective.
Qed.

Lemma eps_test x y j k : -65536 < j < 65536 -> -65536 < k < 65536 ->
  (val x == inject_Z j / 16384)%Q -> (val y == inject_Z k / 16384)%Q ->
  dy_ltb EPS (dy_abs (f64_sub x y)) = negb (j =? k).
Proof.
  intros Hj Hk Hx Hy.
  assert (Hv: (val (f64_sub x y) == inject_Z (j - k) / 16384)%Q).
  { unfold f64_sub, rnd53.
    assert (Ev: (val (dy_sub x y) == inject_Z (j - k) / 16384)%Q).
    { rewrite val_sub, Hx, Hy. unfold Z.sub. rewrite inject_Z_plus, inject_Z_opp. field. }
    rewrite rndp_exact; [exact Ev|lia|]. exists (j - k), (-14). split; [lia|]. rewrite Ev. now rewrite val_k. }
  assert (Ha: (val (dy_abs (f64_sub x y)) == inject_Z (Z.abs (j - k)) / 16384)%Q).
  { rewrite val_abs, Hv. unfold Qdiv. rewrite Qabs_Qmult.
    rewrite (Qabs_pos (/ 16384)) by discriminate. reflexivity. }
  assert (HE: (val EPS <= 1 / 16384)%Q).
  { unfold EPS. rewrite val_Dy. vm_compute. discriminate. }
  assert (HE0: (0 <= val EPS)%Q) by (vm_compute; discriminate).
  destruct (Z.eqb_spec j k) as [->|N]; cbn [negb].
  - apply ltb_false. rewrite Ha, Z.sub_diag. vm_compute. discriminate.
  - apply ltb_iff. rewrite Ha.
    destruct (Z.eq_dec (Z.abs (j - k)) 1) as [E1|E1].
    + rewrite E1. vm_compute. reflexivity.
    + assert (2 <= Z.abs (j - k)) as H2 by lia. rewrite Zle_Qle in H2. change (inject_Z 2) with 2%Q in H2. unfold Qdiv in *. change (/ 16384)%Q with (1 # 16384)%Q in *. lra.
Qed.

(** Number of bits. *)
Definition uf_mask := Z.lor C_ROUND (Z.lor C_METRICS (Z.lor C_SCALED (Z.lor C_UNSCALED C_OVERLAP))).
Lemma uf_mask_eq : uf_mask = user_flags.
Proof. reflexivity. Qed.

Definition more_bit (more instr : bool) : Z := if more then C_MORE else if instr then C_INSTR else 0.

(** The flag word, with the three computed groups. *)
Definition flag_word (uf mb ab sb : Z) : Z := Z.lor (Z.lor (Z.lor (Z.land uf uf_mask) mb) ab) sb.

Lemma flag_word_bit uf mb ab sb k :
  Z.testbit (flag_word uf mb ab sb) k =
  (Z.testbit uf k && Z.testbit uf_mask k) || Z.testbit mb k || Z.testbit ab k || Z.testbit sb k.
Proof. unfold flag_word. now rewrite !Z.lor_spec, Z.land_spec. Qed.

Lemma flag_word_range uf mb ab sb : 0 <= uf -> In mb [0; 32; 256] -> In ab [0; 1; 2; 3] -> In sb [0; 8; 64; 128] ->
  0 <= flag_word uf mb ab sb < 65536.
Proof.
  intros H H1 H2 H3.
  assert (N: 0 <= flag_word uf mb ab sb).
  { unfold flag_word. rewrite !Z.lor_nonneg, Z.land_nonneg.
    repeat split; [left; lia|..]; cbn in H1, H2, H3; lia. }
  split; [exact N|].
  assert (S: Z.shiftr (flag_word uf mb ab sb) 16 = 0).
  { unfold flag_word. rewrite !Z.shiftr_lor, Z.shiftr_land. change (Z.shiftr uf_mask 16) with 0.
    rewrite Z.land_0_r.
    cbn in H1, H2, H3.
    repeat (destruct H1 as [<-|H1]; [|]; [|try contradiction]); try contradiction;
    repeat (destruct H2 as [<-|H2]; [|]; [|try contradiction]); try contradiction;
    repeat (destruct H3 as [<-|H3]; [|]; [|try contradiction]); try contradiction; reflexivity. }
  rewrite Z.shiftr_div_pow2 in S by lia. change (2 ^ 16) with 65536 in S. lia.
Qed.

Lemma flag_word_user uf mb ab sb : In mb [0; 32; 256] -> In ab [0; 1; 2; 3] -> In sb [0; 8; 64; 128] ->
  Z.land (flag_word uf mb ab sb) user_flags = Z.land uf user_flags.
Proof.
  intros H1 H2 H3. unfold flag_word. rewrite uf_mask_eq.
  rewrite !Z.land_lor_distr_l, <- Z.land_assoc, Z.land_diag.
  replace (Z.land mb user_flags) with 0 by (cbn in H1; intuition subst; reflexivity).
  replace (Z.land ab user_flags) with 0 by (cbn in H2; intuition subst; reflexivity).
  replace (Z.land sb user_flags) with 0 by (cbn in H3; intuition subst; reflexivity).
  now rewrite !Z.lor_0_r.
Qed.

(** The computed argument and scale bits, in terms of the numbers. *)
Definition args_bits (c : component) : Z :=
  match cp_match c with
  | Some (x, y) => if negb ((x <=? 255) && (y <=? 255)) then C_WORDS else 0
  | None => let inr v := dy_leb (dy_of_Z (-128)) v && dy_leb v (dy_of_Z 127) in
            if negb (inr (af_e (cp_trans c)) && inr (af_f (cp_trans c))) then Z.lor C_XY C_WORDS else C_XY
  end.
Definition scale_bits (t : affine) : Z :=
  if negb (dy_eqb (af_b t) dy0) || negb (dy_eqb (af_c t) dy0) then C_2X2
  else if dy_ltb EPS (dy_abs (f64_sub (af_a t) (af_d t))) then C_XYSCALE
  else if dy_ltb EPS (dy_abs (f64_sub (af_a t) dy1)) then C_SCALE else 0.

Lemma recompute_word c more instr :
  recompute_flags c more instr = flag_word (cp_flags c) (more_bit more instr) (args_bits c) (scale_bits (cp_trans c)).
Proof.
  unfold recompute_flags, flag_word, more_bit, args_bits, scale_bits. fold uf_mask.
  set (f0 := Z.land (cp_flags c) uf_mask).
  replace (if more then Z.lor f0 C_MORE else if instr then Z.lor f0 C_INSTR else f0)
    with (Z.lor f0 (if more then C_MORE else if instr then C_INSTR else 0))
    by (destruct more; [|destruct instr]; rewrite ?Z.lor_0_r; reflexivity).
  set (f1 := Z.lor f0 _). cbv zeta.
  match goal with |- (if _ then Z.lor ?X _ else _) = Z.lor (Z.lor _ ?A) _ => assert (E: X = Z.lor f1 A) end.
  { destruct (cp_match c) as [[x y]|].
    - destruct (negb _); now rewrite ?Z.lor_0_r.
    - destruct (negb _); now rewrite ?Z.lor_assoc. }
  rewrite E. destruct (negb _ || negb _); [reflexivity|].
  destruct (dy_ltb _ _); [reflexivity|]. destruct (dy_ltb _ _); now rewrite ?Z.lor_0_r.
Qed.

Lemma args_bits_in c : In (args_bits c) [0; 1; 2; 3].
Proof.
  unfold args_bits. destruct (cp_match c) as [[x y]|]; cbv zeta; destruct (negb _); cbn; auto.
Qed.
Lemma scale_bits_in t : In (scale_bits t) [0; 8; 64; 128].
Proof.
  unfold scale_bits. destruct (_ || _); [cbn; auto 6|]. destruct (dy_ltb _ _); [cbn; auto|].
  destruct (dy_ltb _ _); cbn; auto.
Qed.
Lemma more_bit_in a b : In (more_bit a b) [0; 32; 256].
Proof. destruct a, b; cbn; auto. Qed.

Lemma low_bits uf mb ab sb k : In mb [0; 32; 256] -> In ab [0; 1; 2; 3] -> In sb [0; 8; 64; 128] ->
  In k [0; 1; 3; 6; 7; 5; 8] ->
  Z.testbit (flag_word uf mb ab sb) k = Z.testbit mb k || Z.testbit ab k || Z.testbit sb k.
Proof.
  intros _ _ _ H4. rewrite flag_word_bit.
  assert (Z.testbit uf_mask k = false) as -> by (cbn in H4; intuition subst; reflexivity).
  now rewrite andb_false_r.
Qed.

Ltac in_cases H := cbn in H; repeat (destruct H as [<-|H]; [|]); try contradiction.

Section Component.
Variables (c : component) (more instr : bool).
Hypothesis Hc : component_ok c.
Let f := recompute_flags c more instr.

Lemma f_low k : In k [0; 1; 3; 6; 7; 5; 8] ->
  Z.testbit f k = Z.testbit (more_bit more instr) k || Z.testbit (args_bits c) k || Z.testbit (scale_bits (cp_trans c)) k.
Proof.
  intros H. unfold f. rewrite recompute_word. apply low_bits; auto using args_bits_in, scale_bits_in, more_bit_in.
Qed.

Lemma f_bit0 : Z.testbit f 0 = Z.testbit (args_bits c) 0.
Proof.
  rewrite f_low by (cbn; auto). pose proof (scale_bits_in (cp_trans c)) as S. pose proof (more_bit_in more instr) as M.
  generalize dependent (scale_bits (cp_trans c)). generalize dependent (more_bit more instr).
  intros m M s S. in_cases M; in_cases S; cbn; now rewrite ?orb_false_r.
Qed.
Lemma f_bit1 : Z.testbit f 1 = Z.testbit (args_bits c) 1.
Proof.
  rewrite f_low by (cbn; auto). pose proof (scale_bits_in (cp_trans c)) as S. pose proof (more_bit_in more instr) as M.
  generalize dependent (scale_bits (cp_trans c)). generalize dependent (more_bit more instr).
  intros m M s S. in_cases M; in_cases S; cbn; now rewrite ?orb_false_r.
Qed.
Lemma f_scale k : In k [3; 6; 7] -> Z.testbit f k = Z.testbit (scale_bits (cp_trans c)) k.
Proof.
  intros Hk. rewrite f_low by (cbn in *; intuition). pose proof (args_bits_in c) as S. pose proof (more_bit_in more instr) as M.
  generalize dependent (args_bits c). generalize dependent (more_bit more instr).
  intros m M s S. in_cases Hk; in_cases M; in_cases S; reflexivity.
Qed.
Lemma f_more k : In k [5; 8] -> Z.testbit f k = Z.testbit (more_bit more instr) k.
Proof.
  intros Hk. rewrite f_low by (cbn in *; intuition). pose proof (args_bits_in c) as S. pose proof (scale_bits_in (cp_trans c)) as M.
  generalize dependent (args_bits c). generalize dependent (scale_bits (cp_trans c)).
  intros m M s S. in_cases Hk; in_cases M; in_cases S; now rewrite ?orb_false_r.
Qed.
Lemma f_range : in_range U16 f.
Proof.
  destruct Hc as (_ & Hf & _). cbn in Hf. unfold f. rewrite recompute_word.
  pose proof (flag_word_range (cp_flags c) (more_bit more instr) (args_bits c) (scale_bits (cp_trans c))
    ltac:(lia) (more_bit_in _ _) (args_bits_in _) (scale_bits_in _)). cbn. lia.
Qed.
Lemma f_user : Z.land f user_flags = Z.land (cp_flags c) user_flags.
Proof. unfold f. rewrite recompute_word. apply flag_word_user; auto using args_bits_in, scale_bits_in, more_bit_in. Qed.

Lemma cont_f k m : 0 <= k -> m = 2 ^ k -> contains f m = Z.testbit f k.
Proof. intros H ->. now apply contains_bit. Qed.

Lemma not_three : contains f (Z.lor C_SCALE (Z.lor C_XYSCALE C_2X2)) = false.
Proof.
  destruct (contains f _) eqn:E; [exfalso|reflexivity]. unfold contains in E. apply Z.eqb_eq in E.
  assert (B: forall k, Z.testbit (Z.lor C_SCALE (Z.lor C_XYSCALE C_2X2)) k = true -> Z.testbit f k = true).
  { intros k Hk. rewrite <- E, Z.land_spec in Hk. now apply andb_prop in Hk as [? _]. }
  pose proof (B 3 eq_refl) as B3. pose proof (B 6 eq_refl) as B6.
  rewrite f_scale in B3, B6 by (cbn; auto). pose proof (scale_bits_in (cp_trans c)) as S.
  revert B3 B6 S. generalize (scale_bits (cp_trans c)). intros s B3 B6 S. in_cases S; discriminate.
Qed.

Definition ser_args : res (list Z) :=
  let t := cp_trans c in
  if contains f C_XY then
    if contains f C_WORDS
    then Ok (ser_i16 (sat 16 (dy_round (af_e t))) ++ ser_i16 (f_as_i16 (af_f t)))
    else Ok (ser_i8 (sat 8 (dy_round (af_e t))) ++ ser_i8 (f_as_i8 (af_f t)))
  else
    ' (x, y) <- unwrap (cp_match c) ;;
    if contains f C_WORDS then Ok (ser_i16 (i16 x) ++ ser_i16 (i16 y))
    else Ok (ser_i8 (i8 x) ++ ser_i8 (i8 y)).
Definition de_args : parser (option (Z * Z) * Z * Z) :=
  (if negb (contains f C_XY) then
     mp <-- (if contains f C_WORDS
             then (a <-- de_u16 ;; b <-- de_u16 ;; pret (a, b))
             else (a <-- de_u8 ;; b <-- de_u8 ;; pret (a, b))) ;;
     if contains f (Z.lor C_SCALE (Z.lor C_XYSCALE C_2X2)) then perr
     else pret (Some mp, 0, 0)
   else if contains f C_WORDS
   then (a <-- de_i16 ;; b <-- de_i16 ;; pret (None, a, b))
   else (a <-- de_i8 ;; b <-- de_i8 ;; pret (None, a, b))).

Lemma be_cong1 a b : a mod 256 = b mod 256 -> ser_i8 a = ser_u8 b.
Proof. intros H. apply be_bytes_cong. exact H. Qed.
Lemma be_cong2 a b : a mod 65536 = b mod 65536 -> ser_i16 a = ser_u16 b.
Proof. intros H. apply be_bytes_cong. exact H. Qed.
Lemma i8_mod z : i8 z mod 256 = z mod 256.
Proof. destruct (wrap_i_spec 8 z ltac:(lia)) as [_ H]. exact H. Qed.
Lemma i16_mod z : i16 z mod 65536 = z mod 65536.
Proof. destruct (wrap_i_spec 16 z ltac:(lia)) as [_ H]. exact H. Qed.

Lemma reads_pair {A B} (p : parser A) (q : parser B) bs1 bs2 a b :
  reads p bs1 a -> reads q bs2 b -> reads (x <-- p ;; y <-- q ;; pret (x, y)) (bs1 ++ bs2) (a, b).
Proof.
  intros H1 H2. eapply reads_bind; [exact H1|]. cbn beta. apply (reads_map _ (fun y => (a, y))). exact H2.
Qed.

Lemma args_ok : exists bs ex ey, ser_args = Ok bs /\ reads de_args bs (cp_match c, ex, ey) /\
  (inject_Z ex == val (af_e (cp_trans c)))%Q /\ (inject_Z ey == val (af_f (cp_trans c)))%Q /\
  Z.of_nat (length bs) = arg_bytes f.
Proof.
  destruct Hc as (_ & _ & _ & _ & _ & _ & Hm).
  unfold ser_args, de_args, arg_bytes.
  rewrite (cont_f 1 C_XY), (cont_f 0 C_WORDS), f_bit0, f_bit1 by (lia || reflexivity).
  rewrite not_three. unfold args_bits in *. cbv zeta.
  destruct (cp_match c) as [[p q]|].
  - destruct Hm as (Hp & Hq & He & Hf). cbn in Hp, Hq. cbn [unwrap rbind].
    destruct ((p <=? 255) && (q <=? 255)) eqn:Er; cbn [negb].
    + change (Z.testbit 0 1) with false. change (Z.testbit 0 0) with false. cbn [negb].
      rewrite (be_cong1 (i8 p) p), (be_cong1 (i8 q) q) by apply i8_mod.
      exists (ser_u8 p ++ ser_u8 q), 0, 0. split; [reflexivity|]. split; [|rewrite He, Hf; repeat split; try reflexivity].
      rewrite <- (app_nil_r (ser_u8 p ++ ser_u8 q)). eapply reads_bind.
      { apply reads_pair; apply reads_u8; lia. } cbn beta. apply reads_pret.
    + change (Z.testbit C_WORDS 1) with false. change (Z.testbit C_WORDS 0) with true. cbn [negb].
      rewrite (be_cong2 (i16 p) p), (be_cong2 (i16 q) q) by apply i16_mod.
      exists (ser_u16 p ++ ser_u16 q), 0, 0. split; [reflexivity|]. split; [|rewrite He, Hf; repeat split; try reflexivity].
      rewrite <- (app_nil_r (ser_u16 p ++ ser_u16 q)). eapply reads_bind.
      { apply reads_pair; apply reads_u16; lia. } cbn beta. apply reads_pret.
  - destruct Hm as ((ex & Rx & Ex) & (ey & Ry & Ey)). cbn in Rx, Ry.
    rewrite (round_int _ _ Ex). unfold f_as_i16, f_as_i8. rewrite (trunc_int _ _ Ey).
    assert (Hin: forall v n, (val v == inject_Z n)%Q ->
      dy_leb (dy_of_Z (-128)) v && dy_leb v (dy_of_Z 127) = ((-128 <=? n) && (n <=? 127))).
    { intros v n Hv. apply eq_true_iff_eq. rewrite !andb_true_iff, !leb_iff, !val_int, Hv, <- !Zle_Qle. lia. }
    rewrite (Hin _ _ Ex), (Hin _ _ Ey).
    destruct (((-128 <=? ex) && (ex <=? 127)) && ((-128 <=? ey) && (ey <=? 127))) eqn:Er; cbn [negb].
    + change (Z.testbit C_XY 1) with true. change (Z.testbit C_XY 0) with false. cbn [negb].
      rewrite !sat_id by (change (2 ^ (8 - 1)) with 128; lia).
      exists (ser_i8 ex ++ ser_i8 ey), ex, ey. split; [reflexivity|].
      split; [|rewrite Ex, Ey; repeat split; try reflexivity].
      eapply reads_bind; [apply reads_i8; lia|]. cbn beta.
      apply (reads_map _ (fun b => (None, ex, b))). apply reads_i8. lia.
    + change (Z.testbit (Z.lor C_XY C_WORDS) 1) with true. change (Z.testbit (Z.lor C_XY C_WORDS) 0) with true. cbn [negb].
      rewrite !sat_id by (change (2 ^ (16 - 1)) with 32768; lia).
      exists (ser_i16 ex ++ ser_i16 ey), ex, ey. split; [reflexivity|].
      split; [|rewrite Ex, Ey; repeat split; try reflexivity].
      eapply reads_bind; [apply reads_i16; lia|]. cbn beta.
      apply (reads_map _ (fun b => (None, ex, b))). apply reads_i16. lia.
Qed.

Definition ser_scale : res (list Z) :=
  let t := cp_trans c in
  if contains f C_2X2 then
    a <- ser_f2dot14_of_f64 (af_a t) ;;
    b <- ser_f2dot14_of_f64 (af_b t) ;;
    c' <- ser_f2dot14_of_f64 (af_c t) ;;
    d <- ser_f2dot14_of_f64 (af_d t) ;;
    Ok (a ++ b ++ c' ++ d)
  else if contains f C_XYSCALE then
    a <- ser_f2dot14_of_f64 (af_a t) ;;
    d <- ser_f2dot14_of_f64 (af_d t) ;;
    Ok (a ++ d)
  else if contains f C_SCALE then ser_f2dot14_of_f64 (af_a t)
  else Ok [].
Definition de_scale : parser (dyadic * dyadic * dyadic * dyadic) :=
  if contains f C_SCALE then
    (a <-- de_f64_f2dot14 ;; pret (a, dy0, dy0, a))
  else if contains f C_XYSCALE then
    (a <-- de_f64_f2dot14 ;; d <-- de_f64_f2dot14 ;; pret (a, dy0, dy0, d))
  else if contains f C_2X2 then
    (a <-- de_f64_f2dot14 ;; b <-- de_f64_f2dot14 ;;
     c <-- de_f64_f2dot14 ;; d <-- de_f64_f2dot14 ;; pret (a, b, c, d))
  else pret (dy1, dy0, dy0, dy1).

Lemma scale_ok : exists bs a b c' d, ser_scale = Ok bs /\ reads de_scale bs (a, b, c', d) /\
  (val a == val (af_a (cp_trans c)))%Q /\ (val b == val (af_b (cp_trans c)))%Q /\
  (val c' == val (af_c (cp_trans c)))%Q /\ (val d == val (af_d (cp_trans c)))%Q /\
  Z.of_nat (length bs) = scale_bytes f.
Proof.
  destruct Hc as (_ & _ & (ka & Ra & Ea) & (kb & Rb & Eb) & (kc & Rc & Ec) & (kd & Rd & Ed) & _).
  assert (Hbits: scale_bits (cp_trans c) =
    if negb (kb =? 0) || negb (kc =? 0) then C_2X2
    else if negb (ka =? kd) then C_XYSCALE else if negb (ka =? 16384) then C_SCALE else 0).
  { unfold scale_bits.
    assert (Hz: forall x k, (val x == inject_Z k / 16384)%Q -> dy_eqb x dy0 = (k =? 0)).
    { intros x k Hx. apply eq_true_iff_eq. rewrite eqb_iff, Hx, Z.eqb_eq.
      change (val dy0) with 0%Q. split; [|intros ->; reflexivity].
      intros H. apply div_inj_k. rewrite H. reflexivity. }
    rewrite (Hz _ _ Eb), (Hz _ _ Ec). destruct (_ || _); [reflexivity|].
    cbn in Ra, Rd.
    rewrite (eps_test _ _ ka kd) by (assumption || lia). destruct (negb (ka =? kd)); [reflexivity|].
    rewrite (eps_test _ _ ka 16384) by (assumption || lia || reflexivity). reflexivity. }
  unfold ser_scale, de_scale, scale_bytes.
  rewrite (cont_f 7 C_2X2), (cont_f 6 C_XYSCALE), (cont_f 3 C_SCALE) by (lia || reflexivity).
  rewrite !f_scale by (cbn; auto). rewrite Hbits.
  rewrite (f2_ser _ _ Ra Ea), (f2_ser _ _ Rb Eb), (f2_ser _ _ Rc Ec), (f2_ser _ _ Rd Ed). cbn [rbind].
  destruct (negb (kb =? 0) || negb (kc =? 0)) eqn:E1.
  - change (Z.testbit C_2X2 7) with true. change (Z.testbit C_2X2 6) with false. change (Z.testbit C_2X2 3) with false.
    eexists _, (Dy ka (-14)), (Dy kb (-14)), (Dy kc (-14)), (Dy kd (-14)). split; [reflexivity|]. split.
    { eapply reads_bind; [now apply f2_reads|]. cbn beta.
      eapply reads_bind; [now apply f2_reads|]. cbn beta.
      eapply reads_bind; [now apply f2_reads|]. cbn beta.
      apply (reads_map _ (fun d => (Dy ka (-14), Dy kb (-14), Dy kc (-14), d))). now apply f2_reads. }
    rewrite !val_k, Ea, Eb, Ec, Ed. repeat split; reflexivity.
  - assert (kb = 0 /\ kc = 0) as [-> ->] by lia.
    assert (H0: (val dy0 == inject_Z 0 / 16384)%Q) by reflexivity.
    destruct (negb (ka =? kd)) eqn:E2.
    + change (Z.testbit C_XYSCALE 7) with false. change (Z.testbit C_XYSCALE 6) with true. change (Z.testbit C_XYSCALE 3) with false.
      eexists _, (Dy ka (-14)), dy0, dy0, (Dy kd (-14)). split; [reflexivity|]. split.
      { eapply reads_bind; [now apply f2_reads|]. cbn beta.
        apply (reads_map _ (fun d => (Dy ka (-14), dy0, dy0, d))). now apply f2_reads. }
      rewrite !val_k, Ea, Eb, Ec, Ed. repeat split; try reflexivity.
    + assert (ka = kd) as -> by lia. destruct (negb (kd =? 16384)) eqn:E3.
      * change (Z.testbit C_SCALE 7) with false. change (Z.testbit C_SCALE 6) with false. change (Z.testbit C_SCALE 3) with true.
        eexists _, (Dy kd (-14)), dy0, dy0, (Dy kd (-14)). split; [reflexivity|]. split.
        { apply (reads_map _ (fun d => (d, dy0, dy0, d))). now apply f2_reads. }
        rewrite !val_k, Ea, Eb, Ec, Ed. repeat split; try reflexivity.
      * assert (kd = 16384) as -> by lia.
        change (Z.testbit 0 7) with false. change (Z.testbit 0 6) with false. change (Z.testbit 0 3) with false.
        exists [], dy1, dy0, dy0, dy1. split; [reflexivity|]. split; [apply reads_pret|].
        rewrite Ea, Eb, Ec, Ed. repeat split; try reflexivity.
Qed.

Lemma component_ok_rt : exists bs c', ser_component f c = Ok bs /\ reads de_component bs c' /\
  component_same c c' /\ cp_flags c' = f /\
  Z.of_nat (length bs) = 4 + arg_bytes f + scale_bytes f.
Proof.
  destruct args_ok as (ab & ex & ey & Ea & Ra & Vx & Vy & La).
  destruct scale_ok as (sb & a & b & c' & d & Es & Rs & Va & Vb & Vc & Vd & Ls).
  exists (ser_u16 f ++ ser_u16 (cp_glyph c) ++ ab ++ sb),
    (mk_comp (cp_glyph c) (mk_affine a b c' d (dy_of_Z ex) (dy_of_Z ey)) (cp_match c) f).
  split; [|split; [|split; [|split]]].
  - unfold ser_component. cbv zeta. unfold ser_args in Ea. cbv zeta in Ea. rewrite Ea.
    cbn [rbind]. unfold ser_scale in Es. cbv zeta in Es. rewrite Es. reflexivity.
  - unfold de_component.
    eapply reads_bind; [apply rg_u16, f_range|]. cbn beta.
    eapply reads_bind; [apply rg_u16; apply Hc|]. cbn beta. fold de_args.
    eapply reads_bind; [exact Ra|]. cbn beta iota. fold de_scale.
    rewrite <- (app_nil_r sb). eapply reads_bind; [exact Rs|]. cbn beta iota. apply reads_pret.
  - unfold component_same; cbn [cp_glyph cp_match cp_trans cp_flags]. repeat split; auto.
    + cbn [af_e]. now rewrite val_int.
    + cbn [af_f]. now rewrite val_int.
    + apply f_user.
  - reflexivity.
  - rewrite !app_length, !Nat2Z.inj_add, La, Ls.
    change (length (ser_u16 f)) with 2%nat. change (length (ser_u16 (cp_glyph c))) with 2%nat. lia.
Qed.
End Component.

(** ** Composite glyphs *)
Lemma reads_components instr : Forall is_byte instr -> Z.of_nat (length instr) <= 32767 ->
  forall cs, cs <> [] -> Forall component_ok cs ->
  exists bs ib cs', ser_components instr cs = Ok (bs ++ ib) /\
    ib = (if is_nil instr then [] else ser_u16 (u16 (Z.of_nat (length instr))) ++ instr) /\
    (length cs <= length bs)%nat /\
    (forall fuel, (length cs <= fuel)%nat ->
     reads (de_components fuel) bs (cs', existsb (fun c => Z.testbit (cp_flags c) 10) cs, negb (is_nil instr))) /\
    Forall2 component_same cs cs'.
Proof.
  intros Hib Hil. induction cs as [|c cs IH]; intros Hne Hok; [congruence|].
  inversion Hok as [|? ? Hc Hok']; subst.
  set (f := recompute_flags c (negb (is_nil cs)) (negb (is_nil instr))).
  destruct (component_ok_rt c (negb (is_nil cs)) (negb (is_nil instr)) Hc) as (b & c' & Eb & Rb & Sb & Fb & Lb).
  fold f in Eb, Fb, Lb.
  assert (Hov: contains f C_OVERLAP = Z.testbit (cp_flags c) 10).
  { change C_OVERLAP with (2 ^ 10). rewrite contains_bit by lia.
    pose proof (f_user c (negb (is_nil cs)) (negb (is_nil instr))) as U. fold f in U.
    apply (f_equal (fun z => Z.testbit z 10)) in U. rewrite !Z.land_spec in U.
    change (Z.testbit user_flags 10) with true in U. now rewrite !andb_true_r in U. }
  assert (Hmore: contains f C_MORE = negb (is_nil cs)).
  { change C_MORE with (2 ^ 5). rewrite contains_bit by lia. unfold f. rewrite f_more by (cbn; auto).
    destruct cs, instr; reflexivity. }
  assert (Hins: contains f C_INSTR = is_nil cs && negb (is_nil instr)).
  { change C_INSTR with (2 ^ 8). rewrite contains_bit by lia. unfold f. rewrite f_more by (cbn; auto).
    destruct cs, instr; reflexivity. }
  assert (Hlb: (1 <= length b)%nat).
  { unfold arg_bytes, scale_bytes in Lb. revert Lb. destruct (Z.testbit f 0), (Z.testbit f 3), (Z.testbit f 6), (Z.testbit f 7); lia. }
  destruct cs as [|c2 cs].
  - cbn [ser_components]. fold f. rewrite Eb. cbn [rbind]. rewrite Hins. cbn [is_nil andb].
    exists b. eexists. exists [c'].
    split; [|split; [reflexivity|split; [cbn; lia|split]]].
    + rewrite app_nil_r. f_equal. f_equal. destruct instr; reflexivity.
    + intros [|fuel] Hf; [cbn in Hf; lia|]. cbn [de_components]. rewrite <- (app_nil_r b). eapply reads_bind; [exact Rb|]. cbn beta zeta.
      rewrite Fb, Hmore, Hov, Hins. cbn [is_nil negb andb existsb]. rewrite orb_false_r. apply reads_pret.
    + constructor; [exact Sb|constructor].
  - destruct (IH ltac:(discriminate) Hok') as (bs & ib & cs' & E & Eib & Hl & R & HS).
    set (tl := c2 :: cs) in *.
    cbn [ser_components]. fold f. rewrite Eb. cbn [rbind]. rewrite Hins. cbn [is_nil andb]. rewrite E. cbn [rbind].
    exists (b ++ bs), ib, (c' :: cs'). cbn [app].
    split; [now rewrite <- app_assoc|]. split; [exact Eib|].
    split; [rewrite app_length; change (length (c :: tl)) with (S (length tl)); lia|]. split.
    + intros [|fuel] Hf; [cbn in Hf; lia|]. cbn [de_components]. eapply reads_bind; [exact Rb|]. cbn beta zeta.
      rewrite Fb, Hmore, Hov, Hins. cbn [is_nil negb andb existsb].
      rewrite <- (app_nil_r bs). eapply reads_bind; [apply R; unfold tl; cbn in *; lia|]. cbn beta iota. apply reads_pret.
    + constructor; assumption.
Qed.

Lemma composite_roundtrip g : composite_glyph g ->
  exists bs g', ser_glyph g = Ok bs /\ reads de_glyph bs g' /\ composite_same g g'.
Proof.
  intros (Hne & Hct & (B1 & B2 & B3 & B4) & Hok & Hib & Hil & Hov).
  unfold ser_glyph, is_empty_glyph, has_components.
  assert (En: is_nil (g_comps g) = false) by (destruct (g_comps g); [congruence|reflexivity]).
  rewrite En. cbn [andb negb].
  destruct (reads_components (g_instr g) Hib Hil (g_comps g) Hne Hok)
    as (bs & ib & cs' & E & Eib & Hlen & R & HS).
  rewrite E. cbn [rbind].
  eexists. exists (mk_glyph (g_xMin g) (g_xMax g) (g_yMin g) (g_yMax g) [] (g_instr g) cs' (g_overlap g)).
  split; [reflexivity|]. split.
  - rewrite <- !app_assoc. unfold de_glyph.
    eapply reads_bind; [apply rg_i16; cbn; lia|]. cbn beta.
    eapply reads_bind; [now apply rg_i16|]. cbn beta.
    eapply reads_bind; [now apply rg_i16|]. cbn beta.
    eapply reads_bind; [now apply rg_i16|]. cbn beta.
    eapply reads_bind; [now apply rg_i16|]. cbn beta.
    change (-1 <? 1) with true. cbn iota.
    eapply reads_bind with (bs1 := bs) (a := (cs', g_overlap g, negb (is_nil (g_instr g)))).
    + intros r post Hr. rewrite Hov. refine (R (S (length (rd_input r) - rd_ptr r)) _ r post Hr).
      rewrite <- rest_length, Hr, app_length. lia.
    + cbn beta iota. rewrite <- (app_nil_r ib). eapply reads_bind with (a := g_instr g).
      * subst ib. destruct (g_instr g) as [|i0 il] eqn:Ei; [exact (reads_pret [])|].
        cbn [is_nil negb]. rewrite <- Ei in *. now apply reads_instructions.
      * cbn beta. apply reads_pret.
  - repeat split; auto.
Qed.

(** The glyph variations table, written. *)
From Coq Require Import Lia Sorted.
From Verif.Model Require Import MBase MFixed MFloat MGlyph MGlyf MPacked MIup MGvar.
From Verif.Spec Require Import SBase SGlyph SCmap SPacked SIup SGvar.
From Verif.Proofs Require PCmap4.
From Verif.Proofs Require Import PBase PFixed PCmap12 PGlyphFmt PVarStore PIupWhole PGvarSet.

Definition tuple_word (t : list Z) : list Z := concat (map ser_i16 t).
Lemma ser_i16_inj a b : in_range I16 a -> in_range I16 b -> ser_i16 a = ser_i16 b -> a = b.
Proof.
  unfold in_range. intros A B E. assert (RA: reads de_i16 (ser_i16 a) a) by (apply reads_i16; lia). assert (RB: reads de_i16 (ser_i16 b) b) by (apply reads_i16; lia).
  rewrite E in RA. specialize (RA (rd_new (ser_i16 b)) [] ltac:(symmetry; apply app_nil_r)).
  specialize (RB (rd_new (ser_i16 b)) [] ltac:(symmetry; apply app_nil_r)). rewrite RA in RB. now injection RB.
Qed.
Lemma tuple_word_inj a : Forall (in_range I16) a -> forall b, Forall (in_range I16) b -> tuple_word a = tuple_word b -> a = b.
Proof.
  induction 1 as [|x a Hx Ha IH]; intros [|y b] Hb E; try reflexivity; try (inversion Hb; subst; discriminate).
  inversion Hb; subst. unfold tuple_word in *. cbn [map concat] in E.
  assert (E1: ser_i16 x = ser_i16 y).
  { apply (f_equal (firstn (length (ser_i16 x)))) in E. rewrite firstn_app_exact in E.
    change (length (ser_i16 x)) with (length (ser_i16 y)) in E. rewrite firstn_app_exact in E. exact E. }
  rewrite E1 in E. apply app_inv_head in E. f_equal; [now apply ser_i16_inj|now apply IH].
Qed.

Definition set_same (tuples : list (list Z)) (ce : list (Z * Z) * list Z) (v : tuple_variation) (d : delta_set) : Prop :=
  iup_delta (tv_deltas v) (fst ce) (snd ce) = Ok (ds_deltas d) /\
  tv_peak (tv_header v) = None /\ tv_start (tv_header v) = Some (ds_start d) /\ tv_end (tv_header v) = Some (ds_end d) /\
  exists i t, tv_index (tv_header v) = Z.of_nat i /\ nth_error tuples i = Some t /\ ds_peak d = map f2dot14_from_packed t.

Lemma same_stands tuples ce v v' d : set_same tuples ce v d -> variation_same v v' -> stands_for tuples ce v' d.
Proof.
  intros (A & B & C & D & i & t & E & F & G) (S1 & S2 & S3 & S4 & S5 & _). unfold stands_for.
  rewrite S1, S2, S3, S4, S5, B, C, D, E, Nat2Z.id. split; [exact A|].
  assert (i < length tuples)%nat by (apply nth_error_Some; congruence).
  split; [lia|]. split; [now exists t|]. now split.
Qed.

Lemma ser_f2dot14_len x bs : ser_f2dot14 x = Ok bs -> length bs = 2%nat.
Proof. unfold ser_f2dot14. destruct (f2dot14_as_packed x); [|discriminate]. intros H. apply Ok_inj in H. now subst. Qed.
Lemma ser_tuple_len t : forall bs, ser_tuple t = Ok bs -> length bs = (2 * length t)%nat.
Proof.
  unfold ser_tuple. intros bs H. destruct (rmapM ser_f2dot14 t) as [l| |] eqn:E; try discriminate. apply Ok_inj in H. subst bs.
  revert l E. induction t as [|x t IH]; intros l E; cbn [rmapM] in E; [apply Ok_inj in E; now subst|].
  destruct (ser_f2dot14 x) as [b| |] eqn:Ex; try discriminate. cbn [rbind] in E.
  destruct (rmapM ser_f2dot14 t) as [l'| |]; try discriminate. cbn [rbind] in E. apply Ok_inj in E. subst l. cbn [concat length].
  rewrite app_length, (ser_f2dot14_len x b Ex), (IH l' eq_refl). lia.
Qed.
(** A store with a variation that has a start tuple is at least as long as a tuple. *)
Lemma store_long axes n v vs bs s : variation_ok axes true n v -> tv_start (tv_header v) = Some s ->
  ser_tvs (v :: vs) = Ok bs -> (2 * axes <= length bs)%nat.
Proof.
  intros ((_ & _ & _ & TS & _) & _) Es H. rewrite Es in TS. cbn [tuple_ok] in TS. destruct TS as (Fl & Ls & _).
  unfold ser_tvs in H. cbn [rmapM] in H. destruct (ser_tv v) as [[hb bk]| |] eqn:Ev; try discriminate. cbn [rbind] in H.
  destruct (rmapM ser_tv vs) as [parts| |]; try discriminate. cbn [rbind map concat fst] in H.
  destruct (chk_u 16 _); try discriminate. cbn [rbind] in H. apply Ok_inj in H. subst bs. rewrite !app_length.
  enough (2 * axes <= length hb)%nat by lia. unfold ser_tv in Ev. cbv zeta in Ev.
  set (h := if existsb is_none (tv_deltas v) then set_flags _ _ else tv_header v) in Ev.
  do 3 (match type of Ev with rbind ?e _ = Ok _ => destruct e as [?| |]; cbn [rbind] in Ev; try discriminate end).
  destruct (ser_tvh h) as [b| |] eqn:Eh in Ev; try discriminate. cbn [unwrap_res rbind] in Ev. apply Ok_inj in Ev. apply (f_equal fst) in Ev. cbn [fst] in Ev. subst hb.
  assert (Fh: contains (tv_flags h) INTERMEDIATE_REGION = true /\ tv_start h = Some s).
  { rewrite contains_14. unfold h. destruct (existsb _ _); cbn [set_flags tv_flags tv_start]; [|auto]. rewrite Z.lor_spec, Fl. auto. }
  unfold ser_tvh in Eh. rewrite (proj1 Fh), (proj2 Fh) in Eh. cbn [ser_opt_tuple] in Eh.
  destruct (ser_opt_tuple _ (tv_peak h)) as [p| |]; try discriminate. cbn [rbind] in Eh.
  destruct (ser_tuple s) as [sb| |] eqn:Esb; try discriminate. cbn [rbind] in Eh.
  destruct (match tv_end h with Some _ => _ | None => _ end) as [e| |]; try discriminate. cbn [rbind] in Eh. apply Ok_inj in Eh. subst b.
  apply ser_tuple_len in Esb. rewrite app_length, skipn_length, !app_length. rewrite Ls in Esb. change (length (ser_u16 (tv_size h))) with 2%nat. lia.
Qed.

Lemma Forall2_inv_head {A B} (R : A -> B -> Prop) a l b m : Forall2 R (a :: l) (b :: m) -> R a b.
Proof. now inversion 1. Qed.

Section Glyph.
Variables (axes : nat) (tuples : list (list Z)).
Let shared := map tuple_word tuples.
Hypothesis Ha : Z.of_nat axes <= 10000.
Hypothesis Ht : (length tuples <= Z.to_nat 4096)%nat.
Hypothesis Hw : Forall (fun t => length t = axes /\ Forall (in_range I16) t) tuples.

Lemma sets_written g ce sets : Z.of_nat (length (fst ce)) <= 65535 ->
  Forall (fun d => set_ok axes (length (fst ce)) d /\ extended d) sets ->
  (forall d p, In d sets -> tuple_bytes (ds_peak d) = Ok p -> In p shared) ->
  (forall g', g = Some g' -> gvar_coords_and_ends g' = Ok ce /\ Forall (optimizable g') sets) ->
  exists all vs, rmapM (to_tuple_variation shared g) sets = Ok all /\ keep_effective all = Ok vs /\
    Forall (variation_ok axes true (length (fst ce))) vs /\ Forall2 (set_same tuples ce) vs (filter moves sets).
Proof.
  intros Hn. induction 1 as [|d sets (Hd & Xd) Hs IH]; intros Hp Hg.
  { exists [], []. split; [reflexivity|]. split; [reflexivity|]. split; constructor. }
  destruct IH as (all & vs & E1 & E2 & F1 & F2).
  { intros d' p I. apply Hp. now right. }
  { intros g' ->. destruct (Hg g' eq_refl) as (G & O). split; [exact G|]. now inversion O. }
  destruct (set_written axes shared g ce d Ha Hd Xd Hn) as (v & p & i & V1 & V2 & V3 & V4 & V5 & V6 & V7 & V8 & V9 & V10).
  { unfold shared. now rewrite map_length. }
  { intros p. apply Hp. now left. }
  { intros g' ->. destruct (Hg g' eq_refl) as (G & O). split; [exact G|]. now inversion O. }
  exists (v :: all), (if moves d then v :: vs else vs). cbn [rmapM keep_effective filter].
  rewrite V1. cbn [rbind]. rewrite E1. cbn [rbind]. split; [reflexivity|]. rewrite V3, E2. cbn [rbind]. split; [reflexivity|].
  destruct (moves d); [|split; assumption]. split; [now constructor|]. constructor; [|exact F2].
  split; [exact V4|]. split; [exact V5|]. split; [exact V6|]. split; [exact V7|].
  unfold shared in V10. rewrite nth_error_map in V10. destruct (nth_error tuples i) as [t|] eqn:Et; [|discriminate]. cbn in V10. injection V10 as <-.
  exists i, t. split; [exact V9|]. split; [exact Et|].
  destruct Hd as (TP & _). destruct (tuple_packed _ (proj2 TP)) as (ps & EP & FP). rewrite EP in V8 |- *. f_equal.
  rewrite (ser_tuple_packed ps FP) in V8. apply Ok_inj in V8. fold (tuple_word ps) in V8.
  rewrite Forall_forall in Hw. destruct (Hw t) as (_ & Ft); [eapply nth_error_In; exact Et|]. now apply tuple_word_inj.
Qed.

Lemma glyph_written glyf ix len ce sets : Nat.odd len = false -> sets_ok axes (Some sets) ce ->
  (forall d p, In d sets -> tuple_bytes (ds_peak d) = Ok p -> In p shared) ->
  (forall gs, glyf = Some gs -> exists g, nth_error gs ix = Some g /\ gvar_coords_and_ends g = Ok ce /\ Forall (optimizable g) sets) ->
  (forall bs, glyph_data shared glyf ix len sets = Ok bs ->
     chunk_holds axes tuples ce bs (Some (filter moves sets)) /\ Nat.odd (length bs) = false /\
     (filter moves sets <> [] -> (2 * axes <= length bs)%nat) /\ (filter moves sets = [] -> length bs = 6%nat)) /\
  (Z.of_nat (length sets) * (4 + 6 * Z.of_nat axes) <= 65531 -> exists bs, glyph_data shared glyf ix len sets = Ok bs).
Proof.
  intros Hl (Hn & Hc & Hs) Hp Hg. unfold glyph_data.
  assert (EG: exists g, (match glyf with Some gs => rmap Some (at_ gs ix) | None => Ok None end) = Ok g /\
     forall g', g = Some g' -> gvar_coords_and_ends g' = Ok ce /\ Forall (optimizable g') sets).
  { destruct glyf as [gs|]; [|exists None; split; [reflexivity|discriminate]].
    destruct (Hg gs eq_refl) as (g & N & G & O). exists (Some g). unfold at_. rewrite N. split; [reflexivity|]. intros g' [= <-]. now split. }
  destruct EG as (g & -> & Hg'). cbn [rbind].
  destruct (sets_written g ce sets Hn Hs Hp Hg') as (all & vs & E1 & E2 & F1 & F2). rewrite E1. cbn [rbind]. rewrite E2. cbn [rbind].
  assert (Lf: (length (filter moves sets) <= length sets)%nat) by (clear; induction sets as [|d l IH]; cbn; [lia|destruct (moves d); cbn; lia]).
  pose proof (Forall2_length _ _ _ F2) as Lv.
  destruct (store_roundtrip axes true (length (fst ce)) vs Hn ltac:(lia) F1) as (R & W). split.
  - intros bs0 H. destruct (ser_tvs vs) as [bs| |] eqn:Es; try discriminate. cbn [unwrap_res rbind] in H. apply Ok_inj in H.
    destruct (R bs eq_refl) as (vs' & Sm & Rb).
    destruct (store_laid_out vs bs ltac:(lia) Es) as (hs & bks & L1 & L2 & Eb & _).
    assert (Lb: length bs = (5 + length (concat hs) + length (concat bks))%nat).
    { rewrite Eb, !app_length. cbn [length word]. lia. }
    assert (Hd: exists pad, bs0 = bs ++ pad /\ (length pad <= 1)%nat /\ Nat.odd (length bs0) = false).
    { rewrite Nat.odd_add, Hl in H. rewrite xorb_false_l in H. destruct (Nat.odd (length bs)) eqn:Od.
      - exists [0]. split; [now symmetry|]. split; [cbn; lia|]. rewrite <- H, app_length, Nat.odd_add, Od. reflexivity.
      - exists []. rewrite app_nil_r. split; [now symmetry|]. split; [cbn; lia|]. now rewrite <- H. }
    destruct Hd as (pad & E0 & Lp & Od).
    split; [|split; [exact Od|]].
    + cbn [chunk_holds]. split; [rewrite E0; destruct bs; [cbn in Lb; lia|discriminate]|]. split; [exact Hn|].
      exists bs, pad, vs'. split; [exact E0|]. split; [exact Rb|].
      assert (G: forall l1 l2 l3, Forall2 (set_same tuples ce) l1 l3 -> Forall2 variation_same l1 l2 -> Forall2 (stands_for tuples ce) l2 l3).
      { clear. intros l1 l2 l3 H. revert l2. induction H as [|v d l1 l3 H1 H2 IH]; intros l2 K; inversion K; subst; constructor; [|now apply IH].
        eapply same_stands; eassumption. }
      exact (G _ _ _ F2 Sm).
    + assert (Lm: (length bs0 = length bs + length pad)%nat) by (rewrite E0; apply app_length). split.
      * intros NE. destruct (filter moves sets) as [|d fs]; [easy|]. destruct vs as [|v vs]; [inversion F2|].
        enough (2 * axes <= length bs)%nat by lia. pose proof (Forall2_inv_head _ _ _ _ _ F2) as Sv. apply Forall_inv in F1.
        exact (store_long axes (length (fst ce)) v vs bs (ds_start d) F1 (proj1 (proj2 (proj2 Sv))) Es).
      * intros Em. rewrite Em in F2. inversion F2; subst vs. cbn in Es. apply Ok_inj in Es. subst bs.
        destruct pad as [|x [|y pad]]; cbn in *; try lia. rewrite E0 in Od. discriminate.
  - intros Hb. destruct W as (bs & ->); [nia|]. cbn [unwrap_res rbind]. eauto.
Qed.

Lemma data_written glyf v ces : Forall2 (sets_ok axes) v ces ->
  (forall d p, In d (all_sets v) -> tuple_bytes (ds_peak d) = Ok p -> In p shared) ->
  forall ix len, Nat.odd len = false ->
  (forall gs i sets ce, glyf = Some gs -> nth_error v i = Some (Some sets) -> nth_error ces i = Some ce ->
    exists g, nth_error gs (ix + i) = Some g /\ gvar_coords_and_ends g = Ok ce /\ Forall (optimizable g) sets) ->
  (forall os ds, all_data shared glyf ix len v = Ok (os, ds) ->
     exists chunks, os = concat (map (fun o => ser_u32 (u32 o)) (starts (Z.of_nat len) chunks)) /\ ds = concat chunks /\
       chunks_hold axes tuples ces chunks (kept v) /\ Forall (fun c => Nat.odd (length c) = false) chunks /\
       (existsb moves (all_sets v) = true -> (2 * axes <= length ds)%nat) /\
       (existsb moves (all_sets v) = false -> length ds = (6 * with_data v)%nat)) /\
  (Forall (fun s => match s with Some sets => Z.of_nat (length sets) * (4 + 6 * Z.of_nat axes) <= 65531 | None => True end) v ->
     exists os ds, all_data shared glyf ix len v = Ok (os, ds)).
Proof.
  induction 1 as [|s ce v ces Hs Hv IH]; intros Hp ix len Hl Hg.
  { split.
    - cbn [all_data]. intros os ds H. apply Ok_inj in H. injection H as <- <-. exists []. cbn [starts map concat].
      split; [now rewrite app_nil_r|]. split; [reflexivity|]. split; [split; [reflexivity|split; [reflexivity|]]; intros [|i] ? ? ? E; discriminate|].
      split; [constructor|]. split; [discriminate|reflexivity].
    - intros _. cbn [all_data]. eauto. }
  assert (Hp': forall d p, In d (all_sets v) -> tuple_bytes (ds_peak d) = Ok p -> In p shared).
  { intros d p I. apply Hp. unfold all_sets. cbn [map concat]. apply in_or_app. now right. }
  assert (One: forall bs, (match s with None => Ok [] | Some sets => glyph_data shared glyf ix len sets end) = Ok bs ->
     chunk_holds axes tuples ce bs (option_map (filter moves) s) /\ Nat.odd (length bs) = false /\
     (existsb moves (match s with Some sets => sets | None => [] end) = true -> (2 * axes <= length bs)%nat) /\
     (existsb moves (match s with Some sets => sets | None => [] end) = false -> length bs = (if s then 6 else 0)%nat)).
  { destruct s as [sets|]; intros bs E.
    - destruct (glyph_written glyf ix len ce sets Hl Hs) as (W & _).
      + intros d p I. apply Hp. unfold all_sets. cbn [map concat]. apply in_or_app. now left.
      + intros gs Eg. destruct (Hg gs 0%nat sets ce Eg eq_refl eq_refl) as (g & G). exists g. now rewrite Nat.add_0_r in G.
      + destruct (W bs E) as (W1 & W2 & W3 & W4). cbn [option_map]. split; [exact W1|]. split; [exact W2|].
        assert (Fm: existsb moves sets = match filter moves sets with [] => false | _ => true end).
        { clear. induction sets as [|d l IH]; [reflexivity|]. cbn. destruct (moves d); [reflexivity|exact IH]. }
        rewrite Fm. destruct (filter moves sets); split; intros X; try discriminate; [now apply W4|now apply W3].
    - apply Ok_inj in E. subst bs. cbn. split; [reflexivity|]. split; [reflexivity|]. split; [discriminate|reflexivity]. }
  assert (Hg': forall gs i sets ce, glyf = Some gs -> nth_error v i = Some (Some sets) -> nth_error ces i = Some ce ->
    exists g, nth_error gs (S ix + i) = Some g /\ gvar_coords_and_ends g = Ok ce /\ Forall (optimizable g) sets).
  { intros gs i sets ce' Eg E1 E2. destruct (Hg gs (S i) sets ce' Eg E1 E2) as (g & G). exists g. now rewrite Nat.add_succ_r in G. }
  assert (AS: all_sets (s :: v) = (match s with Some sets => sets | None => [] end) ++ all_sets v) by reflexivity.
  split.
  - intros os ds H. cbn [all_data] in H. 
    destruct (match s with None => Ok [] | Some sets => glyph_data shared glyf ix len sets end) as [bs| |] eqn:Eb; try discriminate. cbn [rbind] in H.
    destruct (One bs eq_refl) as (C1 & C2 & C3 & C4).
    assert (Hl': Nat.odd (len + length bs) = false) by (now rewrite Nat.odd_add, Hl, C2).
    destruct (IH Hp' (S ix) (len + length bs)%nat Hl' Hg') as (IH1 & _).
    destruct (all_data shared glyf (S ix) (len + length bs) v) as [[os' ds']| |]; try discriminate. cbn [rbind] in H. apply Ok_inj in H. injection H as <- <-.
    destruct (IH1 os' ds' eq_refl) as (chunks & E1 & E2 & (K1 & K2 & K3) & Ev & M1 & M2).
    exists (bs :: chunks). cbn [starts map concat]. rewrite <- Nat2Z.inj_add, <- E1, <- E2. split; [reflexivity|]. split; [reflexivity|].
    split.
    { split; [cbn; now rewrite K1|]. split; [cbn; now rewrite K2|]. intros [|i] ce' chunk s' N1 N2 N3.
      - cbn in N1, N2, N3. injection N1 as <-. injection N2 as <-. injection N3 as <-. exact C1.
      - exact (K3 i ce' chunk s' N1 N2 N3). }
    split; [now constructor|]. rewrite AS, existsb_app, app_length. split.
    + intros X. apply orb_true_iff in X as [X|X]; [specialize (C3 X); lia|specialize (M1 X); lia].
    + intros X. apply orb_false_iff in X as [X1 X2]. rewrite (C4 X1), (M2 X2). unfold with_data. cbn [filter]. destruct s; cbn [length]; lia.
  - intros Hb. inversion Hb as [|? ? Hb1 Hb2]; subst. cbn [all_data].
    assert (Eb: exists bs, (match s with None => Ok [] | Some sets => glyph_data shared glyf ix len sets end) = Ok bs).
    { destruct s as [sets|]; [|now exists []]. apply (glyph_written glyf ix len ce sets Hl Hs); [| |exact Hb1].
      + intros d p I. apply Hp. unfold all_sets. cbn [map concat]. apply in_or_app. now left.
      + intros gs Eg. destruct (Hg gs 0%nat sets ce Eg eq_refl eq_refl) as (g & G). exists g. now rewrite Nat.add_0_r in G. }
    destruct Eb as (bs & Eb). rewrite Eb. cbn [rbind]. destruct (One bs Eb) as (_ & C2 & _).
    assert (Hl': Nat.odd (len + length bs) = false) by (now rewrite Nat.odd_add, Hl, C2).
    destruct (IH Hp' (S ix) (len + length bs)%nat Hl' Hg') as (_ & IH2). destruct (IH2 Hb2) as (os & ds & ->). cbn [rbind]. eauto.
Qed.
End Glyph.

(** ** The whole table *)

Lemma choose_tuples (P : list Z -> Prop) l : Forall (fun p => exists t, p = tuple_word t /\ P t) l ->
  exists ts, l = map tuple_word ts /\ Forall P ts.
Proof.
  induction 1 as [|p l (t & -> & Pt) _ (ts & -> & F)]; [exists []; split; [reflexivity|constructor]|].
  exists (t :: ts). split; [reflexivity|now constructor].
Qed.
Lemma all_sets_ok axes v ces : Forall2 (sets_ok axes) v ces -> Forall (fun d => tuple_of axes (ds_peak d)) (all_sets v).
Proof.
  induction 1 as [|s ce v ces Hs _ IH]; [constructor|]. unfold all_sets. cbn [map concat]. apply Forall_app. split; [|exact IH].
  destruct s as [sets|]; [|constructor]. destruct Hs as (_ & _ & Hs). eapply Forall_impl; [|exact Hs]. intros d ((H & _) & _). exact H.
Qed.
Lemma peaks_ok axes l : Forall (fun d => tuple_of axes (ds_peak d)) l ->
  exists ts, rmapM (fun d => tuple_bytes (ds_peak d)) l = Ok (map tuple_word ts) /\
    Forall2 (fun d t => ds_peak d = map f2dot14_from_packed t) l ts /\
    Forall (fun t => length t = axes /\ Forall (in_range I16) t) ts.
Proof.
  induction 1 as [|d l (L & F) _ (ts & E & F2 & Ft)]; [exists []; repeat split; constructor|].
  destruct (tuple_packed _ F) as (ps & EP & FP). exists (ps :: ts). cbn [rmapM map]. rewrite EP, (ser_tuple_packed ps FP). cbn [rbind]. rewrite E. cbn [rbind].
  split; [reflexivity|]. split; [now constructor|]. constructor; [|exact Ft]. split; [|exact FP]. rewrite EP, map_length in L. exact L.
Qed.
Lemma last_const {A} (f : A -> Z) l n : l <> [] -> (forall x, In x l -> f x = n) -> last (map f l) 0 = n.
Proof.
  intros NE H. destruct (exists_last NE) as (l' & x & ->). rewrite map_app. cbn [map]. rewrite last_last. apply H, in_or_app. right. now left.
Qed.
Lemma uses_map ps : Forall (Forall (in_range I16)) ps -> forall t, Forall (in_range I16) t ->
  uses (tuple_word t) (map tuple_word ps) = uses t ps.
Proof.
  unfold uses. induction 1 as [|p ps Hp _ IH]; intros t Ht; [reflexivity|]. cbn [map count_occ].
  destruct (list_eq_dec Z.eq_dec (tuple_word p) (tuple_word t)) as [E|E], (list_eq_dec Z.eq_dec p t) as [E'|E']; try (now rewrite IH).
  - exfalso. apply E'. now apply tuple_word_inj.
  - exfalso. apply E. now rewrite E'.
Qed.
Lemma sorted_map {A B} (f : A -> B) (R : B -> B -> Prop) (R' : A -> A -> Prop) l :
  (forall a b, In a l -> In b l -> R (f a) (f b) -> R' a b) -> StronglySorted R (map f l) -> StronglySorted R' l.
Proof.
  induction l as [|a l IH]; intros H S; [constructor|]. cbn [map] in S. inversion S as [|? ? S1 S2]; subst. constructor.
  - apply IH; [|exact S1]. intros x y X Y. apply H; now right.
  - rewrite Forall_forall in *. intros b B0. apply H; [now left|now right|]. apply S2. now apply in_map.
Qed.
Lemma starts_bound chunks : forall pos x, In x (starts pos chunks) -> pos <= x <= pos + Z.of_nat (length (concat chunks)).
Proof.
  induction chunks as [|c chunks IH]; intros pos x I; cbn [starts concat] in *; [destruct I as [<-|[]]; cbn; lia|].
  rewrite app_length. destruct I as [<-|I]; [lia|]. specialize (IH _ _ I). lia.
Qed.
Lemma concat_const {A} (l : list (list A)) n : Forall (fun x => length x = n) l -> length (concat l) = (n * length l)%nat.
Proof. induction 1 as [|x l H _ IH]; [cbn; lia|]. cbn [concat length]. rewrite app_length, H, IH. lia. Qed.
Lemma starts_length chunks : forall pos, length (starts pos chunks) = S (length chunks).
Proof. induction chunks as [|c chunks IH]; intros pos; cbn [starts length]; [reflexivity|now rewrite IH]. Qed.

Lemma gvar_written mc v ces glyf axes : most_common_first mc -> gvar_ok axes v ces -> glyphs_match v ces glyf ->
  (forall bs, gvar_ser mc v glyf = Ok bs -> Z.of_nat (length bs) < 2 ^ 32 ->
    exists tuples chunks ps, bs = gvar_file true axes tuples chunks /\ tuples_ok axes tuples /\ (length tuples <= Z.to_nat 4096)%nat /\
      chunks_ok true axes tuples chunks /\ chunks_hold axes tuples ces chunks (kept v) /\
      Forall (fun c => Nat.odd (length c) = false) chunks /\
      Forall2 (fun d t => ds_peak d = map f2dot14_from_packed t) (all_sets v) ps /\ by_frequency ps tuples /\
      (existsb moves (all_sets v) = true -> (2 * axes <= length (concat chunks))%nat) /\
      (existsb moves (all_sets v) = false -> length (concat chunks) = (6 * with_data v)%nat)) /\
  (Forall (fun s => match s with Some sets => Z.of_nat (length sets) * (4 + 6 * Z.of_nat axes) <= 65531 | None => True end) v ->
    exists bs, gvar_ser mc v glyf = Ok bs).
Proof.
  intros Hmc (Ha & Hn & Hne & (peaks & Hpk & Hin) & Hs) Hg.
  pose proof (all_sets_ok axes v ces Hs) as Hall.
  destruct (peaks_ok axes (all_sets v) Hall) as (ps & Ep & Fp & Wp).
  assert (Wp': Forall (Forall (in_range I16)) ps) by (eapply Forall_impl; [|exact Wp]; now intros t (_ & H)).
  unfold gvar_ser. rewrite Ep. cbn [rbind].
  rewrite (last_const _ (all_sets v) (Z.of_nat axes) Hne), u16_id by (try lia; intros d Id; rewrite Forall_forall in Hall; destruct (Hall d Id) as (L & _); now rewrite L).
  destruct (Hmc (map tuple_word ps)) as (ND & Same & Sorted).
  destruct (choose_tuples (fun t => In t ps) (mc (map tuple_word ps))) as (tuples & Et & Ft).
  { apply Forall_forall. intros p I. apply Same in I. apply in_map_iff in I as (t & <- & I). now exists t. }
  rewrite Et in ND, Same, Sorted |- *.
  assert (Wt: Forall (fun t => length t = axes /\ Forall (in_range I16) t) tuples).
  { rewrite Forall_forall in *. intros t I. now apply Wp, Ft. }
  assert (NDt: NoDup tuples) by (eapply NoDup_map_inv; exact ND).
  assert (Lt: (length tuples <= Z.to_nat 4096)%nat).
  { etransitivity; [|exact Hpk]. rewrite <- (map_length (map f2dot14_from_packed)). apply NoDup_incl_length.
    - clear - NDt Wt. induction tuples as [|t l IH]; [constructor|]. inversion NDt; subst. inversion Wt as [|? ? (W1 & W2) W3]; subst. cbn [map].
      constructor; [|now apply IH]. intros I. apply in_map_iff in I as (t' & E & I).
      enough (t' = t) by congruence. rewrite Forall_forall in W3. destruct (W3 t' I) as (_ & W).
      assert (Inj: forall a b, Forall (in_range I16) a -> Forall (in_range I16) b -> map f2dot14_from_packed a = map f2dot14_from_packed b -> a = b).
      { clear. intros a b A B E. pose proof (ser_tuple_packed a A) as EA. rewrite E, (ser_tuple_packed b B) in EA. apply Ok_inj in EA. symmetry in EA.
        now apply tuple_word_inj. }
      now apply Inj.
    - intros x I. apply in_map_iff in I as (t & <- & I). rewrite Forall_forall in Ft. specialize (Ft t I).
      clear - Fp Ft Hin. revert Hin. induction Fp as [|d t' l ls E F IH]; [easy|]. intros Hin. destruct Ft as [->|Ft]; [|apply IH; [exact Ft|intros; apply Hin; now right]].
      rewrite <- E. apply Hin. now left. }
  assert (Hshared: forall d p, In d (all_sets v) -> tuple_bytes (ds_peak d) = Ok p -> In p (map tuple_word tuples)).
  { intros d p I E. apply Same. clear - Ep I E. set (ws := map tuple_word ps) in *. clearbody ws. revert ws Ep. induction (all_sets v) as [|d' l IH]; [easy|].
    intros ws Ep. cbn [rmapM] in Ep. destruct (tuple_bytes (ds_peak d')) as [b| |] eqn:Eb; try discriminate. cbn [rbind] in Ep.
    destruct (rmapM _ l) as [bs| |]; try discriminate. cbn [rbind] in Ep. apply Ok_inj in Ep. subst ws.
    destruct I as [->|I]; [left; congruence|right; now apply IH]. }
  destruct (data_written axes tuples Ha Lt Wt glyf v ces Hs Hshared 0%nat 0%nat eq_refl Hg) as (DW & DE).
  destruct (map tuple_word tuples) as [|w0 ws] eqn:Ews.
  { exfalso. destruct (all_sets v) as [|d l] eqn:El; [easy|]. inversion Fp; subst. destruct (proj2 (Same (tuple_word y))). cbn [map]. now left. }
  rewrite <- Ews in *. clear Ews w0 ws.
  assert (Lw: length (concat (map tuple_word tuples)) = (2 * axes * length tuples)%nat).
  { rewrite <- (map_length tuple_word tuples). apply concat_const. rewrite Forall_map. eapply Forall_impl; [|exact Wt]. intros t (L & _). cbn beta.
    unfold tuple_word. rewrite (concat_const _ 2), map_length by (apply Forall_map, Forall_forall; reflexivity). lia. }
  assert (Lw': Z.of_nat (length (concat (map tuple_word tuples))) <= 81920000) by (rewrite Lw; nia).
  assert (Hoff: forall os ds, all_data (map tuple_word tuples) glyf 0 0 v = Ok (os, ds) -> Z.of_nat (length os) = 4 * (Z.of_nat (length v) + 1)).
  { intros os ds E. destruct (DW os ds E) as (chunks & -> & _ & (K & _) & _).
    rewrite (concat_const _ 4), map_length, starts_length by (apply Forall_map, Forall_forall; reflexivity).
    unfold kept in K. rewrite map_length in K. lia. }
  split.
  - intros bs H Hlen. destruct (all_data (map tuple_word tuples) glyf 0 0 v) as [[os ds]| |] eqn:Ed; try discriminate. cbn [rbind] in H.
    specialize (Hoff os ds eq_refl). destruct (DW os ds eq_refl) as (chunks & Eo & Eds & Hold & Ev & M1 & M2). 
    rewrite (u32_id (Z.of_nat (length os))), PCmap4.chk_u_ok in H by lia. cbn [rbind] in H.
    rewrite u32_id, PCmap4.chk_u_ok in H by lia. cbn [rbind] in H. apply Ok_inj in H.
    assert (Ld: Z.of_nat (length ds) < 2 ^ 32) by (rewrite <- H, !app_length in Hlen; lia).
    pose proof Hold as (K1 & K2 & _). unfold kept in K1, K2. rewrite map_length in K1, K2.
    assert (Eo': os = offset_bytes true chunks).
    { rewrite Eo. unfold offset_bytes. f_equal. apply map_ext_in. intros x I. apply starts_bound in I. rewrite <- Eds in I. rewrite u32_id by lia. symmetry. apply dword_u32. }
    assert (Ef: bs = gvar_file true axes tuples chunks).
    { rewrite <- H. unfold gvar_file. cbv zeta. rewrite <- Eo'.
      assert (Ew: concat (map tuple_word tuples) = concat (map (fun t => concat (map word t)) tuples)).
      { f_equal. apply map_ext_in. intros t I. unfold tuple_word. f_equal. apply map_ext. intros x. symmetry. apply word_i16. }
      rewrite <- Ew, K1, map_length. rewrite (u16_id (Z.of_nat (length tuples))), (u16_id (Z.of_nat (length v))) by lia.
      rewrite <- !word_u16, <- !dword_u32 by lia. rewrite Lw, Eds. do 7 f_equal. f_equal. f_equal. lia. }
    exists tuples, chunks, ps. split; [exact Ef|]. split; [split; [lia|exact Wt]|]. split; [exact Lt|].
    split; [split; [lia|]; split; [now rewrite <- Ef|discriminate]|]. split; [exact Hold|]. split; [exact Ev|]. split; [exact Fp|]. split.
    { split; [exact NDt|]. split.
      - intros t. split; [intros I; rewrite Forall_forall in Ft; now apply Ft|]. intros I.
        assert (I': In (tuple_word t) (map tuple_word tuples)) by (apply Same; now apply in_map). apply in_map_iff in I' as (t' & E & I').
        enough (t' = t) by congruence. apply tuple_word_inj; [|rewrite Forall_forall in Wp'; now apply Wp'|exact E].
        rewrite Forall_forall in Wt. now apply Wt.
      - revert Sorted. apply sorted_map. intros a b A B. rewrite Forall_forall in Wt. rewrite !uses_map by (try exact Wp'; now apply Wt). easy. }
    rewrite <- Eds. now split.
  - intros Hb. destruct (DE Hb) as (os & ds & Ed). rewrite Ed. cbn [rbind]. specialize (Hoff os ds Ed).
    rewrite (u32_id (Z.of_nat (length os))), PCmap4.chk_u_ok by lia. cbn [rbind]. rewrite u32_id, PCmap4.chk_u_ok by lia. cbn [rbind]. eauto.
Qed.

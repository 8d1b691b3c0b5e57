(** Proofs about the fontcrunch tool as a whole. *)
From Coq Require Import QArith.
From Verif.Model Require Import MBase MTag MMap MFont MFixed MFloat MFloat32 MTables MMetrics MGlyph MGlyf MStore MPost MCmap MCli MPath MCrunch.
From Verif.Spec Require Import SBase SFont SFloat SGlyph SGlyf SStore SCmapTable SCli SPath SCrunch SCorner.
From Verif.Proofs Require Import PBase PMap PStore PSave PFont PCli.
Local Open Scope Z_scope.

Section Glyphs.
Variable hypot : dyadic -> dyadic -> dyadic.
Variable fit : list quad -> res (option (list quad)).
Variable tq : kpoint -> kpoint -> kpoint -> kpoint -> list (kpoint * kpoint).
Let to c c' := crunch_outline hypot fit tq c = Ok c'.
Lemma mapM_iff {A B} (f : A -> res B) l : forall l', rmapM f l = Ok l' <-> Forall2 (fun a b => f a = Ok b) l l'.
Proof.
  induction l as [|a l IH]; intros l'; cbn.
  - split; [intros [= <-]; constructor|intros H; inversion H; reflexivity].
  - split.
    + intros H. destruct (f a) as [b| |] eqn:E; try discriminate. cbn in H. destruct (rmapM f l) as [r| |] eqn:Er; try discriminate. cbn in H. injection H as <-.
      constructor; [exact E|now apply IH].
    + intros H. inversion H as [|? b ? r H1 H2]; subst. rewrite H1. cbn. rewrite (proj2 (IH _) H2). reflexivity.
Qed.
Lemma crunch_one g g' : g_contours g <> [] -> crunch_glyph hypot fit tq g = Ok g' <-> crunched to g g'.
Proof.
  intros N. unfold crunch_glyph, crunched. split.
  - intros E. destruct (rmapM (crunch_outline hypot fit tq) (g_contours g)) as [cs| |] eqn:Ec; try discriminate. cbn [rbind] in E. injection E as <-.
    right. split; [exact N|]. split; [now apply mapM_iff|]. repeat split.
  - intros [[X _]|(_ & F & E1 & E2 & E3 & E4 & E5 & E6 & E7)]; [now elim N|].
    apply (proj2 (mapM_iff _ _ _)) in F. rewrite F. cbn [rbind]. f_equal. unfold set_contours. destruct g', g. cbn in *. subst. reflexivity.
Qed.
Lemma crunch_all_iff names : forall gs ix gs', crunch_all hypot fit tq names ix gs = Ok gs' <->
  Forall2 (crunched to) gs gs' /\
  (forall l, names = Some l -> forall i g, nth_error gs i = Some g -> g_contours g <> [] -> (ix + i < length l)%nat).
Proof.
  induction gs as [|g gs IH]; intros ix gs'; cbn [crunch_all].
  - split; [intros [= <-]; split; [constructor|]; intros l _ [|i]; discriminate|intros [H _]; inversion H; reflexivity].
  - set (hd := match g_contours g with [] => Ok g | _ => _ end).
    assert (Hd: forall g', hd = Ok g' <-> crunched to g g' /\ (g_contours g <> [] -> forall l, names = Some l -> (ix < length l)%nat)).
    { intros g'. unfold hd. destruct (g_contours g) as [|c cs] eqn:Ec.
      - split; [intros [= <-]; split; [left; auto|congruence]|]. intros [[[_ ->]|[N _]] _]; [reflexivity|congruence].
      - assert (N: g_contours g <> []) by congruence. destruct names as [l|].
        + destruct (nth_error l ix) as [x|] eqn:Ex; cbn [unwrap rbind].
          * assert (ix < length l)%nat by (apply nth_error_Some; congruence). rewrite (crunch_one g g' N).
            split; [intros H0; split; [exact H0|]; intros _ l0 [= <-]; assumption|tauto].
          * apply nth_error_None in Ex. split; [discriminate|]. intros [_ H]. specialize (H ltac:(discriminate) l eq_refl). lia.
        + rewrite (crunch_one g g' N). split; [intros H0; split; [exact H0|discriminate]|tauto]. }
    split.
    + intros E. destruct hd as [g'| |] eqn:Eh; try discriminate. cbn [rbind] in E.
      destruct (crunch_all hypot fit tq names (S ix) gs) as [r| |] eqn:Er; try discriminate. cbn [rbind] in E. injection E as <-.
      destruct (proj1 (Hd g') eq_refl) as [A B]. destruct (proj1 (IH (S ix) r) Er) as [C D]. split; [now constructor|].
      intros l El [|i] g0 Hi N; cbn [nth_error] in Hi; [injection Hi as <-; rewrite Nat.add_0_r; now apply B|]. specialize (D l El i g0 Hi N). lia.
    + intros [F R]. inversion F as [|? g' ? r F1 F2]; subst. rewrite (proj2 (Hd g')).
      * cbn [rbind]. rewrite (proj2 (IH (S ix) r)); [reflexivity|]. split; [exact F2|]. intros l El i g0 Hi N. specialize (R l El (S i) g0 Hi N). lia.
      * split; [exact F1|]. intros N l El. specialize (R l El 0%nat g eq_refl N). lia.
Qed.
End Glyphs.

Section Tool.
Context {T : Type} (K0 : codecs T).
Variable hash : cmapping -> Z.
Variable hypot : dyadic -> dyadic -> dyadic.
Variable fit : list quad -> res (option (list quad)).
Variable tq : kpoint -> kpoint -> kpoint -> kpoint -> list (kpoint * kpoint).
Let K := K K0 hash.

Lemma variable_none file v m : Forall is_byte file -> holds file v m ->
  (exists h, head_is m h) \/ (bytes_of m TAG_head = None /\ bytes_of m TAG_loca = None) ->
  fontcrunch K0 hash hypot fit tq file = Ok None <-> bytes_of m TAG_gvar <> None.
Proof.
  intros HB H U. destruct (load_total K0 hash file v m HB H U) as (s & L). unfold fontcrunch. rewrite L.
  destruct (load_inv K0 hash _ _ _ HB L) as (m1 & H1 & _ & _ & C & _). destruct (holds_fun _ _ _ _ _ H H1) as [_ <-].
  rewrite (contains_iff TAG_gvar s), C. unfold bytes_of. destruct (bm_get lex_ltb TAG_gvar m) eqn:Eg; cbn [option_map].
  - split; [discriminate|reflexivity].
  - split; [|congruence]. destruct (cli _ _ _ file); discriminate.
Qed.
Lemma crunch_result file out : Forall is_byte file -> fontcrunch K0 hash hypot fit tq file = Ok (Some out) ->
  Z.of_nat (length out) < 2 ^ 32 -> Forall is_byte out ->
  exists v m, holds file v m /\ bytes_of m TAG_gvar = None /\
  match bytes_of m TAG_glyf with
  | None => rewrites nothing_new file out
  | Some _ => exists names m' w gs gs' gl lo is32 h,
    match bytes_of m TAG_post with None => names = None | Some _ => exists p, post_is m p /\ names = po_glyphnames p end /\
    holds out v m' /\ length w = 4%nat /\ glyf_is m gs /\
    crunch_all hypot fit tq names 0 gs = Ok gs' /\ compile_glyf gs' = Ok (gl, lo, is32) /\ head_is m h /\
    bytes_of m' TAG_glyf = Some gl /\ bytes_of m' TAG_loca = Some lo /\
    bytes_of m' TAG_head = Some (with_adjustment w (ser_head_tbl (set_loc_format h (if is32 : bool then 1 else 0)))) /\
    (forall t, ~ In t [TAG_glyf; TAG_loca; TAG_head; TAG_hhea] -> bytes_of m' t = bytes_of m t) /\
    match bytes_of m TAG_hmtx with
    | None => bytes_of m' TAG_hhea = bytes_of m TAG_hhea
    | Some _ => exists ms n hh, hmtx_is m ms /\ number_of_hmetrics ms = Ok n /\ hhea_is m hh /\
        bytes_of m' TAG_hhea = Some (ser_hhea (set_hmetrics hh n))
    end
  end.
Proof.
  intros HB E Hs HBo. unfold fontcrunch in E. destruct (font_load _ file) as [[v s]| |] eqn:L; try discriminate.
  destruct (load_inv K0 hash _ _ _ HB L) as (m & H & _ & _ & C & _). rewrite (contains_iff TAG_gvar s), C in E.
  destruct (bm_get lex_ltb TAG_gvar m) as [d0|] eqn:Ev; cbn [option_map] in E; [discriminate|].
  destruct (cli K0 hash _ file) as [o| |] eqn:Ecl; try discriminate. cbn in E. injection E as ->. clear s L C.
  destruct (cli_inv K0 hash _ _ _ HB Ecl) as (v' & m1 & s & s' & s'' & H' & Sm & G & C & F & Ee & Ew).
  destruct (holds_fun _ _ _ _ _ H H') as [<- <-]. clear H'. exists v, m. split; [exact H|]. split; [exact Ev|].
  pose proof (F _ closed_all) as FA. pose proof (F _ closed_metrics) as FM. clear F.
  unfold crunch_edit in Ee. apply bind_ok in Ee as (op & s1 & E1 & Ee). cbv zeta in Ee.
  destruct (typed_fresh K0 hash all closed_all m TAG_post sel_post s op s1 FA (good_inv _ _ G) E1) as (FA1 & I1 & S1 & R1).
  destruct (typed_fresh K0 hash metrics closed_metrics m TAG_post sel_post s op s1 FM (good_inv _ _ G) E1) as (FM1 & _ & _ & _).
  apply bind_ok in Ee as (og & s2 & E2 & Ee).
  destruct (typed_fresh K0 hash all closed_all m TAG_glyf sel_glyf s1 og s2 FA1 I1 E2) as (FA2 & I2 & S2 & R2).
  destruct (typed_fresh K0 hash metrics closed_metrics m TAG_glyf sel_glyf s1 og s2 FM1 I1 E2) as (FM2 & _ & _ & _).
  pose proof (same_good K0 hash _ _ G I1 S1) as G1. pose proof (same_good K0 hash _ _ G1 I2 S2) as G2.
  pose proof (same_raw _ _ _ C S1) as C1. pose proof (same_raw _ _ _ C1 S2) as C2.
  destruct og as [gs|].
  - apply bind_ok in Ee as (gs' & s3 & E3 & Ee). apply slift_inv in E3 as [E3 ->]. unfold smodify in Ee. injection Ee as <-.
    destruct (R2 I) as (l & Rl & Sl). destruct l as [| | | | |x| |]; try discriminate. injection Sl as ->. cbn [right] in Rl.
    destruct (glyf_saved K0 hash v m s2 gs' file out s'' HB H G2 FM2 C2 Ew Hs HBo) as (m' & w & gl & lo & is32 & h & X1 & X2 & X3 & X4 & X5).
    assert (Eg: exists d, bytes_of m TAG_glyf = Some d) by (destruct Rl as (l0 & d & _ & X & _); eauto). destruct Eg as (dg & ->).
    exists (match op with Some p => po_glyphnames p | None => None end), m', w, gs, gs', gl, lo, is32, h.
    split; [|tauto]. destruct op as [p|].
    + destruct (R1 I) as (l & Rp & Sp). destruct l as [| | | | | |? [| | | |]|]; try discriminate. injection Sp as ->. cbn [right] in Rp.
      assert (Ep: exists d, bytes_of m TAG_post = Some d) by (destruct Rp as (d & X & _); eauto). destruct Ep as (dp & ->). eauto.
    + rewrite C in R1. unfold bytes_of. destruct (bm_get lex_ltb TAG_post m); [discriminate|reflexivity].
  - cbv beta iota in Ee. apply slift_inv in Ee as [_ ->]. rewrite C1 in R2. unfold bytes_of. destruct (bm_get lex_ltb TAG_glyf m) eqn:Eg; [discriminate|].
    destruct (plain_result K0 hash v m s2 s'' file out HB H (raw_plainly K0 hash s2 m G2 Sm C2) Ew Hs) as [A _]. exact A.
Qed.
End Tool.

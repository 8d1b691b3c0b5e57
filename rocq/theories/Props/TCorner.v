(** C75: fontcrunch as a whole: corners, runs, contours, glyphs, fonts. *)
From Coq Require Import QArith Sorted Lia.
From Verif.Model Require Import MBase MTag MMap MFont MFixed MFloat MFloat32 MTables MMetrics MGlyph MGlyf MStore MPost MCmap MCli MPath MCrunch.
From Verif.Spec Require Import SBase SFont STables SFloat SGlyph SGlyf SStore SCmapTable SCli SPath SCrunch SCorner.
From Verif.Proofs Require PCorner PPolygon PCrunchTool PHypot PCli PStoreEx.
Local Open Scope Z_scope.

(** The corners of a contour of lines and quadratic curves on whole 16-bit units:
    - where one segment meets the next at an angle whose sine is more than 1/45,
      or one of the two has no direction there, there is a corner;
    - between two corners no two segments head in opposite directions in x or y:
      a run goes one way only;
    - there is a corner only where the sine is more than 1/55 (or there is no
      direction), or where the segment is opposed to some other one. *)
Theorem C75_corners : forall hypot segs, sound_hypot hypot -> Forall plain_seg segs ->
  exists corners, segment_sp hypot segs = Ok corners /\
    StronglySorted lt corners /\ Forall (fun i => i < length segs)%nat corners /\
    (forall i s s' v w, nth_error segs (before (length segs) i) = Some s -> nth_error segs i = Some s' ->
       arrives s v -> sets_off s' w -> kink 45 v w -> In i corners) /\
    (forall i j s s' v w, (i < j < 2 * length segs)%nat -> (forall k, i < k <= j -> ~ In (k mod length segs) corners)%nat ->
       nth_error segs (i mod length segs) = Some s -> nth_error segs (j mod length segs) = Some s' ->
       heading s v -> heading s' w -> ~ opposed v w) /\
    (forall i, In i corners ->
       (exists s s' v w, nth_error segs (before (length segs) i) = Some s /\ nth_error segs i = Some s' /\
          arrives s v /\ sets_off s' w /\ kink 55 v w) \/
       (exists j s s' v w, nth_error segs j = Some s /\ nth_error segs i = Some s' /\ heading s v /\ heading s' w /\ opposed v w)).
Proof. intros hypot segs H. now apply PCorner.corners_spec. Qed.
Print Assumptions C75_corners.

(** A contour is left alone if no curves can be fitted to one of its runs.
    Else it becomes its first element and what its runs are redrawn as: single
    lines as they were, everything else as the curves fitted to it (C74). *)
Theorem C75_contour : forall hypot fit path path' segs, path_segments path = Ok segs -> Forall plain_seg segs ->
  crunch_contour hypot fit path = Ok path' ->
  exists corners, segment_sp hypot segs = Ok corners /\
   ((path' = path /\ exists run, In run (runs segs corners) /\ ~ single_line run /\ fitted fit run None) \/
    (exists el parts, hd_error path = Some el /\ path' = el :: concat parts /\ Forall2 (redrawn fit) (runs segs corners) parts)).
Proof. apply PCorner.contour_spec. Qed.
Print Assumptions C75_contour.
(** The runs are exactly the segments from the first corner up to, without, the
    one at the last corner: what comes before and after is not redrawn. *)
Theorem C75_covers : forall hypot (segs : list path_seg) a corners, segment_sp hypot segs = Ok (a :: corners) ->
  concat (runs segs (a :: corners)) = firstn (last (a :: corners) O - a) (skipn a segs).
Proof. intros hypot segs a cs E. destruct (PCorner.segment_sorted _ _ _ E) as [A B]. now apply PCorner.runs_concat. Qed.
Print Assumptions C75_covers.

(** A polygon with an angle at every point keeps its points, but comes out in
    the opposite direction. *)
Theorem C75_polygon_reversed : forall hypot fit tq c, sound_hypot hypot ->
  c <> [] -> Forall (fun p => pt_on p = true) c -> Forall point_ok c ->
  (forall i, (i < length c)%nat -> kink 45 (side c (before (length c) i)) (side c i)) ->
  crunch_outline hypot fit tq c = Ok (rev c).
Proof. intros hypot fit tq c H. now apply PPolygon.polygon_reversed. Qed.
Print Assumptions C75_polygon_reversed.
Definition box : list point := [mk_point 0 0 true; mk_point 100 0 true; mk_point 100 100 true; mk_point 0 100 true].
Example C75_box : forall i, (i < length box)%nat -> kink 45 (side box (before (length box) i)) (side box i).
Proof. intros [|[|[|[|i]]]] H; cbn in H; [right; right; vm_compute; reflexivity..|lia]. Qed.
(** So a clockwise contour becomes counter-clockwise: the tool does not keep the
    direction in which contours are drawn. *)
Theorem C75_direction_refuted : forall hypot fit tq, sound_hypot hypot -> exists c c',
  crunch_outline hypot fit tq c = Ok c' /\ forall l1 l2, c = l1 ++ l2 -> c' <> l2 ++ l1.
Proof.
  intros hypot fit tq H. exists box, (rev box). split.
  - apply C75_polygon_reversed; [exact H|discriminate|repeat constructor| |exact C75_box]. repeat constructor; unfold in_range; cbn; lia.
  - unfold box. cbn [rev app]. intros [|a1 [|a2 [|a3 [|a4 l1]]]] l2 E E'; cbn [app] in E, E'; inversion E; subst; try discriminate.
    destruct l1, l2; try discriminate.
Qed.
Print Assumptions C75_direction_refuted.

(** The last segment is lost; back to the start leads the closing line.  If
    the last segment was a curve it is gone. *)
Definition leaf : list point := [mk_point 0 0 true; mk_point 100 0 true; mk_point 100 100 true; mk_point 0 100 false].
Theorem C75_curve_lost_refuted : forall hypot fit tq, sound_hypot hypot ->
  outline leaf [Straight (0, 0) (200, 0); Straight (200, 0) (200, 200); Bent (200, 200) (0, 200) (0, 0)] /\
  exists c', crunch_outline hypot fit tq leaf = Ok c' /\
    outline c' [Straight (200, 200) (200, 0); Straight (200, 0) (0, 0); Straight (0, 0) (200, 200)].
Proof.
  intros hypot fit tq H. split.
  { exists (mk_point 0 0 true), [mk_point 100 0 true; mk_point 100 100 true; mk_point 0 100 false]. split; [reflexivity|]. split; [reflexivity|].
    repeat (first [apply strokes_line; [reflexivity|] | apply strokes_curve; [reflexivity|reflexivity|] | apply strokes_end]). }
  destruct (contour_to_path leaf) as [path| |] eqn:Ep; [|discriminate|discriminate].
  assert (Es: path_segments path = Ok [SegLine (dy_of_Z 0, dy_of_Z 0) (dy_of_Z 100, dy_of_Z 0); SegLine (dy_of_Z 100, dy_of_Z 0) (dy_of_Z 100, dy_of_Z 100);
     SegQuad (dy_of_Z 100, dy_of_Z 100) (dy_of_Z 0, dy_of_Z 100) (dy_of_Z 0, dy_of_Z 0)]).
  { vm_compute in Ep. injection Ep as <-. vm_compute. reflexivity. }
  set (segs := [_; _; _]) in Es.
  assert (W: forall z, is_whole (dy_of_Z z) z) by (intros z; apply PFloat.val_int).
  assert (P: Forall plain_seg segs).
  { repeat constructor; (eexists; eexists; split; [apply W|]; split; [apply W|]; split; unfold fits16, in_range; cbn; lia). }
  destruct (C75_corners hypot segs H P) as (cs & Ec & S1 & S2 & K & _).
  assert (Wy: forall ax ay bx bj, way (dy_of_Z ax, dy_of_Z ay) (dy_of_Z bx, dy_of_Z bj) (bx - ax, bj - ay)).
  { intros ax ay bx bj. exists ax, ay, bx, bj. repeat split; apply W. }
  assert (I0: In 0%nat cs).
  { eapply (K 0%nat); [reflexivity|reflexivity|apply Wy|apply Wy|]. right; right. vm_compute. reflexivity. }
  assert (I1: In 1%nat cs).
  { eapply (K 1%nat); [reflexivity|reflexivity|apply Wy|apply Wy|]. right; right. vm_compute. reflexivity. }
  assert (I2: In 2%nat cs).
  { eapply (K 2%nat); [reflexivity|reflexivity|apply Wy|apply Wy|]. right; right. vm_compute. reflexivity. }
  assert (E: cs = [0; 1; 2]%nat).
  { clear - S1 S2 I0 I1 I2. change (length segs) with 3%nat in S2.
    destruct cs as [|a [|b [|c [|d cs]]]]; cbn in I0, I1, I2; [lia..| |].
    - inversion S1 as [|? ? S3 F1]; subst. inversion S3 as [|? ? S4 F2]; subst. inversion F1; subst. inversion F2; subst. inversion S2 as [|? ? Q1 Q2]; subst.
      inversion Q2 as [|? ? Q3 Q4]; subst. inversion Q4; subst. repeat f_equal; lia.
    - exfalso. inversion S1 as [|? ? S3 F1]; subst. inversion S3 as [|? ? S4 F2]; subst. inversion S4 as [|? ? S5 F3]; subst. inversion F1; subst. inversion F2; subst. inversion F3; subst.
      inversion S2 as [|? ? Q1 Q2]; subst. inversion Q2 as [|? ? Q3 Q4]; subst. inversion Q4 as [|? ? Q5 Q6]; subst. inversion Q6; subst. lia. }
  subst cs. exists [mk_point 100 100 true; mk_point 100 0 true; mk_point 0 0 true]. split.
  - unfold crunch_outline. rewrite Ep. cbn [rbind]. unfold crunch_contour. rewrite Es. cbn [rbind]. rewrite Ec. cbn [rbind].
    vm_compute in Ep. injection Ep as <-. vm_compute. reflexivity.
  - exists (mk_point 100 100 true), [mk_point 100 0 true; mk_point 0 0 true]. split; [reflexivity|]. split; [reflexivity|].
    repeat (first [apply strokes_line; [reflexivity|] | apply strokes_end]).
Qed.
Print Assumptions C75_curve_lost_refuted.
(** There are functions that compute lengths as accurately as asked for. *)
Example C75_hypot_exists : exists hypot, sound_hypot hypot.
Proof. exists PHypot.hypot_root. exact PHypot.hypot_root_sound. Qed.

(** Glyphs: those with contours get each contour redrawn; nothing else of them
    changes, the bounding box included.  It works exactly when every contour can
    be redrawn and, if glyphs have names, all those with contours do. *)
Theorem C75_glyphs : forall hypot fit tq names gs gs',
  crunch_all hypot fit tq names 0 gs = Ok gs' <->
  Forall2 (crunched (fun c c' => crunch_outline hypot fit tq c = Ok c')) gs gs' /\ names_reach names gs.
Proof. intros. apply (PCrunchTool.crunch_all_iff hypot fit tq names gs 0 gs'). Qed.
Print Assumptions C75_glyphs.

Section Tool.
Context {T : Type} (K0 : codecs T) (hash : cmapping -> Z).
Variable hypot : dyadic -> dyadic -> dyadic.
Variable fit : list quad -> res (option (list quad)).
Variable tq : kpoint -> kpoint -> kpoint -> kpoint -> list (kpoint * kpoint).
(** Of a variable font nothing is written, without an error. *)
Theorem C75_variable : forall file v m, Forall is_byte file -> holds file v m ->
  (exists h, head_is m h) \/ (bytes_of m TAG_head = None /\ bytes_of m TAG_loca = None) ->
  fontcrunch K0 hash hypot fit tq file = Ok None <-> bytes_of m TAG_gvar <> None.
Proof. apply PCrunchTool.variable_none. Qed.
(** Else the glyphs are redrawn; nothing else changes but loca, its format in
    head, and the number of long metrics in hhea.  Without glyf nothing changes. *)
Theorem C75_font : forall file out, Forall is_byte file -> fontcrunch K0 hash hypot fit tq file = Ok (Some out) ->
  Z.of_nat (length out) < 2 ^ 32 -> Forall is_byte out ->
  exists v m, holds file v m /\ bytes_of m TAG_gvar = None /\
  match bytes_of m TAG_glyf with
  | None => rewrites nothing_new file out
  | Some _ => exists names m' w gs gs' gl lo is32 h,
    match bytes_of m TAG_post with None => names = None | Some _ => exists p, post_is m p /\ names = po_glyphnames p end /\
    holds out v m' /\ length w = 4%nat /\ glyf_is m gs /\
    crunch_all hypot fit tq names 0 gs = Ok gs' /\ compile_glyf gs' = Ok (gl, lo, is32) /\ head_is m h /\
    bytes_of m' TAG_glyf = Some gl /\ bytes_of m' TAG_loca = Some lo /\
    bytes_of m' TAG_head = Some (with_adjustment w (ser_head_tbl (set_loc_format h (if is32 : bool then 1 else 0)))) /\
    (forall t, ~ In t [TAG_glyf; TAG_loca; TAG_head; TAG_hhea] -> bytes_of m' t = bytes_of m t) /\
    match bytes_of m TAG_hmtx with
    | None => bytes_of m' TAG_hhea = bytes_of m TAG_hhea
    | Some _ => exists ms n hh, hmtx_is m ms /\ number_of_hmetrics ms = Ok n /\ hhea_is m hh /\
        bytes_of m' TAG_hhea = Some (ser_hhea (set_hmetrics hh n))
    end
  end.
Proof. apply PCrunchTool.crunch_result. Qed.
(** The output read again has the redrawn glyphs. *)
Theorem C75_outlines : forall file out v m gs h, Forall is_byte file -> fontcrunch K0 hash hypot fit tq file = Ok (Some out) ->
  Z.of_nat (length out) < 2 ^ 32 -> Forall is_byte out ->
  holds file v m -> glyf_is m gs -> head_is m h -> head_tbl_ok h ->
  exists gs', Forall2 (crunched (fun c c' => crunch_outline hypot fit tq c = Ok c')) gs gs' /\
    (Forall glyph_fine gs' -> exists m' gs'', holds out v m' /\ glyf_is m' gs'' /\ Forall2 glyph_same gs' gs'').
Proof.
  intros file out v m gs h HB E Hs HBo H Hg Hh Hok.
  destruct (C75_font file out HB E Hs HBo) as (v' & m0 & H0 & _ & R). destruct (PCli.holds_fun _ _ _ _ _ H H0) as [<- <-].
  assert (Eg: exists d, bytes_of m TAG_glyf = Some d) by (destruct Hg as (l0 & d & _ & X & _); eauto). destruct Eg as (dg & Eg). rewrite Eg in R.
  destruct R as (names & m' & w & gs0 & gs' & gl & lo & is32 & h0 & _ & H1 & Lw & A1 & A2 & A3 & A4 & B1 & B2 & B3 & _).
  rewrite <- (PCli.glyf_fun _ _ _ Hg A1) in A2. rewrite <- (PCli.head_fun _ _ _ Hh A4) in B3.
  exists gs'. split; [now apply (PCrunchTool.crunch_all_iff hypot fit tq names gs 0 gs')|].
  intros Fine. destruct (PCli.saved_outlines out v m' w gs' gl lo is32 h HBo H1 Lw A3 B1 B2 B3 Fine Hok) as (gs'' & X & Y). eauto.
Qed.
End Tool.
Print Assumptions C75_variable.
Print Assumptions C75_font.
Print Assumptions C75_outlines.

(** *** A font with the box as its only glyph *)
Definition boxed (c : list point) : glyph := mk_glyph 0 100 0 100 [c] [] [] false.
Definition glyf_loca (gs : list glyph) : list Z * list Z := match compile_glyf gs with Ok (g, l, _) => (g, l) | _ => ([], []) end.
Definition box_tables (c : list point) : list (list Z * list Z) :=
  [(TAG_glyf, fst (glyf_loca [boxed c])); (TAG_head, PStoreEx.head_bytes); (TAG_loca, snd (glyf_loca [boxed c])); (TAG_maxp, PStoreEx.maxp_bytes 1)].
Definition box_font : list Z := Eval vm_compute in
  match font_to_bytes SFNT_TRUETYPE (map (fun td => (fst td, Ok (snd td))) (box_tables box)) with Ok f => f | _ => [] end.
Example C75_box_font : forall T (K0 : codecs T) hash fit tq, exists out m m',
  Forall is_byte box_font /\ fontcrunch K0 hash PHypot.hypot_root fit tq box_font = Ok (Some out) /\ Forall is_byte out /\
  holds box_font SFNT_TRUETYPE m /\ glyf_is m [boxed box] /\ holds out SFNT_TRUETYPE m' /\ glyf_is m' [boxed (rev box)].
Proof.
  intros T K0 hash fit tq. eexists. eexists. eexists. split; [apply PStoreEx.bytes_check; vm_compute; reflexivity|].
  split; [vm_compute; reflexivity|]. split; [apply PStoreEx.bytes_check; vm_compute; reflexivity|]. split; [vm_compute; reflexivity|].
  split; [|split; [vm_compute; reflexivity|]];
  (eexists; eexists; split; [eexists; eexists; split; [eexists; split; [vm_compute; reflexivity|vm_compute; reflexivity]|]; split; [vm_compute; reflexivity|vm_compute; reflexivity]|];
   split; [vm_compute; reflexivity|vm_compute; reflexivity]).
Qed.

(** C77: ttf-remove-overlap. *)
From Coq Require Import QArith Lia.
From Verif.Model Require Import MBase MTag MMap MFont MFixed MFloat MTables MMetrics MGlyph MGlyf MStore MPost MCmap MCli MPath MCrunch MOverlap.
From Verif.Spec Require Import SBase SFont STables SFloat SGlyph SGlyf SStore SCmapTable SCli SPath SOverlap.
From Verif.Proofs Require Import PBase PFloat PContour PPath POverlap.
From Verif.Proofs Require PCli PStoreEx.
Local Open Scope Z_scope.

(** Composite and empty glyphs are left alone. *)
Theorem C77_left_alone : forall simplify g, g_comps g <> [] \/ g_contours g = [] -> remove_overlap simplify g = Ok g.
Proof. exact left_alone. Qed.
Print Assumptions C77_left_alone.

(** The glyphs the tool can handle, whatever the simplifier returns. *)
Theorem C77_works : forall simplify g, (exists g', remove_overlap simplify g = Ok g') <->
  g_comps g <> [] \/ Forall (fun c => c <> [] /\ sums_fit c) (g_contours g).
Proof. exact works_iff. Qed.
Print Assumptions C77_works.

(** The simplifier is given a path that draws the outlines of the contours, if
    they start on the curve, one after the other.  The glyph gets the contours of
    what it returns; if it returns nothing, its own with implied points made
    explicit.  Nothing else of the glyph changes. *)
Theorem C77_glyph : forall simplify g g', remove_overlap simplify g = Ok g' -> g_comps g = [] -> g_contours g <> [] ->
  exists path cs, redrawn g g' cs /\
    (Forall starts_on (g_contours g) -> exists ss, pictures path ss /\ Forall2 outlined (g_contours g) ss) /\
    match simplify path with
    | Some q => skia_to_glyf q = Ok cs
    | None => Forall2 expansion (g_contours g) cs
    end.
Proof. exact glyph_result. Qed.
Print Assumptions C77_glyph.

(** A returned path of closed contours of lines and quadratic curves on whole
    units becomes contours with the same outlines, in the opposite direction. *)
Theorem C77_drawn : forall path ss, pictures path ss -> Forall (Forall plain_seg) ss ->
  exists cs, skia_to_glyf path = Ok cs /\ Forall2 redraws ss cs.
Proof. exact drawn_back. Qed.
Print Assumptions C77_drawn.

(** The points, for any path without cubic curves: per closed part those of its
    elements in reverse order, cut to whole units; what follows the last close is
    dropped. *)
Theorem C77_points : forall subs tail, Forall simple_els subs -> simple_els tail ->
  skia_to_glyf (concat (map (fun s => s ++ [SkClose]) subs) ++ tail) = Ok (map (fun s => rev (concat (map dots s))) subs).
Proof. exact points_full. Qed.
Print Assumptions C77_points.

(** If there is nothing to simplify: each contour comes back in the opposite
    direction, with explicit points. *)
Theorem C77_same : forall simplify g g', (forall path, simplify path = Some path) ->
  remove_overlap simplify g = Ok g' -> g_comps g = [] ->
  Forall starts_on (g_contours g) -> Forall (Forall point_ok) (g_contours g) ->
  Forall2 comes_back (g_contours g) (g_contours g').
Proof. exact nothing_to_do. Qed.
Print Assumptions C77_same.

Section Tool.
Context {T : Type} (K0 : codecs T) (hash : cmapping -> Z).
Variable simplify : list sk_el -> option (list sk_el).
(** The font: every glyph is treated, then bounds are recalculated (which
    flattens composites, C52); nothing else changes but loca, its format in head,
    and the number of long metrics in hhea. *)
Theorem C77_font : forall file out, Forall is_byte file -> remove_overlaps K0 hash simplify file = Ok out ->
  Z.of_nat (length out) < 2 ^ 32 -> Forall is_byte out ->
  exists v m m' w gs gs1 gs' gl lo is32 h, holds file v m /\ holds out v m' /\ length w = 4%nat /\
    glyf_is m gs /\ Forall2 (fun g g' => remove_overlap simplify g = Ok g') gs gs1 /\ recalc_bounds gs1 = Ok gs' /\
    compile_glyf gs' = Ok (gl, lo, is32) /\ head_is m h /\
    bytes_of m' TAG_glyf = Some gl /\ bytes_of m' TAG_loca = Some lo /\
    bytes_of m' TAG_head = Some (with_adjustment w (ser_head_tbl (set_loc_format h (if is32 : bool then 1 else 0)))) /\
    (forall t, ~ In t [TAG_glyf; TAG_loca; TAG_head; TAG_hhea] -> bytes_of m' t = bytes_of m t) /\
    match bytes_of m TAG_hmtx with
    | None => bytes_of m' TAG_hhea = bytes_of m TAG_hhea
    | Some _ => exists ms n hh, hmtx_is m ms /\ number_of_hmetrics ms = Ok n /\ hhea_is m hh /\
        bytes_of m' TAG_hhea = Some (ser_hhea (set_hmetrics hh n))
    end.
Proof. apply overlap_result. Qed.
(** The output read again has these glyphs. *)
Theorem C77_outlines : forall file out v m gs h, Forall is_byte file -> remove_overlaps K0 hash simplify file = Ok out ->
  Z.of_nat (length out) < 2 ^ 32 -> Forall is_byte out ->
  holds file v m -> glyf_is m gs -> head_is m h -> head_tbl_ok h ->
  exists gs1 gs', Forall2 (fun g g' => remove_overlap simplify g = Ok g') gs gs1 /\ recalc_bounds gs1 = Ok gs' /\
    (Forall glyph_fine gs' -> exists m' gs'', holds out v m' /\ glyf_is m' gs'' /\ Forall2 glyph_same gs' gs'').
Proof.
  intros file out v m gs h HB E Hs HBo H Hg Hh Hok.
  destruct (C77_font file out HB E Hs HBo) as (v' & m0 & m' & w & gs0 & gs1 & gs' & gl & lo & is32 & h0 & H0 & H1 & Lw & A1 & A2 & A2' & A3 & A4 & B1 & B2 & B3 & _).
  destruct (PCli.holds_fun _ _ _ _ _ H H0) as [<- <-].
  rewrite <- (PCli.glyf_fun _ _ _ Hg A1) in A2. rewrite <- (PCli.head_fun _ _ _ Hh A4) in B3.
  exists gs1, gs'. split; [exact A2|]. split; [exact A2'|].
  intros Fine. destruct (PCli.saved_outlines out v m' w gs' gl lo is32 h HBo H1 Lw A3 B1 B2 B3 Fine Hok) as (gs'' & X & Y). eauto.
Qed.
End Tool.
Print Assumptions C77_font.
Print Assumptions C77_outlines.

(** *** A drop: a line and two curves with an implied point between them *)
Definition drop : list point := [mk_point 0 0 true; mk_point 100 0 true; mk_point 100 100 false; mk_point 0 100 false].
Definition dropped : glyph := mk_glyph 0 100 0 100 [drop] [] [] false.
Example C77_ex_glyph : remove_overlap Some dropped =
  Ok (set_contours dropped [[mk_point 0 0 true; mk_point 0 100 false; mk_point 50 100 true; mk_point 100 100 false; mk_point 100 0 true; mk_point 0 0 true]]).
Proof. vm_compute. reflexivity. Qed.
Example C77_ex_starts : Forall starts_on (g_contours dropped) /\ Forall (Forall point_ok) (g_contours dropped).
Proof. split; repeat constructor; cbn; try lia. now exists (mk_point 0 0 true). Qed.
Definition triangle_path : list sk_el :=
  [SkMove (Dy 0 0, Dy 0 0); SkLine (Dy 100 0, Dy 0 0); SkQuad (Dy 100 0, Dy 100 0) (Dy 0 0, Dy 100 0); SkClose].
Example C77_ex_pictures : exists ss, pictures triangle_path ss /\ Forall (Forall plain_seg) ss /\
  skia_to_glyf triangle_path = Ok [[mk_point 0 100 true; mk_point 100 100 false; mk_point 100 0 true; mk_point 0 0 true]].
Proof.
  eexists. split; [|split; [|vm_compute; reflexivity]].
  - eapply (pictures_more _ [SkLine _; SkQuad _ _; SkClose] _ []); [|constructor]. apply rounds_line, rounds_quad, rounds_close.
  - assert (W: forall x y, fits16 x -> fits16 y -> spot16 (Dy x 0, Dy y 0)) by (intros x y X Y; exists x, y; repeat split; try apply (whole_Z x); try apply (whole_Z y); try apply X; apply Y).
    repeat constructor; apply W; unfold fits16, in_range; cbn; lia.
Qed.

(** The outline of a contour that starts off the curve is not what the simplifier
    is given: the curve has become two lines. *)
Theorem C77_off_start_refuted : exists c c' s path, rotation c c' /\ outline c' s /\ (exists a b d, In (Bent a b d) s) /\
  contour_sk c = Ok path /\ insert_explicit_oncurves c = Ok c /\ Forall (fun e => forall a b, e <> SkQuad a b) path.
Proof.
  exists [mk_point 10 10 false; mk_point 20 0 true; mk_point 0 0 true], [mk_point 20 0 true; mk_point 0 0 true; mk_point 10 10 false].
  eexists. eexists. split; [exists [mk_point 10 10 false]; eexists; split; reflexivity|].
  split; [exists (mk_point 20 0 true); eexists; split; [reflexivity|]; split; [reflexivity|]; cbn [app];
          apply strokes_line; [reflexivity|]; apply strokes_curve; [reflexivity..|]; apply strokes_end|].
  split; [eexists; eexists; eexists; right; left; reflexivity|].
  split; [vm_compute; reflexivity|]. split; [vm_compute; reflexivity|]. repeat constructor; intros; discriminate.
Qed.
Print Assumptions C77_off_start_refuted.
(** Fractions, which removing overlaps makes at crossings, are cut off: 10.75
    becomes 10. *)
Theorem C77_fraction_refuted : exists p, (val (fst p) == 43 # 4)%Q /\
  skia_to_glyf [SkMove p; SkClose] = Ok [[mk_point 10 0 true]].
Proof. exists (Dy 43 (-2), Dy 0 0). split; vm_compute; reflexivity. Qed.
Print Assumptions C77_fraction_refuted.
(** A cubic curve loses its end, and the points of what follows are mixed up. *)
Theorem C77_cubic_refuted : exists c d p q, p <> q /\
  skia_to_glyf [SkMove q; SkCubic c d p; SkLine q; SkClose] = Ok [rev [gpt true q; gpt false c; gpt true d; gpt true p]].
Proof.
  exists (Dy 1 0, Dy 0 0), (Dy 2 0, Dy 0 0), (Dy 3 0, Dy 0 0), (Dy 4 0, Dy 0 0). split; [discriminate|]. vm_compute. reflexivity.
Qed.
Print Assumptions C77_cubic_refuted.

(** *** A font with the drop as its only glyph *)
Definition glyf_loca (gs : list glyph) : list Z * list Z := match compile_glyf gs with Ok (g, l, _) => (g, l) | _ => ([], []) end.
Definition drop_font : list Z := Eval vm_compute in
  match font_to_bytes SFNT_TRUETYPE (map (fun td => (fst td, Ok (snd td)))
    [(TAG_glyf, fst (glyf_loca [dropped])); (TAG_head, PStoreEx.head_bytes); (TAG_loca, snd (glyf_loca [dropped])); (TAG_maxp, PStoreEx.maxp_bytes 1)])
  with Ok f => f | _ => [] end.
Example C77_drop_font : forall T (K0 : codecs T) hash, exists out m m' g',
  Forall is_byte drop_font /\ remove_overlaps K0 hash Some drop_font = Ok out /\ Forall is_byte out /\
  holds drop_font SFNT_TRUETYPE m /\ glyf_is m [dropped] /\ holds out SFNT_TRUETYPE m' /\
  remove_overlap Some dropped = Ok g' /\ glyf_is m' [g'].
Proof.
  intros T K0 hash. eexists. eexists. eexists. eexists. split; [apply PStoreEx.bytes_check; vm_compute; reflexivity|].
  split; [vm_compute; reflexivity|]. split; [apply PStoreEx.bytes_check; vm_compute; reflexivity|]. split; [vm_compute; reflexivity|].
  split; [|split; [vm_compute; reflexivity|split; [vm_compute; reflexivity|]]];
  (eexists; eexists; split; [eexists; eexists; split; [eexists; split; [vm_compute; reflexivity|vm_compute; reflexivity]|]; split; [vm_compute; reflexivity|vm_compute; reflexivity]|];
   split; [vm_compute; reflexivity|vm_compute; reflexivity]).
Qed.

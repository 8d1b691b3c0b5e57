(** C73: contours become paths and paths become contours. *)
From Coq Require Import QArith.
From Verif.Model Require Import MBase MFixed MFloat MGlyph MGlyf MPath.
From Verif.Spec Require Import SBase SFloat SGlyph SGlyf SPath.
From Verif.Proofs Require Import PBase PFloat PContour PPath.
Local Open Scope Z_scope.

(** Which contours can be converted. *)
Theorem C73_converts : forall c, (exists path, contour_to_path c = Ok path) <-> c <> [] /\ sums_fit c.
Proof. exact converts. Qed.
Print Assumptions C73_converts.

(** The path of a contour that starts on the curve draws exactly the contour's
    outline, up to the half units lost when implied points are made explicit. *)
Theorem C73_outline : forall c path, contour_to_path c = Ok path ->
  forall p, hd_error c = Some p -> pt_on p = true ->
  exists s segs, outline c s /\ (forall s', outline c s' -> s' = s) /\
    path_segments path = Ok segs /\ Forall2 draws segs s.
Proof. exact outline_full. Qed.
Print Assumptions C73_outline.

(** Lines and quadratic curves on whole units become a contour that draws the
    same strokes in the opposite direction. *)
Theorem C73_contour : forall to_quads p rest segs, unbroken rest ->
  path_segments (MoveTo p :: rest) = Ok segs -> spot16 p -> Forall plain_seg segs ->
  exists q l s, path_to_contour to_quads (MoveTo p :: rest) = Ok (q :: l) /\ pt_on q = true /\
    strokes (place q) l (backwards s) /\ Forall2 draws segs s.
Proof. exact back_full. Qed.
Print Assumptions C73_contour.

(** There and back: the contour with its implied points made explicit and its
    first point repeated at the end, in reverse order. *)
Theorem C73_round_trip : forall to_quads c path p, contour_to_path c = Ok path ->
  hd_error c = Some p -> pt_on p = true -> Forall point_ok c ->
  exists r, expansion c r /\ path_to_contour to_quads path = Ok (rev (r ++ [p])).
Proof. exact round_trip. Qed.
Print Assumptions C73_round_trip.

Definition ex_c : list point := [mk_point 0 0 true; mk_point 100 0 false; mk_point 100 101 false; mk_point 0 100 true].
Example C73_ex_outline : outline ex_c [Bent (0, 0) (200, 0) (200, 101); Bent (200, 101) (200, 202) (0, 200); Straight (0, 200) (0, 0)].
Proof.
  exists (mk_point 0 0 true). eexists. split; [reflexivity|]. split; [reflexivity|]. cbn [app].
  apply strokes_implied; [now split|]. apply strokes_curve; [reflexivity..|]. apply strokes_line; [reflexivity|]. constructor.
Qed.
Example C73_ex_path : contour_to_path ex_c = Ok
  [MoveTo (Dy 0 0, Dy 0 0); QuadTo (Dy 100 0, Dy 0 0) (Dy 100 0, Dy 50 0); QuadTo (Dy 100 0, Dy 101 0) (Dy 0 0, Dy 100 0);
   LineTo (Dy 0 0, Dy 0 0); ClosePath].
Proof. vm_compute. reflexivity. Qed.
Example C73_ex_back : forall tq, exists path, contour_to_path ex_c = Ok path /\ path_to_contour tq path =
  Ok [mk_point 0 0 true; mk_point 0 100 true; mk_point 100 101 false; mk_point 100 50 true; mk_point 100 0 false; mk_point 0 0 true].
Proof. intros tq. eexists. split; vm_compute; reflexivity. Qed.

(** Converting a contour and converting back never gives the contour. *)
Theorem C73_identity_refuted : forall to_quads c path p, contour_to_path c = Ok path ->
  hd_error c = Some p -> pt_on p = true -> Forall point_ok c -> path_to_contour to_quads path <> Ok c.
Proof.
  intros tq c path p E Hh On Hok H. destruct (round_trip tq c path p E Hh On Hok) as (r & He & R).
  rewrite R in H. apply Ok_inj in H. apply (f_equal (@length _)) in H. rewrite rev_length, app_length in H. cbn in H.
  assert (L: (length c <= length r)%nat) by (clear - He; induction He; cbn in *; lia). lia.
Qed.
Print Assumptions C73_identity_refuted.

(** The path of a contour that starts off the curve is not its outline: here the
    curve has become two lines. *)
Theorem C73_off_start_refuted : exists c c' s path segs, rotation c c' /\ outline c' s /\
  (exists a b d, In (Bent a b d) s) /\ contour_to_path c = Ok path /\ path_segments path = Ok segs /\
  (forall a b d, ~ In (SegQuad a b d) segs).
Proof.
  exists [mk_point 10 10 false; mk_point 20 0 true; mk_point 0 0 true], [mk_point 20 0 true; mk_point 0 0 true; mk_point 10 10 false].
  eexists. eexists. eexists. split; [exists [mk_point 10 10 false]; eexists; split; reflexivity|].
  split; [exists (mk_point 20 0 true); eexists; split; [reflexivity|]; split; [reflexivity|]; cbn [app];
          apply strokes_line; [reflexivity|]; apply strokes_curve; [reflexivity..|]; apply strokes_end|].
  split; [eexists; eexists; eexists; right; left; reflexivity|].
  split; [vm_compute; reflexivity|]. split; [vm_compute; reflexivity|].
  intros a b d [E|[E|[E|[]]]]; discriminate.
Qed.
Print Assumptions C73_off_start_refuted.

(** Fractions are cut off, not rounded: 10.75 becomes 10. *)
Theorem C73_fraction_refuted : forall to_quads, exists p, (val (fst p) == 43 # 4)%Q /\
  path_to_contour to_quads [MoveTo p] = Ok [mk_point 10 10 true].
Proof. intros tq. exists (Dy 43 (-2), Dy 43 (-2)). split; [reflexivity|vm_compute; reflexivity]. Qed.
Print Assumptions C73_fraction_refuted.

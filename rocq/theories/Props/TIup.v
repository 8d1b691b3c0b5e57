(** Property theorems: inferred deltas (C27) and dropping deltas that can be
    inferred (C28). *)
From Coq Require Import QArith Lia.
From Verif.Model Require Import MBase MFixed MFloat MFloat32 MPacked MGlyph MGlyf MIup.
From Verif.Spec Require Import SBase SGlyf SIup.
From Verif.Proofs Require PIupContour PIupWhole PIupThm.
Open Scope Z_scope.

(** ** C27: deltas of untouched points *)

(** With at least one given delta: if no 16-bit difference overflows, every point
    gets its delta - its own if given, else what the nearest given deltas before
    and after it imply; otherwise the call aborts. *)
Theorem C27_contour : forall dl cs i, length cs = length dl -> (forall d, In (Some d) dl -> i16_pair d) -> touched dl i ->
  (contour_fits dl cs -> exists r, iup_contour (given dl) cs = Ok r /\ contour_inferred dl cs r) /\
  (~ contour_fits dl cs -> iup_contour (given dl) cs = Panic).
Proof. exact PIupThm.iup_spec. Qed.
Print Assumptions C27_contour.

(** Without any given delta nothing moves. *)
Theorem C27_none_given : forall dl cs, length cs = length dl -> (forall t, ~ touched dl t) ->
  iup_contour (given dl) cs = Ok (repeat (0, 0) (length dl)).
Proof. exact PIupThm.iup_none. Qed.
Print Assumptions C27_none_given.

(** A single given delta moves the whole contour. *)
Theorem C27_one_given : forall dl cs i d, length cs = length dl -> i16_pair d -> nth_error dl i = Some (Some d) ->
  (forall t, touched dl t -> t = i) -> iup_contour (given dl) cs = Ok (repeat d (length dl)).
Proof. exact PIupThm.iup_single. Qed.
Print Assumptions C27_one_given.

(** A glyph is treated contour by contour: points never influence other contours. *)
Theorem C27_glyph : forall contours,
  Forall (fun c => length (fst c) = length (snd c) /\ fst c <> []) contours ->
  Z.of_nat (length (concat (map fst contours))) < 2 ^ 64 ->
  iup_delta (given (concat (map fst contours))) (concat (map snd contours))
    (contour_ends_of 0 (map (fun c => length (fst c)) contours))
  = (rs <- rmapM (fun c => iup_contour (given (fst c)) (snd c)) contours ;; Ok (concat rs)).
Proof. exact PIupContour.iup_delta_eq. Qed.
Print Assumptions C27_glyph.

(** Interpolated deltas are cut, not rounded: nine tenths become 0. *)
Theorem C27_rounding_refuted : exists dl cs r d, length cs = length dl /\ (forall d, In (Some d) dl -> i16_pair d) /\
  iup_contour (given dl) cs = Ok r /\ nth_error r 1 = Some d /\
  nth_error dl 0 = Some (Some (0, 0)) /\ nth_error dl 2 = Some (Some (1, 0)) /\ nth_error dl 1 = Some None /\
  nth_error cs 0 = Some (0, 0) /\ nth_error cs 1 = Some (9, 0) /\ nth_error cs 2 = Some (10, 0) /\
  fst d = 0.
Proof.
  exists [Some (0, 0); None; Some (1, 0)], [(0, 0); (9, 0); (10, 0)], [(0, 0); (0, 0); (1, 0)], (0, 0).
  repeat split; try (vm_compute; reflexivity); destruct H as [[= <-]|[[=]|[[= <-]|[]]]]; cbn; lia.
Qed.
Print Assumptions C27_rounding_refuted.

Definition ex_given : list (option (Z * Z)) := [Some (38, 27); None; Some (73, -13); None; None].
Definition ex_coords : list (Z * Z) := [(152, 284); (152, 204); (567, 204); (567, 284); (152, 284)].
Example C27_ex : length ex_coords = length ex_given /\ (forall d, In (Some d) ex_given -> i16_pair d) /\ touched ex_given 2
  /\ contour_fits ex_given ex_coords
  /\ iup_contour (given ex_given) ex_coords = Ok [(38, 27); (38, -13); (73, -13); (73, 27); (38, 27)].
Proof.
  assert (D: forall d, In (Some d) ex_given -> i16_pair d).
  { intros d [H|[H|[H|[H|[H|[]]]]]]; try discriminate; injection H as <-; unfold i16_pair; cbn; lia. }
  split; [reflexivity|]. split; [exact D|]. split; [eexists; reflexivity|]. split; [|vm_compute; reflexivity].
  apply (PIupThm.fits_safe ex_given ex_coords eq_refl 2 ltac:(eexists; reflexivity)). vm_compute. reflexivity.
Qed.
(** a difference of coordinates that does not fit: the call aborts *)
Example C27_abort_ex : iup_contour (given [Some (0, 0); None; Some (1, 0)]) [(-20000, 0); (0, 0); (20000, 0)] = Panic.
Proof. vm_compute. reflexivity. Qed.

(** ** C28: dropping deltas loses nothing *)

(** Whatever the optimizer keeps is an original delta, and inference gives back
    all the original deltas. *)
Theorem C28_contour_lossless : forall ds cs o, length cs = length ds -> Forall i16_pair ds ->
  iup_contour_optimize ds cs half = Ok o ->
  exists dl, o = given dl /\ length dl = length ds /\
    (forall t d, nth_error dl t = Some (Some d) -> nth_error ds t = Some d) /\
    iup_contour (given dl) cs = Ok ds.
Proof.
  intros ds cs o L D H. destruct (PIupWhole.optimize_sound ds cs L D o H) as (dl & -> & R). now exists dl.
Qed.
Print Assumptions C28_contour_lossless.

(** The same for the points of a glyph, phantom points included, and for a
    delta list that already has gaps. *)
Theorem C28_glyph_lossless : forall g cs ends dl o,
  gvar_coords_and_ends g = Ok (cs, ends) -> length dl = length cs -> (forall d, In (Some d) dl -> i16_pair d) ->
  optimize_deltas (given dl) g = Ok o ->
  exists xy, iup_delta (given dl) cs ends = Ok xy /\ length o = length dl /\ iup_delta o cs ends = Ok xy.
Proof.
  intros g cs ends dl o G L D H.
  assert (L': forall cs' ends', gvar_coords_and_ends g = Ok (cs', ends') -> length dl = length cs') by (intros; congruence).
  destruct (PIupWhole.optimize_deltas_lossless dl g o D L' H) as (cs' & ends' & xy & G' & R).
  rewrite G in G'. injection G' as <- <-. now exists xy.
Qed.
Print Assumptions C28_glyph_lossless.

(** Coordinates and deltas of moderate size and contours of at most 8191 points
    can always be optimized. *)
Theorem C28_succeeds : forall g cs ends xy,
  gvar_coords_and_ends g = Ok (cs, ends) -> Z.of_nat (length cs) < 2 ^ 64 ->
  length xy = length cs -> Forall small_pair xy -> Forall small_pair cs ->
  Forall (fun c => 1 <= Z.of_nat (length c) <= 8191) (g_contours g) ->
  exists o, optimize_deltas (given (map Some xy)) g = Ok o.
Proof. exact PIupThm.optimize_glyph_runs. Qed.
Print Assumptions C28_succeeds.

(** The search loop never runs out of the turns the model allows it. *)
Theorem C28_search_complete : forall ds cs forced tol i lo f f' j best costs chain,
  (Z.to_nat (j - lo) <= f)%nat -> (f <= f')%nat ->
  dp_inner ds cs forced tol i lo f j best costs chain = dp_inner ds cs forced tol i lo f' j best costs chain.
Proof. intros ds cs forced tol i lo f f' j best costs chain. apply PIupWhole.dp_inner_fuel. Qed.
Print Assumptions C28_search_complete.

(** A glyph with an empty contour after another one cannot be optimized. *)
Theorem C28_empty_contour_refuted : exists g cs ends xy,
  gvar_coords_and_ends g = Ok (cs, ends) /\ length xy = length cs /\ Forall small_pair xy /\ Forall small_pair cs /\
  optimize_deltas (given (map Some xy)) g = Panic.
Proof.
  exists (mk_glyph 0 0 0 0 [[mk_point 0 0 true]; []] [] [] false), (repeat (0, 0) 5), [0; 0; 1; 2; 3; 4], (repeat (1, 2) 5).
  split; [vm_compute; reflexivity|]. split; [reflexivity|].
  split; [repeat apply Forall_cons; try apply Forall_nil; unfold small_pair; cbn; lia|].
  split; [repeat apply Forall_cons; try apply Forall_nil; unfold small_pair; cbn; lia|]. vm_compute. reflexivity.
Qed.
Print Assumptions C28_empty_contour_refuted.

Definition ex_deltas : list (Z * Z) := [(38, 27); (38, -13); (73, -13); (73, 27); (38, 27)].
Example C28_ex : Forall i16_pair ex_deltas /\ iup_contour_optimize ex_deltas ex_coords half = Ok (given ex_given).
Proof.
  split; [repeat apply Forall_cons; try apply Forall_nil; unfold i16_pair; cbn; lia|]. vm_compute. reflexivity.
Qed.
Definition ex_glyph : glyph :=
  mk_glyph 0 0 0 0 [map (fun p => mk_point (fst p) (snd p) true) ex_coords] [] [] false.
Example C28_glyph_ex : gvar_coords_and_ends ex_glyph = Ok (ex_coords ++ repeat (0, 0) 4, [4; 5; 6; 7; 8]) /\
  Forall (fun c => 1 <= Z.of_nat (length c) <= 8191) (g_contours ex_glyph) /\
  optimize_deltas (given (map Some (ex_deltas ++ [(0, 0); (10, 0); (0, 0); (0, 0)]))) ex_glyph
  = Ok (given (ex_given ++ [None; Some (10, 0); None; None])).
Proof. split; [vm_compute; reflexivity|]. split; [repeat constructor; cbn; lia|vm_compute; reflexivity]. Qed.

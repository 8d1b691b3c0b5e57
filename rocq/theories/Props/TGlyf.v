(** Property theorems: the glyf table (C16, C22, C23, C52, C56, C57, C58). *)
From Coq Require Import QArith Lia.
From Verif.Model Require Import MBase MFixed MFloat MTables MMetrics MGlyph MGlyf.
From Verif.Spec Require Import SBase SReader SMetrics SFloat SGlyph SGlyf.
From Verif.Proofs Require PContour PGlyf PAffine PCompile.
Open Scope Z_scope.

(** ** C16: compiled tables *)

Theorem C16_compiled_tables : forall gs glyf_bytes loca_bytes is32,
  compile_glyf gs = Ok (glyf_bytes, loca_bytes, is32) ->
  exists offs, length offs = S (length gs) /\
    length loca_bytes = (length offs * (if is32 then 4 else 2))%nat /\
    (forall i a, nth_error offs i = Some a ->
       loca_entry is32 loca_bytes i a /\ 0 <= a <= Z.of_nat (length glyf_bytes)) /\
    (forall i g a b, nth_error gs i = Some g -> nth_error offs i = Some a -> nth_error offs (S i) = Some b ->
       a <= b /\ placed glyf_bytes g a b) /\
    (is32 = true <-> 65535 < Z.of_nat (length glyf_bytes)).
Proof. exact PCompile.compile_addressable. Qed.
Print Assumptions C16_compiled_tables.

(** Compilation succeeds when every glyph can be written and the padded total
    is below 4 GiB. *)
Theorem C16_compile_total : forall gs bss, Forall2 (fun g bs => ser_glyph g = Ok bs) gs bss ->
  padded_total (map (@length Z) bss) < 4294967296 -> exists r, compile_glyf gs = Ok r.
Proof. exact PCompile.compile_glyf_total. Qed.
Print Assumptions C16_compile_total.

(** Compile, then read both tables: the same glyphs. *)
Theorem C16_save_reload : forall gs, Forall glyph_fine gs ->
  (forall bss, Forall2 (fun g bs => ser_glyph g = Ok bs) gs bss -> padded_total (map (@length Z) bss) < 4294967296) ->
  exists glyf_bytes loca_bytes is32 idx gs', compile_glyf gs = Ok (glyf_bytes, loca_bytes, is32) /\
    from_bytes (de_loca is32) loca_bytes = Ok idx /\ de_glyf glyf_bytes idx = Ok gs' /\ Forall2 glyph_same gs gs'.
Proof. exact PCompile.save_reload. Qed.
Print Assumptions C16_save_reload.

Definition tri : glyph := mk_glyph 0 100 0 90 [[mk_point 0 0 true; mk_point 100 0 true; mk_point 50 90 false]] [] [] false.
Definition ident_at (x y : Z) : affine := mk_affine dy1 dy0 dy0 dy1 (dy_of_Z x) (dy_of_Z y).
Definition two_tri : glyph :=
  mk_glyph 0 0 0 0 [] [] [mk_comp 0 (ident_at 0 0) None 0; mk_comp 0 (ident_at 300 (-7)) None 0] false.
Example C16_ex : exists buf loca idx gs',
  compile_glyf [tri; empty_glyph; two_tri; empty_glyph] = Ok (buf, loca, false) /\
  from_bytes (de_loca false) loca = Ok idx /\ idx = [Some 0; None; Some 20; None] /\ de_glyf buf idx = Ok gs' /\
  nth_error gs' 0 = Some tri /\ length buf = 44%nat.
Proof.
  eexists. eexists. eexists. eexists. split; [vm_compute; reflexivity|]. split; [vm_compute; reflexivity|].
  split; [reflexivity|]. split; [vm_compute; reflexivity|]. split; reflexivity.
Qed.

(** ** C22: explicit on-curve points *)

(** The result is the contour with midpoints put in between neighbouring
    off-curve points; it is produced exactly for non-empty contours whose
    sums of neighbouring off-curve coordinates fit 16 bits. *)
Theorem C22_insert_oncurves : forall c,
  ((exists r, insert_explicit_oncurves c = Ok r) <-> c <> [] /\ sums_fit c) /\
  forall r, insert_explicit_oncurves c = Ok r ->
    expansion c r /\ forall p q, neighbours r p q -> ~ both_off p q.
Proof. exact PContour.insert_full. Qed.
Print Assumptions C22_insert_oncurves.

Example C22_ex : insert_explicit_oncurves [mk_point 0 0 true; mk_point 10 0 false; mk_point 13 9 false; mk_point 7 7 true]
  = Ok [mk_point 0 0 true; mk_point 10 0 false; mk_point 11 4 true; mk_point 13 9 false; mk_point 7 7 true].
Proof. reflexivity. Qed.

(** An empty contour aborts. *)
Theorem C22_empty_refuted : insert_explicit_oncurves [] = Panic.
Proof. reflexivity. Qed.
Print Assumptions C22_empty_refuted.
(** Points of ordinary 16-bit coordinates abort when their sum does not fit. *)
Theorem C22_overflow_refuted : exists c, Forall point_ok c /\ c <> [] /\ insert_explicit_oncurves c = Panic.
Proof.
  exists [mk_point 20000 0 false; mk_point 20000 5 false]. split; [|split; [discriminate|reflexivity]].
  repeat constructor; cbn; discriminate.
Qed.
Print Assumptions C22_overflow_refuted.
(** A contour is closed, but the pair (last point, first point) is not treated:
    two adjacent off-curve points can remain. *)
Theorem C22_wraparound_refuted : exists c r first last, insert_explicit_oncurves c = Ok r /\
  nth_error r 0 = Some first /\ nth_error r (length r - 1) = Some last /\ (length r > 1)%nat /\ both_off last first.
Proof.
  exists [mk_point 0 0 false; mk_point 10 0 true; mk_point 10 10 false].
  eexists. eexists. eexists. split; [reflexivity|]. split; [reflexivity|]. split; [reflexivity|].
  split; [repeat constructor|split; reflexivity].
Qed.
Print Assumptions C22_wraparound_refuted.

(** ** C56: implied on-curve points *)

(** Only implied points are dropped, one after the other, and none is left. *)
Theorem C56_remove_implied : forall c,
  (off_sums_fit c -> exists r, remove_implied_oncurves c = Ok r) /\
  (forall r, remove_implied_oncurves c = Ok r -> drops c r /\ forall i, ~ implied r i).
Proof. exact PContour.remove_full. Qed.
Print Assumptions C56_remove_implied.

(** Inserting and removing again gives back every contour without implied points. *)
Theorem C56_insert_remove : forall c, c <> [] -> (forall i, ~ implied c i) -> off_sums_fit c ->
  exists r, insert_explicit_oncurves c = Ok r /\ remove_implied_oncurves r = Ok c.
Proof. exact PContour.insert_remove_full. Qed.
Print Assumptions C56_insert_remove.

(** The other way round fails at the seam of the contour: an implied point
    between the last and the first point is removed and not put back. *)
Theorem C56_remove_insert_refuted : exists c r r', remove_implied_oncurves c = Ok r /\
  insert_explicit_oncurves r = Ok r' /\ (length r' < length c)%nat.
Proof.
  exists [mk_point 5 5 true; mk_point 10 10 false; mk_point 7 3 true; mk_point 0 0 false]. eexists. eexists.
  split; [reflexivity|]. split; [reflexivity|]. cbn. repeat constructor.
Qed.
Print Assumptions C56_remove_insert_refuted.

Example C56_ex : let c := [mk_point 0 0 false; mk_point 10 0 false; mk_point 13 9 false; mk_point 7 7 true] in
  remove_implied_oncurves [mk_point 0 0 false; mk_point 5 0 true; mk_point 10 0 false; mk_point 11 4 true;
    mk_point 13 9 false; mk_point 7 7 true] = Ok c.
Proof. reflexivity. Qed.

(** ** C23: flattening *)

(** With valid references flattening always ends; every component left refers
    to a simple glyph; up to 65 levels it is the exact flattening. *)
Theorem C23_flatten : forall gs, Forall (refs_valid gs) gs ->
  exists gs', flatten_components gs = Ok gs' /\
    Forall2 (fun g g' =>
      g_contours g' = g_contours g /\ g_instr g' = g_instr g /\ g_overlap g' = g_overlap g /\
      Forall (fun c => exists t, target gs c t /\ g_comps t = []) (g_comps g') /\
      (nested gs 65 (g_comps g) -> flat gs (g_comps g) (g_comps g'))) gs gs'.
Proof. exact PGlyf.flatten_components_full. Qed.
Print Assumptions C23_flatten.

(** The flattening is unique. *)
Theorem C23_flat_unique : forall gs cs r r', flat gs cs r -> flat gs cs r' -> r = r'.
Proof. intros gs cs r r' H H'. exact (PGlyf.flat_fun gs cs r H r' H'). Qed.
Print Assumptions C23_flat_unique.

(** For transforms as stored in a font, the combined transform of an outer and
    an inner component is exactly the inner one followed by the outer one. *)
Theorem C23_composition : forall s t, format_transform s -> format_transform t ->
  forall p q r, moves t p q -> moves s q r -> moves (aff_mul s t) p r.
Proof. exact PAffine.compose_exact. Qed.
Print Assumptions C23_composition.

Example C23_ex : let nest := mk_glyph 0 0 0 0 [] [] [mk_comp 1 (ident_at 5 6) None 0; mk_comp 0 (ident_at 1 2) None 0] false in
  exists gs', flatten_components [tri; two_tri; nest] = Ok gs' /\
    option_map (fun g => map (fun c => (cp_glyph c, dy_trunc (af_e (cp_trans c)), dy_trunc (af_f (cp_trans c)))) (g_comps g))
      (nth_error gs' 2) = Some [(0, 5, 6); (0, 305, -1); (0, 1, 2)].
Proof. eexists. split; vm_compute; reflexivity. Qed.

(** Beyond 65 levels components disappear silently although the set is acyclic. *)
Definition chain : list glyph :=
  tri :: map (fun k => mk_glyph 0 0 0 0 [] [] [mk_comp (Z.of_nat k) (ident_at 0 0) None 0] false) (seq 0 66).
Theorem C23_depth_refuted : exists gs g r, nth_error gs 66 = Some g /\
  flat gs (g_comps g) r /\ r <> [] /\ flat_components gs g = Ok [].
Proof.
  assert (H: forall k, (k < 66)%nat -> exists r, r <> [] /\ flat chain [mk_comp (Z.of_nat k) (ident_at 0 0) None 0] r).
  { induction k as [|k IH]; intros Hk.
    - exists [mk_comp 0 (ident_at 0 0) None 0]. split; [discriminate|].
      eapply flat_simple; [reflexivity|reflexivity|apply flat_nil].
    - destruct IH as (r & Hr & Hf); [lia|]. 
      exists (map (through (mk_comp (Z.of_nat (S k)) (ident_at 0 0) None 0)) r ++ []). split.
      + destruct r; [congruence|discriminate].
      + apply (flat_deep _ _ _ (mk_glyph 0 0 0 0 [] [] [mk_comp (Z.of_nat k) (ident_at 0 0) None 0] false));
          [|discriminate|exact Hf|apply flat_nil].
        unfold target. cbn [cp_glyph]. rewrite Nat2Z.id. unfold chain. cbn [nth_error].
        rewrite nth_error_map. rewrite (nth_error_nth' _ 0%nat) by (rewrite seq_length; lia).
        rewrite seq_nth by lia. reflexivity. }
  destruct (H 65%nat) as (r & Hr & Hf); [lia|].
  exists chain. eexists. exists r. split; [reflexivity|]. split; [exact Hf|]. split; [exact Hr|].
  vm_compute; reflexivity.
Qed.
Print Assumptions C23_depth_refuted.

(** A reference to a missing glyph aborts. *)
Theorem C23_missing_refuted : exists gs, flatten_components gs = Panic.
Proof. exists [tri; mk_glyph 0 0 0 0 [] [] [mk_comp 7 (ident_at 0 0) None 0] false]. vm_compute. reflexivity. Qed.
Print Assumptions C23_missing_refuted.

(** A glyph that uses itself twice is caught by the depth limit only after
    2^66 - 2 component visits: in practice flattening does not end. *)
Theorem C23_cost_refuted : exists gs g, Forall (refs_valid gs) gs /\ In g gs /\
  visits 65 gs (g_comps g) = 2 ^ 66 - 2.
Proof.
  exists [PGlyf.twice 0], (PGlyf.twice 0). split; [|split; [now left|exact (PGlyf.visits_self 65)]].
  repeat constructor; exists (PGlyf.twice 0); reflexivity.
Qed.
Print Assumptions C23_cost_refuted.

(** ** C52: bounding boxes *)

Theorem C52_total : forall gs, Forall (refs_valid gs) gs -> exists gs', recalc_bounds gs = Ok gs'.
Proof. exact PAffine.recalc_total. Qed.
Print Assumptions C52_total.

(** Simple glyphs: every point is inside, every side is touched. *)
Theorem C52_simple : forall gs gs', recalc_bounds gs = Ok gs' -> forall i g', nth_error gs' i = Some g' ->
  g_comps g' = [] -> let pts := concat (g_contours g') in
  (forall p, In p pts -> in_box g' p) /\ (pts <> [] -> box_touched g' pts) /\
  (pts = [] -> g_xMin g' = 0 /\ g_xMax g' = 0 /\ g_yMin g' = 0 /\ g_yMax g' = 0).
Proof. exact PAffine.recalc_simple. Qed.
Print Assumptions C52_simple.

(** Composite glyphs without a use-my-metrics component: every point of the
    decomposed outline is inside, and the decomposition is complete because
    all components refer to simple glyphs. *)
Theorem C52_composite : forall gs gs', recalc_bounds gs = Ok gs' -> forall i g', nth_error gs' i = Some g' ->
  g_comps g' <> [] -> g_contours g' = [] -> (forall c, In c (g_comps g') -> ~ my_metrics c) ->
  (forall c, In c (g_comps g') -> exists t, target gs' c t /\ g_comps t = []) /\
  forall p, In p (concat (g_contours (decompose g' gs'))) -> in_box g' p.
Proof. exact PAffine.recalc_composite. Qed.
Print Assumptions C52_composite.

Example C52_ex : exists gs', recalc_bounds [tri; two_tri] = Ok gs' /\
  option_map (fun g => (g_xMin g, g_yMin g, g_xMax g, g_yMax g)) (nth_error gs' 1) = Some (0, -7, 400, 90).
Proof. eexists. split; vm_compute; reflexivity. Qed.

(** With a use-my-metrics component the box is that component's own,
    untransformed box, and points can lie outside. *)
Theorem C52_metrics_refuted : exists gs gs' g' p, recalc_bounds gs = Ok gs' /\ nth_error gs' 1 = Some g' /\
  g_contours g' = [] /\ In p (concat (g_contours (decompose g' gs'))) /\ ~ in_box g' p.
Proof.
  exists [tri; mk_glyph 0 0 0 0 [] [] [mk_comp 0 (ident_at 300 0) None 512] false].
  eexists. eexists. exists (mk_point 400 0 true).
  split; [vm_compute; reflexivity|]. split; [reflexivity|]. split; [reflexivity|].
  split; [vm_compute; auto|]. unfold in_box. vm_compute. intros [[_ H] _]. apply H. reflexivity.
Qed.
Print Assumptions C52_metrics_refuted.

(** ** C57: maxp statistics *)

(** For sets without cycles whose statistics fit 16 bits, the recorded
    numbers are the true ones.  [fuel] bounds the recursion depth. *)
Theorem C57_maxp_statistics : forall gs n fuel, (n <= fuel)%nat ->
  Forall (fun g => nested gs n (g_comps g)) gs ->
  Z.of_nat (length gs) <= 65535 ->
  Forall (fun g => num_points g <= 65535 /\ num_contours g <= 65535 /\ Z.of_nat (length (g_comps g)) <= 65535) gs ->
  (forall g np nc md, In g gs -> counted gs (g_comps g) 1 np nc md -> np <= 65535 /\ nc <= 65535 /\ md <= 65535) ->
  exists infos m, as_maxp10 fuel gs = Ok (mk_maxp 65536 (Maxp10 m)) /\
    Forall2 (fun g x => counted gs (g_comps g) 1 (fst (fst x)) (snd (fst x)) (snd x)) (filter has_components gs) infos /\
    m10_numGlyphs m = Z.of_nat (length gs) /\
    is_max (map num_points gs) (m10_maxPoints m) /\ is_max (map num_contours gs) (m10_maxContours m) /\
    is_max (map (fun x => fst (fst x)) infos) (m10_maxCompositePoints m) /\
    is_max (map (fun x => snd (fst x)) infos) (m10_maxCompositeContours m) /\
    is_max (map (fun g => Z.of_nat (length (g_comps g))) gs) (m10_maxComponentElements m) /\
    is_max (map (fun x => snd x) infos) (m10_maxComponentDepth m).
Proof. exact PCompile.maxp_stats. Qed.
Print Assumptions C57_maxp_statistics.

Example C57_ex : let gs := [tri; two_tri; empty_glyph] in
  Forall (fun g => nested gs 1 (g_comps g)) gs /\
  exists m, as_maxp10 1 gs = Ok (mk_maxp 65536 (Maxp10 m)) /\ m10_maxCompositePoints m = 6 /\ m10_maxComponentDepth m = 1.
Proof.
  cbv zeta. split.
  - assert (H: forall n, nested [tri; two_tri; empty_glyph] n (g_comps tri)) by (intros; apply nested_nil).
    constructor; [apply H|]. constructor; [|constructor; [apply nested_nil|constructor]].
    do 2 (eapply nested_cons; [reflexivity|apply H|]). apply nested_nil.
  - eexists. split; [vm_compute; reflexivity|]. split; reflexivity.
Qed.

(** A glyph that contains itself: the recursion never ends (a stack overflow). *)
Theorem C57_cycle_refuted : exists gs, Forall (refs_valid gs) gs /\ forall fuel, as_maxp10 fuel gs = Panic.
Proof.
  set (g := mk_glyph 0 0 0 0 [] [] [mk_comp 0 (ident_at 0 0) None 0] false).
  exists [g]. split; [repeat constructor; exists g; reflexivity|].
  assert (H: forall fuel d, composite_values fuel [g] (g_comps g) d = Panic).
  { induction fuel as [|k IH]; intros d; [reflexivity|].
    change (composite_values (S k) [g] (g_comps g) d)
      with (d' <- chk_u 16 (d + 1) ;; ' (np2, nc2, md2) <- composite_values k [g] (g_comps g) d' ;;
            np' <- chk_u 16 (0 + np2) ;; nc' <- chk_u 16 (0 + nc2) ;; Ok (np', nc', Z.max d md2)).
    unfold chk_u at 1. destruct (_ && _); cbn [rbind]; [|reflexivity]. rewrite IH. reflexivity. }
  intros fuel. unfold as_maxp10. cbn [filter has_components g_comps g is_nil negb rmapM]. fold g.
  change [mk_comp 0 (ident_at 0 0) None 0] with (g_comps g). rewrite H. reflexivity.
Qed.
Print Assumptions C57_cycle_refuted.

(** ** C58: points and contour ends handed to the variation tables *)

Theorem C58_gvar_coords : forall g, Z.of_nat (length (concat (g_contours g))) < 2 ^ 64 ->
  let groups := map (fun c => Z.of_nat (length c)) (g_contours g) ++ repeat 1 (length (g_comps g) + 4) in
  (match g_contours g with [] => True | c :: _ => c <> [] end ->
   gvar_coords_and_ends g = Ok
     (map (fun p => (pt_x p, pt_y p)) (concat (g_contours g))
      ++ map (fun c => (f_as_i16 (af_e (cp_trans c)), f_as_i16 (af_f (cp_trans c)))) (g_comps g)
      ++ [(0, 0); (0, 0); (0, 0); (0, 0)], running 0 groups)) /\
  (match g_contours g with [] => False | c :: _ => c = [] end -> gvar_coords_and_ends g = Panic).
Proof. exact PCompile.gvar_ends. Qed.
Print Assumptions C58_gvar_coords.

Example C58_ex : option_map snd (match gvar_coords_and_ends (mk_glyph 0 0 0 0 [[pt0; pt0; pt0]; [pt0]] [] (g_comps two_tri) false) with Ok x => Some x | _ => None end)
  = Some [2; 3; 4; 5; 6; 7; 8; 9].
Proof. vm_compute. reflexivity. Qed.

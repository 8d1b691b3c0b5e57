(** C74: the curves fontcrunch chooses for a run. *)
From Coq Require Import QArith Qabs.
From Verif.Model Require Import MBase MFixed MFloat MFloat32 MGlyph MGlyf MPath MIup MCrunch.
From Verif.Spec Require Import SBase SFloat SGlyph SGlyf SPath SCrunch.
From Verif.Proofs Require Import PBase PFloat PFloat32 PPath PCrunch PCrunchGrid PBreaks PCross.
Local Open Scope Z_scope.

(** The candidate break points are found for every run; they lie on half units,
    beside the curve, in order and each at another place than the one before;
    the first lies at the start of the run and the last at its end. *)
Theorem C74_breaks : forall hypot t, well_sampled t -> exists breaks,
  find_breaks hypot t = Ok (Some breaks) /\
  (forall measure penalty, thetas_optimize hypot t measure penalty = optimize measure penalty breaks) /\
  (forall b, In b breaks -> on_grid (bk_xy b) /\ beside (th_xys t) (val (bk_s b)) (bk_xy b)) /\
  strung breaks /\
  (exists b, hd_error breaks = Some b /\ beside (th_xys t) 0 (bk_xy b)) /\
  (exists b s, hd_error (rev breaks) = Some b /\ (Qabs (s - val (th_arclen t)) <= 1 # 1000000)%Q /\ beside (th_xys t) s (bk_xy b)).
Proof.
  intros hypot t W. destruct (find_breaks_spec hypot t W) as (breaks & E & H). exists breaks. split; [exact E|]. split; [|exact H].
  intros measure penalty. unfold thetas_optimize. destruct (count_spec hypot t W) as [Hn _]. destruct (Z.eqb_spec (sample_count t) 0) as [X|_]; [rewrite X in Hn; lia|].
  now rewrite E.
Qed.
Print Assumptions C74_breaks.

(** The dynamic program gives up exactly if the run does not start on whole
    units.  Otherwise its curves lead from the first break to the last; each is
    a line from whole units or a curve with its control point on whole units,
    and they meet on whole units or smoothly.  They cost no more than one line
    or one curve for the whole run and, if they cost more than four penalties,
    no more than any polygon through breaks on whole units. *)
Theorem C74_chosen : forall measure penalty breaks b0 b1, (2 <= length breaks)%nat ->
  Forall (fun b => on_grid (bk_xy b)) breaks ->
  nth_error breaks 0 = Some b0 -> nth_error breaks (length breaks - 1) = Some b1 ->
  (~ whole (bk_xy b0) /\ optimize measure penalty breaks = Ok None) \/
  (whole (bk_xy b0) /\ exists qs, optimize measure penalty breaks = Ok (Some qs) /\
    (Forall tame qs -> exists l, qs = map snd l /\ route breaks (length breaks - 1) l /\
       (forall q, q = straight b0 b1 \/ curved b0 b1 = Some q ->
          val (cost measure penalty l) <= val (cost measure penalty [stretch_of b0 b1 q]))%Q /\
       ((val (f64_mul (Dy 3 0) penalty) < val (cost measure penalty l))%Q ->
        (val (f64_mul (Dy 4 0) penalty) < val (cost measure penalty l))%Q ->
        forall ix, climbs 0 ix (length breaks - 1) ->
          (forall k b, In k ix -> (k < length breaks - 1)%nat -> nth_error breaks k = Some b -> whole (bk_xy b)) ->
          (val (cost measure penalty l) <= val (cost measure penalty (polygon breaks ix)))%Q))).
Proof. exact chosen. Qed.
Print Assumptions C74_chosen.

(** The control point of a curve is where the tangents at its ends cross. *)
Theorem C74_crossing : forall p0 d0 p1 d1,
  coarse (fst p0) -> coarse (snd p0) -> coarse (fst p1) -> coarse (snd p1) ->
  fine (fst d0) -> fine (snd d0) -> fine (fst d1) -> fine (snd d1) ->
  match intersect p0 d0 p1 d1 with
  | None => parallel d0 d1
  | Some m => ~ parallel d0 d1 /\ exists x y, on_line p0 d0 x y /\ on_line p1 d1 x y /\
      (Qabs (val (fst m) - x) <= Qabs x * (1 # 2 ^ 51) /\ Qabs (val (snd m) - y) <= Qabs y * (1 # 2 ^ 51))%Q
  end.
Proof. exact crossing. Qed.
Print Assumptions C74_crossing.

(** A quarter of a circle in four steps, lines being bad. *)
Definition bx (s x y dx dy : Z) : brk := mk_brk (dy_of_Z s) (Dy x (-1), Dy y (-1)) (Dy dx (-10), Dy dy (-10)).
Definition ex_breaks : list brk := [bx 0 0 0 1024 0; bx 39 76 15 946 391; bx 78 141 59 724 724; bx 117 185 124 391 946; bx 157 200 200 0 1024].
Definition ex_measure (s0 s1 : dyadic) (q : quad) : dyadic := let d := f64_sub s1 s0 in f64_mul (if is_line q then Dy 1 0 else Dy 1 (-12)) (f64_mul d d).
Example C74_ex_grid : Forall (fun b => on_grid (bk_xy b)) ex_breaks.
Proof.
  assert (H: forall z, Z.abs z <= 2 ^ 40 -> half_unit (Dy z (-1))).
  { intros z B. exists z. split; [|exact B]. rewrite val_Dy. change (Qpower 2 (-1)) with (1 # 2)%Q. unfold Qeq, Qmult, inject_Z; cbn [Qnum Qden]. lia. }
  repeat (apply Forall_cons; [split; apply H; vm_compute; discriminate|]). apply Forall_nil.
Qed.
Example C74_ex_chosen : optimize ex_measure (Dy 1 0) ex_breaks = Ok (Some
  [mk_quad (Dy 0 (-1), Dy 0 (-1)) (Dy 41 0, Dy 0 0) (Dy 141 (-1), Dy 59 (-1)); mk_quad (Dy 141 (-1), Dy 59 (-1)) (Dy 100 0, Dy 59 0) (Dy 200 (-1), Dy 200 (-1))]).
Proof. vm_compute. reflexivity. Qed.
Example C74_ex_tame : forall qs, optimize ex_measure (Dy 1 0) ex_breaks = Ok (Some qs) -> Forall tame qs.
Proof. intros qs E. rewrite C74_ex_chosen in E. injection E as <-. repeat constructor; vm_compute; discriminate. Qed.
Example C74_ex_crossing : exists m, intersect (Dy 0 0, Dy 0 0) (Dy 1 0, Dy 0 0) (Dy 100 0, Dy 100 0) (Dy 0 0, Dy 1 0) = Some m /\ same_place m (Dy 100 0, Dy 0 0).
Proof. eexists. split; [vm_compute; reflexivity|]. split; vm_compute; reflexivity. Qed.

(** A straight run one unit long, and [hypot] for horizontal distances. *)
Definition line1 : thetas := mk_thetas (map (fun i => (dy_of_Z i, Dy 0 0)) [0; 1; 2]) (map (fun i => (Dy 1 0, Dy 0 0)) [0; 1; 2]) (Dy 1 0).
Example C74_ex_sampled : well_sampled line1.
Proof. split; [repeat constructor; vm_compute; discriminate|]. split; [reflexivity|]. split; [split|]; vm_compute; discriminate. Qed.

(** Among the samples rounded to one place the nearest is not kept: the distance
    compared with is that of the first sample, not of the one kept. *)
Theorem C74_nearest_refuted : exists t breaks b i o o', well_sampled t /\ find_breaks (fun x _ => dy_abs x) t = Ok (Some breaks) /\
  In b breaks /\ along (th_xys t) (bk_s b) = Ok o /\
  0 <= i <= sample_count t /\ along (th_xys t) (sample_at t (sample_count t) i) = Ok o' /\
  same_place (kp_half_step o') (bk_xy b) /\
  (val (snd o) == val (snd (bk_xy b)) /\ val (snd o') == val (snd (bk_xy b)) /\
   Qabs (val (fst o') - val (fst (bk_xy b))) == 0 /\ 1 # 10 < Qabs (val (fst o) - val (fst (bk_xy b))))%Q.
Proof.
  exists line1. eexists. exists (mk_brk (sample_at line1 10 7) (half_step (sample_at line1 10 7), half_step (Dy 0 0)) (kp_lerp (Dy 1 0, Dy 0 0) (Dy 1 0, Dy 0 0) (sample_at line1 10 7))).
  exists 5. eexists. eexists. split; [exact C74_ex_sampled|]. split; [vm_compute; reflexivity|]. split; [vm_compute; auto|].
  split; [vm_compute; reflexivity|]. split; [vm_compute; split; discriminate|]. split; [vm_compute; reflexivity|].
  split; [split; vm_compute; reflexivity|]. split; [vm_compute; reflexivity|]. split; [vm_compute; reflexivity|]. split; vm_compute; reflexivity.
Qed.
Print Assumptions C74_nearest_refuted.

(** Specification of fontcrunch. *)
From Coq Require Import QArith Qabs.
From Verif.Model Require Import MBase MFixed MFloat MFloat32 MGlyph MGlyf MPath MCrunch.
From Verif.Spec Require Import SBase SFloat SGlyph SGlyf SPath.
Local Open Scope Z_scope.

(** ** Positions, as exact numbers *)
(** [p] lies on whole units; on half units, within a wide square. *)
Definition whole (p : kpoint) : Prop := exists x y, is_whole (fst p) x /\ is_whole (snd p) y.
Definition half_unit (v : dyadic) : Prop := exists z, (val v == z # 2)%Q /\ Z.abs z <= 2 ^ 40.
Definition on_grid (p : kpoint) : Prop := half_unit (fst p) /\ half_unit (snd p).
(** [m] is the middle of [a] and [b]. *)
Definition mid_val (a b m : dyadic) : Prop := (2 * val m == val a + val b)%Q.
Definition halfway (a b m : kpoint) : Prop := mid_val (fst a) (fst b) (fst m) /\ mid_val (snd a) (snd b) (snd m).
(** A curve whose control point is the middle of its ends is a straight line. *)
Definition flat (q : quad) : Prop := halfway (q_p0 q) (q_p2 q) (q_p1 q).

(** ** The curves chosen for a run

    [breaks] are the places where curves may meet.  A piece from one break to
    another is a straight line from a point on whole units, or a curve whose
    control point lies on whole units. *)
Inductive piece (b0 b1 : brk) : quad -> Prop :=
| piece_line q : q_p0 q = bk_xy b0 -> q_p2 q = bk_xy b1 -> whole (bk_xy b0) -> flat q -> piece b0 b1 q
| piece_curve q : q_p0 q = bk_xy b0 -> q_p2 q = bk_xy b1 -> whole (q_p1 q) -> piece b0 b1 q.
(** Two pieces may meet on whole units, or, between two proper curves, where a
    TrueType contour has an implied point anyway. *)
Definition meets (p q : quad) : Prop :=
  whole (q_p0 q) \/ ~ flat p /\ ~ flat q /\ halfway (q_p1 p) (q_p1 q) (q_p0 q).
(** A piece with the stretch of the outline it stands for. *)
Definition stretch := (dyadic * dyadic * quad)%type.
Definition stretch_of (b0 b1 : brk) (q : quad) : stretch := (bk_s b0, bk_s b1, q).
(** [route breaks i l]: the pieces [l] lead from the first break to break
    number [i], visiting breaks in increasing order. *)
Inductive route (breaks : list brk) : nat -> list stretch -> Prop :=
| route_one i q b0 b1 : (0 < i)%nat -> nth_error breaks 0 = Some b0 -> nth_error breaks i = Some b1 ->
    whole (bk_xy b0) -> piece b0 b1 q -> route breaks i [stretch_of b0 b1 q]
| route_more i j l x q b0 b1 : route breaks i (l ++ [x]) -> (i < j)%nat ->
    nth_error breaks i = Some b0 -> nth_error breaks j = Some b1 ->
    piece b0 b1 q -> meets (snd x) q -> route breaks j (l ++ [x; stretch_of b0 b1 q]).

(** What the pieces cost (in f64): for each piece, the penalty if it is a line
    or joins the piece before smoothly, twice the penalty if not, and its error. *)
Fixpoint cost_from (measure : dyadic -> dyadic -> quad -> dyadic) (penalty : dyadic) (acc : dyadic) (prev : option quad)
    (l : list stretch) : dyadic :=
  match l with
  | [] => acc
  | (s0, s1, q) :: l' =>
      let m := if is_line q || match prev with Some p => smooth p q | None => false end then Dy 1 0 else Dy 2 0 in
      cost_from measure penalty (f64_add (f64_add acc (f64_mul penalty m)) (measure s0 s1 q)) (Some q) l'
  end.
Definition cost measure penalty (l : list stretch) : dyadic := cost_from measure penalty f_0 None l.
(** The polygon through the breaks with these numbers. *)
Fixpoint polygon (breaks : list brk) (ix : list nat) : list stretch :=
  match ix with
  | [] => []
  | i :: r =>
      match r with
      | [] => []
      | j :: _ =>
          let b0 := nth i breaks brk0 in
          let b1 := nth j breaks brk0 in
          stretch_of b0 b1 (straight b0 b1) :: polygon breaks r
      end
  end.
(** Numbers that increase from 0 to [n]. *)
Inductive climbs : nat -> list nat -> nat -> Prop :=
| climbs_end i : climbs i [i] i
| climbs_step i j r n : (i < j)%nat -> climbs j r n -> climbs i (i :: r) n.
(** The control point is not absurdly far away. *)
Definition tame (q : quad) : Prop := (Qabs (val (fst (q_p1 q))) <= inject_Z (2 ^ 40))%Q /\ (Qabs (val (snd (q_p1 q))) <= inject_Z (2 ^ 40))%Q.

(** ** Candidate break points *)
(** A run of curves, sampled at every whole distance along it until two units
    past its end; it is between a tenth of a unit and 2^27 units long. *)
Definition well_sampled (t : thetas) : Prop :=
  Forall (fun p => Qabs (val (fst p)) <= inject_Z (2 ^ 26) /\ Qabs (val (snd p)) <= inject_Z (2 ^ 26))%Q (th_xys t) /\
  length (th_dirs t) = length (th_xys t) /\
  (1 # 10 <= val (th_arclen t) /\ val (th_arclen t) <= inject_Z (2 ^ 27))%Q /\
  (val (th_arclen t) + 2 <= inject_Z (Z.of_nat (length (th_xys t))))%Q.
(** [p] is as near to the place at distance [s], between two neighbouring
    samples, as half units can be, up to a millionth. *)
Definition beside (l : list kpoint) (s : Q) (p : kpoint) : Prop :=
  exists k a b f, nth_error l k = Some a /\ nth_error l (S k) = Some b /\
    (s == inject_Z (Z.of_nat k) + f /\ 0 <= f /\ f < 1)%Q /\
    (Qabs (val (fst p) - ((1 - f) * val (fst a) + f * val (fst b))) <= (1 # 4) + (1 # 1000000))%Q /\
    (Qabs (val (snd p) - ((1 - f) * val (snd a) + f * val (snd b))) <= (1 # 4) + (1 # 1000000))%Q.
Definition same_place (p q : kpoint) : Prop := (val (fst p) == val (fst q))%Q /\ (val (snd p) == val (snd q))%Q.
(** Further and further along the run, each at another place than the one before. *)
Fixpoint strung (l : list brk) : Prop :=
  match l with
  | [] => True
  | b :: l' => match l' with
               | [] => True
               | c :: _ => (val (bk_s b) < val (bk_s c))%Q /\ ~ same_place (bk_xy b) (bk_xy c)
               end /\ strung l'
  end.

(** ** Where two lines cross *)
(** [v] is a multiple of 1/1024, at most 1; [v] is a multiple of 1/2, at most 2^14. *)
Definition fine (v : dyadic) : Prop := exists z, (val v == z # 1024)%Q /\ Z.abs z <= 1024.
Definition coarse (v : dyadic) : Prop := exists z, (val v == z # 2)%Q /\ Z.abs z <= 2 ^ 15.
(** The point (x, y) lies on the line through [p] in the direction [d]. *)
Definition on_line (p d : kpoint) (x y : Q) : Prop :=
  ((x - val (fst p)) * val (snd d) == (y - val (snd p)) * val (fst d))%Q.
Definition parallel (d e : kpoint) : Prop := (val (fst d) * val (snd e) == val (snd d) * val (fst e))%Q.

(** Specification vocabulary for the glyf table. *)
From Coq Require Import QArith.
From Verif.Model Require Import MBase MFixed MFloat MGlyph.
From Verif.Spec Require Import SBase SReader SFloat SGlyph.
Open Scope Z_scope.

(** ** On-curve insertion *)

Definition fits16 (z : Z) : Prop := in_range I16 z.
Definition both_off (p q : point) : Prop := pt_on p = false /\ pt_on q = false.
(** [m] is an on-curve point halfway between [p] and [q], cut to whole units. *)
Definition midpoint (p q m : point) : Prop :=
  pt_on m = true /\ pt_x m = Z.quot (pt_x p + pt_x q) 2 /\ pt_y m = Z.quot (pt_y p + pt_y q) 2.

(** [expansion c r]: [r] is [c] with the midpoint put between every two
    neighbouring off-curve points, and nothing else changed. *)
Inductive expansion : list point -> list point -> Prop :=
| exp_nil : expansion [] []
| exp_one p : expansion [p] [p]
| exp_keep p q c r : ~ both_off p q -> expansion (q :: c) r -> expansion (p :: q :: c) (p :: r)
| exp_mid p q m c r : both_off p q -> midpoint p q m -> expansion (q :: c) r ->
    expansion (p :: q :: c) (p :: m :: r).

(** Neighbours within a list, first to last. *)
Definition neighbours (c : list point) (p q : point) : Prop := exists l1 l2, c = l1 ++ p :: q :: l2.

(** Any two neighbouring off-curve points have sums that fit. *)
Definition sums_fit (c : list point) : Prop :=
  forall p q, neighbours c p q -> both_off p q -> fits16 (pt_x p + pt_x q) /\ fits16 (pt_y p + pt_y q).

(** ** Implied on-curve points.  A contour is closed: the last point is
    followed by the first.  [implied c i]: point [i] is on the curve, both
    its neighbours around the contour are off it, and it lies at their
    midpoint. *)
Definition implied (c : list point) (i : nat) : Prop :=
  exists this prev next,
    nth_error c i = Some this /\
    nth_error c ((i + length c - 1) mod length c) = Some prev /\
    nth_error c ((i + 1) mod length c) = Some next /\
    both_off prev next /\ midpoint prev next this.
(** The sum of any two off-curve points fits 16 bits. *)
Definition off_sums_fit (c : list point) : Prop := forall p q, In p c -> In q c -> both_off p q ->
  fits16 (pt_x p + pt_x q) /\ fits16 (pt_y p + pt_y q).
(** One implied point dropped; any number of them dropped. *)
Definition drop_implied (c c' : list point) : Prop :=
  exists l1 p l2, c = l1 ++ p :: l2 /\ c' = l1 ++ l2 /\ implied c (length l1).
Inductive drops : list point -> list point -> Prop :=
| drops_refl c : drops c c
| drops_step c c1 c2 : drop_implied c c1 -> drops c1 c2 -> drops c c2.

(** ** Components *)

(** The glyph a component refers to. *)
Definition target (gs : list glyph) (c : component) (g : glyph) : Prop :=
  nth_error gs (Z.to_nat (cp_glyph c)) = Some g.

(** Component [f] seen through component [c]: same glyph and flags, placed by
    both transforms, [c]'s last. *)
Definition through (c f : component) : component :=
  mk_comp (cp_glyph f) (aff_mul (cp_trans c) (cp_trans f)) (cp_match f) (cp_flags f).

(** [flat gs cs r]: [r] lists, in order, the simple glyphs reached from the
    components [cs], however deep, each with the composition of the transforms
    on the way. *)
Inductive flat (gs : list glyph) : list component -> list component -> Prop :=
| flat_nil : flat gs [] []
| flat_simple c cs g r : target gs c g -> g_comps g = [] -> flat gs cs r -> flat gs (c :: cs) (c :: r)
| flat_deep c cs g fs r : target gs c g -> g_comps g <> [] -> flat gs (g_comps g) fs -> flat gs cs r ->
    flat gs (c :: cs) (map (through c) fs ++ r).

(** [nested gs n cs]: all references from [cs] on are valid and go at most [n] levels deep. *)
Inductive nested (gs : list glyph) : nat -> list component -> Prop :=
| nested_nil n : nested gs n []
| nested_cons n c cs g : target gs c g -> nested gs n (g_comps g) -> nested gs (S n) cs ->
    nested gs (S n) (c :: cs).

Definition refs_valid (gs : list glyph) (g : glyph) : Prop :=
  Forall (fun c => exists t, target gs c t) (g_comps g).

(** How many components a depth-first walk that gives up [room] levels down
    looks at. *)
Fixpoint visits (room : nat) (gs : list glyph) (cs : list component) : Z :=
  match room with
  | O => 0
  | S room' =>
      fold_right (fun c n =>
        match nth_error gs (Z.to_nat (cp_glyph c)) with
        | Some cg => 1 + (if has_components cg then visits room' gs (g_comps cg) else 0) + n
        | None => n
        end) 0 cs
  end.

(** What an affine transform does to a point, in exact arithmetic. *)
Definition moves (t : affine) (p q : Q * Q) : Prop :=
  (fst q == val (af_a t) * fst p + val (af_c t) * snd p + val (af_e t))%Q /\
  (snd q == val (af_b t) * fst p + val (af_d t) * snd p + val (af_f t))%Q.

(** A transform as components in a font file have it: scales are 2.14
    numbers, offsets whole 16-bit numbers. *)
Definition format_transform (t : affine) : Prop :=
  f2dot14_number (af_a t) /\ f2dot14_number (af_b t) /\ f2dot14_number (af_c t) /\ f2dot14_number (af_d t) /\
  int16_number (af_e t) /\ int16_number (af_f t).

(** ** Bounds *)
Definition in_box (g : glyph) (p : point) : Prop :=
  g_xMin g <= pt_x p <= g_xMax g /\ g_yMin g <= pt_y p <= g_yMax g.
Definition box_touched (g : glyph) (pts : list point) : Prop :=
  (exists p, In p pts /\ pt_x p = g_xMin g) /\ (exists p, In p pts /\ pt_x p = g_xMax g) /\
  (exists p, In p pts /\ pt_y p = g_yMin g) /\ (exists p, In p pts /\ pt_y p = g_yMax g).
Definition my_metrics (c : component) : Prop := Z.testbit (cp_flags c) 9 = true.

(** ** Statistics.  [counted gs cs d np nc md]: the simple glyphs reached from
    [cs] have [np] points and [nc] contours in total, and the nesting, counted
    from [d], goes to [md]. *)
Inductive counted (gs : list glyph) : list component -> Z -> Z -> Z -> Z -> Prop :=
| counted_nil d : counted gs [] d 0 0 d
| counted_simple c cs g d np nc md : target gs c g -> g_comps g = [] -> counted gs cs d np nc md ->
    counted gs (c :: cs) d (Z.of_nat (length (concat (g_contours g))) + np)
      (Z.of_nat (length (g_contours g)) + nc) md
| counted_deep c cs g d np nc md np' nc' md' : target gs c g -> g_comps g <> [] ->
    counted gs (g_comps g) (d + 1) np' nc' md' -> counted gs cs d np nc md ->
    counted gs (c :: cs) d (np' + np) (nc' + nc) (Z.max md md').

(** [m] is the largest element of [l], or 0 for the empty list. *)
Definition is_max (l : list Z) (m : Z) : Prop :=
  (l = [] /\ m = 0) \/ (In m l /\ forall x, In x l -> x <= m).

(** ** Compiled tables *)

(** One glyph's place in the table. *)
Definition placed (buf : list Z) (g : glyph) (a b : Z) : Prop :=
  if is_empty_glyph g then a = b
  else exists bs, ser_glyph g = Ok bs /\ slice buf (Z.to_nat a) (length bs) bs /\
         0 <= a /\ a + Z.of_nat (length bs) <= b /\ a < b.
(** Total size with every glyph padded to a multiple of four bytes. *)
Fixpoint padded_total (sizes : list nat) : Z :=
  match sizes with [] => 0 | n :: l => 4 * ((Z.of_nat n + 3) / 4) + padded_total l end.

(** What reading gives for a written glyph. *)
Definition survives (g g' : glyph) : Prop :=
  if is_empty_glyph g then g' = mk_glyph 0 0 0 0 [] [] [] false
  else exists bs, ser_glyph g = Ok bs /\ reads_back de_glyph bs g'.

(** Glyphs the format can hold: empty, simple or composite. *)
Definition glyph_fine (g : glyph) : Prop :=
  is_empty_glyph g = true \/
  (simple_glyph g /\ simple_sizes g /\ g_overlap g = false /\
   (exists c cs, g_contours g = c :: cs /\ c <> []) /\
   steps_fit 0 0 (concat (g_contours g)) /\ Z.of_nat (length (g_instr g)) <= 32767) \/
  composite_glyph g.
(** Same glyph as far as the format records it: an empty glyph has no box and
    no instructions. *)
Definition glyph_same (g g' : glyph) : Prop :=
  if is_empty_glyph g then g' = mk_glyph 0 0 0 0 [] [] [] false
  else match g_comps g with [] => g' = g | _ => composite_same g g' end.

(** ** Contour ends: index of the last point of each group of points. *)
Fixpoint running (acc : Z) (ns : list Z) : list Z :=
  match ns with [] => [] | n :: l => (acc + n - 1) :: running (acc + n) l end.

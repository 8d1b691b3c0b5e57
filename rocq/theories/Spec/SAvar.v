(** Piecewise linear maps of normalized coordinates. *)
From Coq Require Import List ZArith QArith Qabs Sorted.
Import ListNotations.
From Verif.Model Require Import MBase MFixed MFloat MAvar.
From Verif.Spec Require Import SFloat SGlyph.
Open Scope Q_scope.

(** A number a font can hold: a multiple of 1/16384 in [-2,2). *)
Definition f2dot14 (d : dyadic) : Prop :=
  exists p, (-32768 <= p <= 32767)%Z /\ val d == inject_Z p / 16384.
Definition from_font (m : segment_map) : Prop := Forall (fun n => f2dot14 (fst n) /\ f2dot14 (snd n)) m.

(** Sorted by the coordinate that is mapped, and by the one it is mapped to. *)
Definition from_increasing (m : segment_map) : Prop := StronglySorted (fun x y => val (fst x) < val (fst y)) m.
Definition to_nondecreasing (m : segment_map) : Prop := StronglySorted (fun x y => val (snd x) <= val (snd y)) m.
(** [n] maps [c] to itself; exactly one node does. *)
Definition fixes (c : Q) (n : dyadic * dyadic) : Prop := val (fst n) == c /\ val (snd n) == c.
Definition fixed_once (m : segment_map) (c : Q) : Prop :=
  exists l n r, m = l ++ n :: r /\ fixes c n /\ Forall (fun k => ~ fixes c k) (l ++ r).

(** The piecewise linear map through the nodes, clamped outside [-1,1]: [w] is
    its value at [v]. *)
Inductive mapped (m : segment_map) (v : Q) : Q -> Prop :=
| mapped_below : v <= -(1) -> mapped m v (-(1))
| mapped_above : 1 <= v -> mapped m v 1
| mapped_between l a b r : -(1) < v -> v < 1 -> m = l ++ a :: b :: r -> val (fst a) <= v -> v <= val (fst b) ->
    mapped m v (val (snd a) + (val (snd b) - val (snd a)) * ((v - val (fst a)) / (val (fst b) - val (fst a)))).

(** The format: two version words and a reserved one, the number of axes, and
    for each axis the number of its nodes and the nodes, as multiples of
    1/16384. *)
Definition multiple (d : dyadic) (p : Z) : Prop := (-32768 <= p <= 32767)%Z /\ val d == inject_Z p / 16384.
Definition multiples (m : segment_map) (ps : list (Z * Z)) : Prop :=
  Forall2 (fun n p => multiple (fst n) (fst p) /\ multiple (snd n) (snd p)) m ps.
Definition count {A} (l : list A) : list Z := word (Z.of_nat (length l)).
Definition avar_bytes (major minor reserved : Z) (axes : list (list (Z * Z))) : list Z :=
  word major ++ word minor ++ word reserved ++ count axes ++
  concat (map (fun ps => count ps ++ concat (map (fun p => word (fst p) ++ word (snd p)) ps)) axes).
Definition counts_fit {A} (axes : list (list A)) : Prop :=
  (Z.of_nat (length axes) < 65536)%Z /\ Forall (fun m => (Z.of_nat (length m) < 65536)%Z) axes.

(** The axis variations table: src/tables/avar.rs,
    crates/otspec/src/tables/avar.rs. *)
From Coq Require Import List ZArith Bool.
Import ListNotations.
From Verif.Model Require Import MBase MFixed MFloat MFloat32 MVarModel.
Open Scope Z_scope.

(** avar.rs:10-11: pairs of from and to coordinates *)
Definition segment_map := list (dyadic * dyadic).

(** the expression of avar.rs:99; the divisor is not 0, see [seg_interp] *)
Definition seg_line (a va b vb v : dyadic) : dyadic :=
  f32_add va (f32_div (f32_mul (f32_sub vb va) (f32_sub v a)) (f32_sub b a)).
(** avar.rs:91-93: the target of the first coordinate within EPSILON *)
Fixpoint seg_near (m : segment_map) (v : dyadic) : option dyadic :=
  match m with
  | [] => None
  | (a, va) :: m' => if near a v then Some va else seg_near m' v
  end.
(** avar.rs:94-102: the first coordinate beyond the value and the one before it
    ([prev]; [ix - 1] underflows without one).  The one before is not beyond
    the value, so they differ. *)
Fixpoint seg_interp (prev : option (dyadic * dyadic)) (m : segment_map) (v : dyadic) : res dyadic :=
  match m with
  | [] => Panic
  | (b, vb) :: m' =>
      if dy_ltb v b then
        match prev with None => Panic | Some (a, va) => Ok (seg_line a va b vb v) end
      else seg_interp (Some (b, vb)) m' v
  end.
(** piecewise_linear_map, avar.rs:82-103 *)
Definition seg_value (m : segment_map) (v : dyadic) : res dyadic :=
  if dy_leb v (Dy (-1) 0) then Ok (Dy (-1) 0)
  else if dy_leb dy1 v then Ok dy1
  else match seg_near m v with
       | Some w => Ok w
       | None => seg_interp None m v
       end.

(** is_valid, avar.rs:107-136.  The counters are unbounded. *)
Definition minus1 : dyadic := Dy (-1) 0.
Fixpoint seg_check (m : segment_map) (zero minus plus : nat) (prev : dyadic) : bool :=
  match m with
  | [] => (zero =? 1)%nat && (plus =? 1)%nat && (minus =? 1)%nat
  | (from, to) :: m' =>
      let zero' := if dy_eqb from dy0 && dy_eqb to dy0 then S zero else zero in
      let minus' := if near from minus1 && near to minus1 then S minus else minus in
      let plus' := if near from dy1 && near to dy1 then S plus else plus in
      if dy_ltb to prev then false else seg_check m' zero' minus' plus' to
  end.
Definition seg_valid (m : segment_map) : bool := seg_check m 0 0 0 (Dy (-2) 0).
(** SegmentMap::new, avar.rs:75-81 *)
Definition seg_new (m : segment_map) : res segment_map := if seg_valid m then Ok m else Panic.

(** The table; crates/otspec/src/tables/avar.rs:5-19, avar.rs:21-70.  The
    versions and the reserved word are not kept. *)
Definition axis_value_ser (x : dyadic * dyadic) : res (list Z) :=
  a <- ser_f2dot14 (fst x) ;; b <- ser_f2dot14 (snd x) ;; Ok (a ++ b).
Definition avar_ser (maps : list segment_map) : res (list Z) :=
  b <- ser_counted (ser_counted axis_value_ser) maps ;;
  Ok (ser_u16 1 ++ ser_u16 0 ++ ser_u16 0 ++ b).
Definition axis_value_de : parser (dyadic * dyadic) :=
  a <-- de_f2dot14 ;; b <-- de_f2dot14 ;; pret (a, b).
Definition avar_de : parser (list segment_map) :=
  _ <-- de_u16 ;; _ <-- de_u16 ;; _ <-- de_u16 ;; de_counted16 (de_counted16 axis_value_de).

(** The packed encodings of the OpenType specification ("Packed Deltas",
    "Packed Point Numbers") and what a variation store has to satisfy. *)
From Verif.Model Require Import MBase MFixed MGlyph MPacked.
From Verif.Spec Require Import SBase SGlyph.

(** A signed byte. *)
Definition sbyte (z : Z) : list Z := [z mod 256].

(** Packed deltas: runs of 1 to 64 values, each introduced by a control byte
    whose low 6 bits are the number of values less one; bit 7 means that the
    values are zeros (and not stored), otherwise bit 6 means that they are
    words rather than bytes. *)
Inductive delta_runs : list Z -> list Z -> Prop :=
| dr_nil : delta_runs [] []
| dr_zero c n ds bs : (1 <= n <= 64)%nat -> c = 0x80 + (Z.of_nat n - 1) \/ c = 0xC0 + (Z.of_nat n - 1) ->
    delta_runs ds bs -> delta_runs (repeat 0 n ++ ds) (c :: bs)
| dr_bytes vs ds bs : (1 <= length vs <= 64)%nat -> Forall (in_range I8) vs ->
    delta_runs ds bs ->
    delta_runs (vs ++ ds) ((Z.of_nat (length vs) - 1) :: concat (map sbyte vs) ++ bs)
| dr_words vs ds bs : (1 <= length vs <= 64)%nat -> Forall (in_range I16) vs ->
    delta_runs ds bs ->
    delta_runs (vs ++ ds) ((0x40 + (Z.of_nat (length vs) - 1)) :: concat (map word vs) ++ bs).

(** [l] contains 256 zeros in a row. *)
Definition zeros_256 (l : list Z) : Prop := exists a b, l = a ++ repeat 0 256 ++ b.

(** Consecutive differences of point numbers, starting from 0. *)
Fixpoint gaps (last : Z) (pts : list Z) : list Z :=
  match pts with [] => [] | p :: pts' => (p - last) :: gaps p pts' end.
(** Packed point numbers as the specification describes them: runs of 1 to
    128 differences, low 7 bits of the control byte the number less one, bit 7
    for words. *)
Inductive point_runs : list Z -> list Z -> Prop :=
| pr_nil : point_runs [] []
| pr_bytes ds rest bs : (1 <= length ds <= 128)%nat -> Forall (in_range U8) ds ->
    point_runs rest bs ->
    point_runs (ds ++ rest) ((Z.of_nat (length ds) - 1) :: ds ++ bs)
| pr_words ds rest bs : (1 <= length ds <= 128)%nat -> Forall (in_range U16) ds ->
    point_runs rest bs ->
    point_runs (ds ++ rest) ((0x80 + (Z.of_nat (length ds) - 1)) :: concat (map word ds) ++ bs).

(** ** Tuple variation stores *)

(** A float that is the value of a 2.14 bit pattern. *)
Definition f2dot14_value (x : dyadic) : Prop := exists p, in_range I16 p /\ x = f2dot14_from_packed p.
Definition tuple_ok (axes : nat) (wanted : bool) (t : option (list dyadic)) : Prop :=
  match t with
  | Some t => wanted = true /\ length t = axes /\ Forall f2dot14_value t
  | None => wanted = false
  end.
(** Bit 15: own peak; bit 14: start and end tuples; bits 0-11: shared tuple index. *)
Definition header_ok (axes : nat) (h : tvh) : Prop :=
  in_range U16 (tv_flags h) /\ 0 <= tv_index h < 4096 /\
  tuple_ok axes (Z.testbit (tv_flags h) 15) (tv_peak h) /\
  tuple_ok axes (Z.testbit (tv_flags h) 14) (tv_start h) /\
  tuple_ok axes (Z.testbit (tv_flags h) 14) (tv_end h) /\
  Z.land (tv_flags h) 4095 = 0 /\ Z.testbit (tv_flags h) 13 = false.

(** The numbers, from [i], of the points that have a delta; and those deltas. *)
Fixpoint touched (i : Z) (ds : list (option delta)) : list Z :=
  match ds with
  | [] => []
  | Some _ :: ds' => i :: touched (i + 1) ds'
  | None :: ds' => touched (i + 1) ds'
  end.
Fixpoint given {A} (ds : list (option A)) : list A :=
  match ds with [] => [] | Some d :: ds' => d :: given ds' | None :: ds' => given ds' end.
Definition delta_x (d : delta) : Z := match d with Delta1D x => x | Delta2D x _ => x end.
Definition delta_y (d : delta) : Z := match d with Delta1D _ => 0 | Delta2D _ y => y end.
Definition delta_ok (gvar : bool) (d : delta) : Prop :=
  match d with
  | Delta1D x => gvar = false /\ in_range I16 x
  | Delta2D x y => gvar = true /\ in_range I16 x /\ in_range I16 y
  end.
(** Point numbers the writer can encode so that the reader understands them. *)
Definition points_ok (pts : list Z) : Prop :=
  (1 <= length pts <= 127)%nat /\ Forall (fun g => 0 <= g <= 255) (gaps 0 pts).
Definition variation_ok (axes : nat) (gvar : bool) (points : nat) (v : tuple_variation) : Prop :=
  header_ok axes (tv_header v) /\
  length (tv_deltas v) = points /\
  Forall (delta_ok gvar) (given (tv_deltas v)) /\
  ~ zeros_256 (map delta_x (given (tv_deltas v))) /\
  (gvar = true -> ~ zeros_256 (map delta_y (given (tv_deltas v)))) /\
  (In None (tv_deltas v) -> points_ok (touched 0 (tv_deltas v))).

(** What comes back: the same deltas and region; only the recorded data size
    and the bookkeeping bit "has its own point numbers" differ. *)
Definition variation_same (v v' : tuple_variation) : Prop :=
  tv_deltas v' = tv_deltas v /\
  tv_index (tv_header v') = tv_index (tv_header v) /\
  tv_peak (tv_header v') = tv_peak (tv_header v) /\
  tv_start (tv_header v') = tv_start (tv_header v) /\
  tv_end (tv_header v') = tv_end (tv_header v) /\
  (forall k, 14 <= k -> Z.testbit (tv_flags (tv_header v')) k = Z.testbit (tv_flags (tv_header v)) k) /\
  (Z.testbit (tv_flags (tv_header v')) 13 = true <-> In None (tv_deltas v)).

(** ** Item variation data *)

Definition ivd_ok (v : ivd) : Prop :=
  Z.of_nat (length (iv_regions v)) < 65536 /\ Z.of_nat (length (iv_deltas v)) < 65536 /\
  Forall (in_range U16) (iv_regions v) /\ Forall (Forall (in_range I16)) (iv_deltas v).
Definition rectangular (v : ivd) : Prop :=
  Forall (fun row => length row = length (iv_regions v)) (iv_deltas v).
(** One row with the first [short] columns as words and the others as bytes. *)
Definition row_bytes (short : nat) (row : list Z) : list Z :=
  concat (map word (firstn short row)) ++ concat (map sbyte (skipn short row)).
Definition ivd_encoding (short : nat) (v : ivd) : list Z :=
  word (Z.of_nat (length (iv_deltas v))) ++ word (Z.of_nat short) ++
  word (Z.of_nat (length (iv_regions v))) ++ concat (map word (iv_regions v)) ++
  concat (map (row_bytes short) (iv_deltas v)).

Definition region_list_ok (l : region_list) : Prop :=
  in_range U16 (rl_axes l) /\ in_range U16 (rl_count l) /\
  Z.of_nat (length (rl_regions l)) = rl_count l /\
  Forall (fun r => Z.of_nat (length r) = rl_axes l /\
    Forall (fun a => f2dot14_value (ra_start a) /\ f2dot14_value (ra_peak a) /\ f2dot14_value (ra_end a)) r)
    (rl_regions l).

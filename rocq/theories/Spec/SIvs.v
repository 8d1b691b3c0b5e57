(** The OpenType format of item variation stores, written down independently of
    the code. *)
From Coq Require Import List ZArith.
Import ListNotations.
From Verif.Model Require Import MBase MFixed MPacked MOffset MIvs.
From Verif.Spec Require Import SBase SGlyph SPacked SOffset SLayout SContext.
Open Scope Z_scope.

(** start, peak and end, each a F2DOT14 number *)
Definition axis_packed (a : region_axis) (p : Z * Z * Z) : Prop :=
  let '(s, m, e) := p in in_range I16 s /\ in_range I16 m /\ in_range I16 e /\
    a = mk_region_axis (f2dot14_from_packed s) (f2dot14_from_packed m) (f2dot14_from_packed e).
(** a region has a triple for each axis *)
Definition regions_packed (regions : list (list region_axis)) (ps : list (list (Z * Z * Z))) : Prop :=
  Forall2 (Forall2 axis_packed) regions ps.
Definition regions_bytes (axes : Z) (ps : list (list (Z * Z * Z))) : list Z :=
  word axes ++ word (Z.of_nat (length ps)) ++ concat (map (fun r => concat (map range_words r)) ps).

Definition links32 (os : list obj) : list item :=
  raw (word (Z.of_nat (length os))) ++ [IGroup (map link32 os)].

(** The values that make a store *)
Definition store_ok (s : ivs) : Prop :=
  is_u16 (vs_axes s) /\ countable (vs_regions s) /\ countable (vs_data s) /\
  Forall (fun r => Forall (fun a => f2dot14_value (ra_start a) /\ f2dot14_value (ra_peak a) /\ f2dot14_value (ra_end a)) r) (vs_regions s) /\
  Forall ivd_ok (vs_data s).
(** every region has every axis; every row has a delta for every region it uses *)
Definition store_shape (s : ivs) : Prop :=
  Forall (fun r => Z.of_nat (length r) = vs_axes s) (vs_regions s) /\ Forall rectangular (vs_data s).

(** [ivs_file s o]: the table [o] is a form of the store [s].  Each data subtable
    has its own number of columns that are stored as words; deltas in the other
    columns fit in a byte. *)
Inductive ivs_file (s : ivs) : obj -> Prop :=
| ivs_table ps ds : is_u16 (vs_format s) -> store_ok s -> store_shape s -> regions_packed (vs_regions s) ps ->
    Forall2 (fun d o => exists short, (short <= length (iv_regions d))%nat /\
      Forall (fun row => Forall (in_range I8) (skipn short row)) (iv_deltas d) /\ o = raw (ivd_encoding short d)) (vs_data s) ds ->
    ivs_file s (raw (word (vs_format s)) ++ [link32 (raw (regions_bytes (vs_axes s) ps))] ++ links32 ds).

(** What a value record means. *)
From Coq Require Import List ZArith.
Import ListNotations.
From Verif.Model Require Import MBase MLayout MValue.
From Verif.Spec Require Import SBase SLayout.
Open Scope Z_scope.

(** The adjustment a record makes: four numbers, 0 if not given, and four device
    tables. *)
Definition amount (o : option Z) : Z := match o with Some z => z | None => 0 end.
Definition table {A} (o : option (option A)) : option A := match o with Some t => t | None => None end.
Definition adjustment (v : vrec) : (Z * Z * Z * Z) * list (option device) :=
  ((amount (vr_xpla v), amount (vr_ypla v), amount (vr_xadv v), amount (vr_yadv v)),
   [table (vr_xplad v); table (vr_yplad v); table (vr_xadvd v); table (vr_yadvd v)]).

(** Which of the eight fields a record has, in the order of the format's bits,
    and the number with those bits. *)
Definition present {A} (o : option A) : bool := match o with Some _ => true | None => false end.
Definition fields (v : vrec) : list bool :=
  [present (vr_xpla v); present (vr_ypla v); present (vr_xadv v); present (vr_yadv v);
   present (vr_xplad v); present (vr_yplad v); present (vr_xadvd v); present (vr_yadvd v)].
Fixpoint bit_number (l : list bool) : Z :=
  match l with [] => 0 | b :: l' => (if b then 1 else 0) + 2 * bit_number l' end.
Definition number_fields (v : vrec) : list bool := firstn 4 (fields v).
Definition device_fields (v : vrec) : list bool := skipn 4 (fields v).
Definition numbers (v : vrec) : list (option Z) := [vr_xpla v; vr_ypla v; vr_xadv v; vr_yadv v].

(** Numbers fit 16 bits and device tables can be read back. *)
Definition is_i16 (z : Z) : Prop := -32768 <= z <= 32767.
Definition number_ok (o : option Z) : Prop := match o with Some z => is_i16 z | None => True end.
Definition device_readable (d : device) : Prop :=
  exists f, dv_format d = Some f /\ 0 <= f <= 3 /\ dev_sized (dv_start d) (dv_end d) (dv_values d) /\
    Forall (fits_bits (bits_per_value f)) (dv_values d).
Definition devices_ok (o : option (option device)) : Prop := match o with Some (Some d) => device_readable d | _ => True end.
Definition vrec_ok (v : vrec) : Prop :=
  number_ok (vr_xpla v) /\ number_ok (vr_ypla v) /\ number_ok (vr_xadv v) /\ number_ok (vr_yadv v) /\
  devices_ok (vr_xplad v) /\ devices_ok (vr_yplad v) /\ devices_ok (vr_xadvd v) /\ devices_ok (vr_yadvd v).
(** The record has the horizontal placement device exactly when it has the
    vertical one. *)
Definition placement_paired (v : vrec) : Prop := present (vr_xplad v) = present (vr_yplad v).

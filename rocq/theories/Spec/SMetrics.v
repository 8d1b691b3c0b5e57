(** Specifications for hmtx and loca. *)
From Verif.Model Require Import MBase MMetrics.
From Verif.Spec Require Import SBase SReader.

Definition metric_ok (m : metric) : Prop := in_range U16 (m_adv m) /\ in_range I16 (m_lsb m).

(** The [i]-th entry of a loca table: an unsigned 32-bit offset, or half of it
    in 16 bits. *)
Definition loca_entry (is32 : bool) (data : list Z) (i : nat) (off : Z) : Prop :=
  exists bs, slice data (i * (if is32 then 4 else 2)) (if is32 then 4 else 2) bs /\
    off = digits_value bs * (if is32 then 1 else 2).

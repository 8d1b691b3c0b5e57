(** C34: value records. *)
From Coq Require Import List ZArith Lia.
Import ListNotations.
From Verif.Model Require Import MBase MOffset MLayout MValue.
From Verif.Spec Require Import SBase SOffset SLayout SValue.
From Verif.Proofs Require Import PBase POffset PPart PGlyph PValue.
Open Scope Z_scope.

(** Simplifying keeps the adjustment and leaves no number that is zero. *)
Theorem C34_simplify_keeps : forall v, adjustment (vr_simplify v) = adjustment v.
Proof. exact simplify_adjustment. Qed.
Theorem C34_simplify_minimal : forall v, ~ In (Some 0) (numbers (vr_simplify v)) /\ vr_simplify (vr_simplify v) = vr_simplify v.
Proof. intros v. split; [apply simplify_no_zero|apply simplify_idem]. Qed.
(** Coercing to any format keeps the adjustment; coercing a list keeps every
    adjustment and gives all records the same number fields (device fields are
    not touched, so they may still differ). *)
Theorem C34_coerce_keeps : forall f v, adjustment (vr_coerce f v) = adjustment v.
Proof. exact coerce_adjustment. Qed.
Theorem C34_coerce_list_keeps : forall vs, map adjustment (coerce_same vs) = map adjustment vs.
Proof. exact coerce_same_adjustments. Qed.
Theorem C34_coerce_list_uniform : forall vs v w, In v (coerce_same vs) -> In w (coerce_same vs) -> number_fields v = number_fields w.
Proof. exact coerce_same_numbers. Qed.
Theorem C34_coerce_list_devices : forall vs, map device_fields (coerce_same vs) = map device_fields vs.
Proof. exact coerce_same_devices. Qed.
(** Coercing adds exactly the number fields that the format asks for, and a list
    is given exactly the number fields that one of its records has. *)
Theorem C34_coerce_fields : forall f v,
  number_fields (vr_coerce f v) = map (fun bk => fst bk || Z.testbit f (snd bk)) (combine (number_fields v) [0; 1; 2; 3]) /\
  device_fields (vr_coerce f v) = device_fields v.
Proof.
  intros f v. split; [|reflexivity]. unfold number_fields, fields, vr_coerce. cbn [firstn vr_xpla vr_ypla vr_xadv vr_yadv combine map fst snd].
  rewrite !present_fill. change V_XPLA with (2 ^ 0). change V_YPLA with (2 ^ 1). change V_XADV with (2 ^ 2). change V_YADV with (2 ^ 3).
  rewrite !contains_bit by lia. reflexivity.
Qed.
Theorem C34_coerce_list_least : forall vs v k, In v (coerce_same vs) ->
  nth k (number_fields v) false = existsb (fun w => nth k (number_fields w) false) vs.
Proof.
  intros vs v k H. pose proof (coerce_same_numbers vs) as U. unfold coerce_same in *. destruct (all_same _ _).
  - symmetry. destruct (nth k (number_fields v) false) eqn:E.
    + apply existsb_exists. eauto.
    + apply Bool.not_true_iff_false. intros X. apply existsb_exists in X as (w & Hw & X). rewrite (U v w H Hw) in E. congruence.
  - apply in_map_iff in H as (w & <- & Hw). rewrite (coerced_numbers vs w Hw).
    destruct k as [|[|[|[|k]]]]; try reflexivity. destruct k; cbn; clear; induction vs; auto.
Qed.
(** The flags are the number of the fields that are present, unless only one of
    the two placement devices is there. *)
Theorem C34_flags_iff : forall v, vr_flags v = bit_number (fields v) <-> placement_paired v.
Proof. exact flags_exact. Qed.
(** A record stored anywhere is read back with the format that lists its fields. *)
Theorem C34_read_back : forall v l buf base pos stk, vrec_ok v -> vr_enc v = Ok l -> stored 65536 buf base pos l ->
  vr_de (bit_number (fields v)) (mkrd buf pos (base :: stk)) = Ok (v, mkrd buf (pos + size l) (base :: stk)).
Proof. intros v l buf base pos stk Hv He. exact (vr_part v l Hv He buf base pos stk). Qed.
(** It is read back with the flags computed for it exactly when these are right. *)
Theorem C34_read_back_own_flags_iff : forall v l buf base pos stk, vrec_ok v -> vr_enc v = Ok l -> stored 65536 buf base pos l ->
  (vr_de (vr_flags v) (mkrd buf pos (base :: stk)) = Ok (v, mkrd buf (pos + size l) (base :: stk)) <-> placement_paired v).
Proof. exact vr_own_flags. Qed.

Definition ex_dev : device := mk_device 11 14 (Some 1) [-2; 0; 0; 1].
Definition ex_vrec : vrec := mk_vrec (Some 1) None (Some (-120)) (Some 0) (Some (Some ex_dev)) (Some None) None None.
Example C34_example : vrec_ok ex_vrec /\ vr_flags ex_vrec = 61 /\ vr_flags (vr_simplify ex_vrec) = 53 /\ placement_paired ex_vrec /\
  exists l, vr_enc ex_vrec = Ok l /\ stored 65536 [0;1; 255;136; 0;0; 0;10; 0;0; 0;11; 0;14; 0;1; 129;0] 0 0 l.
Proof.
  split; [|split; [reflexivity|split; [reflexivity|split; [reflexivity|]]]].
  - unfold vrec_ok, ex_vrec, number_ok, is_i16, devices_ok. cbn. repeat (split; [lia || exact I|]).
    split; [|auto].
    exists 1. split; [reflexivity|]. split; [lia|]. split; [unfold dev_sized, is_u16; cbn; lia|].
    change (bits_per_value 1) with 2%nat. cbn [dv_values ex_dev]. unfold fits_bits. change (2 ^ (Z.of_nat 2 - 1)) with 2. repeat (apply Forall_cons; [lia|]). apply Forall_nil.
  - eexists. split; [vm_compute; reflexivity|]. apply to_bytes_readable; [vm_compute; reflexivity|right; vm_compute; reflexivity|vm_compute; reflexivity].
Qed.
Example C34_example_coerce :
  let a := mk_vrec (Some 5) None None None None None None None in
  let b := mk_vrec None None (Some 7) None None None None None in
  coerce_same [a; b] = [mk_vrec (Some 5) None (Some 0) None None None None None; mk_vrec (Some 0) None (Some 7) None None None None None].
Proof. reflexivity. Qed.
(** A record with a vertical placement device only is written with the device
    offset but without its flag. *)
Theorem C34_vertical_device_refuted : exists v l, vrec_ok v /\ vr_enc v = Ok l /\ size l = 4%nat /\ vr_flags v = 4 /\
  bit_number (fields v) = 36.
Proof.
  exists (mk_vrec None None (Some 3) None None (Some (Some ex_dev)) None None). eexists. split; [|split; [vm_compute; reflexivity|vm_compute; auto]].
  unfold vrec_ok, number_ok, is_i16, devices_ok. cbn. repeat (split; [lia || exact I|]). split; [|auto].
  exists 1. split; [reflexivity|]. split; [lia|]. split; [unfold dev_sized, is_u16; cbn; lia|].
  change (bits_per_value 1) with 2%nat. cbn [dv_values ex_dev]. unfold fits_bits. change (2 ^ (Z.of_nat 2 - 1)) with 2. repeat (apply Forall_cons; [lia|]). apply Forall_nil.
Qed.

Print Assumptions C34_simplify_keeps.
Print Assumptions C34_simplify_minimal.
Print Assumptions C34_coerce_keeps.
Print Assumptions C34_coerce_list_keeps.
Print Assumptions C34_coerce_list_uniform.
Print Assumptions C34_coerce_list_devices.
Print Assumptions C34_coerce_fields.
Print Assumptions C34_coerce_list_least.
Print Assumptions C34_flags_iff.
Print Assumptions C34_read_back.
Print Assumptions C34_read_back_own_flags_iff.
Print Assumptions C34_vertical_device_refuted.

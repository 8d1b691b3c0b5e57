(** C64: item variation stores. *)
From Coq Require Import List ZArith Lia.
Import ListNotations.
From Verif.Model Require Import MBase MFixed MPacked MOffset MIvs.
From Verif.Spec Require Import SBase SGlyph SPacked SOffset SLayout SContext SIvs.
From Verif.Proofs Require Import PBase POffset PPart PIvs.
Open Scope Z_scope.

(** What is written follows the format, with format number 1; it can be written
    if it has less than 2^32 bytes. *)
Theorem C64_written : forall s, store_ok s -> store_shape s ->
  exists o, ivs_file (mk_ivs 1 (vs_axes s) (vs_regions s) (vs_data s)) o /\ ivs_ser s = to_bytes o /\
    (Z.of_nat (total o) < 2 ^ 32 -> exists bs, ivs_ser s = Ok bs).
Proof.
  intros s H1 H2. destruct (ivs_written s H1 H2) as (o & F & E). exists o. split; [exact F|]. split; [exact E|].
  intros L. rewrite E. apply to_bytes_iff; [exact L|]. eapply ivs_reachable; exact F.
Qed.
(** Every store, in whatever arrangement its parts are stored, is read. *)
Theorem C64_every_encoding_read : forall s o buf, ivs_file s o -> stored 65536 buf 0 0 o -> from_bytes ivs_de buf = Ok s.
Proof. exact ivs_read. Qed.
(** A written store of less than 65536 bytes is read back as the same store
    exactly when it has format 1, a triple for every axis in every region, and a
    delta for every region in every row. *)
Theorem C64_roundtrip_iff : forall s bs, store_ok s -> ivs_ser s = Ok bs -> Z.of_nat (length bs) < 65536 ->
  (from_bytes ivs_de bs = Ok s <-> vs_format s = 1 /\ store_shape s).
Proof. exact ivs_iff. Qed.
(** Whatever is read has that shape. *)
Theorem C64_read_has_shape : forall bs s, 0 <= vs_axes s -> from_bytes ivs_de bs = Ok s -> store_shape s.
Proof. exact ivs_read_shape. Qed.
(** Writing a coordinate that is not in the range of F2DOT14 aborts. *)
Theorem C64_wide_coordinate_aborts : forall s r a, In r (vs_regions s) -> In a r ->
  f2dot14_as_packed (ra_start a) = None \/ f2dot14_as_packed (ra_peak a) = None \/ f2dot14_as_packed (ra_end a) = None ->
  ivs_ser s = Panic.
Proof. exact wide_coordinate. Qed.
(** Offsets have 32 bits, but a region list 65536 or more bytes into the store
    makes reading abort. *)
Theorem C64_far_regions_abort : forall buf off, at_pos buf 0 (word 1) -> at_pos buf 2 (be_bytes 4 off) -> 65536 <= off < 2 ^ 32 ->
  from_bytes ivs_de buf = Panic.
Proof. exact far_region_list. Qed.

Definition ax (s p e : Z) : region_axis := mk_region_axis (f2dot14_from_packed s) (f2dot14_from_packed p) (f2dot14_from_packed e).
Definition ex_store : ivs := mk_ivs 1 2 [[ax 0 16384 16384; ax 0 0 0]; [ax (-16384) (-16384) 0; ax 0 8192 16384]] [mk_ivd [0; 1] [[10; -300]; [0; 7]]; mk_ivd [1] [[5]]].
Lemma ex_axis s p e : in_range I16 s -> in_range I16 p -> in_range I16 e ->
  f2dot14_value (ra_start (ax s p e)) /\ f2dot14_value (ra_peak (ax s p e)) /\ f2dot14_value (ra_end (ax s p e)).
Proof. intros H1 H2 H3. cbn [ax ra_start ra_peak ra_end]. unfold f2dot14_value. split; [now exists s|]. split; [now exists p|now exists e]. Qed.
Example C64_example : store_ok ex_store /\ store_shape ex_store /\
  exists bs, ivs_ser ex_store = Ok bs /\ length bs = 72%nat /\ from_bytes ivs_de bs = Ok ex_store.
Proof.
  split; [|split].
  - split; [unfold is_u16; cbn; lia|]. split; [unfold countable; cbn; lia|]. split; [unfold countable; cbn; lia|]. split.
    + cbn [ex_store vs_regions]. repeat (apply Forall_cons || apply Forall_nil); apply ex_axis; cbn; lia.
    + cbn [ex_store vs_data]. repeat (apply Forall_cons || apply Forall_nil); unfold ivd_ok; cbn [iv_regions iv_deltas length]; (split; [lia|]); (split; [lia|]); split;
        repeat (apply Forall_cons || apply Forall_nil); cbn; lia.
  - split; cbn [ex_store vs_regions vs_data vs_axes]; repeat (apply Forall_cons || apply Forall_nil); try reflexivity.
  - eexists. split; [vm_compute; reflexivity|]. split; vm_compute; reflexivity.
Qed.
(** A region with too few axes: the rest is read from the following bytes. *)
Theorem C64_missing_axis_refuted : exists s bs s', store_ok s /\ vs_format s = 1 /\ ivs_ser s = Ok bs /\ from_bytes ivs_de bs = Ok s' /\ s' <> s.
Proof.
  exists (mk_ivs 1 2 [[ax 0 16384 16384]] [mk_ivd [0] [[9]; [9]]]). eexists. eexists. split; [|split; [reflexivity|]].
  - split; [unfold is_u16; cbn; lia|]. split; [unfold countable; cbn; lia|]. split; [unfold countable; cbn; lia|]. split.
    + cbn [vs_regions]. repeat (apply Forall_cons || apply Forall_nil); apply ex_axis; cbn; lia.
    + cbn [vs_data]. repeat (apply Forall_cons || apply Forall_nil); unfold ivd_ok; cbn [iv_regions iv_deltas length]; (split; [lia|]); (split; [lia|]); split;
        repeat (apply Forall_cons || apply Forall_nil); cbn; lia.
  - split; [vm_compute; reflexivity|]. split; [vm_compute; reflexivity|]. intros H. apply (f_equal (fun s => length (hd [] (vs_regions s)))) in H. discriminate.
Qed.
(** A null offset among the data makes reading abort. *)
Theorem C64_null_offset_refuted : exists bs, firstn 12 bs = [0;1; 0;0;0;12; 0;1; 0;0;0;0] /\ from_bytes ivs_de bs = Panic /\ from_bytes ivs_de ([0;1; 0;0;0;8; 0;0] ++ skipn 12 bs) = Ok (mk_ivs 1 1 [[ax 0 16384 16384]] []).
Proof. exists [0;1; 0;0;0;12; 0;1; 0;0;0;0; 0;1; 0;1; 0;0; 64;0; 64;0]. vm_compute. auto. Qed.

Print Assumptions C64_written.
Print Assumptions C64_every_encoding_read.
Print Assumptions C64_roundtrip_iff.
Print Assumptions C64_read_has_shape.
Print Assumptions C64_wide_coordinate_aborts.
Print Assumptions C64_far_regions_abort.
Print Assumptions C64_missing_axis_refuted.
Print Assumptions C64_null_offset_refuted.

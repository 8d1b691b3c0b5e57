(** Property theorems: fixed-layout tables (C42). *)
From Verif.Model Require Import MBase MTag MFixed MTables.
From Verif.Spec Require Import SBase STables.
From Verif.Proofs Require PTables PLayout.

Theorem C42_head : forall x, head_tbl_ok x -> reads_back de_head_tbl (ser_head_tbl x) x.
Proof. exact PTables.head_rb. Qed.
Print Assumptions C42_head.

(** A creation date with fractional seconds (what [head::new] records) is not preserved. *)
Theorem C42_head_fraction_refuted : exists h h' : head_tbl,
  from_bytes de_head_tbl (ser_head_tbl h) = Ok h' /\ h' <> h /\ dt_nanos (hd_created h) = 500000000.
Proof. exact PTables.head_fraction_refuted. Qed.
Print Assumptions C42_head_fraction_refuted.

(** A head table whose date is beyond the date library's range aborts the parser. *)
Theorem C42_head_date_aborts : exists bs, length bs = 54%nat /\ Forall is_byte bs /\
  from_bytes de_head_tbl bs = Panic.
Proof. exact PTables.head_date_abort. Qed.
Print Assumptions C42_head_date_aborts.

Theorem C42_hhea : forall x, hhea_ok x -> reads_back de_hhea (ser_hhea x) x.
Proof. exact PTables.hhea_rb. Qed.
Print Assumptions C42_hhea.

Theorem C42_maxp : forall m, maxp_ok m ->
  exists bs, ser_maxp m = Ok bs /\ reads_back de_maxp bs m.
Proof. exact PTables.maxp_rb. Qed.
Print Assumptions C42_maxp.

(** ... and a version that does not match the contents is never read back. *)
Theorem C42_maxp_version_needed : forall m bs,
  ser_maxp m = Ok bs -> from_bytes de_maxp bs = Ok m ->
  match mx_table m with Maxp05 _ => mx_version m = 32768 | Maxp10 _ => mx_version m = 65536 end.
Proof. exact PTables.maxp_version_needed. Qed.
Print Assumptions C42_maxp_version_needed.

Theorem C42_gasp : forall g, gasp_ok g ->
  exists bs, ser_gasp g = Ok bs /\ reads_back de_gasp bs g.
Proof. exact PTables.gasp_rb. Qed.
Print Assumptions C42_gasp.

Theorem C42_cvt : forall v, Forall (in_range I16) v -> from_bytes de_cvt (ser_cvt v) = Ok v.
Proof. exact PTables.cvt_roundtrip. Qed.
Print Assumptions C42_cvt.

Theorem C42_cvt_bytes : forall data, Forall is_byte data ->
  match from_bytes de_cvt data with
  | Ok v => Forall (in_range I16) v /\ ser_cvt v = data
  | Err => Nat.odd (length data) = true
  | Panic => False
  end.
Proof. exact PTables.cvt_bytes. Qed.
Print Assumptions C42_cvt_bytes.

Theorem C42_fpgm_prep : forall v, Forall is_byte v -> from_bytes de_fpgm (ser_fpgm v) = Ok v.
Proof. exact PTables.fpgm_roundtrip. Qed.
Print Assumptions C42_fpgm_prep.

(** fvar: everything but the instance flags, which are written as zero. *)
Theorem C42_fvar : forall f ps,
  Forall axis_record_ok (fv_axes f) ->
  Forall (instance_ok (length (fv_axes f)) ps) (fv_instances f) ->
  Z.of_nat (length (fv_axes f)) <= 16382 ->
  Z.of_nat (length (fv_instances f)) <= 65535 ->
  exists bs, ser_fvar f = Ok bs /\
    forall post, from_bytes de_fvar (bs ++ post) =
      Ok (mk_fvar (fv_axes f)
           (map (fun i => mk_instance (in_subfamilyNameID i) 0 (in_coordinates i) (in_postscriptNameID i))
                (fv_instances f))).
Proof. exact PTables.fvar_roundtrip. Qed.
Print Assumptions C42_fvar.

Theorem C42_fvar_flags_refuted : exists f f' bs,
  ser_fvar f = Ok bs /\ from_bytes de_fvar bs = Ok f' /\ f' <> f.
Proof. exact PTables.fvar_flags_refuted. Qed.
Print Assumptions C42_fvar_flags_refuted.

(** Instances must agree on whether they carry a PostScript name. *)
Theorem C42_fvar_mixed_rejected : forall f,
  (exists i, In i (fv_instances f) /\ in_postscriptNameID i <> None) ->
  (exists i, In i (fv_instances f) /\ in_postscriptNameID i = None) -> ser_fvar f = Err.
Proof. exact PTables.fvar_mixed_ps. Qed.
Print Assumptions C42_fvar_mixed_rejected.

Theorem C42_os2 : forall o, os2_ok o -> reads_back de_os2 (ser_os2 o) o.
Proof. exact PTables.os2_rb. Qed.
Print Assumptions C42_os2.

(** Fields absent although the version has them come back as 0. *)
Theorem C42_os2_missing_refuted : exists o o', from_bytes de_os2 (ser_os2 o) = Ok o' /\ o <> o' /\
  os_ulCodePageRange1 o = None /\ os_ulCodePageRange1 o' = Some 0.
Proof. exact PTables.os2_missing_refuted. Qed.
Print Assumptions C42_os2_missing_refuted.

(** The bytes written put every field where the OpenType specification does. *)
Theorem C42_head_layout : forall h, length (ser_head_tbl h) = 54%nat /\ head_layout h (ser_head_tbl h).
Proof. exact PLayout.head_layout_ok. Qed.
Print Assumptions C42_head_layout.

Theorem C42_hhea_layout : forall h, length (ser_hhea h) = 36%nat /\ hhea_layout h (ser_hhea h).
Proof. exact PLayout.hhea_layout_ok. Qed.
Print Assumptions C42_hhea_layout.

Theorem C42_maxp_layout :
  (forall h bs, ser_maxp (mk_maxp 65536 (Maxp10 h)) = Ok bs -> length bs = 32%nat /\ maxp10_layout h bs) /\
  (forall n bs, ser_maxp (mk_maxp 32768 (Maxp05 n)) = Ok bs ->
     length bs = 6%nat /\ field bs 0 4 0x00005000 /\ field bs 4 2 n).
Proof. split; [exact PLayout.maxp10_layout_ok|exact PLayout.maxp05_layout_ok]. Qed.
Print Assumptions C42_maxp_layout.

Theorem C42_os2_layout : forall o, length (oc_achVendID (os_core o)) = 4%nat ->
  os2_layout (os_core o) (ser_os2 o) /\ os2_extra_layout o (ser_os2 o).
Proof. exact PLayout.os2_layout_ok. Qed.
Print Assumptions C42_os2_layout.

Example C42_ex_head : head_tbl_ok (PTables.head0 (mk_date 3600000000 0)).
Proof.
  unfold head_tbl_ok, in_range, date_ok, chrono_min, chrono_max; cbn.
  repeat split; try discriminate; exists 65536; vm_compute; intuition discriminate.
Qed.
Example C42_ex_maxp : maxp_ok (maxp_new10 12 40 3 60 5 2 1).
Proof. unfold maxp_ok, maxp10_ok, in_range; cbn. repeat split; discriminate. Qed.
Example C42_ex_fvar : instance_ok 1 true (mk_instance 257 0 [fixed_from_packed (400 * 65536)] (Some 258)).
Proof.
  unfold instance_ok, in_range; cbn. repeat split; try discriminate.
  constructor; [|constructor]. exists (400 * 65536). vm_compute. intuition discriminate.
Qed.
Example C42_ex_os2 : os2_ok (mk_os2 (PTables.core0 2) (Some 1) (Some 0) (Some 500) (Some 700)
  (Some 0) (Some 32) (Some 3) None None).
Proof.
  unfold os2_ok, os2core_ok, opt_ok, panose_ok, good_tag, in_range; cbn.
  repeat split; try discriminate; try (intros H; apply H; reflexivity); auto.
  repeat constructor; discriminate.
Qed.

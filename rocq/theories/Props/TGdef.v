(** C65: the glyph definition table. *)
From Coq Require Import List ZArith Lia.
Import ListNotations.
From Verif.Model Require Import MBase MFixed MPacked MOffset MLayout MIvs MGdef.
From Verif.Spec Require Import SBase SGlyph SOffset SLayout SContext SGsub SIvs SGdef.
From Verif.Proofs Require Import PBase POffset PPart PGdef.
Open Scope Z_scope.

(** What is written follows the format, and says what [gdef_reread] allows; it
    can be written exactly if its 16-bit offsets can hold the distances. *)
Theorem C65_written_iff : forall g, gdef_ok g ->
  exists o g', gdef_file g' o /\ gdef_reread g g' /\ gdef_write g = to_bytes o /\
    (Z.of_nat (total o) < 2 ^ 32 -> (exists out, gdef_write g = Ok out) <-> reachable o).
Proof.
  intros g H. destruct (gdef_written g H) as (o & g' & E & F & R & _). exists o, g'. split; [exact F|]. split; [exact R|].
  assert (W: gdef_write g = to_bytes o) by (unfold gdef_write; now rewrite E). split; [exact W|]. rewrite W. apply to_bytes_iff.
Qed.
(** Every table of versions 1.0 to 1.3 without mark glyph sets, item variations
    and device tables is read, however its parts are arranged. *)
Theorem C65_every_encoding_read : forall g o buf, gdef_file g o -> stored 65536 buf 0 0 o -> from_bytes gdef_read buf = Ok g.
Proof. exact gdef_stored. Qed.
(** What was written is read back, but for glyphs that gain a class ... *)
Theorem C65_roundtrip : forall g out, gdef_ok g -> gdef_write g = Ok out -> Z.of_nat (length out) < 2 ^ 32 ->
  exists g', from_bytes gdef_read out = Ok g' /\ gdef_reread g g'.
Proof. exact gdef_roundtrip. Qed.
(** ... and exactly if none does, the table is the same. *)
Theorem C65_roundtrip_iff : forall g out, gdef_ok g -> gdef_write g = Ok out -> Z.of_nat (length out) < 2 ^ 32 ->
  (from_bytes gdef_read out = Ok g <-> kept (numbered (gd_classes g)) /\ kept (gd_marks g)).
Proof. exact gdef_roundtrip_iff. Qed.
(** When classes are not written as ranges, every glyph between the first and the
    last that had no class becomes a base glyph. *)
Theorem C65_unclassified_become_bases : forall g out x, gdef_ok g -> gdef_write g = Ok out -> Z.of_nat (length out) < 2 ^ 32 ->
  ~ as_ranges (numbered (gd_classes g)) -> first_key (numbered (gd_classes g)) <= x <= last_key (numbered (gd_classes g)) -> ~ In x (map fst (gd_classes g)) ->
  exists g', from_bytes gdef_read out = Ok g' /\ In (x, BaseGlyph) (gd_classes g').
Proof. exact gdef_gap. Qed.
(** A caret with a device table, unless it came from a file, is never written. *)
Theorem C65_device_caret_never_written : forall g x cs z d, In (x, cs) (gd_carets g) -> In (Caret3 z (Some d) false) cs ->
  forall out, gdef_write g <> Ok out.
Proof. exact device_caret. Qed.

Definition ex_gdef : gdef := mk_gdef [(3, BaseGlyph); (4, BaseGlyph); (5, MarkGlyph); (6, LigatureGlyph)] [(3, [1; 2]); (9, [])]
  [(6, [Caret1 (-250); Caret2 7; Caret3 100 None true])] [(5, 1)] (Some []) None.
Definition ex_bytes : list Z :=
  [0;1; 0;2; 0;14; 0;28; 0;52; 0;86; 0;94] ++                                  (* header *)
  [0;1; 0;3; 0;4; 0;1; 0;1; 0;3; 0;2] ++                                       (* classes of glyphs 3 to 6 *)
  [0;8; 0;2; 0;16; 0;22; 0;1; 0;2; 0;3; 0;9; 0;2; 0;1; 0;2; 0;0] ++            (* attachment points *)
  [0;6; 0;1; 0;12; 0;1; 0;1; 0;6; 0;3; 0;8; 0;12; 0;16; 0;1; 255;6; 0;2; 0;7; 0;3; 0;100; 0;0] ++ (* carets *)
  [0;1; 0;5; 0;1; 0;1] ++ [0;1; 0;0].                                          (* mark classes, mark glyph sets *)
Lemma ex_ok : gdef_ok ex_gdef.
Proof.
  unfold gdef_ok, class_map, writable_classes, glyph_map, points_list, carets_ok, countable, is_glyph, is_u16. cbn [ex_gdef gd_classes gd_attach gd_carets gd_marks gd_sets gd_ivs numbered map fst snd class_num].
  repeat split; repeat (apply Forall_cons || apply Forall_nil); cbn; unfold is_u16; repeat split; repeat (apply Forall_cons || apply Forall_nil); cbn; try lia; auto; try (right; vm_compute; split; discriminate); unfold is_u16; repeat split; lia.
Qed.
Example C65_example : gdef_ok ex_gdef /\ gdef_write ex_gdef = Ok ex_bytes /\ from_bytes gdef_read ex_bytes = Ok ex_gdef /\
  kept (numbered (gd_classes ex_gdef)) /\ kept (gd_marks ex_gdef).
Proof.
  split; [exact ex_ok|]. assert (W: gdef_write ex_gdef = Ok ex_bytes) by (vm_compute; reflexivity). split; [exact W|].
  assert (R: from_bytes gdef_read ex_bytes = Ok ex_gdef) by (vm_compute; reflexivity). split; [exact R|].
  apply (C65_roundtrip_iff ex_gdef ex_bytes ex_ok W); [cbn; lia|exact R].
Qed.
(** glyphs 2 and 4 have no class: read back, they are base glyphs *)
Definition gaps : gdef := mk_gdef [(1, MarkGlyph); (3, BaseGlyph); (5, MarkGlyph)] [] [] [] None None.
Example C65_gap_example : gdef_ok gaps /\ ~ as_ranges (numbered (gd_classes gaps)) /\
  exists out, gdef_write gaps = Ok out /\
    from_bytes gdef_read out = Ok (mk_gdef [(1, MarkGlyph); (2, BaseGlyph); (3, BaseGlyph); (4, BaseGlyph); (5, MarkGlyph)] [] [] [] None None).
Proof.
  split; [|split].
  - unfold gdef_ok, class_map, writable_classes, glyph_map, is_u16. cbn [gaps gd_classes gd_attach gd_carets gd_marks gd_sets gd_ivs numbered map fst snd class_num].
    repeat split; repeat (apply Forall_cons || apply Forall_nil); cbn; try lia; auto; try (right; vm_compute; split; discriminate).
  - unfold as_ranges. vm_compute. intros H. now apply H.
  - eexists. split; [vm_compute; reflexivity|]. vm_compute. reflexivity.
Qed.

(** ** What is written but not read back *)
(** The offsets of mark glyph sets are read from the start of the whole table. *)
Theorem C65_mark_sets_refuted : exists out,
  gdef_write (mk_gdef [] [] [] [] (Some [[1; 2; 3]]) None) = Ok out /\ from_bytes gdef_read out = Ok (mk_gdef [] [] [] [] (Some [[]]) None).
Proof. eexists. split; [vm_compute; reflexivity|]. vm_compute. reflexivity. Qed.
(** So are those in the item variation store. *)
Definition one_region : ivs := mk_ivs 1 1 [[mk_region_axis (f2dot14_from_packed 0) (f2dot14_from_packed 16384) (f2dot14_from_packed 16384)]] [mk_ivd [0] [[5]]].
Theorem C65_variation_store_refuted : exists bs out,
  ivs_ser one_region = Ok bs /\ from_bytes ivs_de bs = Ok one_region /\
  gdef_write (mk_gdef [] [] [] [] None (Some one_region)) = Ok out /\ skipn 18 out = bs /\ from_bytes gdef_read out <> Ok (mk_gdef [] [] [] [] None (Some one_region)).
Proof.
  eexists. eexists. split; [vm_compute; reflexivity|]. split; [vm_compute; reflexivity|]. split; [vm_compute; reflexivity|]. split; [reflexivity|].
  intros H. apply (f_equal (fun r => match r with Ok g => match gd_ivs g with Some v => vs_axes v =? 1 | None => false end | _ => false end)) in H. vm_compute in H. discriminate.
Qed.
(** The offset to a caret's device table is read from the start of the list of
    carets of the ligature, though it is written from the start of the caret. *)
Definition hint : device := mk_device 12 13 (Some 1) [1; 0].
Theorem C65_caret_device_refuted : exists out, gdef_write (mk_gdef [] [] [(6, [Caret3 100 (Some hint) true])] [] None None) = Ok out /\
  from_bytes gdef_read out <> Ok (mk_gdef [] [] [(6, [Caret3 100 (Some hint) true])] [] None None).
Proof.
  eexists. split; [vm_compute; reflexivity|]. intros H.
  apply (f_equal (fun r => match r with Ok g => match gd_carets g with [(_, [Caret3 _ (Some d) _])] => dv_start d =? 12 | _ => false end | _ => false end)) in H. vm_compute in H. discriminate.
Qed.
(** Attachment points without a coverage table make reading abort. *)
Theorem C65_null_attach_coverage_refuted : exists bs, length bs = 16%nat /\ from_bytes gdef_read bs = Panic.
Proof. exists [0;1; 0;0; 0;0; 0;12; 0;0; 0;0; 0;0; 0;0]. vm_compute. auto. Qed.

Print Assumptions C65_written_iff.
Print Assumptions C65_every_encoding_read.
Print Assumptions C65_roundtrip.
Print Assumptions C65_roundtrip_iff.
Print Assumptions C65_unclassified_become_bases.
Print Assumptions C65_device_caret_never_written.
Print Assumptions C65_mark_sets_refuted.
Print Assumptions C65_variation_store_refuted.
Print Assumptions C65_caret_device_refuted.
Print Assumptions C65_null_attach_coverage_refuted.

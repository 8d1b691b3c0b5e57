(** Property theorems: simple and composite glyphs (C20, C21). *)
From Coq Require Import QArith.
From Verif.Model Require Import MBase MFixed MFloat MGlyph.
From Verif.Spec Require Import SBase SFloat SGlyph.
From Verif.Proofs Require PBase PCodec PGlyph PGlyphFmt.
Open Scope Z_scope.

(** A simple glyph survives writing and reading exactly when its overlap bit
    is clear, its first contour has a point, consecutive points differ by
    16-bit amounts, and the instructions can be counted in a signed word. *)
Theorem C20_simple_glyph_iff : forall g, simple_glyph g -> simple_sizes g ->
  ((exists bs, ser_glyph g = Ok bs /\ from_bytes de_glyph bs = Ok g) <->
   (g_overlap g = false /\ (exists c cs, g_contours g = c :: cs /\ c <> []) /\
    steps_fit 0 0 (concat (g_contours g)) /\ Z.of_nat (length (g_instr g)) <= 32767)).
Proof. exact PGlyph.simple_iff. Qed.
Print Assumptions C20_simple_glyph_iff.

(** ... and then the bytes read back the same anywhere in a buffer, with the
    cursor right behind them. *)
Theorem C20_simple_glyph_roundtrip : forall g, simple_glyph g -> simple_sizes g ->
  g_overlap g = false -> (exists c cs, g_contours g = c :: cs /\ c <> []) ->
  steps_fit 0 0 (concat (g_contours g)) -> Z.of_nat (length (g_instr g)) <= 32767 ->
  exists bs, ser_glyph g = Ok bs /\ reads_back de_glyph bs g.
Proof.
  intros g A B C D E F. destruct (PGlyph.simple_roundtrip g A B C D E F) as (bs & E1 & E2).
  exists bs. split; [exact E1|apply PCodec.reads_reads_back, E2].
Qed.
Print Assumptions C20_simple_glyph_roundtrip.

(** Every encoding of a simple glyph that the format allows -- repeated flags,
    long forms of short differences, overlap flags -- is read as that glyph. *)
Theorem C20_every_encoding_read : forall g bs, simple_glyph g ->
  Z.of_nat (length (g_contours g)) <= 32767 -> Z.of_nat (length (concat (g_contours g))) <= 65535 ->
  (exists c cs, g_contours g = c :: cs /\ c <> []) -> Z.of_nat (length (g_instr g)) <= 32767 ->
  glyph_encoding g bs -> reads_back de_glyph bs g.
Proof. exact (fun g bs A B C D E F => PCodec.reads_reads_back _ _ _ (PGlyphFmt.reads_encoding g bs A B C D E F)). Qed.
Print Assumptions C20_every_encoding_read.

(** What is written is one of these encodings. *)
Theorem C20_written_follows_format : forall g bs, simple_glyph g -> simple_sizes g -> g_overlap g = false ->
  Z.of_nat (length (g_instr g)) <= 65535 -> ser_glyph g = Ok bs -> glyph_encoding g bs.
Proof. exact PGlyphFmt.written_encoding. Qed.
Print Assumptions C20_written_follows_format.

(** Three points with one repeated flag byte (on curve, short positive x and y). *)
Example C20_ex_repeat : glyph_encoding
  (mk_glyph 0 9 0 9 [[mk_point 1 2 true; mk_point 4 6 true; mk_point 9 9 true]] [] [] false)
  [0; 1; 0; 0; 0; 0; 0; 9; 0; 9; 0; 2; 0; 0; 63; 2; 1; 3; 5; 2; 4; 3].
Proof.
  exists [63; 63; 63], [63; 2], [1; 3; 5], [2; 4; 3]. cbv zeta. cbn [g_contours concat map app pt_x pt_y pt_on].
  split; [apply (fb_repeat 63 2 [] []); try reflexivity; try (split; discriminate); constructor|].
  split; [apply (cb_plus _ _ 0 63 _ 1); try reflexivity; [split; discriminate|];
          apply (cb_plus _ _ 1 63 _ 3); try reflexivity; [split; discriminate|];
          apply (cb_plus _ _ 4 63 _ 5); try reflexivity; [split; discriminate|]; constructor|].
  split; [apply (cb_plus _ _ 0 63 _ 2); try reflexivity; [split; discriminate|];
          apply (cb_plus _ _ 2 63 _ 4); try reflexivity; [split; discriminate|];
          apply (cb_plus _ _ 6 63 _ 3); try reflexivity; [split; discriminate|]; constructor|].
  split; [reflexivity|]. split; [reflexivity|]. reflexivity.
Qed.

Definition ex_glyph : glyph :=
  mk_glyph (-300) 600 (-20) 700
    [[mk_point 10 20 true; mk_point 10 700 false; mk_point (-300) 700 true; mk_point (-45) (-20) false];
     []; [mk_point 600 0 true; mk_point 345 1 true]]
    [1; 2; 255] [] false.
Example C20_ex : simple_glyph ex_glyph /\ simple_sizes ex_glyph /\ g_overlap ex_glyph = false /\
  steps_fit 0 0 (concat (g_contours ex_glyph)) /\
  (exists bs, ser_glyph ex_glyph = Ok bs /\ from_bytes de_glyph bs = Ok ex_glyph).
Proof.
  split; [|split; [|split; [|split]]].
  - repeat split; try discriminate; repeat constructor; cbn; discriminate.
  - split; cbn; discriminate.
  - reflexivity.
  - cbn; repeat split; discriminate.
  - eexists. split; [vm_compute; reflexivity|]. vm_compute; reflexivity.
Qed.

(** The overlap bit set on a simple glyph is never written. *)
Theorem C20_overlap_refuted : exists g bs g', simple_glyph g /\ simple_sizes g /\
  ser_glyph g = Ok bs /\ from_bytes de_glyph bs = Ok g' /\ g_overlap g = true /\ g_overlap g' = false.
Proof.
  exists (mk_glyph 0 5 0 5 [[mk_point 5 5 true]] [] [] true). eexists. eexists.
  split; [|split; [|split; [|split; [|split]]]].
  - repeat split; try discriminate; repeat constructor; cbn; discriminate.
  - split; cbn; discriminate.
  - vm_compute; reflexivity.
  - vm_compute; reflexivity.
  - reflexivity.
  - reflexivity.
Qed.
Print Assumptions C20_overlap_refuted.

(** An empty leading contour is written as end point 65535: the glyph written
    cannot be read. *)
Theorem C20_empty_contour_refuted : exists g bs, simple_glyph g /\ simple_sizes g /\
  g_overlap g = false /\ ser_glyph g = Ok bs /\ from_bytes de_glyph bs = Panic.
Proof.
  exists (mk_glyph 0 5 0 5 [[]; [mk_point 5 5 true]] [] [] false). eexists.
  split; [|split; [|split; [|split]]].
  - repeat split; try discriminate; repeat constructor; cbn; discriminate.
  - split; cbn; discriminate.
  - reflexivity.
  - vm_compute; reflexivity.
  - vm_compute; reflexivity.
Qed.
Print Assumptions C20_empty_contour_refuted.

(** Cutting a glyph short inside its end-point array aborts instead of
    reporting an error. *)
Theorem C20_truncated_refuted : exists g bs k, simple_glyph g /\ ser_glyph g = Ok bs /\
  (k < length bs)%nat /\ from_bytes de_glyph (firstn k bs) = Panic.
Proof.
  exists (mk_glyph 0 5 0 5 [[mk_point 5 5 true]] [] [] false). eexists. exists 11%nat.
  split; [|split; [|split]].
  - repeat split; try discriminate; repeat constructor; cbn; discriminate.
  - vm_compute; reflexivity.
  - cbn. repeat constructor.
  - vm_compute; reflexivity.
Qed.
Print Assumptions C20_truncated_refuted.

(** ** C21 *)

(** One component, for any position in the component list: the record can be
    written, its flag word announces exactly the bytes written, it reads back
    with the same glyph, placement, transform and user flags; the
    more-components and instructions bits are the ones asked for. *)
Theorem C21_component : forall c more instr, component_ok c ->
  exists flags bs c', flags = recompute_flags c more instr /\
    ser_component flags c = Ok bs /\ reads_back de_component bs c' /\
    component_same c c' /\ cp_flags c' = flags /\
    Z.of_nat (length bs) = 4 + arg_bytes flags + scale_bytes flags /\
    Z.testbit flags 5 = more /\ Z.testbit flags 8 = (negb more && instr)%bool.
Proof.
  intros c more instr H. destruct (PGlyph.component_ok_rt c more instr H) as (bs & c' & E & R & S1 & S2 & S3).
  exists (recompute_flags c more instr), bs, c'. split; [reflexivity|]. split; [exact E|].
  split; [apply PCodec.reads_reads_back, R|]. split; [exact S1|]. split; [exact S2|]. split; [exact S3|].
  rewrite !(PGlyph.f_more c more instr) by (cbn; auto). destruct more, instr; auto.
Qed.
Print Assumptions C21_component.

(** A whole composite glyph. *)
Theorem C21_composite : forall g, composite_glyph g ->
  exists bs g', ser_glyph g = Ok bs /\ reads_back de_glyph bs g' /\ composite_same g g'.
Proof.
  intros g H. destruct (PGlyph.composite_roundtrip g H) as (bs & g' & E & R & S1).
  exists bs, g'. split; [exact E|]. split; [apply PCodec.reads_reads_back, R|exact S1].
Qed.
Print Assumptions C21_composite.

Definition ex_comp : component :=
  mk_comp 7 (mk_affine (Dy 1 (-1)) (Dy 1 (-14)) (Dy (-3) (-2)) (Dy 3 (-1)) (Dy 300 0) (Dy (-5) 0)) None 516.
Definition ex_comp2 : component :=
  mk_comp 9 (mk_affine (Dy 1 0) (Dy 0 0) (Dy 0 0) (Dy 1 0) (Dy 0 0) (Dy 0 0)) (Some (3, 300)) 1024.
Definition ex_composite : glyph := mk_glyph 0 10 (-5) 20 [] [7; 8] [ex_comp; ex_comp2] true.
Example C21_ex : component_ok ex_comp /\ component_ok ex_comp2 /\ composite_glyph ex_composite.
Proof.
  assert (A: component_ok ex_comp).
  { unfold component_ok. repeat split; try (cbn; discriminate).
    - exists 8192. split; [split; discriminate|vm_compute; reflexivity].
    - exists 1. split; [split; discriminate|vm_compute; reflexivity].
    - exists (-12288). split; [split; discriminate|vm_compute; reflexivity].
    - exists 24576. split; [split; discriminate|vm_compute; reflexivity].
    - exists 300. split; [split; discriminate|vm_compute; reflexivity].
    - exists (-5). split; [split; discriminate|vm_compute; reflexivity]. }
  assert (B: component_ok ex_comp2).
  { unfold component_ok. repeat split; try (cbn; discriminate).
    - exists 16384. split; [split; discriminate|vm_compute; reflexivity].
    - exists 0. split; [split; discriminate|vm_compute; reflexivity].
    - exists 0. split; [split; discriminate|vm_compute; reflexivity].
    - exists 16384. split; [split; discriminate|vm_compute; reflexivity]. }
  split; [exact A|]. split; [exact B|]. unfold composite_glyph.
  split; [discriminate|]. split; [reflexivity|]. split; [repeat split; discriminate|].
  split; [exact (Forall_cons _ A (Forall_cons _ B (Forall_nil _)))|].
  split; [repeat constructor; cbn; discriminate|]. split; [cbn; discriminate|reflexivity].
Qed.

(** Offsets that are not whole numbers are written inconsistently: the
    horizontal one is rounded, the vertical one cut off. *)
Theorem C21_fraction_refuted : exists c bs c',
  af_e (cp_trans c) = af_f (cp_trans c) /\
  ser_component (recompute_flags c false false) c = Ok bs /\ from_bytes de_component bs = Ok c' /\
  (val (af_e (cp_trans c')) == 1)%Q /\ (val (af_f (cp_trans c')) == 0)%Q.
Proof.
  exists (mk_comp 1 (mk_affine dy1 dy0 dy0 dy1 (Dy 3 (-2)) (Dy 3 (-2))) None 0). eexists. eexists.
  split; [reflexivity|]. split; [vm_compute; reflexivity|]. split; [vm_compute; reflexivity|].
  split; vm_compute; reflexivity.
Qed.
Print Assumptions C21_fraction_refuted.

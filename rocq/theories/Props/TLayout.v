(** C31-C33: coverage tables, class definitions and device tables. *)
From Coq Require Import List ZArith Lia.
Import ListNotations.
From Verif.Model Require Import MBase MLayout.
From Verif.Spec Require Import SBase SGlyph SLayout.
From Verif.Proofs Require Import PBase PCodec PCover PClassdef PDevice.
Open Scope Z_scope.

(** ** C31 *)
(** What is written is a coverage table for exactly that list of glyphs. *)
Theorem C31_written_follows_format : forall g bs, Forall is_u16 g -> Z.of_nat (length g) <= 65535 ->
  cov_ser g = Ok bs -> cov_bytes bs g.
Proof. exact cov_written_format. Qed.
(** A list can be written unless glyph 65535 stands before its end. *)
Theorem C31_written_iff : forall g, Forall is_u16 g -> Z.of_nat (length g) <= 65535 ->
  ((exists bs, cov_ser g = Ok bs) <-> ~ In 65535 (removelast g)).
Proof. exact cov_written_iff. Qed.
(** The shorter format is chosen when both are possible. *)
Theorem C31_shortest : forall g bs, Forall is_u16 g -> Z.of_nat (length g) <= 65535 -> cov_ser g = Ok bs ->
  (nondecreasing g -> length bs = Nat.min (4 + 2 * length g) (4 + 6 * runs g)) /\ (length bs <= 4 + 2 * length g)%nat.
Proof. exact cov_length. Qed.
(** The announced size is the written size. *)
Theorem C31_size : forall g bs, Forall is_u16 g -> Z.of_nat (length g) <= 65535 -> cov_ser g = Ok bs ->
  cov_size g = Ok (length bs).
Proof. exact cov_size_written. Qed.
(** The list is read back, unless it is written as ranges and ends at glyph
    65535; then the reader fails. *)
Theorem C31_roundtrip : forall g bs, Forall is_u16 g -> Z.of_nat (length g) <= 65535 -> cov_ser g = Ok bs ->
  (~ (ranges_shorter g /\ last g 0 = 65535) -> reads_back cov_de bs g) /\
  (ranges_shorter g /\ last g 0 = 65535 -> forall post, from_bytes cov_de (bs ++ post) = Panic).
Proof.
  intros g bs Hg Hl H. destruct (cov_roundtrip g bs Hg Hl H) as [A B]. split; [|exact B]. intros N. apply reads_reads_back. now apply A.
Qed.
(** Every coverage table of either format is read, except for ranges that reach
    glyph 65535. *)
Theorem C31_every_encoding_read : forall bs g, cov_bytes bs g -> firstn 2 bs = word 1 \/ ~ In 65535 g -> reads_back cov_de bs g.
Proof. intros bs g H1 H2. apply reads_reads_back. now apply cov_every_read. Qed.
Theorem C31_full_range_unreadable : forall rs post, Forall range_ok rs -> Z.of_nat (length rs) <= 65535 ->
  In 65535 (concat (map range_glyphs rs)) ->
  from_bytes cov_de ((word 2 ++ word (Z.of_nat (length rs)) ++ concat (map range_words rs)) ++ post) = Panic.
Proof. exact cov_unreadable. Qed.

Definition ex_cov : list Z := [3; 4; 5; 6; 7; 8; 9; 20].
Example C31_example : cov_ser ex_cov = Ok [0;2; 0;2; 0;3;0;9;0;0; 0;20;0;20;0;7] /\ cov_size ex_cov = Ok 16%nat /\
  from_bytes cov_de [0;2; 0;2; 0;3;0;9;0;0; 0;20;0;20;0;7] = Ok ex_cov.
Proof. vm_compute. auto. Qed.
Example C31_example_unsorted : cov_ser [9; 3; 65535] = Ok [0;1; 0;3; 0;9; 0;3; 255;255] /\
  from_bytes cov_de [0;1; 0;3; 0;9; 0;3; 255;255] = Ok [9; 3; 65535].
Proof. vm_compute. auto. Qed.
Example C31_example_lost : let g := [65532; 65533; 65534; 65535] in
  cov_ser g = Ok [0;2; 0;1; 255;252; 255;255; 0;0] /\ from_bytes cov_de [0;2; 0;1; 255;252; 255;255; 0;0] = Panic.
Proof. vm_compute. auto. Qed.

(** ** C32 *)
(** What is written is a class definition table that gives every glyph its class. *)
Theorem C32_written_follows_format : forall m bs, class_map m -> cd_ser m = Ok bs -> cd_bytes bs (class_in m).
Proof. intros m bs Hm. apply cd_written_format. now apply class_map_ok. Qed.
Theorem C32_written_iff : forall m, class_map m ->
  ((exists bs, cd_ser m = Ok bs) <-> m = [] \/ (last_key m <= 65533 /\ Z.of_nat (class_runs m) <= 21845)).
Proof. intros m Hm. apply cd_written_iff. now apply class_map_ok. Qed.
(** The shorter format is chosen. *)
Theorem C32_shortest : forall m bs, class_map m -> m <> [] -> cd_ser m = Ok bs ->
  length bs = Nat.min (6 + 2 * Z.to_nat (last_key m - first_key m + 1)) (4 + 6 * class_runs m).
Proof. intros m bs Hm. apply cd_shortest. now apply class_map_ok. Qed.
(** Reading the result gives every glyph the same class, and the same glyphs
    for every class but 0; the map itself is the same exactly when it was
    written as ranges or has no gaps. *)
Theorem C32_roundtrip : forall m bs, class_map m -> cd_ser m = Ok bs ->
  exists m', reads_back cd_de bs m' /\ class_map m' /\ (forall g, class_in m' g = class_in m g) /\
    (forall c mx, c <> 0 -> cd_get_glyphs m' c mx = cd_get_glyphs m c mx) /\
    (m' = m <-> firstn 2 bs = word 2 \/ gapless m).
Proof. exact cd_roundtrip_full. Qed.
(** Every class definition of either format is read, except for ranges that
    reach glyph 65535. *)
Theorem C32_every_encoding_read : forall bs f, cd_bytes bs f -> avoids_top bs ->
  exists m, reads_back cd_de bs m /\ increasing (map fst m) /\ forall g, class_in m g = f g.
Proof.
  intros bs f H Ht. destruct (cd_every_read bs f H Ht) as (m & R & S & C). exists m. split; [now apply reads_reads_back|].
  split; [now apply increasing_sorted|exact C].
Qed.
Theorem C32_full_range_unreadable : forall rs post, Forall range_ok rs -> Z.of_nat (length rs) <= 65535 ->
  (exists r, In r rs /\ In 65535 (range_glyphs r)) ->
  from_bytes cd_de ((word 2 ++ word (Z.of_nat (length rs)) ++ concat (map range_words rs)) ++ post) = Panic.
Proof. exact cd_unreadable. Qed.
(** The glyphs reported for a class are those that have it; for class 0 they
    are those, up to the given largest one, that the map does not mention. *)
Theorem C32_glyphs_of_class : forall m c mx g, class_map m -> c <> 0 -> (In g (cd_get_glyphs m c mx) <-> class_in m g = c).
Proof. intros m c mx g Hm. apply get_glyphs_in. now apply class_map_ok. Qed.
Theorem C32_glyphs_of_class_zero : forall m mx g, is_u16 mx ->
  (In g (cd_get_glyphs m 0 mx) <-> 0 <= g <= mx /\ ~ In g (map fst m)).
Proof. exact get_glyphs_zero. Qed.
(** The glyphs reported for class 0 are not kept. *)
Theorem C32_class_zero_kept_refuted : exists m bs m' mx, class_map m /\ cd_ser m = Ok bs /\ from_bytes cd_de bs = Ok m' /\
  cd_get_glyphs m 0 mx = [0; 2] /\ cd_get_glyphs m' 0 mx = [0].
Proof.
  exists [(1, 1); (3, 2)], [0;1; 0;1; 0;3; 0;1; 0;0; 0;2], [(1, 1); (2, 0); (3, 2)], 3.
  split; [split; [cbn; lia|repeat constructor; cbn; lia]|]. vm_compute. auto.
Qed.

Example C32_example : let m := [(5, 1); (6, 1); (7, 1); (8, 1); (90, 2)] in
  class_map m /\ cd_ser m = Ok [0;2; 0;2; 0;5;0;8;0;1; 0;90;0;90;0;2] /\
  from_bytes cd_de [0;2; 0;2; 0;5;0;8;0;1; 0;90;0;90;0;2] = Ok m.
Proof. split; [split; [cbn; lia|repeat constructor; cbn; lia]|]. vm_compute. auto. Qed.
Example C32_example_too_high : cd_ser [(65534, 1)] = Panic /\ cd_ser [(65533, 1)] = Ok [0;1; 255;253; 0;1; 0;1].
Proof. vm_compute. auto. Qed.

(** ** C33 *)
(** the format a device table is written with *)
Definition device_format (d : device) : Z := match dv_format d with Some f => f | None => suggest_format (dv_values d) end.
Theorem C33_written_iff : forall d, (exists bs, dv_ser d = Ok bs) <-> device_format d <= 3.
Proof. exact dv_written_iff. Qed.
(** The written table holds the low bits of each value, in order, padded with zeros. *)
Theorem C33_written_follows_format : forall d bs, 0 <= device_format d -> dv_ser d = Ok bs ->
  exists pad, dev_bytes (dv_start d) (dv_end d) (device_format d) (dv_values d) (repeat false pad) bs.
Proof. exact dv_written_format. Qed.
(** Every packed table is read to its values, whatever the padding. *)
Theorem C33_every_encoding_read : forall s e f vs pad bs, 0 <= f <= 3 -> dev_sized s e vs ->
  Forall (fits_bits (bits_per_value f)) vs -> dev_bytes s e f vs pad bs ->
  reads_back dv_de bs (mk_device s e (Some f) vs).
Proof. intros. apply reads_reads_back. eapply dv_every_read; eauto. Qed.
(** The values are read back exactly when there is one for every size and all
    fit the width of the format. *)
Theorem C33_roundtrip_iff : forall d bs, is_u16 (dv_start d) -> is_u16 (dv_end d) -> 0 <= device_format d -> dv_ser d = Ok bs ->
  (reads_back dv_de bs (mk_device (dv_start d) (dv_end d) (Some (device_format d)) (dv_values d)) <->
   dev_sized (dv_start d) (dv_end d) (dv_values d) /\ Forall (fits_bits (bits_per_value (device_format d))) (dv_values d)).
Proof. exact dv_roundtrip. Qed.
(** The format chosen when none is given need not be wide enough. *)
Theorem C33_suggested_format_refuted : exists vs bs, Forall (fits_bits 8) vs /\ dev_sized 12 13 vs /\
  dv_ser (mk_device 12 13 None vs) = Ok bs /\ from_bytes dv_de bs = Ok (mk_device 12 13 (Some 1) [-2; 1]) /\ vs = [2; -3].
Proof.
  exists [2; -3], [0;12; 0;13; 0;1; 144;0]. split; [unfold fits_bits; repeat constructor; cbn; lia|].
  split; [unfold dev_sized, is_u16; cbn; lia|]. vm_compute. auto.
Qed.
(** Variation index tables are read but cannot be written. *)
Theorem C33_variation_index_refuted : forall s e, is_u16 s -> is_u16 e ->
  reads_back dv_de (word s ++ word e ++ word 32768) (mk_device s e (Some 32768) []) /\
  dv_ser (mk_device s e (Some 32768) []) = Panic.
Proof. intros s e Hs He. destruct (dv_variation_index s e Hs He) as [A B]. split; [now apply reads_reads_back|exact B]. Qed.

Example C33_example : let d := mk_device 11 15 None [-1; -1; 1; 1; 1] in
  dv_ser d = Ok [0;11; 0;15; 0;1; 245;64] /\ from_bytes dv_de [0;11; 0;15; 0;1; 245;64] = Ok (mk_device 11 15 (Some 1) (dv_values d)) /\
  dev_sized 11 15 (dv_values d) /\ Forall (fits_bits (bits_per_value 1)) (dv_values d).
Proof.
  cbv zeta. split; [vm_compute; reflexivity|]. split; [vm_compute; reflexivity|]. split; [unfold dev_sized, is_u16; cbn; lia|].
  change (bits_per_value 1) with 2%nat. unfold fits_bits. cbn [dv_values]. repeat (apply Forall_cons; [cbn; lia|]). apply Forall_nil.
Qed.

Print Assumptions C31_written_follows_format.
Print Assumptions C31_written_iff.
Print Assumptions C31_shortest.
Print Assumptions C31_size.
Print Assumptions C31_roundtrip.
Print Assumptions C31_every_encoding_read.
Print Assumptions C31_full_range_unreadable.
Print Assumptions C32_written_follows_format.
Print Assumptions C32_written_iff.
Print Assumptions C32_shortest.
Print Assumptions C32_roundtrip.
Print Assumptions C32_every_encoding_read.
Print Assumptions C32_full_range_unreadable.
Print Assumptions C32_glyphs_of_class.
Print Assumptions C32_glyphs_of_class_zero.
Print Assumptions C32_class_zero_kept_refuted.
Print Assumptions C33_written_iff.
Print Assumptions C33_written_follows_format.
Print Assumptions C33_every_encoding_read.
Print Assumptions C33_roundtrip_iff.
Print Assumptions C33_suggested_format_refuted.
Print Assumptions C33_variation_index_refuted.

(** C84: which bytes make the shared layout structures and character maps abort. *)
From Coq Require Import String List ZArith Bool Lia.
Import ListNotations.
From Verif.Model Require Import MBase MMap MOffset MLayout MLow MGsub MContext MCmap MStore MCli MWhole.
From Verif.Model Require MName.
From Verif.Spec Require Import SBase SReader SStore SWhole SCalm SStop.
From Verif.Proofs Require Import PBase PCalm PStop.
Open Scope Z_scope.

(** ** Layout structures *)
Theorem C84_coverage : stops cov_de coverage_bad.
Proof. exact coverage_stops. Qed.
Theorem C84_classes : stops cd_de class_bad.
Proof. exact class_stops. Qed.
Theorem C84_device : stops dv_de device_bad.
Proof. exact device_stops. Qed.
Theorem C84_ligature : stops lig_de ligature_bad.
Proof. exact ligature_stops. Qed.
Theorem C84_rule : stops sr_de rule_bad.
Proof. exact rule_stops. Qed.
Theorem C84_chained_rule : stops cr_de chained_rule_bad.
Proof. exact chained_rule_stops. Qed.
Print Assumptions C84_coverage.
Print Assumptions C84_classes.
Print Assumptions C84_device.
Print Assumptions C84_ligature.
Print Assumptions C84_rule.
Print Assumptions C84_chained_rule.

(** ** Character maps *)
Theorem C84_format0 : stops cmap0_de cmap0_bad.
Proof. exact cmap0_stops. Qed.
Theorem C84_format4 : stops cmap4_read cmap4_bad.
Proof. exact cmap4_stops. Qed.
Theorem C84_format12 : stops cmap12_read cmap12_bad.
Proof. exact cmap12_stops. Qed.
Theorem C84_format14 : stops cmap14_de cmap14_bad.
Proof. intros d k st B. exact (proj1 (cmap14_shaped d k st B)). Qed.
Print Assumptions C84_format0.
Print Assumptions C84_format4.
Print Assumptions C84_format12.
Print Assumptions C84_format14.

(** The whole table, put as bytes into a table set and looked up. *)
Theorem C84_cmap {P} (other : MName.charset -> MName.coder) (fragment : list Z -> further P -> list Z) (hash : cmapping -> Z) tag d :
  Forall is_byte d -> named tag "cmap" -> aborts_iff (library other fragment hash) tag d (cmap_bad d).
Proof. intros B -> s. exact (get_cmap other fragment hash d s B). Qed.
Print Assumptions C84_cmap.

(** ** Cases *)
Ltac bytes := repeat (apply Forall_cons; [unfold is_byte; lia|]); apply Forall_nil.
(** Two ranges, the second up to glyph 65535; the same up to 65534 is read. *)
Definition two_ranges (last : Z) : list Z := [0;2; 0;2; 0;1; 0;3; 0;0;  255;250; 255;last; 0;3].
Example C84_coverage_case : coverage_bad (two_ranges 255) 0 /\ ~ coverage_bad (two_ranges 254) 0 /\ class_bad (two_ranges 255) 0 /\
  from_bytes cov_de (two_ranges 254) = Ok [1; 2; 3; 65530; 65531; 65532; 65533; 65534].
Proof.
  assert (B: forall x, 0 <= x <= 255 -> Forall is_byte (two_ranges x)) by (intros x Hx; unfold two_ranges; bytes).
  split; [apply (C84_coverage (two_ranges 255) 0%nat [0%nat]); [apply B; lia|reflexivity]|].
  split; [intros X; apply (C84_coverage (two_ranges 254) 0%nat [0%nat]) in X; [discriminate X|apply B; lia]|].
  split; [apply (C84_classes (two_ranges 255) 0%nat [0%nat]); [apply B; lia|reflexivity]|reflexivity].
Qed.
Example C84_device_case : device_bad [0;12; 0;11; 0;1; 0;0] 0 /\ device_bad [0;12; 0;13; 0;4; 0;0] 0 /\ ~ device_bad [0;12; 0;13; 0;1; 0;0] 0.
Proof.
  split; [apply (C84_device _ 0%nat [0%nat]); [bytes|reflexivity]|]. split; [apply (C84_device _ 0%nat [0%nat]); [bytes|reflexivity]|].
  intros X. apply (C84_device _ 0%nat [0%nat]) in X; [discriminate X|bytes].
Qed.
Example C84_rule_case : rule_bad [0;0; 0;0] 0 /\ ligature_bad [0;7; 0;0] 0 /\ chained_rule_bad [0;1; 0;9; 0;0] 0 /\ ~ chained_rule_bad [0;1; 0;9; 0;1; 0;0; 0;0] 0.
Proof.
  split; [apply (C84_rule _ 0%nat [0%nat]); [bytes|reflexivity]|]. split; [apply (C84_ligature _ 0%nat [0%nat]); [bytes|reflexivity]|].
  split; [apply (C84_chained_rule _ 0%nat [0%nat]); [bytes|reflexivity]|].
  intros X. apply (C84_chained_rule _ 0%nat [0%nat]) in X; [discriminate X|bytes].
Qed.
(** A cmap with one format 4 subtable: two segments, the first with one code whose
    entry in the glyph array, [g], is increased by 2. *)
Definition one_segment (hi lo : Z) : list Z :=
  [0;0; 0;1;  0;3; 0;1; 0;0;0;12] ++
  [0;4; 0;34; 0;0; 0;4; 0;4; 0;1; 0;0;  0;65; 255;255;  0;0;  0;65; 255;255;  0;2; 0;1;  0;4; 0;0;  hi;lo].
(** One format 12 subtable with one group, which reaches glyph 65536. *)
Definition one_group (last : Z) : list Z :=
  [0;0; 0;1;  0;3; 0;10; 0;0;0;12] ++
  [0;12; 0;0; 0;0;0;28; 0;0;0;0; 0;0;0;1;  0;0;0;65; 0;0;0;last; 0;0;255;255].
(** One format 14 subtable with one selector, whose second list is too far away. *)
Definition one_selector (far : Z) : list Z :=
  [0;0; 0;1;  0;0; 0;5; 0;0;0;12] ++
  [0;14; 0;0;0;21; 0;0;0;1;  0;254;0; 0;0;0;0; 0;far;0;21; 0;0;0;0].
Example C84_cmap_case :
  cmap_bad (one_segment 127 255) /\ ~ cmap_bad (one_segment 127 253) /\ cmap_bad (one_group 66) /\ ~ cmap_bad (one_group 65) /\
  cmap_bad (one_selector 1) /\ ~ cmap_bad (one_selector 0) /\ exists x, from_bytes cmap_de (one_selector 0) = Ok x.
Proof.
  assert (S: forall a b, 0 <= a <= 255 -> 0 <= b <= 255 -> Forall is_byte (one_segment a b)) by (intros; unfold one_segment; cbn [app]; bytes).
  assert (G: forall a, 0 <= a <= 255 -> Forall is_byte (one_group a)) by (intros; unfold one_group; cbn [app]; bytes).
  assert (V: forall a, 0 <= a <= 255 -> Forall is_byte (one_selector a)) by (intros; unfold one_selector; cbn [app]; bytes).
  split; [apply cmap_aborts; [apply S; lia|vm_compute; reflexivity]|].
  split; [intros X; apply cmap_aborts in X; [vm_compute in X; discriminate X|apply S; lia]|].
  split; [apply cmap_aborts; [apply G; lia|vm_compute; reflexivity]|].
  split; [intros X; apply cmap_aborts in X; [vm_compute in X; discriminate X|apply G; lia]|].
  split; [apply cmap_aborts; [apply V; lia|vm_compute; reflexivity]|].
  split; [intros X; apply cmap_aborts in X; [vm_compute in X; discriminate X|apply V; lia]|].
  eexists. vm_compute. reflexivity.
Qed.

(** C69: the mathematical typesetting table. *)
From Coq Require Import String List ZArith Lia.
Import ListNotations.
From Verif.Model Require Import MBase MLayout MMath.
From Verif.Spec Require Import SBase SGlyph SLayout SContext SGsub SStat SMath.
From Verif.Proofs Require Import PMath.
Open Scope Z_scope.

(** Every table that is in the format, except that the offsets inside the
    constants, the italics corrections, the accent positions, the kern tables and
    the glyph assemblies count from the enclosing table, is read as what it says:
    the n-th record belongs to the n-th glyph of the coverage table. *)
Theorem C69_read : forall buf t, math_file Outer buf t -> from_bytes math_read buf = Ok t.
Proof. exact math_reads. Qed.
(** So an OpenType table that has no such offsets is read as what it says. *)
Theorem C69_opentype : forall buf t, math_file Unused buf t -> math_file Own buf t /\ from_bytes math_read buf = Ok t.
Proof. intros buf t H. split; [now apply unused_math|]. apply math_reads. now apply unused_math. Qed.
(** A buffer says at most one thing in this reading. *)
Theorem C69_unambiguous : forall buf t t', math_file Outer buf t -> math_file Outer buf t' -> t = t'.
Proof. intros buf t t' H H'. apply math_reads in H, H'. congruence. Qed.
(** A table without constants is rejected. *)
Theorem C69_constants_needed : forall buf t, from_bytes math_read buf = Ok t -> nth 4 buf 0 <> 0 \/ nth 5 buf 0 <> 0.
Proof. exact math_constants_needed. Qed.

(** ** Examples *)
Definition no_device (v : Z) : mvalue := mk_mvalue v None.
Definition ex_constants : mconstants :=
  mk_mconstants 80 60 1500 1250 (map (fun i => (nth i opentype_constants EmptyString, no_device (Z.of_nat i - 20))) (seq 0 51)) 33.
Definition constants_bytes : list Z :=
  words [80; 60; 1500; 1250] ++ concat (map (fun i => word (Z.of_nat i - 20) ++ word 0) (seq 0 51)) ++ word 33.
Lemma plain_value b v : is_i16 v -> forall buf, value_rec buf b (no_device v) (word v ++ word 0).
Proof. intros H buf. split; [exact H|]. exists (word 0). split; reflexivity. Qed.
Lemma plain_values b f l : (forall i, In i l -> is_i16 (f i)) -> forall buf, value_recs buf b (map (fun i : nat => no_device (f i)) l) (concat (map (fun i => word (f i) ++ word 0) l)).
Proof.
  intros H buf. eexists. split; [|reflexivity]. induction l as [|i l IH]; cbn [map]; constructor; [apply plain_value; apply H; now left|]. apply IH. intros; apply H. now right.
Qed.
Lemma ex_constants_at o buf : found buf 10 constants_bytes -> constants_at o buf 0 10 ex_constants.
Proof.
  intros F. unfold constants_at, ex_constants. cbn [mc_script_percent mc_script_script_percent mc_formula_height mc_operator_height mc_values mc_raise_percent].
  split; [unfold is_i16; lia|]. split; [unfold is_i16; lia|]. split; [unfold is_u16; lia|]. split; [unfold is_u16; lia|]. split; [unfold is_i16; lia|]. split; [reflexivity|].
  eexists. split; [rewrite map_map; apply (plain_values _ (fun i => Z.of_nat i - 20)); intros i Hi; apply in_seq in Hi; unfold is_i16; lia|]. exact F.
Qed.
Lemma some_pointer {A} b off (R : Z -> A -> Prop) a : 1 <= off <= 65535 -> R (b + off) a -> pointer (Some b) R (word off) (Some a).
Proof. intros H1 H2. exists b, off. auto. Qed.
Lemma one_counted {A} (R : A -> list Z -> Prop) a b : R a b -> counted_of R [a] (word 1 ++ b).
Proof. intros H. split; [unfold countable; cbn; lia|]. exists [b]. split; [auto|]. cbn. now rewrite app_nil_r. Qed.
Lemma one_glyph buf pos g : is_u16 g -> found buf pos (words [1; 1; g]) -> coverage_at buf pos [g].
Proof.
  intros H F. eexists. split; [exact F|]. split; [|left; reflexivity]. apply (cov1 [g]); [auto|cbn; lia].
Qed.
Definition ex_kern : mkern := mk_mkern 1 [no_device 100] [no_device 10; no_device (-20)].
Definition ex_construction : mconstruction := mk_mconstruction (Some (mk_massembly (no_device 15) [mk_mpart 51 0 100 500 1])) [(50, 700)].
Definition ex_math : math := mk_math ex_constants [] [] [5] [(7, mk_mcorners None (Some ex_kern) None None)] (Some 100) [(9, ex_construction)] [].
Definition ex_buf : list Z :=
  words [1; 0; 10; 224; 270] ++ constants_bytes ++
  words [0; 0; 8; 14] ++ words [1; 1; 5] ++                     (* glyph information at 224, extended shapes at 232 *)
  words [12; 1; 0; 18; 0; 0] ++ words [1; 1; 7] ++              (* kerning at 238, its coverage at 250 *)
  words [1; 100; 0; 10; 0; -20; 0] ++                           (* a kern table at 256 *)
  words [100; 12; 0; 1; 0; 18] ++ words [1; 1; 9] ++            (* variants at 270, their coverage at 282 *)
  words [8; 1; 50; 700] ++ words [15; 0; 1; 51; 0; 100; 500; 1]. (* a construction at 288, its assembly at 296 *)
Lemma single_assigns {A} k (v : A) l : l = [(k, v)] -> assigns l [(k, v)].
Proof.
  intros ->. split; [cbn; auto|]. intros k' v'. unfold last_entry. split.
  - intros [E|[]]. injection E as <- <-. exists [], []. split; [reflexivity|intros []].
  - intros (a & b & E & _). destruct a as [|x [|]]; [injection E as -> -> _; now left|discriminate|discriminate].
Qed.
Lemma none_assigns {A} : assigns (@nil (Z * A)) [].
Proof. split; [cbn; auto|]. intros k v. unfold last_entry. split; [intros []|]. intros (a & b & E & _). destruct a; discriminate. Qed.
Example C69_example : math_file Unused ex_buf ex_math /\ from_bytes math_read ex_buf = Ok ex_math.
Proof.
  split; [|vm_compute; reflexivity].
  apply (math_file1 Unused ex_buf 1 0 (word 10) (word 224) (word 270) ex_constants
    (Some (mk_mglyph_info None None (Some [5]) (Some (Some [7], [mk_mcorners None (Some ex_kern) None None]))))
    (Some (mk_mvariants 100 (Some [9]) None [Some ex_construction] []))); try (unfold is_u16; lia).
  - apply some_pointer; [lia|]. apply ex_constants_at. vm_compute. reflexivity.
  - apply some_pointer; [lia|]. exists (word 0), (word 0), (word 8), (word 14). split; [reflexivity|]. split; [reflexivity|]. split.
    + apply some_pointer; [lia|]. apply one_glyph; [unfold is_u16; lia|vm_compute; reflexivity].
    + split; [|vm_compute; reflexivity]. apply some_pointer; [lia|]. exists (word 12), (words [1; 0; 18; 0; 0]). split; [|split; [|vm_compute; reflexivity]].
      * apply some_pointer; [lia|]. apply one_glyph; [unfold is_u16; lia|vm_compute; reflexivity].
      * apply (one_counted (corners Unused ex_buf (0 + 224 + 14)) (mk_mcorners None (Some ex_kern) None None) (words [0; 18; 0; 0])).
        exists (word 0), (word 18), (word 0), (word 0). split; [reflexivity|]. split; [|split; [reflexivity|]; split; reflexivity].
        apply some_pointer; [lia|]. unfold kern_at, ex_kern. cbn [mk_count mk_heights mk_kerns length]. split; [reflexivity|]. split; [unfold countable; cbn; lia|]. split; [reflexivity|].
        exists (words [100; 0]), (words [10; 0; -20; 0]). split; [|split; [|vm_compute; reflexivity]].
        -- exists [words [100; 0]]. split; [|reflexivity]. constructor; [|constructor]. apply (plain_value _ 100). unfold is_i16. lia.
        -- exists [words [10; 0]; words [-20; 0]]. split; [|reflexivity]. constructor; [apply (plain_value _ 10); unfold is_i16; lia|]. constructor; [|constructor]. apply (plain_value _ (-20)). unfold is_i16. lia.
  - apply some_pointer; [lia|]. unfold variants_at. cbn [mv_overlap mv_vcov mv_hcov mv_vert mv_horiz length]. split; [unfold is_u16; lia|]. split; [unfold countable; cbn; lia|]. split; [unfold countable; cbn; lia|].
    exists (word 12), (word 0), (word 18), []. split; [|split; [reflexivity|]; split; [|split; [exists []; split; [constructor|reflexivity]|vm_compute; reflexivity]]].
    + apply some_pointer; [lia|]. apply one_glyph; [unfold is_u16; lia|vm_compute; reflexivity].
    + exists [word 18]. split; [|reflexivity]. constructor; [|constructor]. apply some_pointer; [lia|]. exists (word 8), (words [1; 50; 700]). split; [|split; [|vm_compute; reflexivity]].
      * apply some_pointer; [lia|]. exists (words [15; 0]), (words [1; 51; 0; 100; 500; 1]). split; [apply (plain_value _ 15); unfold is_i16; lia|]. split; [|vm_compute; reflexivity].
        apply (one_counted part_rec _ (words [51; 0; 100; 500; 1])). split; [|reflexivity]. repeat constructor; unfold is_u16; cbn; lia.
      * apply (one_counted variant_rec (50, 700) (words [50; 700])). split; [unfold is_u16; cbn; lia|]. split; [unfold is_u16; cbn; lia|reflexivity].
  - vm_compute. reflexivity.
  - reflexivity.
  - apply none_assigns.
  - apply none_assigns.
  - cbn. auto.
  - reflexivity.
  - now apply single_assigns.
  - reflexivity.
  - now apply single_assigns.
  - apply none_assigns.
Qed.

(** An OpenType table with an italics correction for glyph 5 is read as one without
    corrections: its coverage table is looked for in the wrong place. *)
Definition italics_buf : list Z :=
  words [1; 0; 10; 224; 0] ++ constants_bytes ++ words [8; 0; 0; 0] ++ words [8; 1; 33; 0] ++ words [1; 1; 5].
Theorem C69_italics_refuted : exists buf t t', math_file Own buf t /\ mt_italics t = [(5, no_device 33)] /\
  from_bytes math_read buf = Ok t' /\ mt_italics t' = [].
Proof.
  exists italics_buf, (mk_math ex_constants [(5, no_device 33)] [] [] [] None [] []). eexists. split; [|split; [reflexivity|]; split; [vm_compute; reflexivity|reflexivity]].
  apply (math_file1 Own italics_buf 1 0 (word 10) (word 224) (word 0) ex_constants
    (Some (mk_mglyph_info (Some (Some [5], [no_device 33])) None None None)) None); try (unfold is_u16; lia); try reflexivity; try apply none_assigns.
  - apply some_pointer; [lia|]. apply ex_constants_at. vm_compute. reflexivity.
  - apply some_pointer; [lia|]. exists (word 8), (word 0), (word 0), (word 0). split; [|split; [reflexivity|]; split; [reflexivity|]; split; [reflexivity|vm_compute; reflexivity]].
    apply some_pointer; [lia|]. exists (word 8), (words [1; 33; 0]). split; [|split; [|vm_compute; reflexivity]].
    + apply some_pointer; [lia|]. apply one_glyph; [unfold is_u16; lia|vm_compute; reflexivity].
    + apply (one_counted _ (no_device 33) (words [33; 0])). apply (plain_value _ 33). unfold is_i16. lia.
  - now apply single_assigns.
Qed.

Print Assumptions C69_read.
Print Assumptions C69_opentype.
Print Assumptions C69_unambiguous.
Print Assumptions C69_constants_needed.
Print Assumptions C69_italics_refuted.

(** C66: the style attributes table. *)
From Coq Require Import List ZArith Lia.
Import ListNotations.
From Verif.Model Require Import MBase MFixed MStat.
From Verif.Spec Require Import SBase SGlyph SLayout SContext SScript SStat.
From Verif.Proofs Require Import PBase PStat.
Open Scope Z_scope.

(** A buffer is read exactly if it is in the format, wherever the axes, the
    offsets and the values are, and then as what it says. *)
Theorem C66_read_iff : forall buf t, Forall is_byte buf -> (from_bytes stat_read buf = Ok t <-> stat_file buf t).
Proof. exact stat_iff. Qed.
(** A table is saved exactly if every value says which axis it is about and the
    values and their offsets take at most 65535 bytes. *)
Theorem C66_saved_iff : forall t, stat_ok t ->
  ((exists out, stat_ser t = Ok out) <->
   Forall placed (st_values t) /\ 2 * Z.of_nat (length (st_values t)) + sum_of (map bytes_of (st_values t)) <= 65535).
Proof. exact saved_iff. Qed.
(** What is saved is in the format, and is loaded as the same axes and values:
    each value with the parts its format has, numbers rounded to 16.16. *)
Theorem C66_written : forall t out, stat_ok t -> stat_ser t = Ok out -> stat_file out (reloaded t).
Proof. intros t out H W. exact (proj2 (stat_written t out H W)). Qed.
Theorem C66_roundtrip : forall t out, stat_ok t -> stat_ser t = Ok out -> from_bytes stat_read out = Ok (reloaded t).
Proof. exact stat_roundtrip. Qed.
(** So it is loaded as the same table exactly if the table has a fallback name and
    every value has the parts of one format, with numbers that fit. *)
Theorem C66_roundtrip_iff : forall t out, stat_ok t -> stat_ser t = Ok out ->
  (from_bytes stat_read out = Ok t <-> st_elided t <> None /\ Forall proper (st_values t)).
Proof. exact stat_roundtrip_iff. Qed.
Definition num (k : Z) : dyadic := fixed_from_packed (k * 65536).
Definition ex_stat : stat := mk_stat (Some 2)
  [mk_design_axis [119; 103; 104; 116] 256 0; mk_design_axis [105; 116; 97; 108] 257 1]
  [mk_av (Some 0) 2 258 (Some (num 400)) None (Some (num 700)) None;
   mk_av (Some 0) 0 259 (Some (num 300)) (Some (num 250, num 350)) None None;
   mk_av (Some 1) 1 260 (Some (num 0)) None None None;
   mk_av None 0 261 None None None (Some [(0, num 900); (1, num 1)])].
Lemma ex_stat_ok : stat_ok ex_stat.
Proof.
  unfold stat_ok, ex_stat. cbn [st_elided st_axes st_values]. unfold countable. cbn [length].
  repeat split; try (unfold is_u16; lia); repeat (apply Forall_cons || apply Forall_nil); unfold axis_ok, is_tag, value_ok, is_u16; cbn; repeat split; try lia; repeat (apply Forall_cons || apply Forall_nil); cbn; try lia.
Qed.
Example C66_example : stat_ok ex_stat /\ st_elided ex_stat <> None /\ Forall proper (st_values ex_stat) /\
  exists out, stat_ser ex_stat = Ok out /\ length out = 112%nat /\ firstn 20 out = [0;1; 0;2; 0;8; 0;2; 0;0;0;20; 0;4; 0;0;0;36; 0;2] /\ from_bytes stat_read out = Ok ex_stat.
Proof.
  split; [exact ex_stat_ok|]. split; [discriminate|]. split.
  - unfold ex_stat. cbn [st_values]. repeat (apply Forall_cons || apply Forall_nil); constructor; try reflexivity. repeat (apply Forall_cons || apply Forall_nil); reflexivity.
  - eexists. split; [vm_compute; reflexivity|]. split; [reflexivity|]. split; [reflexivity|]. vm_compute. reflexivity.
Qed.
(** Axis records longer than 8 bytes, as the header may announce, are misread. *)
Theorem C66_axis_size_refuted : exists buf, firstn 8 buf = [0;1; 0;1; 0;10; 0;2] /\
  skipn 20 buf = [119; 103; 104; 116; 1;0; 0;0; 0;0] ++ [105; 116; 97; 108; 1;1; 0;1; 0;0] /\ from_bytes stat_read buf = Err.
Proof. exists ([0;1; 0;1; 0;10; 0;2; 0;0;0;20; 0;0; 0;0;0;0; 0;2] ++ [119; 103; 104; 116; 1;0; 0;0; 0;0] ++ [105; 116; 97; 108; 1;1; 0;1; 0;0]). vm_compute. auto. Qed.
(** A value without an axis aborts saving. *)
Theorem C66_no_axis_aborts : forall t v, stat_ok t -> In v (st_values t) -> ~ placed v -> forall out, stat_ser t <> Ok out.
Proof.
  intros t v H Hi Hp out W. destruct (proj1 (saved_iff t H) (ex_intro _ out W)) as [P _]. rewrite Forall_forall in P. exact (Hp (P v Hi)).
Qed.

Print Assumptions C66_read_iff.
Print Assumptions C66_saved_iff.
Print Assumptions C66_written.
Print Assumptions C66_roundtrip.
Print Assumptions C66_roundtrip_iff.
Print Assumptions C66_axis_size_refuted.
Print Assumptions C66_no_axis_aborts.

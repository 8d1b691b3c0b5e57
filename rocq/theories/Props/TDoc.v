(** C70: designspace documents. *)
From Coq Require Import List ZArith QArith Bool Lia Sorted.
Import ListNotations.
From Verif.Model Require Import MBase MTag MMap MFixed MFloat MFloat32 MTables MName MVarModel MAvar MDesign MDoc.
From Verif.Spec Require Import SBase SFloat SDesign SDoc.
From Verif.Proofs Require Import PBase PMap PFloat PDesign PNormal PInst PDoc.
From Verif.Props Require TDesign.
Open Scope Z_scope.

(** ** Adding a document to a font *)

(** The font keeps its names and gets one for each string of the document, with
    the IDs from 255 on; every ID in the axes and instances is that of its string. *)
Theorem C70_add d ns fv ns' maps : add_to_font d (Some ns) = Ok (fv, ns', maps) ->
  exists added, ns' = ns ++ added /\ length added = length (strings_of d) /\
    (forall i s, nth_error (strings_of d) i = Some s -> exists r, nth_error added i = Some r /\ english (255 + Z.of_nat i) s r) /\
    Forall2 (axis_written added) (doc_axes d) (fv_axes fv) /\
    Forall2 (instance_written d added) (instances_of d) (fv_instances fv) /\
    Forall2 (fun a m => axis_segments (da_axis a) = Ok m) (doc_axes d) maps.
Proof.
  intros H. apply add_spec in H. destruct H as (-> & A & I & M & _). exists (numbered 255 (strings_of d)). split; [reflexivity|].
  split; [apply numbered_length|].
  split; [|auto]. intros i s N. eexists. split; [apply numbered_nth; eauto|apply english_win].
Qed.
Print Assumptions C70_add.

(** If the font uses no ID from 255 on, the IDs are unambiguous in the whole font. *)
Theorem C70_names d ns fv ns' maps id s : Forall (fun r => nr_name r < 255) ns -> add_to_font d (Some ns) = Ok (fv, ns', maps) ->
  (exists added, ns' = ns ++ added /\ means added id s) -> means ns' id s.
Proof.
  intros N H (added & E & l & r & l' & A & B & C). apply add_spec in H. destruct H as (E' & _). rewrite E in E'. apply app_inv_head in E'. subst added.
  exists (ns ++ l), r, l'. split; [rewrite E, A, <- app_assoc; reflexivity|]. split; [exact B|].
  rewrite <- app_assoc. apply Forall_app. split; [|exact C]. destruct B as (_ & _ & B & _).
  pose proof (numbered_ids 255 (strings_of d)) as I. rewrite A in I. apply Forall_app in I. destruct I as [_ I]. inversion_clear I.
  eapply Forall_impl; [|exact N]. cbn. intros x. lia.
Qed.
Print Assumptions C70_names.

(** Which documents can be added. *)
Theorem C70_add_iff d ns : (exists r, add_to_font d (Some ns) = Ok r) <->
  Forall four_letters (doc_axes d) /\ Forall (fun a => exists m, axis_segments (da_axis a) = Ok m) (doc_axes d) /\
  Z.of_nat (length (strings_of d)) <= 65280.
Proof.
  split.
  - intros ([[fv ns'] maps] & H). apply add_spec in H. destruct H as (_ & _ & _ & M & _ & G & L). split; [exact G|]. split; [|lia].
    clear -M. induction M; constructor; eauto.
  - intros (G & M & L). apply add_ok; [exact G|exact M|lia].
Qed.
Print Assumptions C70_add_iff.
Theorem C70_no_names d : add_to_font d None = Panic.
Proof. reflexivity. Qed.
Print Assumptions C70_no_names.
(** A tag that does not have four bytes is reported. *)
Theorem C70_bad_tag d ns : Z.of_nat (length (doc_axes d)) <= 65280 -> Forall (fun a => exists m, axis_segments (da_axis a) = Ok m) (doc_axes d) ->
  Forall (fun a => length (da_tag a) = 4%nat -> Forall printable_char (da_tag a)) (doc_axes d) ->
  Exists (fun a => length (da_tag a) <> 4%nat) (doc_axes d) -> add_to_font d (Some ns) = Err.
Proof.
  intros L M P X. unfold add_to_font. cbn [unwrap rbind]. rewrite (add_axes_err (doc_axes d) 255 ns); auto; lia.
Qed.
Print Assumptions C70_bad_tag.

(** The first axis always gets the ID 255, which OpenType reserves: the IDs for
    axes have to be greater. *)
Theorem C70_first_id d ns fv ns' maps : add_to_font d (Some ns) = Ok (fv, ns', maps) ->
  match fv_axes fv with [] => doc_axes d = [] | r :: _ => ax_axisNameID r = 255 end.
Proof.
  intros H. apply add_spec in H. destruct H as (_ & A & _ & _ & E & _). destruct (fv_axes fv) as [|r rs].
  - now inversion A.
  - remember (doc_axes d) as l0 eqn:E0. clear E0. inversion A as [|a ? axs ? _ _ EA]; subst. cbn [map] in E. cbn [length seq map] in E.
    remember (seq 1 (length axs)) as sq. injection E as E _. lia.
Qed.
Print Assumptions C70_first_id.

(** ** Locations *)
Theorem C70_location d ts loc vs : titled d ts -> (location_to_tuple d loc = Ok vs <-> placed d loc vs).
Proof. apply tuple_iff. Qed.
Print Assumptions C70_location.

Theorem C70_source d ts s e : titled d ts -> (source_location d s = Ok e <-> lies d s e).
Proof. apply source_iff. Qed.
Print Assumptions C70_source.

(** The default master is the first source at the default. *)
Theorem C70_default_master d ts e : titled d ts -> design_default d e -> exists o, default_master d = Ok o /\
  match o with
  | Some s => exists l r, doc_sources d = l ++ s :: r /\ lies d s e /\ Forall (fun s' => ~ lies d s' e) l
  | None => Forall (fun s' => ~ lies d s' e) (doc_sources d)
  end.
Proof. apply master_spec. Qed.
Print Assumptions C70_default_master.

(** Without axis maps, a source that gives no coordinates is a default master ... *)
Theorem C70_empty_location d ts s rest : titled d ts -> Forall (fun a => ax_map (da_axis a) = None) (doc_axes d) ->
  doc_sources d = s :: rest -> src_location s = [] -> default_master d = Ok (Some s).
Proof.
  intros T M S0 L. set (e := map (fun a => f_as_i32 (f32_of_int (ax_default (da_axis a)))) (doc_axes d)).
  assert (D: design_default d e).
  { unfold design_default, e. clear -M. induction M as [|a l M _ IH]; cbn [map]; constructor; [|exact IH].
    exists (f32_of_int (ax_default (da_axis a))). split; [|now apply cut_iff]. now apply plain_default. }
  destruct (C70_default_master d ts e T D) as (o & -> & H).
  assert (A: lies d s e).
  { exists (map (fun a => f32_of_int (ax_default (da_axis a))) (doc_axes d)). rewrite L. unfold placed, e. clear. split.
    - induction (doc_axes d) as [|a l IH]; cbn [map]; constructor; [|exact IH]. right. split; [constructor|reflexivity].
    - induction (doc_axes d) as [|a l IH]; cbn [map]; constructor; [now apply cut_iff|exact IH]. }
  destruct o as [s'|].
  - destruct H as ([|x l] & r & E & B & F); rewrite S0 in E; injection E as -> E; [reflexivity|]. inversion_clear F. contradiction.
  - rewrite S0 in H. inversion_clear H. contradiction.
Qed.
Print Assumptions C70_empty_location.

(** ... but with a map it need not be: the missing coordinate is taken from the
    user default, although locations are in design coordinates. *)
Definition weight_tag : list Z := [119; 103; 104; 116].
Definition weight_name : list Z := [87; 101; 105; 103; 104; 116].
Definition mapped : doc_axis := mk_da weight_name weight_tag
  (mk_axis 200 900 200 (Some [(Dy 200 0, Dy 40 0); (Dy 900 0, Dy 180 0)])) None.
Lemma mapped_titled ss is : titled (mk_doc [mapped] ss is) [weight_tag].
Proof.
  split; [|repeat constructor; easy]. cbn [doc_axes]. constructor; [|constructor]. unfold has_tag. cbn. split.
  - unfold printable_char. repeat constructor; lia.
  - split; [discriminate|]. split; [reflexivity|]. now exists 0%nat.
Qed.
Theorem C70_missing_refuted : exists d ts s, titled d ts /\ doc_sources d = [s] /\ src_location s = [] /\ default_master d = Ok None.
Proof.
  exists (mk_doc [mapped] [mk_src [] []] None), [weight_tag], (mk_src [] []). split; [apply mapped_titled|]. repeat split; vm_compute; reflexivity.
Qed.
Print Assumptions C70_missing_refuted.

(** Instances are written in design coordinates, which can lie outside the axis:
    here the instance at the default of the axis. *)
Theorem C70_instance_refuted : exists d ts i fv ns maps r a c, titled d ts /\ doc_instances d = Some [i] /\
  (exists e, design_default d e /\ lies d (mk_src [] (di_location i)) e) /\
  add_to_font d (Some []) = Ok (fv, ns, maps) /\ fv_axes fv = [a] /\ fv_instances fv = [r] /\ in_coordinates r = [c] /\
  (val c < val (ax_minValue a))%Q.
Proof.
  exists (mk_doc [mapped] [] (Some [mk_di [66] None [(weight_name, Dy 40 0)]])), [weight_tag], (mk_di [66] None [(weight_name, Dy 40 0)]).
  do 6 eexists. split; [apply mapped_titled|]. split; [reflexivity|]. split.
  - exists [40]. split.
    + constructor; [|constructor]. exists (Dy 40 0). split; [reflexivity|now apply cut_iff].
    + exists [Dy 40 0]. split; [|constructor; [now apply cut_iff|constructor]]. constructor; [|constructor]. left. exists [], []. split; [reflexivity|constructor].
  - split; [vm_compute; reflexivity|]. split; [reflexivity|]. split; [reflexivity|]. split; [reflexivity|]. reflexivity.
Qed.
Print Assumptions C70_instance_refuted.

(** ** The variation model *)
Theorem C70_model d ts vm : titled d ts -> variation_model d = Ok vm ->
  exists locs, vm_new locs ts = Ok vm /\ Forall2 (normal_point d ts) (doc_sources d) locs.
Proof. apply model_spec. Qed.
Print Assumptions C70_model.

(** Without axis maps, a source at the default lies at the origin. *)
Theorem C70_origin d ts e s loc : titled d ts -> Forall (fun a => ax_map (da_axis a) = None /\ proper_axis (da_axis a)) (doc_axes d) ->
  design_default d e -> lies d s e -> normal_point d ts s loc -> Forall (fun tv => (val (snd tv) == 0)%Q) loc.
Proof.
  intros T P D L (e' & vs & L' & V & _ & C).
  assert (e' = e). { apply (source_iff d ts) in L; [|exact T]. apply (source_iff d ts) in L'; [|exact T]. congruence. } subst e'. clear L L'.
  assert (Z0: Forall (fun v => (val v == 0)%Q) vs).
  { unfold design_default in D. clear -P D V. revert vs V. induction D as [|a z l e (v & A & K) _ IH]; intros vs V; cbn [combine] in V; inversion V as [|? w ? vs' W V']; subst; constructor.
    - inversion_clear P. destruct H as [M PA]. cbn [fst snd] in W.
      assert (v = f32_of_int (ax_default (da_axis a))).
      { pose proof (plain_default _ M). congruence. }
      subst v. assert (z = ax_default (da_axis a)).
      { destruct K as (t & -> & K1 & K2). destruct PA as (B1 & B2 & B3). unfold ordinary_position in *.
        rewrite of_int_val in K1, K2 by lia.
        assert (t = ax_default (da_axis a)).
        { destruct (Z_le_gt_dec 0 (ax_default (da_axis a))) as [H|H].
          - assert (Y: (0 <= inject_Z (ax_default (da_axis a)))%Q) by (change 0%Q with (inject_Z 0); rewrite <- Zle_Qle; exact H).
            specialize (K1 Y). rewrite <- Zle_Qle, <- Zlt_Qlt in K1. lia.
          - assert (Y: (inject_Z (ax_default (da_axis a)) < 0)%Q) by (change 0%Q with (inject_Z 0); rewrite <- Zlt_Qlt; lia).
            specialize (K2 Y). rewrite <- Zle_Qle, <- Zlt_Qlt in K2. lia. }
        subst t. lia. }
      subst z. unfold normalize_design in W. rewrite M in W.
      destruct (TDesign.C53_normalize_user (da_axis a) (f32_of_int (ax_default (da_axis a))) PA) as (r & q & E & _ & _ & _ & _ & _ & Z0).
      rewrite E in W. apply Ok_inj in W. subst w. apply Z0. exact (pa_df _ PA).
    - inversion_clear P. auto. }
  apply Forall_forall. intros [t v] I. apply C in I. apply in_combine_r in I. rewrite Forall_forall in Z0. exact (Z0 v I).
Qed.
Print Assumptions C70_origin.

(** With a map, and the default not at its smallest output, it does not. *)
Theorem C70_origin_refuted : exists d ts e s loc vm, titled d ts /\ Forall (fun a => proper_axis (da_axis a)) (doc_axes d) /\
  doc_sources d = [s] /\ design_default d e /\ lies d s e /\ variation_model d = Ok vm /\ vm_locations vm = [loc] /\ normal_point d ts s loc /\
  Exists (fun tv => ~ (val (snd tv) == 0)%Q) loc.
Proof.
  set (a := mk_da weight_name weight_tag (mk_axis 200 900 400 (Some [(Dy 200 0, Dy 0 0); (Dy 400 0, Dy 100 0); (Dy 900 0, Dy 400 0)])) None).
  set (s := mk_src [] [(weight_name, Dy 100 0)]). set (d := mk_doc [a] [s] None).
  exists d, [weight_tag], [100], s. do 2 eexists.
  assert (T: titled d [weight_tag]).
  { split; [|repeat constructor; easy]. cbn [doc_axes]. constructor; [|constructor]. unfold has_tag. cbn. split.
    - unfold printable_char. repeat constructor; lia.
    - split; [discriminate|]. split; [reflexivity|]. now exists 0%nat. }
  split; [exact T|]. split; [constructor; [|constructor]; unfold proper_axis, ordinary_position; cbn; lia|]. split; [reflexivity|].
  split; [constructor; [|constructor]; exists (Dy 100 0); split; [reflexivity|now apply cut_iff]|].
  split; [exists [Dy 100 0]; split; [constructor; [left; exists [], []; split; [reflexivity|constructor]|constructor]|constructor; [now apply cut_iff|constructor]]|].
  split; [vm_compute; reflexivity|]. split; [reflexivity|]. split.
  - apply point_iff; [exact T|]. vm_compute. reflexivity.
  - left. vm_compute. discriminate.
Qed.
Print Assumptions C70_origin_refuted.

(** A concrete document: two axes, two sources, and an instance with a PostScript
    name. *)
Definition width_axis : doc_axis := mk_da [87; 105; 100; 116; 104] [119; 100; 116; 104] (mk_axis 50 200 100 None) (Some true).
Definition ex_doc : designspace := mk_doc [mapped; width_axis]
  [mk_src [97] [(weight_name, Dy 180 0)]; mk_src [98] [(weight_name, Dy 40 0)]]
  (Some [mk_di [66] (Some [65; 66]) [(weight_name, Dy 90 0); (da_name width_axis, Dy 75 0)]]).
Example C70_example : (exists ts, titled ex_doc ts) /\ default_master ex_doc = Ok (Some (mk_src [98] [(weight_name, Dy 40 0)])) /\
  (exists vm, variation_model ex_doc = Ok vm /\ length (vm_locations vm) = 2%nat) /\
  exists r, add_to_font ex_doc (Some [windows_unicode 1 [70]]) = Ok r /\ length (snd (fst r)) = 5%nat.
Proof.
  split.
  { exists [weight_tag; da_tag width_axis]. split; [|repeat constructor; cbn; intuition discriminate].
    repeat constructor; cbn; try (unfold printable_char; lia); try discriminate; now exists 0%nat. }
  split; [vm_compute; reflexivity|]. split; eexists; (split; [vm_compute; reflexivity|reflexivity]).
Qed.

(** C62: GPOS tables. *)
From Coq Require Import List ZArith Lia Sorted.
Import ListNotations.
From Verif.Model Require Import MBase MTag MOffset MLayout MContext MLookup MValue MGpos.
From Verif.Spec Require Import SBase SGlyph SOffset SLayout SContext SValue SGsub SScript SGsubTable SGpos SGposTable.
From Verif.Proofs Require Import PBase PMap PGlyphFmt POffset PPart PCover PClassdef PLow PGsub PLig PContext PLookup PGsubTable PGpos PPair PAttach PGposTable.
From Verif.Props Require Import TLookup TGpos.
Open Scope Z_scope.

(** A GPOS table of rules that can be written is laid out as OpenType says: the
    bytes are those of an object (with two-byte offsets only) that means the same
    positioning. *)
Theorem C62_written : forall P (g : layout P positioning) max, gpos_ok g ->
  exists o g', gpos_same g g' /\ gpos_file max g' o /\ short_offsets o = true /\ gpos_write g = to_bytes o.
Proof. intros P g max. apply gpos_written. Qed.
Theorem C62_written_iff : forall P (g : layout P positioning) max, gpos_ok g ->
  exists o g', gpos_same g g' /\ gpos_file max g' o /\ gpos_write g = to_bytes o /\
    (Z.of_nat (total o) < 2 ^ 32 -> (exists out, gpos_write g = Ok out) <-> reachable o).
Proof.
  intros P g max H. destruct (gpos_written g max H) as (o & g' & Sg & F & _ & E). exists o, g'. split; [exact Sg|]. split; [exact F|]. split; [exact E|]. rewrite E. exact (to_bytes_iff o).
Qed.
(** Every OpenType GPOS table without marks on marks and without subtables of two
    ligatures, in whatever arrangement its parts are stored, with extension
    subtables (of types up to 6), is read as what it means. *)
Theorem C62_every_encoding_read : forall P (g : layout P positioning) max o buf, gpos_file max g o -> gpos_readable g -> stored 65536 buf 0 0 o ->
  from_bytes (gpos_read max) buf = Ok g.
Proof. intros P g max o buf F R S. unfold from_bytes, rd_new. now rewrite (gpos_file_read g max o F R _ _ _ _ S). Qed.
(** What was written is read back as the same positioning, and writing that again
    gives the same bytes. *)
Theorem C62_roundtrip : forall P (g : layout P positioning) max out, gpos_ok g -> gpos_readable g -> gpos_write g = Ok out -> Z.of_nat (length out) < 2 ^ 32 ->
  exists g', from_bytes (gpos_read max) out = Ok g' /\ gpos_same g g' /\ gpos_write g' = Ok out.
Proof.
  intros P g max out H R W L. destruct (gpos_roundtrip g max out H R W L) as (g' & Sg & E). exists g'. split; [exact E|]. split; [exact Sg|]. now rewrite (gpos_again g g' H Sg).
Qed.
(** No table is ever read with marks on marks. *)
Theorem C62_marks_on_marks_never_read : forall P (g : layout P positioning) max buf l v, from_bytes (gpos_read max) buf = Ok g ->
  In l (ly_lookups g) -> lu_rule l <> PMarkToMark v.
Proof.
  intros P g max buf l v H Hl E. unfold from_bytes, gpos_read, pbind, plift in H. destruct (table_de gpos_de (rd_new buf)) as [[t r]| |]; try discriminate.
  destruct (layout_from_low (gpos_from_low max) t) as [g'| |] eqn:El; try discriminate. apply Ok_inj in H. subst g'. unfold layout_from_low in El.
  match type of El with context [rmapM ?f ?l] => destruct (rmapM f l) as [ls| |] eqn:Er end; cbn [rbind] in El; try discriminate.
  assert (In l ls) as Hi.
  { destruct (scripts_from_low _); cbn [rbind] in El; try discriminate. destruct (features_from_low _); cbn [rbind] in El; try discriminate. apply Ok_inj in El. subst g. exact Hl. }
  apply rmapM_inv in Er. apply F2_flip in Er. apply (Forall2_in_l _ _ _ _ Er) in Hi as (lo & _ & Ho). cbn beta in Ho.
  destruct (gpos_from_low max (lk_type lo) (lk_subs lo)) as [p| |] eqn:Ep; cbn [rbind] in Ho; try discriminate. apply Ok_inj in Ho. subst l. cbn [lu_rule] in E. subst p.
  unfold gpos_from_low in Ep. destruct (lk_type lo =? 9).
  - match type of Ep with context [rmapM ?f ?l] => destruct (rmapM f l) as [[|[t' s'] es]| |] end; cbn [rbind] in Ep; try discriminate.
    destruct (forallb _ _); [|discriminate]. exact (plain_no_marks _ _ _ _ Ep v eq_refl).
  - exact (plain_no_marks _ _ _ _ Ep v eq_refl).
Qed.
(** A subtable break keeps the kind of rule and all its subtables, in their
    order: an empty one comes after them, or, for contextual rules, nothing. *)
Theorem C62_break : forall s ss', gpos_subtables (pos_subtable_break s) = Ok ss' ->
  gpos_type (pos_subtable_break s) = gpos_type s /\
  exists ss e, gpos_subtables s = Ok ss /\ ss' = ss ++ e /\ length e = (if (gpos_type s =? 7) || (gpos_type s =? 8) then 0%nat else 1%nat).
Proof.
  intros s ss' H. split; [now destruct s|].
  destruct s as [v|v|v|v|v|v|v|v]; cbn [pos_subtable_break gpos_subtables gpos_type Z.eqb Pos.eqb orb] in H |- *.
  2, 3: apply Ok_inj in H; subst ss'; rewrite map_app; eexists; eexists; split; [reflexivity|split; reflexivity].
  5, 6: apply Ok_inj in H; subst ss'; rewrite concat_app, map_app; eexists; eexists; split; [reflexivity|split; reflexivity].
  all: apply rmapM_snoc in H as (r0 & y & E & ->); exists r0, [y]; now repeat split.
Qed.
(** A lookup of extension subtables of different kinds ends the program. *)
Theorem C62_mixed_extensions : forall max f1 t1 s1 f2 t2 s2 l1 l2 l3, t1 <> t2 ->
  Forall (fun s => exists f t s', s = P9 f t s') (l1 ++ l2 ++ l3) ->
  gpos_from_low max 9 (l1 ++ P9 f1 t1 s1 :: l2 ++ P9 f2 t2 s2 :: l3) = Panic.
Proof.
  intros max f1 t1 s1 f2 t2 s2 l1 l2 l3 N H. unfold gpos_from_low. cbn [Z.eqb Pos.eqb].
  set (F := fun s : gpos_sub => match s with P9 _ t' s' => Ok (t', s') | _ => Panic end).
  set (G := fun s : gpos_sub => match s with P9 _ t' s' => (t', s') | _ => (0, s) end).
  assert (E: rmapM F (l1 ++ P9 f1 t1 s1 :: l2 ++ P9 f2 t2 s2 :: l3) = Ok (map G (l1 ++ P9 f1 t1 s1 :: l2 ++ P9 f2 t2 s2 :: l3))).
  { assert (A: Forall (fun s => exists f t s', s = P9 f t s') (l1 ++ P9 f1 t1 s1 :: l2 ++ P9 f2 t2 s2 :: l3)).
    { rewrite !Forall_app in H. destruct H as (A & B & C). apply Forall_app. split; [exact A|]. constructor; [eauto|]. apply Forall_app. split; [exact B|]. constructor; [eauto|exact C]. }
    revert A. generalize (l1 ++ P9 f1 t1 s1 :: l2 ++ P9 f2 t2 s2 :: l3). induction 1 as [|s l (f & t & s' & ->) _ IH]; [reflexivity|]. cbn. now rewrite IH. }
  rewrite E. cbn [rbind]. destruct (map G (l1 ++ P9 f1 t1 s1 :: l2 ++ P9 f2 t2 s2 :: l3)) as [|[t' s'] es] eqn:Em; [reflexivity|].
  destruct (forallb _ ((t', s') :: es)) eqn:Ef; [|reflexivity]. exfalso. rewrite forallb_forall in Ef. apply N.
  assert (I1: In (t1, s1) ((t', s') :: es)) by (rewrite <- Em; apply (in_map G _ (P9 f1 t1 s1)); apply in_or_app; right; now left).
  assert (I2: In (t2, s2) ((t', s') :: es)) by (rewrite <- Em; apply (in_map G _ (P9 f2 t2 s2)); apply in_or_app; right; right; apply in_or_app; right; now left).
  apply Ef in I1, I2. cbn [fst] in I1, I2. lia.
Qed.
(** A subtable break in a lookup of single positioning makes the table
    unsavable. *)
Theorem C62_break_not_written : forall P (g : layout P positioning) l v, In l (ly_lookups g) -> lu_rule l = pos_subtable_break (PSingle v) ->
  forall out, gpos_write g <> Ok out.
Proof.
  intros P g l v Hl E out W. unfold gpos_write, layout_to_low in W.
  match type of W with context [rmapM ?f (ly_lookups g)] => set (F := f) in W; destruct (rmapM F (ly_lookups g)) as [tl| |] eqn:Er end; cbn [rbind] in W; try discriminate.
  apply rmapM_inv in Er. apply (Forall2_in_l _ _ _ _ Er) in Hl as (x & _ & Hx). unfold F in Hx. rewrite E in Hx. cbn [pos_subtable_break gpos_subtables] in Hx.
  destruct (rmapM spos_to_low (v ++ [[]])) as [ss| |] eqn:Es; cbn [rbind] in Hx; try discriminate.
  apply rmapM_inv in Es. assert (I: In [] (v ++ [[]])) by (apply in_or_app; right; now left). apply (Forall2_in_l _ _ _ _ Es) in I as (y & _ & Hy). discriminate.
Qed.

Definition ex_gpos : layout Z positioning := mk_layout
  [mk_lookup 0 None (PSingle [[(3, adv 5); (7, adv (-4))]]);
   mk_lookup 16 (Some 3) (PPair [[((1, 2), (adv 5, nothing)); ((4, 2), (adv (-9), nothing))]]);
   mk_lookup 1 None (PMarkToBase [ex_marks]);
   mk_lookup 1 None (PMarkToLig [ex_lig]);
   mk_lookup 0 None (PCursive [[(3, (Some a1, None)); (7, (Some a2, Some a3))]]);
   mk_lookup 1 None (PChained [[mk_chained [[1; 2]] [] [([3; 4], [0])]; mk_chained [] [[7]] [([5], [])]]])]
  ex_scripts [((liga, [1; 2]), Some 7); ((kern, [0]), None)].
Example C62_example : gpos_ok ex_gpos /\ gpos_readable ex_gpos /\
  exists g' : layout Z positioning, rbind (gpos_write ex_gpos) (from_bytes (gpos_read 100)) = Ok g' /\ gpos_write g' = gpos_write ex_gpos /\ length (ly_lookups g') = 6%nat.
Proof.
  split; [|split; [|eexists; split; [vm_compute; reflexivity|split; vm_compute; reflexivity]]].
  2: { unfold gpos_readable, ex_gpos. cbn [ly_lookups]. repeat apply Forall_cons; try apply Forall_nil; cbn; auto. }
  split; [apply C51_example|]. split; [unfold countable; cbn; lia|]. split.
  { assert (T: forall t, In t [liga; kern] -> is_tag t).
    { intros t [<-|[<-|[]]]; (split; [reflexivity|]); repeat (constructor; [lia|]); constructor. }
    repeat apply Forall_cons; try apply Forall_nil; unfold feature_ok, countable, is_u16; cbn [fst snd length]; (split; [apply T; cbn; auto|]); (split; [lia|]); repeat (constructor; [lia|]); constructor. }
  split; [unfold countable; cbn; lia|].
  repeat apply Forall_cons; try apply Forall_nil; cbn [lu_flags lu_set lu_rule];
    (split; [unfold lookup_flags_ok, is_u16; cbn; repeat split; lia|]); cbn [pos_ok]; (split; [unfold countable; cbn; lia|]).
  1-5: apply Forall_cons; [|constructor].
  - split; [discriminate|]. split; [|split].
    + split; [cbn; lia|]. repeat apply Forall_cons; try apply Forall_nil; (split; [unfold is_glyph; cbn; lia|apply adv_ok; unfold is_i16; lia]).
    + repeat constructor.
    + right. split; [repeat constructor|]. intros kv kv' [<-|[<-|[]]] [<-|[<-|[]]]; reflexivity.
  - split; [|split; [|split]].
    + unfold pairs_ordered. cbn [map fst]. repeat apply SSorted_cons; try apply SSorted_nil; repeat apply Forall_cons; try apply Forall_nil; cbn; lia.
    + assert (N: vrec_ok nothing) by (unfold vrec_ok; cbn; auto 10).
      repeat apply Forall_cons; try apply Forall_nil; cbn [fst snd]; unfold is_glyph;
        (split; [lia|split; [lia|split; [apply adv_ok; unfold is_i16; lia|split; [exact N|split; [repeat constructor|split; [repeat constructor|split; reflexivity]]]]]]).
    + intros v w [<-|[<-|[]]] [<-|[<-|[]]]; reflexivity.
    + intros v w [<-|[<-|[]]] [<-|[<-|[]]]; reflexivity.
  - apply C50_marks_example.
  - apply C50_ligature_example.
  - exact (proj1 C50_cursive_example).
  - unfold chained_rule_ok, glyph_sets, rule_ok, glyph_sets, countable, is_glyph, is_u16. cbn -[Z.le Z.lt].
    repeat (apply Forall_cons || apply Forall_nil || split); cbn; try lia.
Qed.
(** ** Where C62 fails *)
(** marks on marks: what was written cannot be read *)
Theorem C62_marks_on_marks_refuted : exists (g : layout Z positioning) out, gpos_ok g /\ gpos_write g = Ok out /\ from_bytes (@gpos_read Z 100) out = Panic.
Proof.
  exists (mk_layout [mk_lookup 0 None (PMarkToMark [ex_marks])] [] []). eexists. split; [|split; [vm_compute; reflexivity|vm_compute; reflexivity]].
  split; [split; [constructor|]; split; [unfold countable; cbn; lia|constructor]|]. split; [unfold countable; cbn; lia|]. split; [constructor|]. split; [unfold countable; cbn; lia|].
  apply Forall_cons; [|constructor]. cbn [lu_rule]. split; [unfold lookup_flags_ok, is_u16; cbn; split; [lia|reflexivity]|]. split; [unfold countable; cbn; lia|].
  constructor; [apply C50_marks_example|constructor].
Qed.
(** contextual rules inside extension subtables, which OpenType allows, are not
    read *)
Theorem C62_extension_refuted : forall t i o, t = 7 \/ t = 8 -> o = raw (word 1 ++ word t) ++ [IRef Far32 (Some i)] ->
  forall buf pos stk, stored 65536 buf pos pos o -> gpos_de 9 (mkrd buf pos stk) = Err.
Proof.
  intros t i o Ht -> buf pos stk S. apply stored_app in S as [S _]. rewrite raw_app in S. apply stored_app in S as [S1 S2]. apply stored_raw in S1, S2.
  rewrite size_raw in S2. rewrite word_u16 in S1. rewrite (word_u16 t) in S2. change (length (word 1)) with 2%nat in S2.
  change (gpos_de 9) with p9_de. unfold p9_de, with_base, rd_push. cbn [rd_input rd_ptr rd_stack]. unfold pbind.
  rewrite (at_pos_reads de_u16 _ _ _ _ (pos :: stk) (reads_u16 1 ltac:(lia)) S1). change (length (ser_u16 1)) with 2%nat in *. cbv iota beta.
  rewrite (at_pos_reads de_u16 _ _ _ _ (pos :: stk) (reads_u16 t ltac:(lia)) S2). destruct Ht as [->| ->]; reflexivity.
Qed.

Print Assumptions C62_written.
Print Assumptions C62_written_iff.
Print Assumptions C62_every_encoding_read.
Print Assumptions C62_roundtrip.
Print Assumptions C62_marks_on_marks_never_read.
Print Assumptions C62_break_not_written.
Print Assumptions C62_break.
Print Assumptions C62_mixed_extensions.

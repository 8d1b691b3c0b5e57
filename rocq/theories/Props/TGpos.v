(** C48, C50: positioning subtables. *)
From Coq Require Import List ZArith Lia Sorted.
Import ListNotations.
From Verif.Model Require Import MBase MMap MTag MOffset MLayout MLow MContext MValue MGpos.
From Verif.Spec Require Import SBase SGlyph SOffset SLayout SContext SValue SGsub SGpos.
From Verif.Proofs Require Import PBase PMap PGlyphFmt POffset PPart PCover PClassdef PValue PLow PGsub PGpos PPair PAttach.
Open Scope Z_scope.

(** ** C48: single positioning *)
(** A map is written as an OpenType single positioning subtable that makes the
    same adjustments. *)
Theorem C48_single_written : forall m, spos_ok m -> exists o m', spos_write m = Ok o /\ same_single m m' /\ spos_file m' o.
Proof. exact spos_written. Qed.
(** Which maps can be written at all *)
Theorem C48_single_written_iff : forall m, glyph_map vrec_ok m ->
  ((exists o, spos_write m = Ok o) <->
   m <> [] /\ ((forall kv kv', In kv m -> In kv' m -> alike (snd kv) (snd kv')) \/ Forall (fun kv => tableless (snd kv)) m)).
Proof. exact spos_write_iff. Qed.
(** Every OpenType single positioning subtable is read as what it means. *)
Theorem C48_single_every_encoding_read : forall m o, spos_file m o -> decodes spos_read o m.
Proof. exact spos_every. Qed.
(** There and back: the same glyphs with the same adjustments; writing again gives
    the same subtable. *)
Theorem C48_single_roundtrip : forall m, spos_ok m -> exists o m', spos_write m = Ok o /\ decodes spos_read o m' /\
  map (fun kv => (fst kv, adjustment (snd kv))) m' = map (fun kv => (fst kv, adjustment (snd kv))) m /\ spos_write m' = Ok o.
Proof.
  intros m H. destruct (spos_written m H) as (o & m' & E & Hs & Hf). exists o, m'. split; [exact E|]. split; [now apply spos_every|]. split.
  - clear - Hs. induction Hs as [|a b l l' [E A] F IH]; [reflexivity|]. cbn [map]. now rewrite IH, <- E, (alike_adjustment _ _ A).
  - unfold spos_write in *. now rewrite <- (same_single_low _ _ Hs).
Qed.

(** ** C48: pair positioning *)
(** A map whose records have the same fields on each side is written as an
    OpenType pair positioning subtable without the numbers that are 0. *)
Theorem C48_pair_written : forall m max, ppos_ok m -> exists o, ppos_write m = Ok o /\ ppos_file max (pairs_without_zeros m) o.
Proof. intros m max H. exact (ppos_written max m H). Qed.
(** Every pair positioning subtable is read as the pairs it has: format 1 without
    device tables, format 2 with all pairs of glyphs of its classes (the coverage
    table is not looked at) and without those that adjust nothing. *)
Theorem C48_pair_every_encoding_read : forall max m o, ppos_file max m o -> finds (ppos_read max) o m.
Proof. exact ppos_every. Qed.
(** Leaving out zeros changes no adjustment. *)
Theorem C48_pair_zeros : forall m l r a, adjusts (pairs_without_zeros m) l r a <-> adjusts m l r a.
Proof.
  assert (Z: forall v, adjustment (without_zeros v) = adjustment v).
  { intros [a b c d e f g h]. unfold adjustment, without_zeros. cbn. now destruct a as [[]|], b as [[]|], c as [[]|], d as [[]|]. }
  intros m l r a. unfold adjusts, pairs_without_zeros. split; (intros [(v1 & v2 & H & ->)|[H ->]]; [left|right]).
  - apply in_map_iff in H as ([k [u1 u2]] & E & H). cbn [fst snd] in E. injection E as -> <- <-. exists u1, u2. now rewrite !Z.
  - split; [|reflexivity]. intros [v1 v2] X. apply (H (without_zeros v1, without_zeros v2)). apply in_map_iff. exists ((l, r), (v1, v2)). auto.
  - exists (without_zeros v1), (without_zeros v2). rewrite !Z. split; [|reflexivity]. apply in_map_iff. exists ((l, r), (v1, v2)). auto.
  - split; [|reflexivity]. intros v X. apply in_map_iff in X as ([k u] & E & X). cbn [fst snd] in E. injection E as -> _. exact (H _ X).
Qed.
Theorem C48_pair_roundtrip : forall max m, ppos_ok m -> exists o m', ppos_write m = Ok o /\ finds (ppos_read max) o m' /\
  map fst m' = map fst m /\ forall l r a, adjusts m' l r a <-> adjusts m l r a.
Proof.
  intros max m H. destruct (ppos_written max m H) as (o & E & F). exists o, (pairs_without_zeros m). split; [exact E|]. split; [now apply ppos_every|].
  split; [unfold pairs_without_zeros; now rewrite map_map|apply C48_pair_zeros].
Qed.
(** Classes: a pair of glyphs gets the records of its classes. *)
Theorem C48_class_adjusts : forall max m1 m2 rows m l r c1 c2 u, class_pairs_of m1 m2 max rows m -> row_at rows c1 c2 u ->
  of_class m1 max c1 l -> of_class m2 max c2 r -> adjusts m l r (adjustment (fst u), adjustment (snd u)).
Proof. intros max m1 m2 rows m l r c1 c2 u H1 H2 H3 H4. eapply class_adjusts; eauto. Qed.

Theorem C48_class_pairs_determined : forall max m1 m2 rows, class_map m1 -> class_map m2 -> is_u16 max -> countable rows -> Forall countable rows ->
  exists m, class_pairs_of m1 m2 max rows m /\ forall m', class_pairs_of m1 m2 max rows m' -> m' = m.
Proof.
  intros max m1 m2 rows H1 H2 Hx Hr Hc. apply class_map_ok in H1, H2. eexists. split; [exact (class_pairs_map max m1 m2 rows H1 H2 Hx Hr Hc)|].
  intros m' H. eapply class_pairs_unique; [exact H|]. exact (class_pairs_map max m1 m2 rows H1 H2 Hx Hr Hc).
Qed.

Definition adv n := mk_vrec None None (Some n) None None None None None.
Definition adv_dev n d := mk_vrec None None (Some n) None None None (Some d) None.
Definition ex_dev := mk_device 11 13 (Some 1) [1; -1; 0].
Lemma adv_ok n : is_i16 n -> vrec_ok (adv n). Proof. intros H. unfold vrec_ok. cbn. auto 10. Qed.
Lemma adv_dev_ok : vrec_ok (adv_dev 5 (Some ex_dev)).
Proof.
  unfold vrec_ok, number_ok, is_i16, devices_ok. cbn [adv_dev vr_xpla vr_ypla vr_xadv vr_yadv vr_xplad vr_yplad vr_xadvd vr_yadvd].
        assert (R: device_readable ex_dev).
        { exists 1. split; [reflexivity|]. split; [lia|]. split; [unfold dev_sized, is_u16; cbn; lia|]. cbn [ex_dev dv_values]. repeat apply Forall_cons; try apply Forall_nil; (unfold fits_bits; split; vm_compute; [discriminate|reflexivity]). }
        repeat (split; [try exact I; try exact R; lia|]). exact I.
Qed.
Example C48_single_example :
  let m := [(3, adv 5); (7, mk_vrec (Some 2) None (Some (-4)) None None None None None)] in
  let m' := [(3, mk_vrec (Some 0) None (Some 5) None None None None None); (7, mk_vrec (Some 2) None (Some (-4)) None None None None None)] in
  let d := [(3, adv_dev 5 (Some ex_dev)); (7, adv_dev 5 (Some ex_dev))] in
  spos_ok m /\ spos_ok d /\
  rbind (spos_write m) to_bytes = Ok [0;2; 0;16; 0;5; 0;2; 0;0; 0;5; 0;2; 255;252; 0;1; 0;2; 0;3; 0;7] /\
  rbind (rbind (spos_write m) to_bytes) (from_bytes spos_read) = Ok m' /\
  rbind (rbind (spos_write d) to_bytes) (from_bytes spos_read) = Ok d.
Proof.
  split; [|split; [|split; [|split]; vm_compute; reflexivity]].
  - split; [discriminate|]. split; [|split].
    + split; [cbn; lia|]. repeat apply Forall_cons; [split; [unfold is_glyph; cbn; lia|]..|apply Forall_nil]; cbn [snd].
      * apply adv_ok. unfold is_i16. lia.
      * unfold vrec_ok, number_ok, is_i16. cbn. repeat split; try lia.
    + repeat constructor.
    + right. split; [repeat constructor|]. intros kv kv' [<-|[<-|[]]] [<-|[<-|[]]]; reflexivity.
  - split; [discriminate|]. split; [|split].
    + split; [cbn; lia|]. repeat apply Forall_cons; [split; [unfold is_glyph; cbn; lia|exact adv_dev_ok]..|apply Forall_nil].
    + repeat constructor.
    + left. intros kv kv' [<-|[<-|[]]] [<-|[<-|[]]]; split; reflexivity.
Qed.
Example C48_pair_example :
  let m := [((1, 2), (adv 5, nothing)); ((1, 3), (adv 7, nothing)); ((4, 2), (adv (-9), nothing))] in
  ppos_ok m /\ pairs_without_zeros m = m /\ rbind (rbind (ppos_write m) to_bytes) (from_bytes (ppos_read 10)) = Ok m.
Proof.
  split; [|split; [reflexivity|vm_compute; reflexivity]]. split; [|split; [|split]].
  - unfold pairs_ordered. cbn [map fst]. repeat apply SSorted_cons; try apply SSorted_nil; repeat apply Forall_cons; try apply Forall_nil; cbn; lia.
  - assert (N: vrec_ok nothing) by (unfold vrec_ok; cbn; auto 10).
    repeat apply Forall_cons; try apply Forall_nil; cbn [fst snd]; unfold is_glyph;
      (split; [lia|split; [lia|split; [apply adv_ok; unfold is_i16; lia|split; [exact N|split; [repeat constructor|split; [repeat constructor|split; reflexivity]]]]]]).
  - intros v w [<-|[<-|[<-|[]]]] [<-|[<-|[<-|[]]]]; reflexivity.
  - intros v w [<-|[<-|[<-|[]]]] [<-|[<-|[<-|[]]]]; reflexivity.
Qed.
(** An OpenType format 2 subtable with two classes, and what it is read as *)
Example C48_class_example :
  let o := raw (word 2) ++ [link (raw (word 1 ++ word 1 ++ word 1))] ++ raw (word 4 ++ word 0) ++
           [olink None; olink (Some (raw (word 1 ++ word 1 ++ word 1 ++ word 1)))] ++ raw (word 1 ++ word 2 ++ word 0 ++ word 9) in
  rbind (to_bytes o) (from_bytes (ppos_read 2)) = Ok [((0, 1), (adv 9, nothing)); ((1, 1), (adv 9, nothing)); ((2, 1), (adv 9, nothing))].
Proof. vm_compute. reflexivity. Qed.

(** ** Where C48 fails *)
(** the map without glyphs *)
Theorem C48_empty_refuted : spos_write [] = Panic.
Proof. reflexivity. Qed.
(** different records, one of them with a device table *)
Theorem C48_single_devices_refuted : exists m, glyph_map vrec_ok m /\ m <> [] /\ spos_write m = Err.
Proof.
  exists [(3, adv_dev 5 (Some ex_dev)); (7, adv 6)]. split; [|split; [discriminate|vm_compute; reflexivity]]. split; [cbn; lia|].
  repeat apply Forall_cons; try apply Forall_nil; cbn [fst snd]; unfold is_glyph; (split; [lia|]).
  - exact adv_dev_ok.
  - apply adv_ok. unfold is_i16. lia.
Qed.
(** different device fields, both without a table: the subtable that is written
    cannot be read *)
Theorem C48_null_devices_refuted : exists m out, m = [(3, adv_dev 5 None); (7, adv 6)] /\ rbind (spos_write m) to_bytes = Ok out /\ from_bytes spos_read out = Panic.
Proof. eexists _, _. split; [reflexivity|]. split; [vm_compute; reflexivity|vm_compute; reflexivity]. Qed.
(** a pair with the adjustment 0 among others: the subtable is read with another
    adjustment *)
Theorem C48_zero_kern_refuted : exists m, m = [((1, 2), (adv 5, nothing)); ((1, 3), (adv 0, nothing)); ((4, 2), (adv 9, nothing))] /\
  rbind (rbind (ppos_write m) to_bytes) (from_bytes (ppos_read 10)) = Ok [((1, 2), (adv 5, nothing)); ((1, 3), (adv 1, nothing)); ((4, 2), (adv 9, nothing))].
Proof. eexists. split; [reflexivity|]. vm_compute. reflexivity. Qed.
(** a glyph that the coverage table does not list is adjusted (above, glyph 0;
    the coverage table lists glyph 1) *)
Theorem C48_class_coverage_refuted : exists o m, cov_obj [1] (raw (word 1 ++ word 1 ++ word 1)) /\
  o = raw (word 2) ++ [link (raw (word 1 ++ word 1 ++ word 1))] ++ raw (word 4 ++ word 0) ++
      [olink None; olink (Some (raw (word 1 ++ word 1 ++ word 1 ++ word 1)))] ++ raw (word 1 ++ word 2 ++ word 0 ++ word 9) /\
  rbind (to_bytes o) (from_bytes (ppos_read 2)) = Ok m /\ adjusts m 0 1 (adjustment (adv 9), adjustment nothing).
Proof.
  eexists _, [((0, 1), (adv 9, nothing)); ((1, 1), (adv 9, nothing)); ((2, 1), (adv 9, nothing))]. split; [|split; [reflexivity|split; [vm_compute; reflexivity|]]].
  - exists (word 1 ++ word 1 ++ word 1). split; [reflexivity|]. split; [apply (cov1 [1]); [repeat constructor; unfold is_u16; lia|cbn; lia]|now left].
  - left. exists (adv 9), nothing. split; [now left|reflexivity].
Qed.
(** the device table of a pair, whose offset counts from the start of its pair
    set, is looked for from the start of the subtable *)
Theorem C48_pair_devices_refuted : exists o v, o = raw (word 1) ++ [link (raw (word 1 ++ word 1 ++ word 1))] ++ raw (word 68 ++ word 0) ++
    links [raw (word 1 ++ word 2 ++ word 5) ++ [link (raw (word 11 ++ word 13 ++ word 1 ++ word 28672))]] /\
  rbind (dv_ser ex_dev) (fun b => Ok (raw b)) = Ok (raw (word 11 ++ word 13 ++ word 1 ++ word 28672)) /\
  rbind (to_bytes o) (from_bytes (ppos_read 10)) = Ok [((1, 2), (v, nothing))] /\ adjustment v <> adjustment (adv_dev 5 (Some ex_dev)).
Proof. eexists _, _. split; [reflexivity|]. split; [vm_compute; reflexivity|]. split; [vm_compute; reflexivity|]. discriminate. Qed.

(** ** C50: cursive attachment *)
Theorem C50_cursive_written : forall m, glyph_map entry_exit_ok m -> exists o, curs_write m = Ok o /\ curs_file m o.
Proof. exact curs_written. Qed.
Theorem C50_cursive_every_encoding_read : forall m o, curs_file m o -> decodes curs_read o m.
Proof. exact curs_every. Qed.
Theorem C50_cursive_roundtrip : forall m, glyph_map entry_exit_ok m -> exists o, curs_write m = Ok o /\ decodes curs_read o m.
Proof. intros m H. destruct (curs_written m H) as (o & E & F). exists o. split; [exact E|now apply curs_every]. Qed.

(** ** C50: marks on bases and on marks *)
Theorem C50_marks_written : forall m, mbase_ok m -> exists o, mbase_write m = Ok o /\ mmark_write m = Ok o /\ mbase_file (mbase_kept m) o.
Proof.
  intros m H. destruct (mbase_written m H) as (o & E & F). exists o. split; [exact E|]. split; [|exact F].
  unfold mmark_write, mmark_to_low, mbase_write, mbase_to_low, mb_to in *.
  destruct (class_count (map (fun kv : Z * (Z * anchor) => fst (snd kv)) (mb_marks m)) 0); [exact E|discriminate..].
Qed.
Theorem C50_marks_every_encoding_read : forall m o, mbase_file m o -> finds mbase_read o m /\ finds mmark_read o m.
Proof. intros m o H. split; [now apply mbase_every|now apply mmark_every]. Qed.
Theorem C50_marks_roundtrip : forall m, mbase_ok m -> exists o m', mbase_write m = Ok o /\ mmark_write m = Ok o /\
  finds mbase_read o m' /\ finds mmark_read o m' /\ mb_marks m' = mb_marks m /\ map fst (mb_bases m') = map fst (mb_bases m) /\
  (forall g b x y, attaches m' g b x y <-> attaches m g b x y) /\
  (m' = m <-> Forall (fun b => Forall (fun ka => reached (mb_marks m) (fst ka) = true) (snd b)) (mb_bases m)).
Proof.
  intros m H. destruct (C50_marks_written m H) as (o & E & E' & F). exists o, (mbase_kept m). split; [exact E|]. split; [exact E'|].
  split; [now apply mbase_every|]. split; [now apply mmark_every|]. split; [reflexivity|]. split; [unfold mbase_kept; cbn [mb_bases]; now rewrite map_map|].
  split; [intros; apply kept_attaches|]. destruct m as [ms bs]. unfold mbase_kept. cbn [mb_marks mb_bases]. split.
  - intros [= X]. clear - X. induction bs as [|[b a] bs IH]; [constructor|]. cbn [map] in X. injection X as X1 X2. constructor; [now apply kept_all|now apply IH].
  - intros X. f_equal. clear - X. induction X as [|[b a] bs X1 X2 IH]; [reflexivity|]. cbn [map fst snd]. rewrite IH. cbn [snd] in X1. apply kept_all in X1. now rewrite X1.
Qed.
(** A mark of class 65535 cannot be written; all others can. *)
Theorem C50_marks_written_iff : forall m, glyph_map mark_ok (mb_marks m) -> glyph_map anchors_ok (mb_bases m) ->
  ((exists o, mbase_write m = Ok o) <-> Forall (fun kv => fst (snd kv) <> 65535) (mb_marks m)).
Proof.
  intros m Hm Hb. split.
  - intros [o E]. apply Forall_forall. intros [g [k a]] Hi. cbn [fst snd]. intros ->. unfold mbase_write, mbase_to_low in E. rewrite mb_panic in E; [discriminate| |eauto].
    eapply Forall_impl; [|exact (proj2 Hm)]. intros kv [_ [X _]]. exact X.
  - intros H. destruct (mbase_written m) as (o & E & _); [|eauto]. split; [|exact Hb]. split; [apply Hm|]. pose proof (proj2 Hm) as F. rewrite Forall_forall in *. intros kv Hi.
    destruct (F _ Hi) as [X1 [X2 X3]]. split; [exact X1|]. split; [|exact X3]. pose proof (H _ Hi). unfold is_u16 in X2. lia.
Qed.
(** ** C50: marks on ligatures *)
Theorem C50_ligature_written : forall m, mlig_ok m -> exists o, mlig_write m = Ok o /\ mlig_file (mlig_kept m) o /\
  forall g b i x y, lig_attaches (mlig_kept m) g b i x y <-> lig_attaches m g b i x y.
Proof. intros m H. destruct (mlig_written m H) as (o & E & F). exists o. split; [exact E|]. split; [exact F|]. intros; apply kept_lig_attaches. Qed.
(** Subtables with one ligature are read; those with more are not. *)
Theorem C50_ligature_every_encoding_read : forall m o, (length (ml_ligs m) <= 1)%nat -> mlig_file m o -> finds mlig_read o m.
Proof. exact mlig_every. Qed.
Theorem C50_ligature_roundtrip : forall m, mlig_ok m -> (length (ml_ligs m) <= 1)%nat -> exists o m', mlig_write m = Ok o /\ finds mlig_read o m' /\
  ml_marks m' = ml_marks m /\ forall g b i x y, lig_attaches m' g b i x y <-> lig_attaches m g b i x y.
Proof.
  intros m H L. destruct (C50_ligature_written m H) as (o & E & F & A). exists o, (mlig_kept m). split; [exact E|]. split; [|split; [reflexivity|exact A]].
  apply mlig_every; [|exact F]. unfold mlig_kept. cbn [ml_ligs]. now rewrite map_length.
Qed.

Definition a1 := mk_anchor 10 20 None. Definition a2 := mk_anchor 30 (-40) None. Definition a3 := mk_anchor 5 6 (Some 7).
Lemma a_ok a : In a [a1; a2; a3] -> anchor_ok a.
Proof. intros [<-|[<-|[<-|[]]]]; unfold anchor_ok, is_i16, is_u16; cbn; lia. Qed.
Example C50_cursive_example : let m := [(3, (Some a1, None)); (7, (Some a2, Some a3))] in glyph_map entry_exit_ok m /\
  rbind (curs_write m) to_bytes = Ok [0;1; 0;14; 0;2; 0;22; 0;0; 0;28; 0;34; 0;1; 0;2; 0;3; 0;7; 0;1; 0;10; 0;20; 0;1; 0;30; 255;216; 0;2; 0;5; 0;6; 0;7] /\
  rbind (rbind (curs_write m) to_bytes) (from_bytes curs_read) = Ok m.
Proof.
  split; [|split; vm_compute; reflexivity]. split; [cbn; lia|]. repeat apply Forall_cons; try apply Forall_nil; cbn [fst snd]; unfold is_glyph; (split; [lia|]); split; cbn [fst snd opt_anchor_ok]; try exact I; apply a_ok; cbn; auto.
Qed.
Definition ex_marks := mk_mark_base [(20, (0, a1)); (21, (1, a2))] [(3, [(0, a3); (1, a1)]); (4, [(1, a2)]); (9, [(2, a1)])].
Example C50_marks_example : mbase_ok ex_marks /\ attaches ex_marks 20 3 a1 a3 /\
  rbind (rbind (mbase_write ex_marks) to_bytes) (from_bytes mbase_read) = Ok (mbase_kept ex_marks) /\
  mbase_kept ex_marks = mk_mark_base [(20, (0, a1)); (21, (1, a2))] [(3, [(0, a3); (1, a1)]); (4, [(1, a2)]); (9, [])].
Proof.
  split; [|split; [|split; vm_compute; reflexivity]].
  - split; (split; [cbn; lia|]); repeat apply Forall_cons; try apply Forall_nil; cbn [fst snd]; unfold is_glyph; (split; [lia|]).
    1-2: split; [lia|apply a_ok; cbn; auto].
    all: split; [cbn; lia|]; repeat apply Forall_cons; try apply Forall_nil; (split; [unfold is_u16; cbn; lia|apply a_ok; cbn; auto]).
  - exists 0, [(0, a3); (1, a1)]. cbn. auto.
Qed.
Definition ex_lig := mk_mark_lig [(20, (0, a1)); (21, (1, a2))] [(3, [[(0, a3); (1, a1)]; []; [(1, a2)]])].
Example C50_ligature_example : mlig_ok ex_lig /\ rbind (rbind (mlig_write ex_lig) to_bytes) (from_bytes mlig_read) = Ok ex_lig.
Proof.
  split; [|vm_compute; reflexivity].
  split; (split; [cbn; lia|]); repeat apply Forall_cons; try apply Forall_nil; cbn [fst snd]; unfold is_glyph; (split; [lia|]).
  1-2: split; [lia|apply a_ok; cbn; auto].
  split; [unfold countable; cbn; lia|]. repeat apply Forall_cons; try apply Forall_nil; (split; [cbn; lia|]); repeat apply Forall_cons; try apply Forall_nil; (split; [unfold is_u16; cbn; lia|apply a_ok; cbn; auto]).
Qed.
(** ** Where C50 fails *)
Theorem C50_two_ligatures_refuted : exists m out, mlig_ok m /\ rbind (mlig_write m) to_bytes = Ok out /\ from_bytes mlig_read out = Err.
Proof.
  exists (mk_mark_lig [(20, (0, a1))] [(3, [[(0, a3)]]); (4, [[(0, a2)]])]). eexists. split; [|split; [vm_compute; reflexivity|vm_compute; reflexivity]].
  split; (split; [cbn; lia|]); repeat apply Forall_cons; try apply Forall_nil; cbn [fst snd]; unfold is_glyph; (split; [lia|]).
  1: split; [lia|apply a_ok; cbn; auto].
  all: split; [unfold countable; cbn; lia|]; repeat apply Forall_cons; try apply Forall_nil; (split; [cbn; lia|]); repeat apply Forall_cons; try apply Forall_nil; (split; [unfold is_u16; cbn; lia|apply a_ok; cbn; auto]).
Qed.
Theorem C50_class_65535_refuted : exists m, glyph_map mark_ok (mb_marks m) /\ mbase_write m = Panic /\ mlig_write (mk_mark_lig (mb_marks m) []) = Panic.
Proof.
  exists (mk_mark_base [(20, (65535, a1))] []). split; [|split; reflexivity]. split; [exact I|]. constructor; [|constructor]. split; [unfold is_glyph; cbn; lia|].
  split; [unfold is_u16; cbn; lia|apply a_ok; cbn; auto].
Qed.
(** a mark without an anchor is read as a mark with the anchor (0, 0) *)
Theorem C50_null_anchor_refuted : exists o, o = raw (word 1) ++ [link (raw (word 1 ++ word 1 ++ word 20)); link (raw (word 1 ++ word 0))] ++ raw (word 1) ++
    [link (raw (word 1 ++ word 0) ++ [olink None]); link (raw (word 0))] /\
  rbind (to_bytes o) (from_bytes mbase_read) = Ok (mk_mark_base [(20, (0, mk_anchor 0 0 None))] []).
Proof. eexists. split; [reflexivity|]. vm_compute. reflexivity. Qed.

Print Assumptions C48_single_written.
Print Assumptions C48_single_written_iff.
Print Assumptions C48_single_every_encoding_read.
Print Assumptions C48_single_roundtrip.
Print Assumptions C48_pair_written.
Print Assumptions C48_pair_every_encoding_read.
Print Assumptions C48_pair_roundtrip.
Print Assumptions C48_class_adjusts.
Print Assumptions C50_cursive_roundtrip.
Print Assumptions C50_marks_roundtrip.
Print Assumptions C50_marks_written_iff.
Print Assumptions C50_ligature_roundtrip.

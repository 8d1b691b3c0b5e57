(** C51: script and feature lists; C61: the GSUB table as a whole. *)
From Coq Require Import List ZArith Lia.
Import ListNotations.
From Verif.Model Require Import MBase MTag MOffset MLow MContext MLookup MGsub.
From Verif.Spec Require Import SBase SGlyph SOffset SLayout SContext SGsub SScript SGsubTable.
From Verif.Proofs Require Import PBase POffset PPart PLow PLig PContext PLookup PGsubTable.
Open Scope Z_scope.

(** ** C51 *)
(** Scripts are written as OpenType says, in the order of their tags *)
Theorem C51_scripts_written : forall m, scripts_ok m -> exists o, scripts_write m = Ok o /\ scripts_obj (scripts_in_file m) o.
Proof. exact scripts_written. Qed.
(** every OpenType script list is read as two levels of maps, the last of entries
    with the same tag, *)
Theorem C51_scripts_every_encoding_read : forall l o, scripts_obj l o -> exists m, decodes scripts_read o m /\ shows_scripts l m.
Proof.
  intros l o H. destruct (scripts_every l o H) as (s & D & R). eexists. split; [exact (decodes_lift _ _ _ _ _ D R)|apply shows_shown].
Qed.
(** and what was written is read back. *)
Theorem C51_scripts_roundtrip : forall m, scripts_ok m -> exists o, scripts_write m = Ok o /\ decodes scripts_read o m.
Proof.
  intros m H. destruct (scripts_written m H) as (o & E & Ho). exists o. split; [exact E|]. destruct (scripts_every _ o Ho) as (s & D & R).
  rewrite (scripts_back m H) in R. exact (decodes_lift _ _ _ _ _ D R).
Qed.
(** The maps are determined by the file. *)
Theorem C51_scripts_unique : forall l m1 m2, shows_scripts l m1 -> shows_scripts l m2 -> m1 = m2.
Proof. intros l m1 m2 H1 H2. now rewrite (shows_unique _ _ H1), (shows_unique _ _ H2). Qed.
(** Exactly the language systems whose required feature is below 65535 and whose
    feature indices are below 65536 keep their value; the writer does not notice
    the others. *)
Theorem C51_langsys_kept_iff : forall l, match lg_required l with Some r => 0 <= r | None => True end -> Forall (fun f => 0 <= f) (lg_features l) ->
  (langsys_from_low (langsys_to_low l) = l <->
   match lg_required l with Some r => r < 65535 | None => True end /\ Forall (fun f => f < 65536) (lg_features l)).
Proof. intros l H1 H2. apply langsys_iff. now split. Qed.
(** Features: tags and indices in their order; parameters are never written. *)
Theorem C51_features_written : forall P (l : features P), countable l -> Forall (fun f => feature_ok (fst f)) l ->
  exists o, features_write l = Ok o /\ features_obj (map fst l) o.
Proof. intros P. exact features_written. Qed.
Theorem C51_features_every_encoding_read : forall P l o, features_obj l o -> decodes (@features_read P) o (map (fun f => (f, None)) l).
Proof. intros P l o H. destruct (features_every (P := P) l o H) as (s & D & R). exact (decodes_lift _ _ _ _ _ D R). Qed.
Theorem C51_features_roundtrip : forall P (l : features P), countable l -> Forall (fun f => feature_ok (fst f)) l ->
  exists o, features_write l = Ok o /\ decodes (@features_read P) o (map (fun f => (fst f, None)) l).
Proof.
  intros P l H1 H2. destruct (features_written l H1 H2) as (o & E & Ho). exists o. split; [exact E|].
  rewrite <- (map_map fst (fun f => (f, None))). now apply C51_features_every_encoding_read.
Qed.
(** A record whose offset is null makes the conversion panic. *)
Theorem C51_null_panics : forall a t b, (Forall (fun r => snd r <> None) a -> Forall (fun r => match snd r with Some s => exists h, script_from_low s = Ok h | None => True end) a ->
  scripts_from_low (a ++ (t, None) :: b) = Panic).
Proof.
  intros a t b. unfold scripts_from_low. generalize (@nil (list Z * script)) as m. induction a as [|[t' [s|]] a IH]; intros m H1 H2; [reflexivity| |].
  - inversion H2 as [|? ? X H2']; inversion H1; subst. cbn [app scripts_from_low' unwrap rbind]. cbn [snd] in X. destruct X as [h E]. rewrite E. cbn [rbind]. now apply IH.
  - inversion H1; subst. now cbn [snd] in *.
Qed.
Definition latn := [108; 97; 116; 110]. Definition dflt := [68; 70; 76; 84]. Definition trk := [84; 82; 75; 32].
Definition liga := [108; 105; 103; 97]. Definition kern := [107; 101; 114; 110].
Definition ex_scripts : scripts :=
  [(dflt, mk_script (Some (mk_langsys None [0; 1])) []); (latn, mk_script None [(trk, mk_langsys (Some 2) [1])])].
Example C51_example : scripts_ok ex_scripts /\ rbind (scripts_write ex_scripts) (fun o => rbind (to_bytes o) (from_bytes scripts_read)) = Ok ex_scripts.
Proof.
  split; [|vm_compute; reflexivity]. split; [repeat constructor|]. split; [unfold countable; cbn; lia|].
  assert (T: forall t, In t [dflt; latn; trk] -> is_tag t).
  { intros t [<-|[<-|[<-|[]]]]; (split; [reflexivity|]); repeat (constructor; [lia|]); constructor. }
  assert (L: forall l, In l [mk_langsys None [0; 1]; mk_langsys (Some 2) [1]] -> langsys_ok l).
  { intros l [<-|[<-|[]]]; unfold langsys_ok, countable, is_u16; cbn; (split; [lia||exact I|]); (split; [lia|]); repeat (constructor; [lia|]); constructor. }
  repeat apply Forall_cons; try apply Forall_nil; cbn [fst snd sc_default sc_langs]; unfold countable; cbn [length].
  - split; [apply T; cbn; auto|]. split; [apply L; cbn; auto|]. split; [constructor|]. split; [lia|constructor].
  - split; [apply T; cbn; auto|]. split; [exact I|]. split; [repeat constructor|]. split; [lia|]. constructor; [|constructor]. cbn [fst snd]. split; [apply T; cbn; auto|apply L; cbn; auto].
Qed.
(** Values that are changed without notice *)
Theorem C51_required_refuted : exists l o, langsys_enc (langsys_to_low l) = Ok o /\ lg_required l = Some 65535 /\
  rbind (to_bytes o) (from_bytes (pbind langsys_de (fun x => pret (langsys_from_low x)))) = Ok (mk_langsys None (lg_features l)).
Proof. exists (mk_langsys (Some 65535) [3]). eexists. split; [vm_compute; reflexivity|]. split; [reflexivity|vm_compute; reflexivity]. Qed.
Theorem C51_truncated_refuted : exists l o, langsys_enc (langsys_to_low l) = Ok o /\ lg_features l = [65537] /\
  rbind (to_bytes o) (from_bytes (pbind langsys_de (fun x => pret (langsys_from_low x)))) = Ok (mk_langsys None [1]).
Proof. exists (mk_langsys None [65537]). eexists. split; [vm_compute; reflexivity|]. split; [reflexivity|vm_compute; reflexivity]. Qed.
Theorem C51_parameters_refuted : exists (l : features Z) o, features_write l = Ok o /\ l = [(liga, [4], Some 77)] /\
  rbind (to_bytes o) (from_bytes (@features_read Z)) = Ok [(liga, [4], None)].
Proof. exists [(liga, [4], Some 77)]. eexists. split; [vm_compute; reflexivity|]. split; [reflexivity|vm_compute; reflexivity]. Qed.

(** ** C61 *)
(** A GSUB table of rules that can be written is laid out as OpenType says: the
    bytes are those of an object (with two-byte offsets only) that means the same
    table.  So it is written exactly if the offsets can hold the distances (C44). *)
Theorem C61_written : forall P (g : layout P substitution) max, gsub_ok g ->
  exists o, gsub_file max (gsub_normal g) o /\ short_offsets o = true /\ gsub_write g = to_bytes o.
Proof. intros P g max. apply gsub_written. Qed.
Theorem C61_written_iff : forall P (g : layout P substitution) max, gsub_ok g ->
  exists o, gsub_file max (gsub_normal g) o /\ gsub_write g = to_bytes o /\
    (Z.of_nat (total o) < 2 ^ 32 -> (exists out, gsub_write g = Ok out) <-> reachable o).
Proof.
  intros P g max H. destruct (gsub_written g max H) as (o & F & _ & E). exists o. split; [exact F|]. split; [exact E|]. rewrite E. exact (to_bytes_iff o).
Qed.
(** Every OpenType GSUB table, in whatever arrangement its parts are stored, with
    all subtable formats and with extension subtables (of types up to 6), is read
    as what it means. *)
Theorem C61_every_encoding_read : forall P (g : layout P substitution) max o buf, gsub_file max g o -> stored 65536 buf 0 0 o ->
  from_bytes (gsub_read max) buf = Ok g.
Proof. intros P g max o buf F S. unfold from_bytes, rd_new. now rewrite (gsub_file_read g max o F _ _ _ _ S). Qed.
(** So what was written is read back, chained contexts one rule to a subtable. *)
Theorem C61_roundtrip : forall P (g : layout P substitution) max out, gsub_ok g -> gsub_write g = Ok out -> Z.of_nat (length out) < 2 ^ 32 ->
  from_bytes (gsub_read max) out = Ok (gsub_normal g).
Proof. intros P g max out. apply gsub_roundtrip. Qed.
(** What was read back is the same again: reading and writing settle after one
    round. *)
Theorem C61_settles : forall P (g : layout P substitution), gsub_normal (gsub_normal g) = gsub_normal g.
Proof.
  intros P [ls s f]. unfold gsub_normal, layout_normal. cbn [ly_lookups ly_scripts ly_features]. rewrite !map_map. cbn [fst]. f_equal. apply map_ext. intros [fl st r]. cbn [lu_flags lu_set lu_rule]. f_equal.
  destruct r; cbn [subst_normal]; try reflexivity. f_equal. f_equal. induction (concat l) as [|x y IH]; [reflexivity|]. cbn [map concat app]. now rewrite IH.
Qed.
(** A subtable break keeps the kind of rule and all its subtables, in their
    order: an empty one comes after them, or, for contextual rules, nothing. *)
Lemma rmapM_snoc {A B} (f : A -> res B) l x r : rmapM f (l ++ [x]) = Ok r -> exists r0 y, rmapM f l = Ok r0 /\ r = r0 ++ [y].
Proof.
  revert r. induction l as [|a l IH]; intros r H; cbn [app rmapM] in H |- *.
  - destruct (f x) as [y| |]; try discriminate. cbn in H. apply Ok_inj in H. subst r. exists [], y. now split.
  - destruct (f a) as [b| |]; try discriminate. cbn [rbind] in H |- *. destruct (rmapM f (l ++ [x])) as [r1| |]; try discriminate. cbn [rbind] in H.
    apply Ok_inj in H. subst r. destruct (IH r1 eq_refl) as (r0 & y & -> & ->). exists (b :: r0), y. now split.
Qed.
Theorem C61_break : forall s ss', gsub_subtables (add_subtable_break s) = Ok ss' ->
  gsub_type (add_subtable_break s) = gsub_type s /\
  exists ss e, gsub_subtables s = Ok ss /\ ss' = ss ++ e /\ length e = (if (gsub_type s =? 5) || (gsub_type s =? 6) then 0%nat else 1%nat).
Proof.
  intros s ss' H. split; [now destruct s|].
  destruct s as [v|v|v|v|v|v|v]; cbn [add_subtable_break gsub_subtables gsub_type Z.eqb Pos.eqb orb] in H |- *.
  4: { apply rmapM_snoc in H as (r0 & y & E & ->). exists r0, [y]. now repeat split. }
  4, 5: apply Ok_inj in H; subst ss'; rewrite concat_app, map_app; eexists; eexists; split; [reflexivity|split; reflexivity].
  all: apply Ok_inj in H; subst ss'; rewrite map_app; eexists; eexists; split; [reflexivity|split; reflexivity].
Qed.
(** A lookup of extension subtables of different kinds ends the program. *)
Theorem C61_mixed_extensions : forall max f1 t1 s1 f2 t2 s2 l1 l2 l3, t1 <> t2 ->
  Forall (fun s => exists f t s', s = G7 f t s') (l1 ++ l2 ++ l3) ->
  gsub_from_low max 7 (l1 ++ G7 f1 t1 s1 :: l2 ++ G7 f2 t2 s2 :: l3) = Panic.
Proof.
  intros max f1 t1 s1 f2 t2 s2 l1 l2 l3 N H. unfold gsub_from_low. cbn [Z.eqb Pos.eqb].
  set (F := fun s : gsub_sub => match s with G7 _ t' s' => Ok (t', s') | _ => Panic end).
  set (G := fun s : gsub_sub => match s with G7 _ t' s' => (t', s') | _ => (0, s) end).
  assert (E: rmapM F (l1 ++ G7 f1 t1 s1 :: l2 ++ G7 f2 t2 s2 :: l3) = Ok (map G (l1 ++ G7 f1 t1 s1 :: l2 ++ G7 f2 t2 s2 :: l3))).
  { assert (A: Forall (fun s => exists f t s', s = G7 f t s') (l1 ++ G7 f1 t1 s1 :: l2 ++ G7 f2 t2 s2 :: l3)).
    { rewrite !Forall_app in H. destruct H as (A & B & C). apply Forall_app. split; [exact A|]. constructor; [eauto|]. apply Forall_app. split; [exact B|]. constructor; [eauto|exact C]. }
    revert A. generalize (l1 ++ G7 f1 t1 s1 :: l2 ++ G7 f2 t2 s2 :: l3). induction 1 as [|s l (f & t & s' & ->) _ IH]; [reflexivity|]. cbn. now rewrite IH. }
  rewrite E. cbn [rbind]. destruct (map G (l1 ++ G7 f1 t1 s1 :: l2 ++ G7 f2 t2 s2 :: l3)) as [|[t' s'] es] eqn:Em; [reflexivity|].
  destruct (forallb _ ((t', s') :: es)) eqn:Ef; [|reflexivity]. exfalso. rewrite forallb_forall in Ef. apply N.
  assert (I1: In (t1, s1) ((t', s') :: es)) by (rewrite <- Em; apply (in_map G _ (G7 f1 t1 s1)); apply in_or_app; right; now left).
  assert (I2: In (t2, s2) ((t', s') :: es)) by (rewrite <- Em; apply (in_map G _ (G7 f2 t2 s2)); apply in_or_app; right; right; apply in_or_app; right; now left).
  apply Ef in I1, I2. cbn [fst] in I1, I2. lia.
Qed.
(** A table with an unchained contextual rule is never written. *)
Theorem C61_unchained_not_written : forall P (g : layout P substitution) l rs r out, In l (ly_lookups g) -> lu_rule l = Contextual rs -> In r (concat rs) -> r <> [] ->
  gsub_write g <> Ok out.
Proof.
  intros P g l rs r out Hl Hr Hin Hne W. unfold gsub_write, layout_to_low in W.
  match type of W with context [rmapM ?f (ly_lookups g)] => set (F := f) in W; destruct (rmapM F (ly_lookups g)) as [tl| |] eqn:E end; cbn [rbind] in W; try discriminate.
  assert (X: exists ss fl st, In (Some (mk_lookup_low 5 fl ss st)) tl /\ In (G5 (seq_to_low r)) ss).
  { clear W. revert tl E. induction (ly_lookups g) as [|l' ls IH]; intros tl E; [destruct Hl|]. cbn [rmapM] in E. destruct (F l') as [x| |] eqn:Ex; cbn [rbind] in E; try discriminate.
    destruct (rmapM F ls) as [tl'| |]; cbn [rbind] in E; try discriminate. apply Ok_inj in E. subst tl. destruct Hl as [->|Hl].
    - unfold F in Ex. rewrite Hr in Ex. cbn [gsub_subtables rbind gsub_type] in Ex. apply Ok_inj in Ex. subst x. eexists _, _, _. split; [now left|].
      apply in_map_iff. exists r. auto.
    - destruct (IH Hl tl' eq_refl) as (ss & fl & st & H1 & H2). eexists _, _, _. split; [right; exact H1|exact H2]. }
  destruct X as (ss & fl & st & H1 & H2). unfold table_enc in W. cbn [tl_scripts tl_features tl_lookups] in W.
  destruct (link_enc scripts_enc _) as [s'| |]; cbn [rbind] in W; try discriminate. destruct (link_enc features_enc _) as [f'| |]; cbn [rbind] in W; try discriminate.
  cbn [link_enc] in W. unfold lookups_enc, vec_enc in W. destruct (rmapM (link_enc (lookup_enc gsub_enc)) tl) as [is| |] eqn:El; cbn [rbind] in W; try discriminate. clear W.
  apply rmapM_inv in El. apply (Forall2_in_l _ _ _ _ El) in H1 as (i & _ & Ei). cbn [link_enc] in Ei. unfold lookup_enc in Ei. cbn [lk_subs] in Ei.
  match type of Ei with context [rmapM ?f ss] => destruct (rmapM f ss) as [js| |] eqn:Es end; cbn [rbind] in Ei; try discriminate.
  apply rmapM_inv in Es. apply (Forall2_in_l _ _ _ _ Es) in H2 as (j & _ & Ej). cbn beta in Ej. cbn [gsub_enc] in Ej. rewrite (seq_not_written r Hne) in Ej. discriminate.
Qed.
Definition ex_gsub : layout Z substitution := mk_layout
  [mk_lookup 16 (Some 3) (Single [[(3, 10); (5, 12)]; [(3, 10); (5, 11)]]);
   mk_lookup 0 None (Ligature [[([3; 4], 10); ([3; 4; 5], 11)]]);
   mk_lookup 1 None (ChainedContextual [[mk_chained [[1; 2]] [] [([3; 4], [0])]; mk_chained [] [[7]] [([5], [])]]]);
   mk_lookup 0 None (ReverseChain [mk_reverse [(3, 30)] [[1]] []])]
  ex_scripts [((liga, [1; 2]), Some 7); ((kern, [0]), None)].
Example C61_example : gsub_ok ex_gsub /\ rbind (gsub_write ex_gsub) (from_bytes (gsub_read 100)) = Ok (gsub_normal ex_gsub).
Proof.
  split; [|vm_compute; reflexivity]. split; [apply C51_example|]. split; [unfold countable; cbn; lia|]. split.
  { assert (T: forall t, In t [liga; kern] -> is_tag t).
    { intros t [<-|[<-|[]]]; (split; [reflexivity|]); repeat (constructor; [lia|]); constructor. }
    repeat apply Forall_cons; try apply Forall_nil; unfold feature_ok, countable, is_u16; cbn [fst snd length]; (split; [apply T; cbn; auto|]); (split; [lia|]); repeat (constructor; [lia|]); constructor. }
  split; [unfold countable; cbn; lia|].
  repeat apply Forall_cons; try apply Forall_nil; cbn [lu_flags lu_set lu_rule];
    (split; [unfold lookup_flags_ok, is_u16; cbn; repeat split; lia|]); cbn [subst_ok].
  - split; [unfold countable; cbn; lia|]. repeat apply Forall_cons; try apply Forall_nil; unfold glyph_map, is_glyph, is_u16; cbn; (split; [split; [lia|]; repeat (apply Forall_cons; [cbn; lia|]); constructor|]).
    + intros _. repeat (apply Forall_cons; [unfold short_move; cbn; lia|]). constructor.
    + intros _. repeat (apply Forall_cons; [unfold short_move; cbn; lia|]). constructor.
  - split; [unfold countable; cbn; lia|]. apply Forall_cons; [|constructor]. split; [repeat constructor|]. split; [unfold countable; cbn; lia|].
    repeat (apply Forall_cons; [unfold sequence_ok, is_glyph, is_u16; cbn; repeat split; try lia; repeat (apply Forall_cons; [lia|]); constructor|]). constructor.
  - split; [unfold countable; cbn; lia|]. unfold chained_rule_ok, glyph_sets, rule_ok, glyph_sets, countable, is_glyph, is_u16. cbn -[Z.le Z.lt].
    repeat (apply Forall_cons || apply Forall_nil || split); cbn; try lia.
  - split; [unfold countable; cbn; lia|]. unfold reverse_ok, glyph_map, glyph_sets, countable, is_glyph, is_u16. cbn -[Z.le Z.lt].
    repeat (apply Forall_cons || apply Forall_nil || split); cbn; try lia.
Qed.
(** The purpose of extension subtables is to be out of reach of 16-bit offsets:
    one at any distance [n]. *)
Definition far_single : obj := raw (word 1) ++ [link (raw (word 1 ++ word 1 ++ word 10))] ++ raw (word 5).
Example C61_far : forall max n, 8 <= n < 2 ^ 32 ->
  let o := raw (word 1 ++ word 1) ++ [IRef Far32 (Some far_single)] in
  gsub_rule max 7 [o] (Single [[(10, 15)]]) /\
  stored 65536 ([0; 1; 0; 1] ++ be_bytes 4 n ++ repeat 0 (Z.to_nat (n - 8)) ++ [0; 1; 0; 6; 0; 5; 0; 1; 0; 1; 0; 10]) 0 0 o.
Proof.
  intros max n Hn o. split.
  - apply (rule_extension max 1 [far_single] (Single [[(10, 15)]])); [lia|discriminate|]. apply rule_single. apply Forall2_cons; [|apply Forall2_nil].
    split; [repeat constructor|]. split; [apply Forall_cons; [unfold is_u16; cbn; lia|apply Forall_nil]|]. split.
    + apply single1; [|lia|].
      * exists (word 1 ++ word 1 ++ word 10). split; [reflexivity|]. split; [|left; reflexivity].
        apply (cov1 [10]); [apply Forall_cons; [unfold is_u16; lia|apply Forall_nil]|cbn; lia].
      * apply Forall_cons; [reflexivity|apply Forall_nil].
    + right. apply Forall_cons; [unfold short_move; cbn; lia|apply Forall_nil].
  - set (buf := [0; 1; 0; 1] ++ _).
    assert (Lb: length (be_bytes 4 n) = 4%nat) by apply be_bytes_length.
    assert (H0: forall p a b c, buf = p ++ a ++ c -> length p = b -> at_pos buf b a) by (intros p a b c E L; exists p, c; auto).
    assert (Hh: at_pos buf 0 [0; 1; 0; 1]) by (eapply (H0 []); reflexivity).
    assert (Ho: at_pos buf 4 (be_bytes 4 n)) by (eapply (H0 [0; 1; 0; 1]); reflexivity).
    assert (Hd: at_pos buf (Z.to_nat n) [0; 1; 0; 6; 0; 5; 0; 1; 0; 1; 0; 10]).
    { eapply (H0 ([0; 1; 0; 1] ++ be_bytes 4 n ++ repeat 0 (Z.to_nat (n - 8))) _ _ []); [unfold buf; now rewrite app_nil_r, <- !app_assoc|].
      rewrite !app_length, Lb, repeat_length. cbn [length]. lia. }
    assert (Sub: forall a b c p, at_pos buf p (a ++ b ++ c) -> at_pos buf (p + length a) b).
    { intros a b c p (pre & post & E & L). exists (pre ++ a), (c ++ post). split; [rewrite E, <- !app_assoc; reflexivity|rewrite app_length; lia]. }
    assert (End: forall bs p, at_pos buf p bs -> (p + length bs <= length buf)%nat) by (intros bs p H; now apply at_pos_len).
    change o with [IB 0; IB 1; IB 0; IB 1; IRef Far32 (Some far_single)].
    apply st_byte; [exact (Sub [] [0] [1; 0; 1] 0%nat Hh)|]. apply st_byte; [exact (Sub [0] [1] [0; 1] 0%nat Hh)|].
    apply st_byte; [exact (Sub [0; 1] [0] [1] 0%nat Hh)|]. apply st_byte; [exact (Sub [0; 1; 0] [1] [] 0%nat Hh)|].
    apply st_link with n; [cbn [farthest]; lia|cbn [off_width]; lia|exact Ho| |apply st_nil; apply End in Ho; rewrite Lb in Ho; cbn; lia].
    cbn [Nat.add]. set (q := Z.to_nat n) in *.
    change far_single with [IB 0; IB 1; IRef Off16 (Some [IB 0; IB 1; IB 0; IB 1; IB 0; IB 10]); IB 0; IB 5].
    assert (B: forall a b c, [0; 1; 0; 6; 0; 5; 0; 1; 0; 1; 0; 10] = a ++ b ++ c -> at_pos buf (q + length a) b) by (intros a b c E; rewrite E in Hd; now apply (Sub a b c)).
    assert (P: forall k a b c, [0; 1; 0; 6; 0; 5; 0; 1; 0; 1; 0; 10] = a ++ b ++ c -> k = (q + length a)%nat -> at_pos buf k b) by (intros k a b c E ->; eapply B; exact E).
    apply st_byte; [eapply (P _ [] [0]); [reflexivity|cbn; lia]|]. apply st_byte; [eapply (P _ [0] [1]); [reflexivity|cbn; lia]|].
    apply st_link with 6; [cbn; lia|cbn; lia|eapply (P _ [0; 1] [0; 6]); [reflexivity|cbn; lia]| |].
    + apply st_byte; [eapply (P _ [0; 1; 0; 6; 0; 5] [0]); [reflexivity|cbn; lia]|]. apply st_byte; [eapply (P _ [0; 1; 0; 6; 0; 5; 0] [1]); [reflexivity|cbn; lia]|].
      apply st_byte; [eapply (P _ [0; 1; 0; 6; 0; 5; 0; 1] [0]); [reflexivity|cbn; lia]|]. apply st_byte; [eapply (P _ [0; 1; 0; 6; 0; 5; 0; 1; 0] [1]); [reflexivity|cbn; lia]|].
      apply st_byte; [eapply (P _ [0; 1; 0; 6; 0; 5; 0; 1; 0; 1] [0]); [reflexivity|cbn; lia]|]. apply st_byte; [eapply (P _ [0; 1; 0; 6; 0; 5; 0; 1; 0; 1; 0] [10]); [reflexivity|cbn; lia]|].
      apply st_nil. apply End in Hd. cbn [length] in Hd. lia.
    + apply st_byte; [eapply (P _ [0; 1; 0; 6] [0]); [reflexivity|cbn; lia]|]. apply st_byte; [eapply (P _ [0; 1; 0; 6; 0] [5]); [reflexivity|cbn; lia]|].
      apply st_nil. apply End in Hd. cbn [length off_width] in *. lia.
Qed.
(** Reverse chaining substitutions inside extension subtables are not read,
    although OpenType allows them. *)
Theorem C61_extension_refuted : exists i o, reverse_file (mk_reverse [] [] []) i /\ o = raw (word 1 ++ word 8) ++ [IRef Far32 (Some i)] /\
  forall buf pos stk, stored 65536 buf pos pos o -> gsub_de 7 (mkrd buf pos stk) = Err.
Proof.
  eexists _, _. split; [|split; [reflexivity|]].
  - apply (reverse1 [] (raw (word 1 ++ word 0)) [] [] [] [] [] []); try constructor; unfold countable; try (cbn; lia).
    exists (word 1 ++ word 0). split; [reflexivity|]. split; [|now left]. apply (cov1 []); [constructor|cbn; lia].
  - intros buf pos stk S. apply stored_app in S as [S _]. rewrite raw_app in S. apply stored_app in S as [S1 S2]. apply stored_raw in S1, S2.
    change (gsub_de 7) with g7_de. unfold g7_de, with_base, rd_push. cbn [rd_input rd_ptr rd_stack]. unfold pbind.
    rewrite (at_pos_reads de_u16 _ _ _ _ (pos :: stk) (reads_u16 1 ltac:(lia)) S1). rewrite size_raw in S2. change (length (word 1)) with 2%nat in S2. change (length (ser_u16 1)) with 2%nat. cbv iota beta.
    rewrite (at_pos_reads de_u16 _ _ _ _ (pos :: stk) (reads_u16 8 ltac:(lia)) S2). reflexivity.
Qed.

Print Assumptions C51_scripts_written.
Print Assumptions C51_scripts_every_encoding_read.
Print Assumptions C51_scripts_roundtrip.
Print Assumptions C51_scripts_unique.
Print Assumptions C51_langsys_kept_iff.
Print Assumptions C51_features_written.
Print Assumptions C51_features_every_encoding_read.
Print Assumptions C51_features_roundtrip.
Print Assumptions C51_null_panics.
Print Assumptions C51_required_refuted.
Print Assumptions C51_truncated_refuted.
Print Assumptions C51_parameters_refuted.
Print Assumptions C61_written.
Print Assumptions C61_written_iff.
Print Assumptions C61_every_encoding_read.
Print Assumptions C61_roundtrip.
Print Assumptions C61_settles.
Print Assumptions C61_unchained_not_written.
Print Assumptions C61_extension_refuted.
Print Assumptions C61_break.
Print Assumptions C61_mixed_extensions.

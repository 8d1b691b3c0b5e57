(** Byte offsets of the fields of the fixed-layout tables. *)
From Verif.Model Require Import MBase MTag MFixed MTables.
From Verif.Spec Require Import SBase STables.
From Verif.Proofs Require Import PBase PCodec PTables.

Lemma field_intro bs off w v :
  firstn w (skipn off bs) = be_bytes w v -> field bs off w v.
Proof.
  intros H. unfold field. rewrite H. split; [apply be_bytes_length|apply big_endian_be_bytes].
Qed.
Ltac fields := repeat match goal with
  | |- field _ _ _ _ => apply field_intro; reflexivity
  | |- _ /\ _ => split end.

Lemma head_layout_ok h : length (ser_head_tbl h) = 54%nat /\ head_layout h (ser_head_tbl h).
Proof. split; [reflexivity|]. unfold head_layout. fields. Qed.
Lemma hhea_layout_ok h : length (ser_hhea h) = 36%nat /\ hhea_layout h (ser_hhea h).
Proof. split; [reflexivity|]. unfold hhea_layout. fields. Qed.
Lemma maxp10_layout_ok h bs : ser_maxp (mk_maxp 65536 (Maxp10 h)) = Ok bs ->
  length bs = 32%nat /\ maxp10_layout h bs.
Proof.
  intros H. assert (E : bs = ser_i32 65536 ++ ser_maxp10 h) by (cbn in H; apply Ok_inj in H; now subst).
  subst. split; [reflexivity|]. unfold maxp10_layout. fields.
Qed.
Lemma maxp05_layout_ok n bs : ser_maxp (mk_maxp 32768 (Maxp05 n)) = Ok bs ->
  length bs = 6%nat /\ field bs 0 4 0x00005000 /\ field bs 4 2 n.
Proof.
  intros H. assert (E : bs = ser_i32 0x5000 ++ ser_u16 n) by (cbn in H; apply Ok_inj in H; now subst).
  subst. split; [reflexivity|]. fields.
Qed.
Lemma os2core_layout_ok h : length (oc_achVendID h) = 4%nat ->
  forall rest, os2_layout h (ser_os2core h ++ rest) /\ length (ser_os2core h) = 78%nat.
Proof.
  intros H rest. destruct h as [? ? ? ? ? ? ? ? ? ? ? ? ? ? ? ? ? ? ? ? ? vend ? ? ? ? ? ? ? ?]. cbn in H.
  destruct vend as [|a [|b [|c [|d [|]]]]]; try discriminate H.
  split; [|reflexivity].
  unfold os2_layout. fields.
Qed.
Lemma os2_layout_ok o : length (oc_achVendID (os_core o)) = 4%nat ->
  os2_layout (os_core o) (ser_os2 o) /\ os2_extra_layout o (ser_os2 o).
Proof.
  intros H. destruct (os2core_layout_ok _ H []) as [_ L].
  unfold ser_os2. cbv zeta. split; [now apply os2core_layout_ok|].
  unfold os2_extra_layout. cbv zeta.
  set (core := ser_os2core (os_core o)) in *. clearbody core.
  set (v := oc_version (os_core o)). clearbody v.
  assert (F : forall off w x rest, firstn w (skipn off rest) = be_bytes w x ->
     field (core ++ rest) (78 + off) w x).
  { intros off w x rest E. apply field_intro. rewrite <- L, skipn_app.
    rewrite skipn_all2 by lia. replace (length core + off - length core)%nat with off by lia. exact E. }
  split; [|split]; intros V.
  - destruct (v >? 0) eqn:E; [|lia]. split; [apply (F 0%nat)|apply (F 4%nat)]; reflexivity.
  - destruct (v >? 0) eqn:E; [|lia]. destruct (v >? 1) eqn:E1; [|lia].
    split; [|split; [|split; [|split]]]; [apply (F 8%nat)|apply (F 10%nat)|apply (F 12%nat)|apply (F 14%nat)|apply (F 16%nat)]; reflexivity.
  - destruct (v >? 0) eqn:E; [|lia]. destruct (v >? 1) eqn:E1; [|lia]. destruct (v >? 4) eqn:E2; [|lia].
    split; [apply (F 18%nat)|apply (F 20%nat)]; reflexivity.
Qed.

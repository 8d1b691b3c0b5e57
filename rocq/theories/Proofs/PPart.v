(** Reading stored objects. *)
From Verif.Model Require Import MBase MOffset.
From Verif.Spec Require Import SOffset.
From Verif.Proofs Require Import PBase POffset.

Lemma size_app a b : size (a ++ b) = (size a + size b)%nat.
Proof. unfold size. now rewrite map_app, list_sum_app. Qed.
Lemma size_raw bs : size (raw bs) = length bs.
Proof. unfold raw, size. induction bs as [|b bs IH]; [reflexivity|]. cbn in *. unfold list_sum in IH. now rewrite IH. Qed.
Lemma raw_app a b : raw (a ++ b) = raw a ++ raw b.
Proof. apply map_app. Qed.

Lemma stored_app lim buf base pos a b : stored lim buf base pos (a ++ b) ->
  stored lim buf base pos a /\ stored lim buf base (pos + size a) b.
Proof.
  remember (a ++ b) as l eqn:E. intros H. revert a E.
  induction H as [base pos Hp|base pos x l Ha Hl IH|base pos k l Ha Hl IH|base pos k o v l Hv Hw Ha Ho IHo Hl IH|base pos g l Hg IH]; intros a E.
  - symmetry in E. apply app_eq_nil in E as [-> ->]. unfold size. cbn. rewrite Nat.add_0_r. split; now constructor.
  - destruct a as [|y a]; cbn [app] in E.
    + subst b. unfold size. cbn. rewrite Nat.add_0_r. assert (S: stored lim buf base pos (IB x :: l)) by now constructor.
      split; [|exact S]. constructor. apply at_pos_len in Ha. lia.
    + injection E as <- ->. destruct (IH a eq_refl) as [I1 I2]. split; [now constructor|].
      change (size (IB x :: a)) with (1 + size a)%nat. now rewrite Nat.add_assoc.
  - destruct a as [|y a]; cbn [app] in E.
    + subst b. unfold size. cbn. rewrite Nat.add_0_r. assert (S: stored lim buf base pos (IRef k None :: l)) by now constructor.
      split; [|exact S]. constructor. apply at_pos_len in Ha. lia.
    + injection E as <- ->. destruct (IH a eq_refl) as [I1 I2]. split; [now constructor|].
      change (size (IRef k None :: a)) with (off_width k + size a)%nat. now rewrite Nat.add_assoc.
  - destruct a as [|y a]; cbn [app] in E.
    + subst b. unfold size. cbn. rewrite Nat.add_0_r. assert (S: stored lim buf base pos (IRef k (Some o) :: l)) by now apply st_link with v.
      split; [|exact S]. constructor. apply at_pos_len in Ha. lia.
    + injection E as <- ->. destruct (IH a eq_refl) as [I1 I2]. split; [now apply st_link with v|].
      change (size (IRef k (Some o) :: a)) with (off_width k + size a)%nat. now rewrite Nat.add_assoc.
  - destruct a as [|y a]; cbn [app] in E.
    + subst b. unfold size. cbn. rewrite Nat.add_0_r. assert (S: stored lim buf base pos (IGroup g :: l)) by now constructor.
      split; [|exact S]. constructor. apply stored_pos in Hg. rewrite size_app in Hg. lia.
    + injection E as <- ->. destruct (IH (g ++ a)) as [I1 I2]; [now rewrite app_assoc|]. split; [now constructor|].
      change (size (IGroup g :: a)) with (size g + size a)%nat. now rewrite size_app in I2.
Qed.
Lemma stored_raw lim buf base pos bs : stored lim buf base pos (raw bs) -> at_pos buf pos bs.
Proof.
  revert pos. induction bs as [|b bs IH]; intros pos H; inversion H; subst.
  - exists (firstn pos buf), (skipn pos buf). split; [now rewrite app_nil_l, firstn_skipn|]. apply firstn_length_le. assumption.
  - match goal with H : at_pos _ _ [b] |- _ => destruct H as (pre & post & E & L) end.
    match goal with H : stored _ _ _ (_ + 1) _ |- _ => apply IH in H; destruct H as (pre2 & post2 & E2 & L2) end.
    exists pre, post2. split; [|exact L]. rewrite E in E2 |- *. cbn [app] in *.
    assert (X: pre2 = pre ++ [b]).
    { apply (f_equal (firstn (length (pre ++ [b])))) in E2. replace (pre ++ b :: post) with ((pre ++ [b]) ++ post) in E2 by now rewrite <- app_assoc.
      rewrite firstn_app_exact in E2. replace (length (pre ++ [b])) with (length pre2) in E2 by (rewrite app_length; cbn; lia).
      rewrite firstn_app_exact in E2. congruence. }
    rewrite X, <- app_assoc in E2. exact E2.
Qed.
Lemma at_pos_rest buf pos bs stk : at_pos buf pos bs -> exists post, rest (mkrd buf pos stk) = bs ++ post.
Proof. intros (pre & post & -> & <-). exists post. unfold rest. cbn. apply skipn_app_exact. Qed.
Lemma at_pos_reads {A} (p : parser A) bs v buf pos stk : reads p bs v -> at_pos buf pos bs ->
  p (mkrd buf pos stk) = Ok (v, mkrd buf (pos + length bs) stk).
Proof. intros H Ha. destruct (at_pos_rest buf pos bs stk Ha) as [post Hr]. exact (H _ _ Hr). Qed.

(** [part p l v]: [p] reads the items [l] of a table whose start is the current
    offset base. *)
Definition part {A} (p : parser A) (l : list item) (v : A) : Prop :=
  forall buf base pos stk, stored 65536 buf base pos l ->
    p (mkrd buf pos (base :: stk)) = Ok (v, mkrd buf (pos + size l) (base :: stk)).

Lemma part_reads {A} (p : parser A) bs v : reads p bs v -> part p (raw bs) v.
Proof. intros H buf base pos stk S. rewrite size_raw. apply stored_raw in S. now apply at_pos_reads. Qed.
Lemma part_pret {A} (v : A) : part (pret v) [] v.
Proof. exact (part_reads _ _ _ (reads_pret v)). Qed.
Lemma part_bind {A B} (p : parser A) (f : A -> parser B) l1 l2 a b :
  part p l1 a -> part (f a) l2 b -> part (pbind p f) (l1 ++ l2) b.
Proof.
  intros Hp Hf buf base pos stk S. apply stored_app in S as [S1 S2]. unfold pbind.
  rewrite (Hp _ _ _ _ S1), (Hf _ _ _ _ S2), size_app. now rewrite Nat.add_assoc.
Qed.
Lemma part_bind' {A B} (p : parser A) (f : A -> parser B) l l1 l2 a b :
  l = l1 ++ l2 -> part p l1 a -> part (f a) l2 b -> part (pbind p f) l b.
Proof. intros ->. apply part_bind. Qed.
Lemma part_map {A B} (p : parser A) (f : A -> B) l a : part p l a -> part (pbind p (fun x => pret (f x))) l (f a).
Proof. intros H. eapply part_bind'; [symmetry; apply app_nil_r|exact H|apply part_pret]. Qed.
Lemma part_ext {A} (p q : parser A) l v : (forall r, p r = q r) -> part p l v -> part q l v.
Proof. intros E H buf base pos stk S. rewrite <- E. now apply H. Qed.
Lemma part_group {A} (p : parser A) g v : part p g v -> part p [IGroup g] v.
Proof.
  intros H buf base pos stk S. inversion S; subst. rewrite app_nil_r in *. rewrite (H _ _ _ _ ltac:(eassumption)).
  unfold size at 2. cbn. now rewrite Nat.add_0_r.
Qed.
Lemma part_counted {A} (p : parser A) (enc : A -> list item) vs :
  Forall (fun v => part p (enc v) v) vs -> part (de_counted p (length vs)) (concat (map enc vs)) vs.
Proof.
  induction 1 as [|v vs Hv Hvs IH]; cbn [length de_counted map concat]; [apply part_pret|].
  eapply part_bind; [exact Hv|]. apply part_map. exact IH.
Qed.
Lemma part_counted2 {A} (p : parser A) ls vs :
  Forall2 (fun l v => part p l v) ls vs -> part (de_counted p (length vs)) (concat ls) vs.
Proof.
  induction 1 as [|l v ls vs Hv Hvs IH]; cbn [length de_counted concat]; [apply part_pret|].
  eapply part_bind; [exact Hv|]. apply part_map. exact IH.
Qed.

Lemma decodes_reads {A} (p : parser A) bs v : reads p bs v -> decodes p (raw bs) v.
Proof. intros H buf pos stk S. rewrite size_raw. apply stored_raw in S. now apply at_pos_reads. Qed.
Lemma decodes_part {A} (p : parser A) l v : part p l v -> decodes (with_base p) l v.
Proof.
  intros H buf pos stk S. unfold with_base, rd_push. cbn [rd_input rd_ptr rd_stack]. now rewrite (H _ _ _ stk S).
Qed.
Lemma decodes_map {A B} (p : parser A) (f : A -> B) l a : decodes p l a -> decodes (pbind p (fun x => pret (f x))) l (f a).
Proof. intros H buf pos stk S. unfold pbind. now rewrite (H _ _ _ S). Qed.
Lemma decodes_ext {A} (p q : parser A) l v : (forall r, p r = q r) -> decodes p l v -> decodes q l v.
Proof. intros E H buf pos stk S. rewrite <- E. now apply H. Qed.

Lemma decodes_finds {A} (p : parser A) o v : decodes p o v -> finds p o v.
Proof. intros H buf pos stk S. eexists. exact (H _ _ _ S). Qed.

Lemma reads_be w v : (w = 2 \/ w = 4)%nat -> 0 <= v < 256 ^ Z.of_nat w ->
  reads (if (w =? 2)%nat then de_u16 else de_u32) (be_bytes w v) v.
Proof. intros [->| ->] H; cbn [Nat.eqb]; [apply reads_u16|apply reads_u32]; exact H. Qed.
Lemma de_offset_null {A} (p : parser A) w : (w = 2 \/ w = 4)%nat ->
  reads (de_offset (negb (w =? 2)%nat) p) (be_bytes w 0) None.
Proof.
  intros H. unfold de_offset. eapply reads_bind'; [symmetry; apply app_nil_r| |].
  - replace (if negb (w =? 2)%nat then de_u32 else de_u16) with (if (w =? 2)%nat then de_u16 else de_u32) by now destruct (w =? 2)%nat.
    apply (reads_be w 0 H). split; [lia|]. destruct H as [->| ->]; reflexivity.
  - cbn beta. apply reads_pret.
Qed.
Lemma de_offset_link {A} (p : parser A) w32 k o (x : A) : w32 = negb (off_width k =? 2)%nat -> k <> Far32 -> decodes p o x ->
  part (de_offset w32 p) [IRef k (Some o)] (Some x).
Proof.
  intros -> Hk Hd buf base pos stk S. inversion S; subst.
  assert (0 < v < 65536) by (destruct k; cbn [farthest] in *; [lia|lia|lia|now elim Hk]).
  match goal with H : at_pos _ _ (be_bytes _ v) |- _ => rename H into Ha end.
  match goal with H : stored _ _ _ _ o |- _ => rename H into Ho end.
  unfold de_offset, pbind.
  assert (R: reads (if negb (off_width k =? 2)%nat then de_u32 else de_u16) (be_bytes (off_width k) v) v).
  { replace (if negb (off_width k =? 2)%nat then de_u32 else de_u16) with (if (off_width k =? 2)%nat then de_u16 else de_u32) by now destruct (off_width k =? 2)%nat.
    apply reads_be; [destruct k; auto|lia]. }
  rewrite (at_pos_reads _ _ _ _ _ (base :: stk) R Ha). rewrite be_bytes_length.
  replace (v =? 0) with false by lia. unfold try_u. change (2 ^ 16) with 65536.
  replace ((0 <=? v) && (v <? 65536)) with true by lia. cbn [unwrap]. unfold follow_offset, top_of_table. cbn [rd_stack rbind rd_input].
  pose proof (stored_pos _ _ _ _ _ Ho) as Hp.
  replace (length buf <? base + Z.to_nat v)%nat with false by (symmetry; apply Nat.ltb_ge; lia). cbn [rbind].
  rewrite (Hd _ _ _ Ho). cbn [rd_input rd_ptr rd_stack]. unfold size. cbn [map list_sum fold_right item_size]. rewrite Nat.add_0_r.
  reflexivity.
Qed.
Lemma part_off16 {A} (p : parser A) o x : decodes p o x -> part (de_off16 p) [IRef Off16 (Some o)] (Some x).
Proof. apply de_offset_link; [reflexivity|discriminate]. Qed.
Lemma part_off32 {A} (p : parser A) o x : decodes p o x -> part (de_off32 p) [IRef Off32 (Some o)] (Some x).
Proof. apply de_offset_link; [reflexivity|discriminate]. Qed.
Lemma part_off16_null {A} (p : parser A) : part (de_off16 p) [IRef Off16 None] None.
Proof.
  intros buf base pos stk S. inversion S; subst. cbn [off_width] in *.
  exact (at_pos_reads (de_off16 p) _ _ _ _ (base :: stk) (de_offset_null p 2 (or_introl eq_refl)) ltac:(eassumption)).
Qed.
Lemma part_off32_null {A} (p : parser A) : part (de_off32 p) [IRef Off32 None] None.
Proof.
  intros buf base pos stk S. inversion S; subst. cbn [off_width] in *.
  exact (at_pos_reads (de_off32 p) _ _ _ _ (base :: stk) (de_offset_null p 4 (or_intror eq_refl)) ltac:(eassumption)).
Qed.

(** Writing, then reading. *)
Lemma stored_read {A} (p : parser A) o v buf : stored 65536 buf 0 0 o -> decodes p o v -> from_bytes p buf = Ok v.
Proof. intros S H. unfold from_bytes, rd_new. now rewrite (H _ _ _ S). Qed.
Lemma to_bytes_read {A} (p : parser A) o v out : Z.of_nat (total o) < 2 ^ 32 -> narrow o = true \/ Z.of_nat (total o) < 65536 ->
  decodes p o v -> to_bytes o = Ok out -> from_bytes p out = Ok v.
Proof. intros Ht Hn Hd H. eapply stored_read; [|exact Hd]. now apply to_bytes_readable. Qed.

(** The generic reader reads every stored object. *)
Lemma read_item_part i : item_bytes_ok i = true -> part (read_item i) [i] i.
Proof.
  assert (L: forall l, Forall (fun i => item_bytes_ok i = true -> part (read_item i) [i] i) l -> forallb item_bytes_ok l = true ->
    part (read_items l) l l).
  { clear i. induction 1 as [|i l Hi Hl IH]; intros Hb; [apply part_pret|]. cbn [forallb] in Hb. apply andb_prop in Hb as [Hb1 Hb2]. cbn [read_items].
    eapply (part_bind' _ _ (i :: l) [i] l); [reflexivity|exact (Hi Hb1)|]. apply part_map. exact (IH Hb2). }
  induction i as [b|k|k l IH|l IH] using item_ind2; intros Hb.
  - cbn [read_item]. apply part_map. cbn in Hb. replace [IB b] with (raw (ser_u8 b)) by (rewrite ser_u8_byte by lia; reflexivity).
    apply part_reads, reads_u8. lia.
  - cbn [read_item]. apply part_map. intros buf base pos stk S. inversion S; subst.
    replace (size [IRef k None]) with (length (be_bytes (off_width k) 0)) by (rewrite be_bytes_length; unfold size; cbn; lia).
    apply at_pos_reads; [|assumption]. apply de_offset_null. destruct k; auto.
  - change (read_item (IRef k (Some l))) with (pbind (de_offset (negb (off_width k =? 2)%nat) (with_base (read_items l))) (fun x => pret (IRef k x))).
    apply (part_map _ (fun x => IRef k x) _ (Some l)). apply de_offset_link; [reflexivity|intros ->; discriminate Hb|]. apply decodes_part. apply L; [exact IH|]. now destruct k.
  - change (read_item (IGroup l)) with (pbind (read_items l) (fun x => pret (IGroup x))). apply part_map. apply part_group. apply L; [exact IH|exact Hb].
Qed.
Lemma read_like_decodes o : bytes_ok o = true -> decodes (read_like o) o o.
Proof.
  intros H. apply decodes_part. unfold bytes_ok in H. induction o as [|i o IH]; [apply part_pret|].
  cbn [forallb] in H. apply andb_prop in H as [H1 H2]. cbn [read_items].
  eapply (part_bind' _ _ (i :: o) [i] o); [reflexivity|exact (read_item_part i H1)|]. apply part_map. exact (IH H2).
Qed.

(** Positioning subtables: single and pair adjustment. *)
From Coq Require Import List ZArith Lia Bool Permutation Sorted.
Import ListNotations.
From Verif.Model Require Import MBase MMap MTag MGlyph MOffset MLayout MLow MContext MLookup MValue MGsub MGpos.
From Verif.Spec Require Import SBase SGlyph SOffset SLayout SContext SValue SGsub SGpos.
From Verif.Proofs Require Import PBase PCodec PMap PTag PGlyph PGlyphFmt PPoints POffset PPart PCover PClassdef PDevice PValue PLow PContext PGsub.
Open Scope Z_scope.

(** ** Reading that ends anywhere *)
Definition ends {A} (p : parser A) (l : list item) (v : A) : Prop :=
  forall buf base pos stk, stored 65536 buf base pos l -> exists q, p (mkrd buf pos (base :: stk)) = Ok (v, mkrd buf q (base :: stk)).
Lemma part_ends {A} (p : parser A) l v : part p l v -> ends p l v.
Proof. intros H buf base pos stk S. eexists. exact (H _ _ _ _ S). Qed.
Lemma ends_bind {A B} (p : parser A) (f : A -> parser B) l1 l2 a b : part p l1 a -> ends (f a) l2 b -> ends (pbind p f) (l1 ++ l2) b.
Proof.
  intros Hp Hf buf base pos stk S. apply stored_app in S as [S1 S2]. unfold pbind. rewrite (Hp _ _ _ _ S1). exact (Hf _ _ _ _ S2).
Qed.
Lemma ends_bind' {A B} (p : parser A) (f : A -> parser B) l l1 l2 a b : l = l1 ++ l2 -> part p l1 a -> ends (f a) l2 b -> ends (pbind p f) l b.
Proof. intros ->. apply ends_bind. Qed.
Lemma ends_map {A B} (p : parser A) (f : A -> B) l a : ends p l a -> ends (pbind p (fun x => pret (f x))) l (f a).
Proof. intros H buf base pos stk S. destruct (H _ _ _ stk S) as [q E]. exists q. unfold pbind. now rewrite E. Qed.
Lemma ends_finds {A} (p : parser A) l v : ends p l v -> finds (with_base p) l v.
Proof.
  intros H buf pos stk S. destruct (H _ _ _ stk S) as [q E]. exists q. unfold with_base, rd_push. cbn [rd_input rd_ptr rd_stack]. now rewrite E.
Qed.
Lemma finds_lift {A B} (p : parser A) (f : A -> res B) o l v : finds p o l -> f l = Ok v -> finds (pbind p (fun x => plift (f x))) o v.
Proof. intros H E buf pos stk S. destruct (H _ _ stk S) as [q Eq]. exists q. unfold pbind, plift. now rewrite Eq, E. Qed.

(** the offsets of a list of links *)
Lemma app_same_length {A} (a b c d : list A) : length a = length c -> a ++ b = c ++ d -> a = c /\ b = d.
Proof.
  revert c. induction a as [|x a IH]; intros [|y c] L E; cbn in *; try lia; [auto|]. injection E as -> E. destruct (IH c ltac:(lia) E) as [-> ->]. auto.
Qed.
Lemma stored_links buf base pos os : stored 65536 buf base pos (map link os) ->
  exists vs, at_pos buf pos (words vs) /\ Forall is_u16 vs /\ Forall2 (fun v o => stored 65536 buf (base + Z.to_nat v) (base + Z.to_nat v) o) vs os.
Proof.
  revert pos. induction os as [|o os IH]; intros pos H.
  - exists []. split; [|auto]. apply (stored_raw 65536 buf base pos []). exact H.
  - cbn [map] in H. inversion H; subst. destruct (IH _ ltac:(eassumption)) as (vs & A & U & F). exists (v :: vs).
    change (off_width Off16) with 2%nat in *.
    split; [|split; constructor; auto; unfold is_u16; lia].
    match goal with H : at_pos buf pos _ |- _ => destruct H as (pre & post & E & L) end. destruct A as (pre' & post' & E' & L').
    assert (X: pre' = pre ++ be_bytes 2 v /\ post = words vs ++ post').
    { rewrite E in E'. assert (L2: length pre' = length (pre ++ be_bytes 2 v)) by (rewrite app_length; change (length (be_bytes 2 v)) with 2%nat; lia).
      rewrite app_assoc in E'. symmetry in E'. destruct (app_same_length _ _ _ _ L2 E') as [-> <-]. auto. }
    destruct X as [-> ->]. exists pre, post'. split; [|exact L]. rewrite E. cbn [words map concat]. unfold words. cbn [map concat]. rewrite word_u16. now rewrite <- app_assoc.
Qed.
Lemma part_u16s vs : countable vs -> Forall is_u16 vs -> reads de_words (word (Z.of_nat (length vs)) ++ words vs) vs.
Proof. intros. now apply reads_words. Qed.

(** ** Value records *)
Lemma contains_mod w m : 0 <= m < 256 -> contains w m = contains (w mod 256) m.
Proof.
  intros H. unfold contains. f_equal. change 256 with (2 ^ 8). rewrite <- Z.land_ones by lia. rewrite <- Z.land_assoc. f_equal.
  symmetry. rewrite Z.land_comm. rewrite Z.land_ones by lia. apply Z.mod_small. exact H.
Qed.
Lemma vr_de_mod w : vr_de w = vr_de (w mod 256).
Proof.
  unfold vr_de.
  rewrite (contains_mod w V_XPLA), (contains_mod w V_YPLA), (contains_mod w V_XADV), (contains_mod w V_YADV),
    (contains_mod w V_XPLAD), (contains_mod w V_YPLAD), (contains_mod w V_XADVD), (contains_mod w V_YADVD) by (cbv; intuition discriminate).
  reflexivity.
Qed.
Lemma number_part o : number_ok o -> part (de_if (present o) de_i16) (raw (number_bytes o)) o.
Proof.
  intros H. replace (raw (number_bytes o)) with (vr_int o); [now apply vr_int_part|]. destruct o; [|reflexivity]. cbn [vr_int number_bytes]. now rewrite word_i16.
Qed.
Lemma device_part d l : device_items d l -> part (de_if (present d) (de_off16 dv_de)) l d.
Proof.
  destruct 1 as [|k Hk| |k s e f vs pad bs Hk Hf Hs Hv Hb]; cbn [present de_if]; [apply part_pret| | |]; apply (part_map _ (fun x => Some x)).
  - intros buf base pos stk S. inversion S; subst. rewrite Hk in *.
    replace (size [IRef k None]) with 2%nat by (unfold size; cbn; now rewrite Hk).
    exact (at_pos_reads (de_off16 dv_de) _ _ _ _ (base :: stk) (de_offset_null dv_de 2 (or_introl eq_refl)) ltac:(eassumption)).
  - apply part_reads. change (word 0) with (be_bytes 2 0). exact (de_offset_null dv_de 2 (or_introl eq_refl)).
  - unfold de_off16. apply de_offset_link; [now rewrite Hk|intros ->; discriminate Hk|]. apply decodes_reads. eapply dv_every_read; eauto.
Qed.
Lemma record_part v w l : format_word (fields v) w -> record_items v l -> part (vr_de w) l v.
Proof.
  intros [_ Hw] [ds Hn Hd]. rewrite vr_de_mod, Hw, fields_flags8. unfold vr_de.
  match goal with |- context [flags8 ?a ?b ?c ?d ?e ?f ?g ?h] => destruct (contains_flags8 a b c d e f g h) as (-> & -> & -> & -> & -> & -> & -> & ->) end.
  unfold numbers in Hn. inversion Hn as [|? ? N1 Hn1]; subst. inversion Hn1 as [|? ? N2 Hn2]; subst. inversion Hn2 as [|? ? N3 Hn3]; subst. inversion Hn3 as [|? ? N4 _]; subst.
  unfold devices in Hd. inversion Hd as [|? d1 ? ? D1 Hd1]; subst. inversion Hd1 as [|? d2 ? ? D2 Hd2]; subst. inversion Hd2 as [|? d3 ? ? D3 Hd3]; subst.
  inversion Hd3 as [|? d4 ? ? D4 Hd4]; subst. inversion Hd4; subst.
  unfold numbers_bytes, numbers. cbn [map concat]. rewrite !app_nil_r, !raw_app, <- !app_assoc.
  eapply part_bind; [now apply number_part|]. eapply part_bind; [now apply number_part|].
  eapply part_bind; [now apply number_part|]. eapply part_bind; [now apply number_part|].
  eapply part_bind; [now apply device_part|]. eapply part_bind; [now apply device_part|].
  eapply part_bind; [now apply device_part|]. eapply part_bind'; [symmetry; apply app_nil_r|now apply device_part|].
  destruct v. apply part_pret.
Qed.

Lemma opt_eqb_spec {A} (e : A -> A -> bool) : (forall a b, e a b = true <-> a = b) -> forall a b, opt_eqb e a b = true <-> a = b.
Proof.
  intros H [a|] [b|]; cbn [opt_eqb]; try (split; [discriminate|congruence]); try tauto. rewrite H. split; congruence.
Qed.
Lemma list_eqb_spec {A} (e : A -> A -> bool) : (forall a b, e a b = true <-> a = b) -> forall a b, list_eqb e a b = true <-> a = b.
Proof.
  intros H. induction a as [|x a IH]; intros [|y b]; cbn [list_eqb]; try (split; [discriminate|congruence]); try tauto.
  rewrite andb_true_iff, H, IH. split; [intros [-> ->]; reflexivity|intros [= -> ->]; auto].
Qed.
Lemma dev_eqb_spec a b : dev_eqb a b = true <-> a = b.
Proof.
  destruct a as [a1 a2 a3 a4], b as [b1 b2 b3 b4]. unfold dev_eqb. cbn [dv_start dv_end dv_format dv_values].
  rewrite !andb_true_iff, !Z.eqb_eq, (opt_eqb_spec _ Z.eqb_eq), (list_eqb_spec _ Z.eqb_eq). split; [intros (((-> & ->) & ->) & ->); reflexivity|intros [= -> -> -> ->]; auto].
Qed.
Lemma vrec_eqb_spec a b : vrec_eqb a b = true <-> a = b.
Proof.
  destruct a as [a1 a2 a3 a4 a5 a6 a7 a8], b as [b1 b2 b3 b4 b5 b6 b7 b8]. unfold vrec_eqb. cbn [vr_xpla vr_ypla vr_xadv vr_yadv vr_xplad vr_yplad vr_xadvd vr_yadvd].
  rewrite !andb_true_iff, !(opt_eqb_spec _ Z.eqb_eq), !(opt_eqb_spec _ (opt_eqb_spec _ dev_eqb_spec)).
  split; [intros (((((((-> & ->) & ->) & ->) & ->) & ->) & ->) & ->); reflexivity|intros [= -> -> -> -> -> -> -> ->]; auto 10].
Qed.
Lemma drop_amount a b : drop_zero a = drop_zero b <-> amount a = amount b.
Proof.
  split; [intros E; rewrite <- (amount_drop a), <- (amount_drop b); now rewrite E|].
  destruct a as [x|], b as [y|]; cbn; intros E; subst; repeat match goal with |- context [?z =? 0] => destruct (Z.eqb_spec z 0) end; congruence.
Qed.
Lemma alike_simplify v w : alike v w <-> vr_simplify v = vr_simplify w.
Proof.
  unfold alike, vr_simplify, numbers, devices. cbn [map]. split.
  - intros [[= A B C D] [= E F G H]]. f_equal; try assumption; now apply drop_amount.
  - intros [= A B C D E F G H]. apply drop_amount in A, B, C, D. split; congruence.
Qed.
Lemma alike_refl v : alike v v.
Proof. now split. Qed.
Lemma alike_sym v w : alike v w -> alike w v.
Proof. intros [A B]. now split. Qed.
Lemma alike_trans u v w : alike u v -> alike v w -> alike u w.
Proof. intros [A B] [C D]. split; congruence. Qed.
Lemma alike_adjustment v w : alike v w -> adjustment v = adjustment w.
Proof. intros H. apply alike_simplify in H. rewrite <- (simplify_adjustment v), <- (simplify_adjustment w). now rewrite H. Qed.
Lemma simplify_alike v : alike (vr_simplify v) v.
Proof. apply alike_simplify. apply simplify_idem. Qed.
Lemma without_zeros_simplify v : without_zeros v = vr_simplify v.
Proof.
  assert (E: forall o, nonzero o = drop_zero o) by (intros [[| |]|]; reflexivity). unfold without_zeros, vr_simplify. now rewrite !E.
Qed.
Lemma coerce_simplify f v : vr_simplify (vr_coerce f v) = vr_simplify v.
Proof.
  assert (E: forall b o, drop_zero (fill b o) = drop_zero o) by (intros [] [|]; reflexivity). unfold vr_simplify, vr_coerce.
  cbn [vr_xpla vr_ypla vr_xadv vr_yadv vr_xplad vr_yplad vr_xadvd vr_yadvd]. now rewrite !E.
Qed.
Lemma number_ok_drop o : number_ok o -> number_ok (drop_zero o).
Proof. destruct o as [z|]; cbn; [|auto]. destruct (z =? 0); cbn; auto. Qed.
Lemma number_ok_fill b o : number_ok o -> number_ok (fill b o).
Proof. destruct o as [z|]; cbn; [auto|]. destruct b; cbn; auto. intros. unfold is_i16. lia. Qed.
Lemma simplify_ok v : vrec_ok v -> vrec_ok (vr_simplify v).
Proof. unfold vrec_ok. cbn. intuition auto using number_ok_drop. Qed.
Lemma coerce_ok f v : vrec_ok v -> vrec_ok (vr_coerce f v).
Proof. unfold vrec_ok. cbn. intuition auto using number_ok_fill. Qed.
Lemma vrec_ok_numbers v : vrec_ok v -> Forall number_ok (numbers v).
Proof. unfold vrec_ok, numbers. intros (A & B & C & D & _). repeat (apply Forall_cons || apply Forall_nil); assumption. Qed.
Lemma simplify_paired v : placement_paired v <-> placement_paired (vr_simplify v).
Proof. reflexivity. Qed.
Lemma fields_word v : placement_paired v -> format_word (fields v) (vr_flags v).
Proof.
  intros H. apply flags_exact in H. rewrite H. assert (0 <= bit_number (fields v) < 256).
  { destruct v as [[] [] [] [] [] [] [] []]; cbn; lia. }
  split; [unfold is_u16; lia|]. now apply Z.mod_small.
Qed.

(** writing records *)
Lemma vr_dev_items o : devices_ok o -> exists l, vr_dev o = Ok l /\ device_items o l.
Proof.
  destruct o as [[d|]|]; cbn [vr_dev devices_ok]; intros H.
  - destruct H as (f & Ef & Hf & Hs & Hv). assert (E: dv_fmt d = f) by (unfold dv_fmt; now rewrite Ef).
    destruct (proj2 (dv_written_iff d)) as [bs Hb]; [lia|]. rewrite Hb. cbn [rbind]. eexists. split; [reflexivity|].
    destruct (dv_written_format d bs ltac:(lia) Hb) as (pad & Hp). rewrite E in Hp. destruct d as [s e fm vs]. cbn in *. subst fm.
    eapply device_table; eauto.
  - eexists. split; [reflexivity|]. now constructor.
  - eexists. split; [reflexivity|]. constructor.
Qed.
Lemma vr_int_bytes o : vr_int o = raw (number_bytes o).
Proof. destruct o; [|reflexivity]. cbn [vr_int number_bytes]. now rewrite word_i16. Qed.
Lemma vr_enc_items v : vrec_ok v -> exists l, vr_enc v = Ok l /\ record_items v l.
Proof.
  intros H. pose proof (vrec_ok_numbers v H) as Hn. destruct H as (_ & _ & _ & _ & E & F & G & H).
  destruct (vr_dev_items _ E) as (e & Ee & De). destruct (vr_dev_items _ F) as (f & Ef & Df). destruct (vr_dev_items _ G) as (g & Eg & Dg). destruct (vr_dev_items _ H) as (h & Eh & Dh).
  unfold vr_enc. rewrite Ee, Ef, Eg, Eh. cbn [rbind]. eexists. split; [reflexivity|].
  pose proof (record_items1 v [e; f; g; h] Hn ltac:(repeat constructor; assumption)) as R.
  unfold numbers_bytes, numbers in R. cbn [map concat] in R. rewrite !app_nil_r, !raw_app, <- !app_assoc in R. now rewrite !vr_int_bytes.
Qed.
Lemma dev_plain_ok d : table d = None -> dev_plain d = Ok (match d with Some _ => word 0 | None => [] end).
Proof. destruct d as [[x|]|]; cbn; intros H; try discriminate; reflexivity. Qed.
Lemma dev_plain_iff d : (exists l, dev_plain d = Ok l) <-> table d = None.
Proof. destruct d as [[x|]|]; cbn; split; try congruence; eauto. intros [l H]. discriminate. Qed.
Lemma vr_plain_ok v : tableless v -> vr_plain v = Ok (tableless_bytes v).
Proof.
  unfold tableless, devices. intros H. inversion H as [|? ? D1 X1]; inversion X1 as [|? ? D2 X2]; inversion X2 as [|? ? D3 X3]; inversion X3 as [|? ? D4 _]; subst.
  unfold vr_plain. rewrite (dev_plain_ok _ D1), (dev_plain_ok _ D2), (dev_plain_ok _ D3), (dev_plain_ok _ D4). cbn [rbind]. f_equal.
  assert (E: forall o, int_plain o = number_bytes o) by (intros []; cbn; [symmetry; apply word_i16|reflexivity]).
  unfold tableless_bytes, numbers_bytes, numbers, devices. cbn [map concat]. rewrite !E, !app_nil_r, <- !app_assoc. reflexivity.
Qed.
Lemma vr_plain_iff v : (exists l, vr_plain v = Ok l) <-> tableless v.
Proof.
  split; [|intros H; eexists; now apply vr_plain_ok]. unfold vr_plain, tableless, devices. intros [l H].
  destruct (dev_plain (vr_xplad v)) eqn:E1; try discriminate. destruct (dev_plain (vr_yplad v)) eqn:E2; try discriminate.
  destruct (dev_plain (vr_xadvd v)) eqn:E3; try discriminate. destruct (dev_plain (vr_yadvd v)) eqn:E4; try discriminate.
  repeat (apply Forall_cons || apply Forall_nil); apply dev_plain_iff; eauto.
Qed.
Lemma tableless_record v : tableless v -> Forall number_ok (numbers v) -> record_items v (raw (tableless_bytes v)).
Proof.
  intros H Hn. unfold tableless in H. unfold tableless_bytes. rewrite raw_app.
  set (ds := map (fun d : option (option device) => raw match d with Some _ => word 0 | None => [] end) (devices v)).
  replace (raw (concat (map (fun d : option (option device) => match d with Some _ => word 0 | None => [] end) (devices v)))) with (concat ds).
  2:{ unfold ds. generalize (devices v). intros l. induction l as [|d l IH]; [reflexivity|]. cbn [map concat]. now rewrite raw_app, IH. }
  constructor; [exact Hn|]. unfold ds. clear ds Hn. induction H as [|d l Hd H IH]; [constructor|]. cbn [map]. constructor; [|exact IH].
  destruct d as [[x|]|]; cbn in Hd; try discriminate; constructor.
Qed.
Lemma simplify_tableless v : tableless v <-> tableless (vr_simplify v).
Proof. reflexivity. Qed.

(** ** Single adjustment *)
Lemma of_list_increasing {V} (m : list (Z * V)) : increasing (map fst m) -> bm_of_list Z.ltb m = m.
Proof. intros H. apply of_list_id; [exact Z_strict|]. now apply increasing_sorted_map. Qed.
Lemma fst_constant {A B} (v : B) (l : list A) : map fst (map (fun g => (g, v)) l) = l.
Proof. rewrite map_map. cbn [fst]. apply map_id. Qed.
Lemma fst_combine {A B} (l : list A) (vs : list B) : length l = length vs -> map fst (combine l vs) = l.
Proof. revert vs. induction l as [|a l IH]; intros [|v vs]; cbn; try discriminate; [auto|]. intros [= E]. now rewrite IH. Qed.
Lemma snd_combine {A B} (l : list A) (vs : list B) : length l = length vs -> map snd (combine l vs) = vs.
Proof. revert vs. induction l as [|a l IH]; intros [|v vs]; cbn; try discriminate; [auto|]. intros [= E]. now rewrite IH. Qed.
Lemma spos_low m o : spos_file m o -> exists s, decodes p1_de o s /\ spos_from_low s = Ok m.
Proof.
  destruct 1 as [gs c w v l Hi Hc Hw Hr|gs c w vs ls Hi Hc Hl Hn Hu Hw Hr].
  - exists (P11 1 (Some gs) w v). split; [|cbn [spos_from_low cov_or_nah]; f_equal; apply of_list_increasing; now rewrite fst_constant].
    apply decodes_part. eapply part_bind; [apply part_word; unfold is_u16; lia|]. eapply part_bind; [apply part_cov; exact Hc|].
    eapply part_bind; [apply part_word; apply Hw|]. change (1 =? 1) with true. cbn iota.
    apply (part_map _ (fun v => P11 1 (Some gs) w v)). apply part_group. now apply record_part.
  - exists (P12 1 (Some gs) w vs). split; [|cbn [spos_from_low cov_or_nah]; f_equal; apply of_list_increasing; now rewrite fst_combine].
    apply decodes_part. eapply part_bind; [apply part_word; unfold is_u16; lia|]. eapply part_bind; [apply part_cov; exact Hc|].
    rewrite raw_app, <- app_assoc. eapply part_bind; [apply part_word; exact Hu|]. change (2 =? 1) with false. change (2 =? 2) with true. cbn iota.
    apply (part_map _ (fun vs => P12 1 (Some gs) w vs)). unfold de_counted16. eapply part_bind; [apply part_word; unfold countable, is_u16 in *; lia|].
    rewrite Nat2Z.id. apply part_counted2. apply Forall2_flip. clear - Hw Hr. induction Hr as [|v l vs ls Hv Hr IH]; [constructor|]. inversion Hw; subst. constructor; [now apply record_part|auto].
Qed.
Lemma spos_every m o : spos_file m o -> decodes spos_read o m.
Proof.
  intros H. destruct (spos_low m o H) as (s & D & E). unfold spos_read, gpos_de. change (1 =? 9) with false. cbn iota.
  exact (decodes_lift p1_de spos_from_low o s m D E).
Qed.
Lemma same_single_low m m' : same_single m m' -> spos_to_low m = spos_to_low m'.
Proof.
  intros H. assert (E: map fst m = map fst m' /\ map (fun kv : Z * vrec => vr_simplify (snd kv)) m = map (fun kv : Z * vrec => vr_simplify (snd kv)) m').
  { induction H as [|a b m m' [H1 H2] H [IH1 IH2]]; [auto|]. cbn [map]. apply alike_simplify in H2. split; congruence. }
  destruct E as [E1 E2]. unfold spos_to_low. now rewrite E1, E2.
Qed.
Lemma same_single_refl m : same_single m m.
Proof. induction m; constructor; auto. split; [reflexivity|apply alike_refl]. Qed.
Lemma device_fields_coerce f v : device_fields (vr_coerce f v) = device_fields v.
Proof. reflexivity. Qed.
Lemma coerce_same_In v vs : In v (coerce_same vs) -> exists w, In w vs /\ devices v = devices w /\ (vrec_ok w -> vrec_ok v).
Proof.
  unfold coerce_same. destruct (all_same _ _); [intros H; exists v; auto|]. rewrite in_map_iff. intros (w & <- & H). exists w.
  split; [exact H|]. split; [reflexivity|]. apply coerce_ok.
Qed.
Lemma coerce_same_simplify vs : map vr_simplify (coerce_same vs) = map vr_simplify vs.
Proof. unfold coerce_same. destruct (all_same _ _); [reflexivity|]. rewrite map_map. apply map_ext. intros. apply coerce_simplify. Qed.
Lemma fields_split v : fields v = number_fields v ++ device_fields v.
Proof. unfold number_fields, device_fields. now rewrite firstn_skipn. Qed.
Lemma coerce_same_nil vs : coerce_same vs = [] -> vs = [].
Proof. unfold coerce_same. destruct (all_same _ _); [auto|]. destruct vs; [auto|discriminate]. Qed.
Lemma coerce_same_length vs : length (coerce_same vs) = length vs.
Proof. unfold coerce_same. destruct (all_same _ _); [auto|]. apply map_length. Qed.
Lemma same_single_combine ks vs ws : length ks = length vs -> map vr_simplify vs = map vr_simplify ws -> same_single (combine ks vs) (combine ks ws).
Proof.
  revert vs ws. induction ks as [|k ks IH]; intros [|v vs] [|w ws] L E; try discriminate; [constructor|]. injection L as L. pose proof (f_equal (hd v) E) as E1. pose proof (f_equal (@tl _) E) as E2. cbn [hd tl map] in E1, E2.
  cbn [combine]. constructor; [|now apply IH]. split; [reflexivity|]. now apply alike_simplify.
Qed.
Lemma spos_written m : spos_ok m -> exists o m', spos_write m = Ok o /\ same_single m m' /\ spos_file m' o.
Proof.
  intros (Hne & Hm & Hp & Hc). unfold spos_write, spos_to_low.
  set (vs := map (fun kv : Z * vrec => vr_simplify (snd kv)) m).
  destruct (cov_link (map fst m) (proj1 Hm) (glyph_map_keys _ _ Hm)) as (c & Ec & C).
  assert (Hvs: vs <> []) by (unfold vs; destruct m; [congruence|discriminate]).
  assert (Ok1: Forall vrec_ok vs) by (unfold vs; apply Forall_map; eapply Forall_impl; [|exact (proj2 Hm)]; intros kv [_ H]; now apply simplify_ok).
  assert (Ep: Forall placement_paired vs) by (unfold vs; apply Forall_map; eapply Forall_impl; [|exact Hp]; intros kv H; exact H).
  assert (Lv: length (map fst m) = length vs) by (unfold vs; now rewrite !map_length).
  destruct (all_same vrec_eqb vs) eqn:Ea.
  - pose proof (proj1 (all_same_spec vrec_eqb vrec_eqb_spec vs) Ea) as A.
    assert (Ev: map (fun kv : Z * vrec => vr_simplify (snd kv)) m = vs) by reflexivity. clearbody vs. destruct vs as [|v vs']; [congruence|]. inversion Ok1; inversion Ep; subst.
    cbn [rbind gpos_enc]. rewrite Ec. cbn [rbind]. destruct (vr_enc_items v ltac:(assumption)) as (l & El & R). rewrite El. cbn [rbind].
    exists (raw (word 1) ++ [link c] ++ raw (word (vr_flags v)) ++ [IGroup l]), (map (fun g => (g, v)) (map fst m)).
    split; [now rewrite !word_u16|]. split; [|apply spos1; auto; [apply Hm|now apply fields_word]].
    assert (X: Forall (fun kv => alike (snd kv) v) m).
    { apply Forall_forall. intros kv Hk. apply alike_simplify. rewrite (A (vr_simplify (snd kv)) v); [|rewrite <- Ev; now apply (in_map (fun kv : Z * vrec => vr_simplify (snd kv)))|now left].
      assert (V: In v (map (fun kv : Z * vrec => vr_simplify (snd kv)) m)) by (rewrite Ev; now left). apply in_map_iff in V as (kv' & <- & _). symmetry. apply simplify_idem. }
    clear - X. unfold same_single. induction X; cbn [map]; constructor; auto.
  - destruct Hc as [Hc|[Ht Hd]].
    + exfalso. assert (T: all_same vrec_eqb vs = true); [|congruence]. apply (all_same_spec vrec_eqb vrec_eqb_spec). intros a b Ha Hb.
      unfold vs in Ha, Hb. apply in_map_iff in Ha as (x & <- & Hx), Hb as (y & <- & Hy). apply alike_simplify. auto.
    + assert (T: Forall (fun v => tableless v /\ vrec_ok v /\ placement_paired v) (coerce_same vs)).
      { apply Forall_forall. intros v Hv. apply coerce_same_In in Hv as (w & Hw & Ed & Hok). rewrite Forall_forall in Ok1, Ep.
        split; [|split; [auto|]].
        - unfold tableless. rewrite Ed. apply in_map_iff in Hw as (kv & <- & Hk). rewrite Forall_forall in Ht. exact (Ht _ Hk).
        - specialize (Ep w Hw). unfold placement_paired in *. unfold devices in Ed. congruence. }
      assert (F: forall v w, In v (coerce_same vs) -> In w (coerce_same vs) -> fields v = fields w).
      { intros v w Hv Hw. rewrite !fields_split, (coerce_same_numbers vs v w Hv Hw). f_equal.
        apply coerce_same_In in Hv as (v' & Hv & Edv & _), Hw as (w' & Hw & Edw & _).
        assert (D: forall a b, devices a = devices b -> device_fields a = device_fields b) by (intros a b [= E1 E2 E3 E4]; unfold device_fields, fields; cbn [skipn]; congruence).
        rewrite (D _ _ Edv), (D _ _ Edw). apply in_map_iff in Hv as (x & <- & Hx), Hw as (y & <- & Hy). exact (Hd x y Hx Hy). }
      destruct (coerce_same vs) as [|v vs'] eqn:Ev; [apply coerce_same_nil in Ev; congruence|]. rewrite <- Ev in *. cbn [rbind gpos_enc]. rewrite Ec. cbn [rbind].
      assert (R: rmapM vr_plain (coerce_same vs) = Ok (map tableless_bytes (coerce_same vs))).
      { clear - T. induction T as [|v vs' (H & _ & _) T IH]; [reflexivity|]. cbn [rmapM map]. now rewrite (vr_plain_ok v H), IH. }
      rewrite R. cbn [rbind]. assert (Lc: length (map fst m) = length (coerce_same vs)) by now rewrite coerce_same_length.
      assert (Cn: countable (coerce_same vs)).
      { pose proof (glyph_map_count _ _ Hm) as X. unfold countable in *. rewrite <- Lc, map_length. exact X. }
      exists (raw (word 2) ++ [link c] ++ raw (word (vr_flags v) ++ word (Z.of_nat (length (coerce_same vs)))) ++ concat (map (fun v => raw (tableless_bytes v)) (coerce_same vs))), (combine (map fst m) (coerce_same vs)).
      split.
      { rewrite len_word by exact Cn. rewrite !word_u16. rewrite !raw_app, <- !app_assoc. repeat f_equal.
        generalize (coerce_same vs). intros l. induction l as [|x l IH]; [reflexivity|]. cbn [map concat]. now rewrite raw_app, IH. }
      assert (Hv: In v (coerce_same vs)) by (rewrite Ev; now left).
      split.
      * rewrite <- (combine_fst_snd m) at 1. apply same_single_combine; [rewrite !map_length; reflexivity|]. rewrite coerce_same_simplify. unfold vs. rewrite !map_map.
        apply map_ext. intros a. symmetry. apply simplify_idem.
      * assert (W: format_word (fields v) (vr_flags v)). { apply fields_word. rewrite Forall_forall in T. now apply T. }
        apply spos2; auto; [apply Hm|apply W| |].
        -- apply Forall_forall. intros w Hw. rewrite (F w v Hw Hv). exact W.
        -- clear - T. induction T as [|w l (H1 & H2 & _) T IH]; cbn [map]; constructor; auto. apply tableless_record; [exact H1|now apply vrec_ok_numbers].
Qed.
(** Exactly when a map can be written at all *)
Lemma rmapM_ok_iff {A B} (f : A -> res B) l : (exists r, rmapM f l = Ok r) <-> Forall (fun a => exists b, f a = Ok b) l.
Proof.
  split.
  - intros [r H]. revert r H. induction l as [|a l IH]; intros r H; [constructor|]. cbn [rmapM] in H. destruct (f a) as [b| |] eqn:E; try discriminate. cbn [rbind] in H.
    destruct (rmapM f l) as [bs| |] eqn:E2; try discriminate. constructor; [eauto|]. eapply IH; eauto.
  - induction 1 as [|a l [b E] H [r IH]]; [exists []; reflexivity|]. exists (b :: r). cbn [rmapM]. now rewrite E, IH.
Qed.
Lemma spos_write_iff m : glyph_map vrec_ok m -> ((exists o, spos_write m = Ok o) <->
  m <> [] /\ ((forall kv kv', In kv m -> In kv' m -> alike (snd kv) (snd kv')) \/ Forall (fun kv => tableless (snd kv)) m)).
Proof.
  intros Hm. unfold spos_write, spos_to_low. set (vs := map (fun kv : Z * vrec => vr_simplify (snd kv)) m).
  destruct (cov_link (map fst m) (proj1 Hm) (glyph_map_keys _ _ Hm)) as (c & Ec & _).
  assert (Ok1: Forall vrec_ok vs) by (unfold vs; apply Forall_map; eapply Forall_impl; [|exact (proj2 Hm)]; intros kv [_ H]; now apply simplify_ok).
  assert (A: all_same vrec_eqb vs = true <-> (forall kv kv', In kv m -> In kv' m -> alike (snd kv) (snd kv'))).
  { rewrite (all_same_spec vrec_eqb vrec_eqb_spec). unfold vs. split.
    - intros H kv kv' Hk Hk'. apply alike_simplify. apply H; apply in_map_iff; eauto.
    - intros H a b Ha Hb. apply in_map_iff in Ha as (x & <- & Hx), Hb as (y & <- & Hy). apply alike_simplify. auto. }
  assert (N: vs = [] <-> m = []) by (unfold vs; destruct m; cbn; split; congruence).
  destruct (all_same vrec_eqb vs) eqn:Ea.
  - destruct vs as [|v vs']; [split; [intros [? ?]; discriminate|intros [X _]; elim X; now apply N]|].
    split; [intros _; split; [rewrite <- N; discriminate|left; now apply A]|]. intros _. cbn [rbind gpos_enc]. rewrite Ec. cbn [rbind].
    inversion Ok1; subst. destruct (vr_enc_items v ltac:(assumption)) as (l & -> & _). cbn [rbind]. eauto.
  - assert (M: m <> []) by (rewrite <- N; intros E; rewrite E in Ea; discriminate).
    destruct (coerce_same vs) as [|v vs'] eqn:Ev; [apply coerce_same_nil in Ev; rewrite Ev in Ea; discriminate|]. rewrite <- Ev.
    cbn [rbind gpos_enc]. rewrite Ec. cbn [rbind].
    assert (T: (exists r, rmapM vr_plain (coerce_same vs) = Ok r) <-> Forall (fun kv => tableless (snd kv)) m).
    { rewrite rmapM_ok_iff. transitivity (Forall tableless (coerce_same vs)).
      { split; apply Forall_impl; intros a; apply vr_plain_iff. }
      unfold coerce_same. assert (X: Forall tableless vs <-> Forall (fun kv => tableless (snd kv)) m) by (unfold vs; rewrite Forall_map; reflexivity).
      destruct (all_same Z.eqb (map vr_flags vs)); [exact X|]. rewrite Forall_map. exact X. }
    split.
    + intros [o Ho]. split; [exact M|]. right. apply T. destruct (rmapM vr_plain (coerce_same vs)); try discriminate. eauto.
    + intros [_ [X|X]]; [apply A in X; congruence|]. apply T in X as [r ->]. cbn [rbind]. eauto.
Qed.

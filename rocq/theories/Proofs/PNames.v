(** Production names of glyphs, and the characters of a cmap table. *)
From Coq Require Import String.
From Verif.Model Require Import MBase MTag MMap MLayout MOffset MPost MCmap MCli.
From Verif.Spec Require Import SBase SCmapTable SCli.
From Verif.Proofs Require Import PBase PMap PCodec.
From Verif.Proofs Require PCmapTable.
Open Scope Z_scope.

(** ** Characters read from a file are 32-bit numbers *)
Definition yields {A} (p : parser A) (P : A -> Prop) : Prop := forall r x r', Forall is_byte (rd_input r) ->
  p r = Ok (x, r') -> rd_input r' = rd_input r /\ P x.
Definition any {A} (x : A) : Prop := True.
Lemma yields_weak {A} (p : parser A) (P P' : A -> Prop) : yields p P -> (forall x, P x -> P' x) -> yields p P'.
Proof. intros Y H r x r' B E. destruct (Y r x r' B E) as [I P0]. auto. Qed.
Lemma yields_ret {A} (x : A) (P : A -> Prop) : P x -> yields (pret x) P.
Proof. intros H r y r' _ E. unfold pret in E. injection E as <- <-. auto. Qed.
Lemma yields_bind {A B} (p : parser A) (f : A -> parser B) (P : A -> Prop) (P' : B -> Prop) :
  yields p P -> (forall x, P x -> yields (f x) P') -> yields (pbind p f) P'.
Proof.
  intros Yp Yf r y r' B0 E. unfold pbind in E. destruct (p r) as [[x r1]| |] eqn:E1; try discriminate.
  destruct (Yp r x r1 B0 E1) as [I1 P1]. rewrite <- I1 in B0. destruct (Yf x P1 r1 y r' B0 E) as [I2 P2]. split; [congruence|exact P2].
Qed.
Lemma yields_err {A} (P : A -> Prop) : yields (@perr A) P.
Proof. intros r x r' _ E. discriminate. Qed.
Lemma yields_panic {A} (P : A -> Prop) : yields (@ppanic A) P.
Proof. intros r x r' _ E. discriminate. Qed.
Lemma yields_lift {A} (y : res A) (P : A -> Prop) : (forall x, y = Ok x -> P x) -> yields (plift y) P.
Proof. intros H r x r' _ E. unfold plift in E. destruct y; try discriminate. injection E as -> <-. auto. Qed.
Lemma yields_unsigned t : prim_signed t = false -> yields (de_prim t) (fun x => 0 <= x < 256 ^ Z.of_nat (prim_width t)).
Proof.
  intros Hs r x r' B E. unfold de_prim, consume, consume_or_peek in E.
  destruct (Nat.ltb_spec (length (rd_input r)) (rd_ptr r + prim_width t)); [discriminate|]. rewrite Hs in E. injection E as <- <-.
  split; [reflexivity|]. set (l := firstn _ _). assert (L: length l = prim_width t) by (apply firstn_length_le; rewrite skipn_length; lia).
  rewrite <- L. apply be_value_range. apply is_byte_byte. unfold l.
  apply Forall_forall. intros b Hb. rewrite Forall_forall in B. apply B.
  rewrite <- (firstn_skipn (rd_ptr r) (rd_input r)). apply in_or_app. right.
  rewrite <- (firstn_skipn (prim_width t) (skipn (rd_ptr r) (rd_input r))). apply in_or_app. now left.
Qed.
Lemma yields_prim t : yields (de_prim t) any.
Proof.
  intros r x r' _ E. unfold de_prim, consume, consume_or_peek in E.
  destruct (length (rd_input r) <? rd_ptr r + prim_width t)%nat; [discriminate|]. injection E as <- <-. split; [reflexivity|exact I].
Qed.
Lemma yields_counted {A} (p : parser A) (P : A -> Prop) n : yields p P -> yields (de_counted p n) (Forall P).
Proof.
  intros Y. induction n as [|n IH]; cbn [de_counted]; [now apply yields_ret|].
  apply (yields_bind _ _ P); [exact Y|]. intros x Hx. apply (yields_bind _ _ (Forall P)); [exact IH|]. intros xs Hxs. apply yields_ret. now constructor.
Qed.
Lemma yields_skip n : yields (pskip n) any.
Proof. intros r x r' _ E. unfold pskip in E. injection E as <- <-. split; [reflexivity|exact I]. Qed.
Lemma yields_default {A} (p : parser (list A)) (P : list A -> Prop) : yields p P -> P [] -> yields (or_default p) P.
Proof.
  intros Y H r x r' B E. unfold or_default in E. destruct (p r) as [[y r1]| |] eqn:E1; try discriminate.
  - injection E as <- <-. now apply (Y r).
  - injection E as <- <-. auto.
Qed.
Lemma yields_base {A} (p : parser A) (P : A -> Prop) : yields p P -> yields (with_base p) P.
Proof.
  intros Y r x r' B E. unfold with_base in E. destruct (p (rd_push r)) as [[y r1]| |] eqn:E1; try discriminate.
  destruct (Y (rd_push r) y r1 B E1) as [I1 P1]. unfold rd_pop in E. destruct (rd_stack r1); [discriminate|]. injection E as <- <-. auto.
Qed.
Lemma yields_off {A} w (p : parser A) : yields p any -> yields (de_offset w p) any.
Proof.
  intros Y. unfold de_offset. apply (yields_bind _ _ any); [destruct w; apply yields_prim|]. intros off _.
  destruct (off =? 0); [now apply yields_ret|]. intros r x r' B E.
  destruct (unwrap (try_u 16 off)) as [v| |]; try discriminate.
  destruct (follow_offset r v) as [r1| |] eqn:Ef; try discriminate.
  assert (I1: rd_input r1 = rd_input r).
  { unfold follow_offset in Ef. destruct (top_of_table r); try discriminate. cbn [rbind] in Ef. cbv zeta in Ef. destruct (_ <? _)%nat; [discriminate|]. now injection Ef as <-. }
  rewrite <- I1 in B. destruct (p r1) as [[y r2]| |] eqn:E2; try discriminate. destruct (Y r1 y r2 B E2) as [I2 _].
  injection E as <- <-. cbn [rd_input]. split; [congruence|exact I].
Qed.
Lemma yields_seek off : yields (seek off) any.
Proof. intros r x r' _ E. unfold seek in E. destruct (top_of_table r); try discriminate. injection E as <- <-. split; [reflexivity|exact I]. Qed.
Lemma yields_peek n : yields (ppeek n) any.
Proof.
  intros r x r' _ E. unfold ppeek, peek, consume_or_peek in E. destruct (_ <? _)%nat; [discriminate|]. injection E as <- <-. split; [reflexivity|exact I].
Qed.

Definition codes_ok (m : cmapping) : Prop := forall c g, In (c, g) m -> 0 <= c < 2 ^ 32.
Lemma codes_insert c g m : codes_ok m -> 0 <= c < 2 ^ 32 -> codes_ok (bm_insert Z.ltb c g m).
Proof.
  intros H Hc c' g' Hin. assert (X: (c', g') = (c, g) \/ In (c', g') m).
  { clear - Hin. induction m as [|[k x] m IH]; cbn [bm_insert] in Hin; [destruct Hin as [<-|[]]; auto|].
    destruct (c <? k); [destruct Hin as [<-|Hin]; auto|]. destruct (k <? c).
    - destruct Hin as [<-|Hin]; [right; now left|]. destruct (IH Hin); [now left|right; now right].
    - destruct Hin as [<-|Hin]; [now left|right; now right]. }
  destruct X as [[= -> ->]|X]; [exact Hc|now apply (H c' g')].
Qed.
Lemma in_zrange x s e : In x (zrange s e) -> s <= x < e.
Proof. unfold zrange. intros H. apply in_map_iff in H as (i & <- & Hi). apply in_seq in Hi. lia. Qed.
Lemma seg_codes_ok arr d o p codes : forall m m', codes_ok m -> Forall (fun c => 0 <= c < 2 ^ 32) codes -> seg_codes arr d o p m codes = Ok m' -> codes_ok m'.
Proof.
  induction codes as [|c codes IH]; intros m m' Hm Hc; cbn [seg_codes]; [intros [= <-]; exact Hm|].
  inversion Hc; subst. cbv zeta. destruct (o =? 0); [apply IH; [now apply codes_insert|assumption]|].
  destruct ((c + p <? 0) || _); [intros [= <-]; exact Hm|]. destruct (_ =? 0); [apply IH; [now apply codes_insert|assumption]|].
  destruct (chk_i 16 _) as [g| |]; cbn [rbind]; try discriminate. apply IH; [now apply codes_insert|assumption].
Qed.
Definition seg_ok (x : Z * Z * Z * Z) : Prop := let '(s, e, d, o) := x in 0 <= s < 65536 /\ 0 <= e < 65536.
Lemma seg_maps_ok arr n l : forall i m m', codes_ok m -> Forall seg_ok l -> seg_maps arr n i m l = Ok m' -> codes_ok m'.
Proof.
  induction l as [|[[[s e] d] o] l IH]; intros i m m' Hm Hl; [cbn; intros [= <-]; exact Hm|].
  cbn [seg_maps]. destruct l as [|y l]; [intros [= <-]; exact Hm|]. destruct (e =? 65535); [intros [= <-]; exact Hm|].
  inversion Hl as [|? ? H1 H2]; subst. destruct (seg_codes _ _ _ _ _ _) as [m1| |] eqn:E; cbn [rbind]; try discriminate.
  apply IH; [|exact H2]. eapply seg_codes_ok; [exact Hm| |exact E]. apply Forall_forall. intros c Hc. apply in_zrange in Hc.
  unfold seg_ok in H1. lia.
Qed.
Lemma group_items_ok g l : forall m m', codes_ok m -> group_items g m l = Ok m' -> codes_ok m'.
Proof.
  induction l as [|i l IH]; intros m m' Hm; cbn [group_items]; [intros [= <-]; exact Hm|].
  unfold chk_u at 1. destruct ((0 <=? _) && _) eqn:Ec; cbn [rbind]; [|discriminate].
  destruct (chk_u 16 _) as [x| |]; cbn [rbind]; try discriminate. apply IH. apply codes_insert; [exact Hm|]. 
  apply andb_true_iff in Ec as [A B]. lia.
Qed.
Lemma groups_ok gs : forall m m', codes_ok m -> groups_mapping m gs = Ok m' -> codes_ok m'.
Proof.
  induction gs as [|g gs IH]; intros m m' Hm; cbn [groups_mapping]; [intros [= <-]; exact Hm|].
  destruct (chk_u 32 _) as [d| |]; cbn [rbind]; try discriminate. destruct (chk_u 32 _) as [k| |]; cbn [rbind]; try discriminate.
  destruct (group_items _ _ _) as [m1| |] eqn:E; cbn [rbind]; try discriminate. apply IH. eapply group_items_ok; eassumption.
Qed.
Lemma no_codes : codes_ok [].
Proof. intros c g []. Qed.
Ltac yp := first [apply yields_prim | apply yields_skip | apply (yields_weak _ _ any (yields_counted _ any _ (yields_prim _))); intros; exact I].
Lemma yields_cmap4 : yields cmap4_read (fun x => codes_ok (snd x)).
Proof.
  unfold cmap4_read. apply (yields_bind _ _ (fun t => Forall (fun x => 0 <= x < 65536) (c4_end t) /\ Forall (fun x => 0 <= x < 65536) (c4_start t))).
  - unfold cmap4_de. do 4 (apply (yields_bind _ _ any); [yp|intros ? _]). cbv zeta.
    apply (yields_bind _ _ any); [yp|intros ? _].
    apply (yields_bind _ _ (Forall (fun x => 0 <= x < 65536))); [apply yields_counted, (yields_unsigned U16 eq_refl)|intros e He].
    apply (yields_bind _ _ any); [yp|intros ? _].
    apply (yields_bind _ _ (Forall (fun x => 0 <= x < 65536))); [apply yields_counted, (yields_unsigned U16 eq_refl)|intros s Hs].
    do 2 (apply (yields_bind _ _ any); [yp|intros ? _]).
    apply (yields_bind _ _ any); [apply yields_lift; intros; exact I|intros ? _].
    apply (yields_bind _ _ any); [apply yields_default; [yp|exact I]|intros ? _].
    apply yields_ret. cbn [c4_end c4_start]. auto.
  - intros t [He Hs]. apply (yields_bind _ _ codes_ok); [|intros m Hm; apply yields_ret; exact Hm].
    apply yields_lift. intros m Em. unfold cmap4_mapping in Em. destruct (c4_start t) as [|s0 ss] eqn:Est; [discriminate|].
    eapply seg_maps_ok; [apply no_codes| |exact Em]. unfold c4_segments. rewrite Est. apply Forall_forall. intros [[[s e] d] o] Hin.
    apply in_combine_l in Hin. apply in_combine_l in Hin. pose proof (in_combine_l _ _ _ _ Hin) as H1. pose proof (in_combine_r _ _ _ _ Hin) as H2.
    rewrite Forall_forall in He, Hs. unfold seg_ok. split; [now apply Hs|now apply He].
Qed.
Lemma yields_triple {A B C} (p : parser A) (q : parser B) (u : parser C) : yields p any -> yields q any -> yields u any ->
  yields (a <-- p ;; b <-- q ;; c <-- u ;; pret (a, b, c)) any.
Proof. intros Y1 Y2 Y3. do 2 (eapply yields_bind; [eassumption|intros ? _]). eapply yields_bind; [eassumption|intros ? _]. now apply yields_ret. Qed.
Lemma yields_many32 {A} (p : parser A) : yields p any -> yields (de_counted32 p) any.
Proof. intros Y. unfold de_counted32. apply (yields_bind _ _ any); [yp|intros n _]. eapply yields_weak; [apply yields_counted, Y|intros; exact I]. Qed.
Lemma yields_cmap12 : yields cmap12_read (fun x => codes_ok (snd x)).
Proof.
  unfold cmap12_read. apply (yields_bind _ _ any).
  - unfold cmap12_de. do 4 (apply (yields_bind _ _ any); [yp|intros ? _]). apply (yields_bind _ _ any); [|intros; now apply yields_ret].
    apply yields_many32. apply yields_triple; yp.
  - intros t _. apply (yields_bind _ _ codes_ok); [|intros m Hm; apply yields_ret; exact Hm].
    apply yields_lift. intros m Em. eapply groups_ok; [apply no_codes|exact Em].
Qed.
Lemma yields_pair {A B} (p : parser A) (q : parser B) : yields p any -> yields q any -> yields (a <-- p ;; b <-- q ;; pret (a, b)) any.
Proof. intros Y1 Y2. do 2 (eapply yields_bind; [eassumption|intros ? _]). now apply yields_ret. Qed.
Lemma yields_u24 : yields de_u24 any.
Proof.
  unfold de_u24. apply (yields_bind _ _ any); [yp|intros l _]. destruct l as [|? [|? [|? [|]]]]; first [apply yields_panic | now apply yields_ret].
Qed.
Lemma yields_cmap14 : yields cmap14_de any.
Proof.
  unfold cmap14_de. apply yields_base. do 2 (apply (yields_bind _ _ any); [yp|intros ? _]). apply yields_many32. unfold selector_de.
  apply yields_triple; [apply yields_u24| |]; apply yields_off, yields_many32, yields_pair; try apply yields_u24; yp.
Qed.
Lemma yields_subtable er : yields (subtable_de er) (fun st => codes_ok (st_mapping st)).
Proof.
  destruct er as [[p e] off]. unfold subtable_de. apply (yields_bind _ _ any); [apply yields_seek|intros ? _].
  apply (yields_bind _ _ any); [apply yields_peek|intros f _].
  assert (Y0: yields (lang <-- cmap0_de ;; pret (mkST 0 p e lang [] None)) (fun st => codes_ok (st_mapping st))).
  { apply (yields_bind _ _ any); [|intros; apply yields_ret, no_codes]. unfold cmap0_de. do 3 (apply (yields_bind _ _ any); [yp|intros ? _]).
    apply (yields_bind _ _ any); [apply yields_lift; intros; exact I|intros ? _]. apply (yields_bind _ _ any); [yp|intros ? _]. now apply yields_ret. }
  assert (Y4: yields (x <-- cmap4_read ;; pret (mkST 4 p e (fst x) (snd x) None)) (fun st => codes_ok (st_mapping st))).
  { eapply yields_bind; [apply yields_cmap4|]. intros y Hy. apply yields_ret. exact Hy. }
  assert (Y12: yields (x <-- cmap12_read ;; pret (mkST 12 p e (fst x) (snd x) None)) (fun st => codes_ok (st_mapping st))).
  { eapply yields_bind; [apply yields_cmap12|]. intros y Hy. apply yields_ret. exact Hy. }
  assert (Y14: yields (t <-- cmap14_de ;; pret (mkST 14 0 5 0 [] (Some (uvs_of t)))) (fun st => codes_ok (st_mapping st))).
  { eapply yields_bind; [apply yields_cmap14|]. intros y _. apply yields_ret. apply no_codes. }
  destruct f as [|[| |] [|b [|]]]; try apply yields_err. destruct b as [|b|]; try apply yields_err; try exact Y0.
  do 4 (destruct b as [b|b|]; try apply yields_err; try exact Y4; try exact Y12; try exact Y14).
  all: repeat (destruct b as [|b|b]; try apply yields_err); repeat (destruct b as [b|b|]; try apply yields_err).
Qed.
Lemma yields_subtables ers : yields (subtables_de ers) (Forall (fun st => codes_ok (st_mapping st))).
Proof.
  induction ers as [|er ers IH]; cbn [subtables_de]; [now apply yields_ret|].
  eapply yields_bind; [apply yields_subtable|]. intros st Hst. eapply yields_bind; [exact IH|]. intros sts Hsts. apply yields_ret. now constructor.
Qed.
Lemma cmap_codes d sts : Forall is_byte d -> from_bytes cmap_de d = Ok sts -> forall c g, reaches sts c g -> 0 <= c < 2 ^ 32.
Proof.
  intros HB E c g (st & Hin & _ & Hc). unfold from_bytes in E. destruct (cmap_de (rd_new d)) as [[x r']| |] eqn:E1; try discriminate. injection E as ->.
  assert (Y: yields cmap_de (Forall (fun st => codes_ok (st_mapping st)))).
  { unfold cmap_de. apply (yields_bind _ _ any); [|intros; apply yields_subtables]. apply yields_base.
    apply (yields_bind _ _ any); [yp|intros ? _]. unfold de_counted16. apply (yields_bind _ _ any); [yp|intros n _].
    eapply yields_weak; [apply yields_counted with (P := any)|intros; exact I]. apply yields_triple; yp. }
  destruct (Y (rd_new d) _ _ HB E1) as [_ F]. rewrite Forall_forall in F. now apply (F st Hin c g).
Qed.

(** ** Names *)
Definition value (vs : list Z) : Z := fold_left (fun a v => 16 * a + v) vs 0.
Lemma value_app vs v : value (vs ++ [v]) = 16 * value vs + v.
Proof. unfold value. now rewrite fold_left_app. Qed.
Lemma hex_digit_ok v : 0 <= v < 16 -> hex (hex_digit v) v.
Proof. unfold hex, hex_digit. intros H. destruct (Z.ltb_spec v 10); lia. Qed.
Lemma F2_length {A B} (P : A -> B -> Prop) l l' : Forall2 P l l' -> length l = length l'.
Proof. induction 1; cbn; congruence. Qed.
Lemma hex_digits_ok k : forall n, 0 <= n < 16 ^ Z.of_nat k -> (0 < k)%nat ->
  exists vs, Forall2 hex (hex_digits k n) vs /\ value vs = n /\ ((length vs = 1)%nat \/ ((1 < length vs)%nat /\ hd 0 vs <> 0)).
Proof.
  induction k as [|k IH]; intros n H Hk; [lia|]. cbn [hex_digits].
  destruct (Z.ltb_spec n 16) as [H1|H1].
  - exists [n]. cbn [app]. rewrite Z.mod_small by lia. split; [constructor; [apply hex_digit_ok; lia|constructor]|]. split; [cbn; lia|now left].
  - assert (E: 16 ^ Z.of_nat (S k) = 16 * 16 ^ Z.of_nat k) by (rewrite Nat2Z.inj_succ, Z.pow_succ_r; lia).
    assert (Hk': (0 < k)%nat). { destruct k; [cbn in E; rewrite E in H; cbn in H; lia|lia]. }
    destruct (IH (n / 16)) as (vs & F & V & L); [rewrite E in H; split; [apply Z.div_pos; lia|apply Z.div_lt_upper_bound; lia]|exact Hk'|].
    exists (vs ++ [n mod 16]). split; [apply Forall2_app; [exact F|]; constructor; [apply hex_digit_ok, Z.mod_pos_bound; lia|constructor]|].
    split; [rewrite value_app, V; lia|]. right. rewrite app_length. cbn [length].
    destruct vs as [|v vs]; [cbn in L; lia|]. split; [cbn [length]; lia|]. cbn [app hd]. destruct L as [L|[_ L]]; [|exact L].
    destruct vs; [|discriminate]. unfold value in V. cbn in V. lia.
Qed.
Lemma value_zeros k vs : value (repeat 0 k ++ vs) = value vs.
Proof. unfold value. rewrite fold_left_app. f_equal. induction k; [reflexivity|exact IHk]. Qed.
Lemma format_ok n : 0 <= n < 2 ^ 32 -> spells (format_04X n) n.
Proof.
  intros H. destruct (hex_digits_ok 8 n) as (vs & F & V & L); [exact H|lia|]. unfold format_04X. cbv zeta. remember (hex_digits 8 n) as ds.
  pose proof (F2_length _ _ _ F) as EL. exists (repeat 0 (4 - length ds) ++ vs). split; [|split].
  - apply Forall2_app; [|exact F]. induction (4 - length ds)%nat; cbn [repeat]; [constructor|constructor; [|assumption]]. unfold hex. lia.
  - change (value (repeat 0 (4 - length ds) ++ vs) = n). now rewrite value_zeros.
  - rewrite app_length, repeat_length. destruct (Nat.le_gt_cases (length ds) 4); [left; lia|right]. split; [lia|].
    replace (4 - length ds)%nat with 0%nat by lia. cbn [repeat app]. destruct L as [L|[_ L]]; [lia|exact L].
Qed.
Lemma build_ok name us x : build_production_name name us = Ok x ->
  match us with None => x = name | Some us => exists c, hd_error us = Some c /\ (0 <= c < 2 ^ 32 -> production c x) end.
Proof.
  unfold build_production_name. destruct us as [us|]; [|intros [= <-]; reflexivity].
  destruct (hd_error us) as [c|]; cbn [unwrap rbind]; [|discriminate]. intros E. apply Ok_inj in E. subst x.
  exists c. split; [reflexivity|]. intros Hc. unfold production. destruct (Z.eqb_spec c 32); [left; auto|right].
  destruct (Z.ltb_spec 0xFFFF c); [right|left]; (split; [lia|]); [|split; [lia|]]; exists (format_04X c); (split; [reflexivity|now apply format_ok]).
Qed.
Lemma build_total name us : us <> Some [] -> exists x, build_production_name name us = Ok x.
Proof. intros H. unfold build_production_name. destruct us as [[|c us]|]; [congruence| |]; eexists; reflexivity. Qed.
Lemma rename_loop_iff n : forall i rev names names', rename_loop n i rev names = Ok names' <->
  (n <= length names)%nat /\ length names' = length names /\
  (forall k, (k < n)%nat -> build_production_name (nth k names []) (bm_get Z.ltb (i + Z.of_nat k) rev) = Ok (nth k names' [])) /\
  (forall k, (n <= k)%nat -> nth k names' [] = nth k names []).
Proof.
  induction n as [|n IH]; intros i rev names names'.
  - cbn [rename_loop]. split.
    + intros [= <-]. split; [lia|]. split; [reflexivity|]. split; [lia|auto].
    + intros (_ & L & _ & H). f_equal. apply (nth_ext _ _ [] []); [congruence|]. intros k _. symmetry. apply H. lia.
  - destruct names as [|x names]; cbn [rename_loop]; [split; [discriminate|intros [H _]; cbn in H; lia]|]. split.
    + destruct (build_production_name x _) as [y| |] eqn:E; cbn [rbind]; try discriminate.
      destruct (rename_loop n (i + 1) rev names) as [ys| |] eqn:E2; cbn [rbind]; try discriminate. intros [= <-].
      apply IH in E2 as (H1 & H2 & H3 & H4). split; [cbn [length]; lia|]. split; [cbn [length]; lia|]. split.
      * intros [|k] Hk; cbn [nth]; [rewrite Z.add_0_r; exact E|]. replace (i + Z.of_nat (S k)) with (i + 1 + Z.of_nat k) by lia. apply H3. lia.
      * intros [|k] Hk; [lia|]. cbn [nth]. apply H4. lia.
    + intros (H1 & H2 & H3 & H4). destruct names' as [|y ys]; [discriminate|]. pose proof (H3 0%nat ltac:(lia)) as H0. cbn [nth] in H0. rewrite Z.add_0_r in H0.
      rewrite H0. cbn [rbind]. assert (E: rename_loop n (i + 1) rev names = Ok ys).
      { apply IH. cbn [length] in H1, H2. split; [lia|]. split; [lia|]. split.
        - intros k Hk. specialize (H3 (S k) ltac:(lia)). cbn [nth] in H3. replace (i + Z.of_nat (S k)) with (i + 1 + Z.of_nat k) in H3 by lia. exact H3.
        - intros k Hk. exact (H4 (S k) ltac:(lia)). }
      rewrite E. reflexivity.
Qed.
(** *** What production names tell *)
Lemma hex_fun b v v' : hex b v -> hex b v' -> v = v'.
Proof. unfold hex. lia. Qed.
Lemma F2_fun ds : forall vs vs', Forall2 hex ds vs -> Forall2 hex ds vs' -> vs = vs'.
Proof.
  induction ds as [|d ds IH]; intros vs vs' H H'; inversion H; inversion H'; subst; [reflexivity|]. f_equal; [eapply hex_fun; eassumption|now apply IH].
Qed.
Lemma spells_fun ds n n' : spells ds n -> spells ds n' -> n = n'.
Proof. intros (vs & F & <- & _) (vs' & F' & <- & _). now rewrite (F2_fun _ _ _ F F'). Qed.
Lemma spells_hex ds n : spells ds n -> Forall (fun b => exists v, hex b v) ds.
Proof. intros (vs & F & _). clear - F. induction F; constructor; eauto. Qed.
Lemma production_char c c' x : production c x -> production c' x -> c = c'.
Proof.
  assert (N: forall ds n x, spells ds n -> ds = 110 :: x -> False).
  { intros ds n y H ->. apply spells_hex in H. inversion H as [|? ? [v Hv] _]; subst. unfold hex in Hv. lia. }
  intros [[-> ->]|[(H1 & H2 & ds & -> & H3)|(H1 & ds & -> & H3)]] [[-> E]|[(H1' & H2' & ds' & E & H3')|(H1' & ds' & E & H3')]]; try reflexivity; cbn in E; try discriminate E.
  - injection E as ->. eapply spells_fun; eassumption.
  - injection E as <-. exfalso. eapply N; [exact H3'|reflexivity].
  - injection E as ->. exfalso. eapply N; [exact H3|reflexivity].
  - injection E as ->. eapply spells_fun; eassumption.
Qed.
Lemma production_exists c : 0 <= c < 2 ^ 32 -> exists x, production c x.
Proof.
  intros H. destruct (build_total [] (Some [c])) as [x Hx]; [congruence|]. destruct (build_ok _ _ _ Hx) as (c' & [= <-] & P). eauto.
Qed.

(** *** Renaming *)
Lemma build_renamed sts g old new : (forall c g, reaches sts c g -> 0 <= c < 2 ^ 32) ->
  build_production_name old (bm_get Z.ltb g (reversed sts)) = Ok new -> renamed sts g old new.
Proof.
  intros R E. apply build_ok in E. destruct (PCmapTable.reversed_ok sts) as [_ H]. specialize (H g). unfold renamed.
  destruct (bm_get Z.ltb g (reversed sts)) as [us|]; [left|right; auto].
  destruct H as (S0 & _ & M). destruct E as (c & Hc & P). destruct us as [|c0 us]; [discriminate|]. injection Hc as ->.
  assert (Rc: reaches sts c g) by (apply M; now left). exists c. split; [exact Rc|]. split; [|apply P, (R c g Rc)].
  intros c' Hc'. apply M in Hc' as [<-|Hin]; [lia|]. inversion S0 as [|? ? _ F]; subst. rewrite Forall_forall in F. specialize (F c' Hin). lia.
Qed.
Lemma rename_loop_ok sts n names names' : (forall c g, reaches sts c g -> 0 <= c < 2 ^ 32) ->
  rename_loop n 0 (reversed sts) names = Ok names' ->
  (n <= length names)%nat /\ length names' = length names /\
  (forall k, (k < n)%nat -> renamed sts (Z.of_nat k) (nth k names []) (nth k names' [])) /\
  (forall k, (n <= k)%nat -> nth k names' [] = nth k names []).
Proof.
  intros R E. apply rename_loop_iff in E as (H1 & H2 & H3 & H4). split; [exact H1|]. split; [exact H2|]. split; [|exact H4].
  intros k Hk. apply build_renamed; [exact R|]. exact (H3 k Hk).
Qed.
Lemma rename_loop_total sts n : forall i names, (n <= length names)%nat -> exists names', rename_loop n i (reversed sts) names = Ok names'.
Proof.
  induction n as [|n IH]; intros i names H; cbn [rename_loop]; [eauto|]. destruct names as [|x names]; [cbn in H; lia|].
  destruct (build_total x (bm_get Z.ltb i (reversed sts))) as [y Hy].
  { intros E. destruct (PCmapTable.reversed_ok sts) as [_ R]. specialize (R i). rewrite E in R. now destruct R as (_ & R & _). }
  rewrite Hy. cbn [rbind]. destruct (IH (i + 1) names) as [ys Hys]; [cbn [length] in H; lia|]. rewrite Hys. cbn [rbind]. eauto.
Qed.
Lemma rename_loop_few sts n : forall i names, (length names < n)%nat -> rename_loop n i (reversed sts) names = Panic.
Proof.
  induction n as [|n IH]; intros i names H; [lia|]. cbn [rename_loop]. destruct names as [|x names]; [reflexivity|].
  destruct (build_total x (bm_get Z.ltb i (reversed sts))) as [y Hy].
  { intros E. destruct (PCmapTable.reversed_ok sts) as [_ R]. specialize (R i). rewrite E in R. now destruct R as (_ & R & _). }
  rewrite Hy. cbn [rbind]. rewrite IH; [reflexivity|cbn [length] in H; lia].
Qed.
Lemma renamed_distinct sts g g' old old' new : (forall c g g', reaches sts c g -> reaches sts c g' -> g = g') ->
  (exists c, reaches sts c g) -> (exists c, reaches sts c g') ->
  renamed sts g old new -> renamed sts g' old' new -> g = g'.
Proof.
  intros U [c Hc] [c' Hc'] [(d & H1 & _ & H2)|[H _]] [(d' & H1' & _ & H2')|[H' _]]; [|now apply H' in Hc'|now apply H in Hc|now apply H in Hc].
  rewrite (production_char _ _ _ H2 H2') in H1. eapply U; eassumption.
Qed.
(** *** A character has one production name *)
Lemma hex_inj b b' v : hex b v -> hex b' v -> b = b'.
Proof. unfold hex. lia. Qed.
Lemma hex_values ds vs : Forall2 hex ds vs -> Forall (fun v => 0 <= v < 16) vs.
Proof. induction 1; constructor; auto. unfold hex in *. lia. Qed.
Lemma value_bound vs : Forall (fun v => 0 <= v < 16) vs -> 0 <= value vs < 16 ^ Z.of_nat (length vs).
Proof.
  induction vs as [|v vs IH] using rev_ind; intros F; [cbn; lia|]. apply Forall_app in F as [F1 F2]. inversion F2; subst.
  rewrite value_app, app_length, Nat2Z.inj_add. change (Z.of_nat (length [v])) with 1. rewrite Z.pow_add_r by lia. specialize (IH F1). lia.
Qed.
Lemma value_cons v vs : value (v :: vs) = v * 16 ^ Z.of_nat (length vs) + value vs.
Proof.
  induction vs as [|w vs IH] using rev_ind; [unfold value; cbn; lia|].
  rewrite app_comm_cons, !value_app, IH, app_length, Nat2Z.inj_add. change (Z.of_nat (length [w])) with 1. rewrite Z.pow_add_r by lia. lia.
Qed.
Lemma value_inj vs : forall vs', Forall (fun v => 0 <= v < 16) vs -> Forall (fun v => 0 <= v < 16) vs' -> length vs = length vs' -> value vs = value vs' -> vs = vs'.
Proof.
  induction vs as [|v vs IH]; intros [|v' vs'] F F' L E; try discriminate; [reflexivity|]. inversion F; inversion F'; subst. cbn in L. injection L as L.
  rewrite !value_cons, L in E. pose proof (value_bound vs ltac:(assumption)) as B. pose proof (value_bound vs' ltac:(assumption)) as B'. rewrite L in B.
  assert (v = v') as <- by nia. f_equal. apply IH; auto. lia.
Qed.
Lemma value_low vs : Forall (fun v => 0 <= v < 16) vs -> hd 0 vs <> 0 -> 16 ^ (Z.of_nat (length vs) - 1) <= value vs.
Proof.
  destruct vs as [|v vs]; [cbn; lia|]. intros F H. cbn [hd] in H. inversion F; subst. rewrite value_cons. cbn [length].
  replace (Z.of_nat (S (length vs)) - 1) with (Z.of_nat (length vs)) by lia. pose proof (value_bound vs ltac:(assumption)).
  assert (0 < 16 ^ Z.of_nat (length vs)) by (apply Z.pow_pos_nonneg; lia). nia.
Qed.
Lemma F2_inj ds : forall ds' vs, Forall2 hex ds vs -> Forall2 hex ds' vs -> ds = ds'.
Proof.
  induction ds as [|d ds IH]; intros ds' vs H H'; inversion H; subst; inversion H'; subst; [reflexivity|]. f_equal; [eapply hex_inj; eassumption|eapply IH; eassumption].
Qed.
Lemma spells_unique ds ds' n : spells ds n -> spells ds' n -> ds = ds'.
Proof.
  intros (vs & F & V & L) (vs' & F' & V' & L'). change (value vs = n) in V. change (value vs' = n) in V'.
  pose proof (F2_length _ _ _ F) as E. pose proof (F2_length _ _ _ F') as E'. rewrite E in L. rewrite E' in L'.
  pose proof (hex_values _ _ F) as W. pose proof (hex_values _ _ F') as W'.
  pose proof (value_bound vs W) as B. pose proof (value_bound vs' W') as B'.
  assert (LL: length vs = length vs').
  { assert (M: forall a b, Forall (fun v => 0 <= v < 16) a -> Forall (fun v => 0 <= v < 16) b -> value a = value b -> (length a < length b)%nat ->
      hd 0 b <> 0 -> False).
    { clear. intros a b Wa Wb E L H. pose proof (value_bound a Wa). pose proof (value_low b Wb H).
      assert (16 ^ Z.of_nat (length a) <= 16 ^ (Z.of_nat (length b) - 1)) by (apply Z.pow_le_mono_r; lia). lia. }
    destruct L as [L|[L H]], L' as [L'|[L' H']]; try lia.
    - exfalso. apply (M vs vs'); auto; lia.
    - exfalso. apply (M vs' vs); auto; lia.
    - destruct (Nat.lt_trichotomy (length vs) (length vs')) as [X|[X|X]]; [|exact X|]; exfalso; [apply (M vs vs')|apply (M vs' vs)]; auto; lia. }
  rewrite (value_inj vs vs' W W' LL ltac:(lia)) in F. eapply F2_inj; eassumption.
Qed.
Lemma production_unique c x y : production c x -> production c y -> x = y.
Proof.
  intros [[H0 ->]|[(H1 & H2 & ds & -> & H3)|(H1 & ds & -> & H3)]] [[H0' ->]|[(H1' & H2' & ds' & -> & H3')|(H1' & ds' & -> & H3')]]; try lia; try reflexivity;
  f_equal; eapply spells_unique; eassumption.
Qed.
Lemma renamed_unique sts g old x y : renamed sts g old x -> renamed sts g old y -> x = y.
Proof.
  intros [(c & H1 & H2 & H3)|[H ->]] [(c' & H1' & H2' & H3')|[H' ->]]; try reflexivity; [|now elim (H' c)|now elim (H c')].
  specialize (H2 c' H1'). specialize (H2' c H1). assert (c = c') as <- by lia. eapply production_unique; eassumption.
Qed.
Lemma renamed_again sts g old x y : renamed sts g old x -> renamed sts g x y -> y = x.
Proof.
  intros [(c & H1 & H2 & H3)|[H ->]] [(c' & H1' & H2' & H3')|[H' ->]]; try reflexivity; [|now elim (H c')].
  specialize (H2 c' H1'). specialize (H2' c H1). assert (c = c') as <- by lia. eapply production_unique; eassumption.
Qed.

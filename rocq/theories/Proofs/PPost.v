(** Proofs about the PostScript table. *)
From Coq Require Import List ZArith Lia.
Import ListNotations.
From Verif.Model Require Import MBase MFixed MTables MPost.
From Verif.Spec Require Import SBase SGlyph SLayout SCmap STables SName SPost.
From Verif.Proofs Require Import PBase PGlyphFmt PCover PLow PCmap4 PTables PName.
Open Scope Z_scope.

(** ** UTF-8 *)
Lemma utf8_char_valid c r : scalar c -> utf8_valid (utf8_char c ++ r) = utf8_valid r.
Proof.
  unfold scalar, utf8_char. intros H.
  destruct (Z.leb_spec c 127); [|destruct (Z.leb_spec c 2047); [|destruct (Z.leb_spec c 65535)]]; cbn [app utf8_valid].
  - replace (c <=? 127) with true by lia. reflexivity.
  - assert (0 <= c / 64 < 32 /\ 2 <= c / 64) by lia. assert (0 <= c mod 64 < 64) by lia.
    set (q := c / 64) in *. set (m := c mod 64) in *. clearbody q m.
    replace (192 + q <=? 127) with false by lia.
    replace ((194 <=? 192 + q) && (192 + q <=? 223)) with true by lia.
    unfold cont. replace ((128 <=? 128 + m) && (128 + m <=? 191)) with true by lia. reflexivity.
  - assert (E1: c / 64 / 64 = c / 4096) by (now rewrite Z.div_div by lia).
    assert (E: c = 4096 * (c / 4096) + 64 * ((c / 64) mod 64) + c mod 64).
    { pose proof (Z.div_mod c 64 ltac:(lia)). pose proof (Z.div_mod (c / 64) 64 ltac:(lia)). lia. }
    assert (0 <= (c / 64) mod 64 < 64) by (apply Z.mod_pos_bound; lia).
    assert (0 <= c mod 64 < 64) by (apply Z.mod_pos_bound; lia).
    assert (0 <= c / 4096 < 16) by (clear - H H0 H1 H2; lia).
    set (q := c / 4096) in *. set (m := (c / 64) mod 64) in *. set (l := c mod 64) in *. clearbody q m l. clear E1.
    replace (224 + q <=? 127) with false by lia.
    replace ((194 <=? 224 + q) && (224 + q <=? 223)) with false by lia.
    replace ((224 <=? 224 + q) && (224 + q <=? 239)) with true by lia.
    unfold cont.
    replace ((128 <=? 128 + m) && (128 + m <=? 191)) with true by lia.
    replace ((128 <=? 128 + l) && (128 + l <=? 191)) with true by lia.
    replace ((224 <? 224 + q) || (160 <=? 128 + m)) with true by lia.
    replace (negb (224 + q =? 237) || (128 + m <=? 159)) with true by lia. reflexivity.
  - assert (E1: c / 64 / 64 = c / 4096) by (now rewrite Z.div_div by lia).
    assert (E2: c / 4096 / 64 = c / 262144) by (now rewrite Z.div_div by lia).
    assert (E: c = 262144 * (c / 262144) + 4096 * ((c / 4096) mod 64) + 64 * ((c / 64) mod 64) + c mod 64).
    { pose proof (Z.div_mod c 64 ltac:(lia)). pose proof (Z.div_mod (c / 64) 64 ltac:(lia)).
      pose proof (Z.div_mod (c / 4096) 64 ltac:(lia)). clear - E1 E2 H3 H4 H5. lia. }
    assert (0 <= (c / 64) mod 64 < 64) by (apply Z.mod_pos_bound; lia).
    assert (0 <= (c / 4096) mod 64 < 64) by (apply Z.mod_pos_bound; lia).
    assert (0 <= c mod 64 < 64) by (apply Z.mod_pos_bound; lia).
    assert (0 <= c / 262144 < 5) by (clear - H H2; lia).
    set (q := c / 262144) in *. set (m := (c / 4096) mod 64) in *. set (l := (c / 64) mod 64) in *.
    set (k := c mod 64) in *. clearbody q m l k. clear E1 E2.
    replace (240 + q <=? 127) with false by lia.
    replace ((194 <=? 240 + q) && (240 + q <=? 223)) with false by lia.
    replace ((224 <=? 240 + q) && (240 + q <=? 239)) with false by lia.
    unfold cont.
    replace ((240 <=? 240 + q) && (240 + q <=? 244)) with true by lia.
    replace ((128 <=? 128 + m) && (128 + m <=? 191)) with true by lia.
    replace ((128 <=? 128 + l) && (128 + l <=? 191)) with true by lia.
    replace ((128 <=? 128 + k) && (128 + k <=? 191)) with true by lia.
    replace ((240 <? 240 + q) || (144 <=? 128 + m)) with true by lia.
    replace ((240 + q <? 244) || (128 + m <=? 143)) with true by lia. reflexivity.
Qed.
Lemma text_valid n : text n -> utf8_valid n = true.
Proof.
  intros (s & Hs & ->). induction Hs as [|c s Hc Hs IH]; cbn [map concat]; [reflexivity|].
  now rewrite utf8_char_valid.
Qed.

(** ** Standard names *)
Lemma bytes_eqb_eq a b : bytes_eqb a b = true <-> a = b.
Proof.
  revert b. induction a as [|x a IH]; intros [|y b]; cbn [bytes_eqb]; try (split; congruence).
  rewrite andb_true_iff, IH, Z.eqb_eq. split; [intros [-> ->]; auto|intros [= -> ->]; auto].
Qed.
Lemma find_name_some n l i : find_name n l = Some i -> nth_error l i = Some n.
Proof.
  revert i. induction l as [|a l IH]; intros i; cbn [find_name]; [discriminate|].
  destruct (bytes_eqb a n) eqn:E.
  - intros [= <-]. apply bytes_eqb_eq in E. now subst.
  - destruct (find_name n l); [|discriminate]. intros [= <-]. cbn [nth_error]. now apply IH.
Qed.
Lemma find_name_none n l : find_name n l = None <-> ~ In n l.
Proof.
  induction l as [|a l IH]; cbn [find_name In]; [tauto|].
  destruct (bytes_eqb a n) eqn:E.
  - apply bytes_eqb_eq in E. split; [discriminate|]. intros H. exfalso. auto.
  - assert (a <> n) by (intros ->; assert (bytes_eqb n n = true) by (now apply bytes_eqb_eq); congruence).
    destruct (find_name n l); split; intros K; try discriminate; auto; try tauto.
    exfalso. assert (Some n0 = None) by (apply IH; tauto). discriminate.
Qed.
Lemma apple_length : length apple_names = 258%nat.
Proof. vm_compute. reflexivity. Qed.
#[local] Opaque apple_names.
Lemma find_apple_range n i : find_name n apple_names = Some i -> (i < 258)%nat.
Proof.
  intros H. apply find_name_some in H. rewrite <- apple_length. apply nth_error_Some. congruence.
Qed.

(** ** The pool *)
Lemma pascal_reads n r post : Z.of_nat (length n) <= 255 -> rest r = pascal n ++ post ->
  de_u8 r = Ok (Z.of_nat (length n), adv r 1) /\
  de_counted de_u8 (length n) (adv r 1) = Ok (n, adv r (length (pascal n))).
Proof.
  intros Hl Hr. unfold pascal in *. split.
  - now rewrite (reads_byte (Z.of_nat (length n)) r (n ++ post)).
  - rewrite (reads_bytes n (adv r 1) post).
    + rewrite adv_adv. reflexivity.
    + rewrite rest_adv, Hr. reflexivity.
Qed.
Lemma rest_none r : rest r = [] -> de_u8 r = Err.
Proof.
  intros H. unfold de_u8, de_prim, consume, consume_or_peek. cbn [prim_width].
  pose proof (rest_length r) as L. rewrite H in L. cbn [length] in L.
  destruct (Nat.ltb_spec (length (rd_input r)) (rd_ptr r + 1)); [reflexivity|lia].
Qed.

(** A good prefix of the pool is read as it is, whatever follows. *)
Lemma pool_prefix pool : pool_ok pool -> Forall (fun n => utf8_valid n = true) pool ->
  forall fuel r post, rest r = concat (map pascal pool) ++ post ->
  (length (rest r) < fuel)%nat ->
  exists fuel', (length post < fuel')%nat /\
    pool_loop fuel r =
      match pool_loop fuel' (adv r (length (concat (map pascal pool)))) with
      | Ok (t, r') => Ok (pool ++ t, r')
      | Err => Err
      | Panic => Panic
      end.
Proof.
  intros H U. induction H as [|n pool Hn Hp IH]; intros fuel r post Hr Hf.
  - exists fuel. cbn [map concat app length] in *. split; [rewrite Hr in Hf; exact Hf|].
    unfold adv. rewrite Nat.add_0_r. replace (mkrd (rd_input r) (rd_ptr r) (rd_stack r)) with r by (now destruct r).
    destruct (pool_loop fuel r) as [[t r']| |]; reflexivity.
  - inversion U as [|? ? U1 U2]; subst.
    destruct fuel as [|fuel]; [lia|]. cbn [map concat] in Hr. rewrite <- app_assoc in Hr.
    destruct (pascal_reads n r _ Hn Hr) as [R1 R2]. cbn [pool_loop]. rewrite R1. unfold pbind at 1.
    rewrite Nat2Z.id, R2, U1. unfold pbind.
    assert (Hr': rest (adv r (length (pascal n))) = concat (map pascal pool) ++ post)
      by (rewrite rest_adv, Hr; apply skipn_app_exact).
    assert (Hf': (length (rest (adv r (length (pascal n)))) < fuel)%nat).
    { rewrite Hr'. rewrite Hr in Hf. rewrite app_length in Hf. cbn [pascal length] in Hf. lia. }
    destruct (IH U2 fuel _ post Hr' Hf') as (fuel' & L & E). exists fuel'. split; [exact L|].
    rewrite E, adv_adv. cbn [map concat]. rewrite app_length.
    clear E. match goal with |- context [pool_loop fuel' ?x] => destruct (pool_loop fuel' x) as [[t r']| |] end; reflexivity.
Qed.
Lemma pool_all pool r : pool_ok pool -> Forall (fun n => utf8_valid n = true) pool ->
  rest r = concat (map pascal pool) ->
  pool_de r = Ok (pool, adv r (length (concat (map pascal pool)))).
Proof.
  intros H U Hr. unfold pool_de.
  destruct (pool_prefix pool H U (S (length (rd_input r) - rd_ptr r)) r []) as (fuel & L & E).
  - now rewrite app_nil_r.
  - rewrite rest_length. lia.
  - rewrite E. destruct fuel as [|fuel]; [cbn [length] in L; lia|]. cbn [pool_loop].
    rewrite rest_none; [now rewrite app_nil_r|]. rewrite rest_adv, Hr.
    rewrite <- (app_nil_r (concat (map pascal pool))) at 2. apply skipn_app_exact.
Qed.

(** ** The header *)
Lemma version_bytes v : 0 <= v < 256 * 65536 ->
  ser_version16dot16 v = Ok [0; v / 65536; v mod 65536 * 160 / 65536; 0].
Proof.
  intros H. unfold ser_version16dot16. rewrite chk_u_ok by (change (2 ^ 8) with 256; lia). cbn [rbind concat].
  rewrite !ser_u8_byte by lia. reflexivity.
Qed.
Lemma version_kept v : 0 <= v < 256 * 65536 -> v mod 2048 = 0 ->
  version_of (65536 * (v / 65536) + 256 * (v mod 65536 * 160 / 65536)) = v.
Proof.
  intros H1 H2. unfold version_of.
  assert (E: exists k, v = 2048 * k) by (exists (v / 2048); lia). destruct E as (k & ->). clear H2.
  assert (K: 0 <= k < 8192) by lia.
  assert (E1: 2048 * k / 65536 = k / 32).
  { replace 65536 with (2048 * 32) by lia. apply Z.div_mul_cancel_l; lia. }
  assert (E2: (2048 * k) mod 65536 = 2048 * (k mod 32)).
  { replace 65536 with (2048 * 32) by lia. apply Z.mul_mod_distr_l; lia. }
  rewrite E1, E2.
  assert (E3: 2048 * (k mod 32) * 160 / 65536 = 5 * (k mod 32)).
  { replace (2048 * (k mod 32) * 160) with (5 * (k mod 32) * 65536) by lia. apply Z.div_mul; lia. }
  rewrite E3. assert (0 <= k / 32 < 256) by lia. assert (0 <= k mod 32 < 32) by lia.
  assert (E4: k = 32 * (k / 32) + k mod 32) by (apply Z.div_mod; lia).
  set (q := k / 32) in *. set (m := k mod 32) in *. clearbody q m. clear E1 E2 E3.
  assert (E5: (65536 * q + 256 * (5 * m)) / 65536 = q) by lia.
  assert (E6: ((65536 * q + 256 * (5 * m)) / 256) mod 256 = 5 * m).
  { replace (65536 * q + 256 * (5 * m)) with ((256 * q + 5 * m) * 256) by lia. rewrite Z.div_mul by lia. lia. }
  rewrite E5, E6. rewrite Z.mod_small by lia.
  replace (2 * 65536 * (5 * m) + 160) with (160 + 2048 * m * 320) by lia. rewrite Z.div_add by lia.
  change (160 / 320) with 0. lia.
Qed.
Lemma reads_version v : 0 <= v < 256 * 65536 -> v mod 2048 = 0 ->
  reads de_version16dot16 [0; v / 65536; v mod 65536 * 160 / 65536; 0] v.
Proof.
  intros H1 H2. unfold de_version16dot16.
  set (a := v / 65536). set (b := v mod 65536 * 160 / 65536).
  assert (A: 0 <= a < 256) by (unfold a; lia). assert (B: 0 <= b < 256) by (unfold b; lia).
  pose proof (version_kept v H1 H2) as V. fold a b in V.
  assert (E: [0; a; b; 0] = ser_i32 (65536 * a + 256 * b)).
  { clear - A B. unfold ser_i32, ser_prim. cbn [prim_width be_bytes].
    change (256 ^ Z.of_nat 0) with 1. change (256 ^ Z.of_nat 1) with 256.
    change (256 ^ Z.of_nat 2) with 65536. change (256 ^ Z.of_nat 3) with 16777216.
    f_equal; [|f_equal; [|f_equal; [|f_equal]]].
    - rewrite Z.div_small by lia. reflexivity.
    - lia.
    - replace (65536 * a + 256 * b) with ((256 * a + b) * 256) by lia. rewrite Z.div_mul by lia. lia.
    - rewrite Z.div_1_r. lia. }
  rewrite E, <- V at 1. apply (reads_map _ version_of). apply reads_i32. clear - A B. lia.
Qed.
Lemma header_ser p : post_fields_ok p -> postcore_ser p = Ok (post_header p).
Proof.
  intros (H1 & H2 & _). unfold postcore_ser. rewrite version_bytes by exact H1. reflexivity.
Qed.
Lemma header_reads p : post_fields_ok p ->
  reads postcore_de (post_header p)
    (mk_post (po_version p) (po_italicAngle p) (po_underlinePosition p) (po_underlineThickness p)
       (po_isFixedPitch p) (po_minMemType42 p) (po_maxMemType42 p) (po_minMemType1 p) (po_maxMemType1 p)).
Proof.
  intros (H1 & H2 & H3 & H4 & H5 & H6 & H7 & H8 & H9 & H10). unfold postcore_de, post_header.
  eapply reads_bind; [apply reads_version; assumption|cbv beta].
  eapply reads_bind; [apply (rg_fixed (po_italicAngle p)); assumption|cbv beta].
  eapply reads_bind; [apply rg_i16; assumption|cbv beta].
  eapply reads_bind; [apply rg_i16; assumption|cbv beta].
  do 4 (eapply reads_bind; [apply rg_u32; assumption|cbv beta]).
  eapply reads_bind'; [symmetry; apply app_nil_r|apply rg_u32; assumption|cbv beta]. apply reads_pret.
Qed.

(** ** Reading the names *)
Lemma name_at_ok table i n : stands_for table i n -> name_at table i = Ok n.
Proof. unfold stands_for, name_at. destruct (i <? 258); intros ->; reflexivity. Qed.
Lemma name_at_inv table i n : name_at table i = Ok n -> stands_for table i n.
Proof.
  unfold stands_for, name_at. destruct (i <? 258); destruct (nth_error _ _); try discriminate; now intros [= ->].
Qed.

Definition with_names (p : post) (ns : option (list (list Z))) : post :=
  mk_post (po_version p) (po_italicAngle p) (po_underlinePosition p) (po_underlineThickness p)
    (po_isFixedPitch p) (po_minMemType42 p) (po_maxMemType42 p) (po_minMemType1 p) (po_maxMemType1 p) ns.
Lemma with_same p : with_names p (po_glyphnames p) = p.
Proof. now destruct p. Qed.

(** The reader on a version 2 table, up to the pool. *)
Lemma post_read2 p ix tail : post_fields_ok p -> po_version p = version2 ->
  Forall is_u16 ix -> Z.of_nat (length ix) <= 65535 ->
  from_bytes post_de (post_header p ++ word (Z.of_nat (length ix)) ++ words ix ++ tail) =
  match pool_de (mkrd (post_header p ++ word (Z.of_nat (length ix)) ++ words ix ++ tail)
            (length (post_header p ++ word (Z.of_nat (length ix)) ++ words ix)) [0%nat]) with
  | Ok (table, _) => match rmapM (name_at table) ix with
                     | Ok ns => Ok (with_names p (Some ns)) | Err => Err | Panic => Panic end
  | Err => Err
  | Panic => Panic
  end.
Proof.
  intros H V Hi Hl. unfold from_bytes, post_de, rd_new. unfold pbind at 1.
  rewrite (header_reads p H _ (word (Z.of_nat (length ix)) ++ words ix ++ tail)) by reflexivity. cbn [po_version].
  rewrite V. change (version2 =? version2) with true. cbv iota. unfold adv. cbn [rd_input rd_ptr rd_stack Nat.add].
  set (buf := post_header p ++ word (Z.of_nat (length ix)) ++ words ix ++ tail).
  unfold pbind at 1.
  rewrite (reads_word (Z.of_nat (length ix)) ltac:(unfold is_u16; lia) _ (words ix ++ tail)).
  2:{ unfold rest. cbn [rd_input rd_ptr]. apply skipn_app_exact. }
  unfold pbind at 1. rewrite Nat2Z.id.
  assert (RW: reads (de_counted de_u16 (length ix)) (words ix) ix).
  { unfold words. apply reads_counted. eapply Forall_impl; [|exact Hi]. intros a Ha. now apply reads_word. }
  rewrite (RW _ tail).
  2:{ rewrite rest_adv. unfold rest. cbn [rd_input rd_ptr]. unfold buf. rewrite skipn_app_exact. apply skipn_app_exact. }
  unfold pbind at 1. unfold adv. cbn [rd_input rd_ptr rd_stack].
  replace (length (post_header p) + length (word (Z.of_nat (length ix))) + length (words ix))%nat
    with (length (post_header p ++ word (Z.of_nat (length ix)) ++ words ix))
    by (rewrite !app_length; lia).
  destruct (pool_de _) as [[table r']| |]; [|reflexivity|reflexivity].
  unfold pbind, plift, pret. unfold with_names. rewrite V.
  destruct (rmapM (name_at table) ix); reflexivity.
Qed.
Lemma tail_rest (p : post) (ix : list Z) (tail : list Z) :
  rest (mkrd (post_header p ++ word (Z.of_nat (length ix)) ++ words ix ++ tail)
            (length (post_header p ++ word (Z.of_nat (length ix)) ++ words ix)) [0%nat]) = tail.
Proof.
  unfold rest. cbn [rd_input rd_ptr].
  replace (post_header p ++ word (Z.of_nat (length ix)) ++ words ix ++ tail)
    with ((post_header p ++ word (Z.of_nat (length ix)) ++ words ix) ++ tail) by (now rewrite <- !app_assoc).
  apply skipn_app_exact.
Qed.
Lemma post_read_names p ix pool : post_fields_ok p -> po_version p = version2 ->
  Forall is_u16 ix -> Z.of_nat (length ix) <= 65535 -> pool_ok pool -> Forall text pool ->
  from_bytes post_de (post_header p ++ names_bytes ix pool) =
    match rmapM (name_at pool) ix with
    | Ok ns => Ok (with_names p (Some ns)) | Err => Err | Panic => Panic end.
Proof.
  intros H V Hi Hl HP HT. unfold names_bytes. rewrite post_read2 by assumption.
  rewrite (pool_all pool); [reflexivity|exact HP| |apply tail_rest].
  eapply Forall_impl; [|exact HT]. intros n. apply text_valid.
Qed.

(** ** Writing the names *)
Definition is_own (n : list Z) : bool :=
  if in_dec (list_eq_dec Z.eq_dec) n apple_names then false else true.
Fixpoint indices (items : Z) (names : list (list Z)) : list Z :=
  match names with
  | [] => []
  | n :: names' =>
      match find_name n apple_names with
      | Some i => Z.of_nat i :: indices items names'
      | None => u16 (258 + items) :: indices (items + 1) names'
      end
  end.
Definition pascal8 (n : list Z) : list Z := u8 (Z.of_nat (length n)) :: n.
Lemma own_find n : is_own n = true <-> find_name n apple_names = None.
Proof.
  rewrite find_name_none. unfold is_own. destruct (in_dec _ n apple_names); split; intros; try discriminate; tauto.
Qed.
Lemma own_cons n l : own_names (n :: l) = if find_name n apple_names then own_names l else n :: own_names l.
Proof.
  unfold own_names. cbn [filter]. fold (is_own n). destruct (is_own n) eqn:E.
  - apply own_find in E. now rewrite E.
  - destruct (find_name n apple_names) eqn:F; [reflexivity|]. apply own_find in F. congruence.
Qed.
Lemma u8_byte z : ser_u8 (u8 z) = [u8 z].
Proof. apply ser_u8_byte. unfold u8, wrap_u. apply Z.mod_pos_bound. lia. Qed.
Lemma names_ser_spec items names :
  names_ser items names = (words (indices items names), concat (map pascal8 (own_names names))).
Proof.
  revert items. induction names as [|n names IH]; intros items; cbn [names_ser indices]; [reflexivity|].
  rewrite own_cons. destruct (find_name n apple_names) as [i|] eqn:E.
  - rewrite IH. unfold words. cbn [map concat]. rewrite <- word_u16.
    rewrite u16_id; [reflexivity|]. apply find_apple_range in E. lia.
  - rewrite IH. unfold words. cbn [map concat]. rewrite <- word_u16, u8_byte. reflexivity.
Qed.
Lemma indices_length items names : length (indices items names) = length names.
Proof.
  revert items. induction names as [|n names IH]; intros items; cbn [indices length]; [reflexivity|].
  destruct (find_name n apple_names); cbn [length]; now rewrite IH.
Qed.
Lemma indices_u16 items names : Forall is_u16 (indices items names).
Proof.
  revert items. induction names as [|n names IH]; intros items; cbn [indices]; [constructor|].
  destruct (find_name n apple_names) eqn:E; constructor; auto.
  - apply find_apple_range in E. unfold is_u16. lia.
  - unfold is_u16, u16, wrap_u. change (2 ^ 16) with 65536. pose proof (Z.mod_pos_bound (258 + items) 65536 ltac:(lia)). lia.
Qed.
Lemma indices_stand names : forall pre table items,
  Z.of_nat (length pre) = items -> items + Z.of_nat (length (own_names names)) <= 65278 ->
  (exists post, table = pre ++ own_names names ++ post) ->
  Forall2 (stands_for table) (indices items names) names.
Proof.
  induction names as [|n names IH]; intros pre table items Hp Hc (post & Ht); cbn [indices]; [constructor|].
  rewrite own_cons in Hc, Ht. destruct (find_name n apple_names) as [i|] eqn:E.
  - constructor.
    + pose proof (find_apple_range _ _ E) as R. unfold stands_for. replace (Z.of_nat i <? 258) with true by lia.
      rewrite Nat2Z.id. now apply find_name_some.
    + eapply IH; eauto.
  - cbn [length] in Hc. constructor.
    + unfold stands_for. rewrite u16_id by lia. replace (258 + items <? 258) with false by lia.
      replace (Z.to_nat (258 + items - 258)) with (length pre) by lia.
      rewrite Ht, nth_error_app2, Nat.sub_diag by lia. reflexivity.
    + apply (IH (pre ++ [n])).
      * rewrite app_length. cbn [length]. lia.
      * lia.
      * exists post. rewrite Ht, <- app_assoc. reflexivity.
Qed.
Lemma pool_pascal pool : pool_ok pool -> map pascal8 pool = map pascal pool.
Proof.
  intros H. apply map_ext_in. intros n Hn. unfold pool_ok in H. rewrite Forall_forall in H. specialize (H n Hn). cbv beta in H.
  unfold pascal8, pascal. f_equal. unfold u8, wrap_u. change (2 ^ 8) with 256. apply Z.mod_small. lia.
Qed.
Lemma own_text names : Forall text names -> Forall text (own_names names).
Proof. intros H. apply Forall_forall. intros n Hn. apply filter_In in Hn as [Hn _]. rewrite Forall_forall in H. exact (H n Hn). Qed.

Lemma stands_rmap table ix ns : Forall2 (stands_for table) ix ns -> rmapM (name_at table) ix = Ok ns.
Proof. intros H. apply rmapM_fwd. induction H; constructor; auto using name_at_ok. Qed.

Lemma post_ser2 p names : post_fields_ok p -> po_version p = version2 -> po_glyphnames p = Some names ->
  post_ser p = Ok (post_header p ++ word (u16 (Z.of_nat (length names))) ++ words (indices 0 names) ++
                   concat (map pascal8 (own_names names))).
Proof.
  intros H V N. unfold post_ser. rewrite header_ser by exact H. cbn [rbind]. rewrite V, N.
  change (version2 =? version2) with true. cbv iota. rewrite names_ser_spec, <- word_u16. reflexivity.
Qed.
Lemma post_roundtrip2 p names : post_fields_ok p -> po_version p = version2 -> po_glyphnames p = Some names ->
  Forall text names -> names_fit names ->
  post_ser p = Ok (post_header p ++ names_bytes (indices 0 names) (own_names names)) /\
  from_bytes post_de (post_header p ++ names_bytes (indices 0 names) (own_names names)) = Ok p.
Proof.
  intros H V N T (F1 & F2 & F3). split.
  - rewrite (post_ser2 p names H V N), u16_id by lia. unfold names_bytes.
    rewrite indices_length, pool_pascal by exact F3. reflexivity.
  - rewrite post_read_names; try assumption.
    + rewrite (stands_rmap _ _ names).
      * rewrite <- N, with_same. reflexivity.
      * apply (indices_stand names []); [reflexivity|lia|]. exists []. now rewrite app_nil_r.
    + apply indices_u16.
    + rewrite indices_length. lia.
    + now apply own_text.
Qed.

(** ** Only fitting names come back *)
Lemma split_bad (l : list (list Z)) : ~ Forall (fun n => Z.of_nat (length n) <= 255) l ->
  exists pre n post, l = pre ++ n :: post /\ Forall (fun n => Z.of_nat (length n) <= 255) pre /\
                     256 <= Z.of_nat (length n).
Proof.
  induction l as [|a l IH]; intros H; [exfalso; auto|].
  destruct (Z_le_dec (Z.of_nat (length a)) 255) as [L|L].
  - destruct IH as (pre & n & post & -> & Hp & Hn). { intros F. apply H. now constructor. }
    exists (a :: pre), n, post. repeat split; auto.
  - exists [], a, l. repeat split; auto. lia.
Qed.
(** Where the [k]-th own name occurs, its index. *)
Lemma own_index names : forall items k n, nth_error (own_names names) k = Some n ->
  exists j, nth_error names j = Some n /\
            nth_error (indices items names) j = Some (u16 (258 + items + Z.of_nat k)).
Proof.
  induction names as [|a names IH]; intros items k n H; [destruct k; discriminate|].
  rewrite own_cons in H. cbn [indices]. destruct (find_name a apple_names) as [i|] eqn:E.
  - destruct (IH items k n H) as (j & J1 & J2). exists (S j). split; assumption.
  - destruct k as [|k].
    + cbn [nth_error] in H. injection H as <-. exists 0%nat. cbn [nth_error]. split; [reflexivity|].
      do 2 f_equal. lia.
    + cbn [nth_error] in H. destruct (IH (items + 1) k n H) as (j & J1 & J2). exists (S j).
      cbn [nth_error]. split; [assumption|]. rewrite J2. do 2 f_equal. lia.
Qed.
Lemma own_not_standard names n : In n (own_names names) -> ~ In n apple_names.
Proof. intros H. apply filter_In in H as [_ H]. destruct (in_dec _ n apple_names); [discriminate|assumption]. Qed.

Lemma Forall_incl_firstn {A} (P : A -> Prop) k l : Forall P l -> Forall P (firstn k l).
Proof. intros H. revert k. induction H; intros [|k]; cbn [firstn]; constructor; auto. Qed.
Lemma rmap_at table ix ns j i n : rmapM (name_at table) ix = Ok ns ->
  nth_error ix j = Some i -> nth_error ns j = Some n -> stands_for table i n.
Proof.
  intros H. apply rmapM_inv in H. revert j. induction H as [|x y ix ns Hxy H IH]; intros j Hi Hn.
  - destruct j; discriminate.
  - destruct j as [|j]; cbn [nth_error] in *; [|eauto].
    injection Hi as <-. injection Hn as <-. now apply name_at_inv.
Qed.

Lemma post_lost2 p names b : post_fields_ok p -> po_version p = version2 -> po_glyphnames p = Some names ->
  Forall text names -> post_ser p = Ok b -> from_bytes post_de b = Ok p -> names_fit names.
Proof.
  intros H V N T W R. rewrite (post_ser2 p names H V N) in W. apply Ok_inj in W. subst b.
  (* the number of names *)
  assert (L: Z.of_nat (length names) <= 65535).
  { destruct (Z_le_dec (Z.of_nat (length names)) 65535) as [L|L]; [exact L|exfalso].
    set (n' := u16 (Z.of_nat (length names))) in R.
    assert (Hn': 0 <= n' < 65536) by (unfold n', u16, wrap_u; change (2 ^ 16) with 65536; apply Z.mod_pos_bound; lia).
    clearbody n'.
    set (ix := firstn (Z.to_nat n') (indices 0 names)).
    set (tl := words (skipn (Z.to_nat n') (indices 0 names)) ++ concat (map pascal8 (own_names names))).
    assert (Li: length ix = Z.to_nat n') by (unfold ix; rewrite firstn_length, indices_length; lia).
    assert (E: post_header p ++ word n' ++ words (indices 0 names) ++ concat (map pascal8 (own_names names))
             = post_header p ++ word (Z.of_nat (length ix)) ++ words ix ++ tl).
    { unfold tl, ix. rewrite app_assoc with (m := words (skipn _ _)), <- PName.words_app, firstn_skipn.
      rewrite firstn_length, indices_length, Nat.min_l by lia. rewrite Z2Nat.id by lia. reflexivity. }
    rewrite E in R. rewrite post_read2 in R; try assumption.
    - destruct (pool_de _) as [[table r']| |]; try discriminate.
      destruct (rmapM (name_at table) ix) as [ns| |] eqn:M; try discriminate.
      apply Ok_inj in R. assert (Some ns = Some names) by (rewrite <- N, <- R; reflexivity).
      injection H0 as ->. apply rmapM_inv, Forall2_length in M. lia.
    - apply (Forall_incl_firstn is_u16 (Z.to_nat n')), indices_u16.
    - lia. }
  rewrite u16_id in R by lia.
  assert (E: Z.of_nat (length names) = Z.of_nat (length (indices 0 names))) by (now rewrite indices_length).
  rewrite E in R. rewrite post_read2 in R; [|assumption|assumption|apply indices_u16|rewrite indices_length; lia].
  destruct (pool_de _) as [[table r']| |] eqn:P; try discriminate.
  destruct (rmapM (name_at table) (indices 0 names)) as [ns| |] eqn:M; try discriminate.
  apply Ok_inj in R. assert (Some ns = Some names) by (rewrite <- N, <- R; reflexivity).
  injection H0 as ->. clear R.
  split; [exact L|].
  assert (C: Z.of_nat (length (own_names names)) <= 65278).
  { destruct (Z_le_dec (Z.of_nat (length (own_names names))) 65278) as [C|C]; [exact C|exfalso].
    destruct (nth_error (own_names names) (Z.to_nat 65278)) as [n|] eqn:K.
    2:{ apply nth_error_None in K. lia. }
    destruct (own_index names 0 _ n K) as (j & J1 & J2). rewrite Z2Nat.id in J2 by lia.
    change (u16 (258 + 0 + 65278)) with 0 in J2.
    pose proof (rmap_at _ _ _ _ _ _ M J2 J1) as S1. unfold stands_for in S1. change (0 <? 258) with true in S1.
    apply nth_error_In in S1. apply nth_error_In in K. now apply own_not_standard in K. }
  split; [exact C|].
  destruct (Forall_dec (fun n => Z.of_nat (length n) <= 255) (fun n => Z_le_dec _ _) (own_names names)) as [F|F]; [exact F|exfalso].
  apply split_bad in F. destruct F as (pre & n & post & EQ & Hpre & Hn).
  (* the pool up to the long name *)
  set (r0 := mkrd _ _ _) in P.
  assert (Hr: rest r0 = concat (map pascal pre) ++ pascal8 n ++ concat (map pascal8 post)).
  { unfold r0. rewrite tail_rest, EQ, map_app, concat_app, pool_pascal by exact Hpre. reflexivity. }
  assert (Tp: Forall (fun n => utf8_valid n = true) pre).
  { assert (Forall text (own_names names)) as T' by (now apply own_text). rewrite EQ in T'.
    apply Forall_app in T' as [T' _]. eapply Forall_impl; [|exact T']. intros x. apply text_valid. }
  unfold pool_de in P.
  destruct (pool_prefix pre Hpre Tp (S (length (rd_input r0) - rd_ptr r0)) r0 _ Hr) as (fuel & Lf & Ef).
  { rewrite rest_length. lia. }
  rewrite Ef in P. clear Ef.
  set (r1 := adv r0 (length (concat (map pascal pre)))) in P.
  assert (Hr1: rest r1 = pascal8 n ++ concat (map pascal8 post)) by (unfold r1; rewrite rest_adv, Hr; apply skipn_app_exact).
  destruct fuel as [|fuel]; [lia|]. cbn [pool_loop] in P.
  assert (B: 0 <= u8 (Z.of_nat (length n)) < 256) by (unfold u8, wrap_u; apply Z.mod_pos_bound; lia).
  set (m := u8 (Z.of_nat (length n))) in *.
  rewrite (reads_byte m r1 (n ++ concat (map pascal8 post))) in P.
  2:{ rewrite Hr1. reflexivity. }
  unfold pbind at 1 in P.
  set (short := firstn (Z.to_nat m) n) in P.
  assert (Ls: length short = Z.to_nat m) by (unfold short; rewrite firstn_length; lia).
  assert (RB: reads (de_counted de_u8 (Z.to_nat m)) short short) by (rewrite <- Ls; apply reads_bytes).
  rewrite (RB _ (skipn (Z.to_nat m) n ++ concat (map pascal8 post))) in P.
  2:{ rewrite rest_adv, Hr1. cbn [length pascal8 skipn app]. unfold short.
      rewrite app_assoc, firstn_skipn. reflexivity. }
  destruct (utf8_valid short); [|discriminate]. unfold pbind in P.
  destruct (pool_loop fuel _) as [[t r2]| |]; try discriminate.
  unfold pret in P. injection P as <- <-.
  assert (K: nth_error (own_names names) (length pre) = Some n) by (rewrite EQ, nth_error_app2, Nat.sub_diag by lia; reflexivity).
  destruct (own_index names 0 _ n K) as (j & J1 & J2).
  assert (Q: (length pre < length (own_names names))%nat) by (rewrite EQ, app_length; cbn [length]; lia).
  rewrite u16_id in J2 by lia.
  pose proof (rmap_at _ _ _ _ _ _ M J2 J1) as S1. unfold stands_for in S1.
  replace (258 + 0 + Z.of_nat (length pre) <? 258) with false in S1 by lia.
  replace (Z.to_nat (258 + 0 + Z.of_nat (length pre) - 258)) with (length pre) in S1 by lia.
  rewrite nth_error_app2, Nat.sub_diag in S1 by lia. cbn [nth_error] in S1. injection S1 as S1.
  rewrite S1 in Ls. lia.
Qed.

(** ** Other versions *)
Lemma post_other p : post_fields_ok p -> po_version p <> version2 ->
  post_ser p = Ok (post_header p) /\
  from_bytes post_de (post_header p) = Ok (with_names p None).
Proof.
  intros H V. split.
  - unfold post_ser. rewrite header_ser by exact H. cbn [rbind].
    replace (po_version p =? version2) with false by lia. reflexivity.
  - rewrite <- (app_nil_r (post_header p)). unfold from_bytes, post_de, pbind at 1.
    rewrite (header_reads p H _ []) by reflexivity. cbn [po_version].
    replace (po_version p =? version2) with false by lia. reflexivity.
Qed.
Lemma post_no_names p : post_fields_ok p -> po_version p = version2 -> po_glyphnames p = None ->
  post_ser p = Ok (post_header p) /\ from_bytes post_de (post_header p) = Err.
Proof.
  intros H V N. split.
  - unfold post_ser. rewrite header_ser by exact H. cbn [rbind]. rewrite V, N. reflexivity.
  - rewrite <- (app_nil_r (post_header p)). unfold from_bytes, post_de, pbind at 1.
    rewrite (header_reads p H _ []) by reflexivity. cbn [po_version].
    rewrite V. change (version2 =? version2) with true. cbv iota. unfold pbind at 1.
    unfold de_u16, de_prim, consume, consume_or_peek, adv, rd_new. cbn [rd_input rd_ptr prim_width].
    rewrite app_nil_r. replace (length (post_header p) <? 0 + length (post_header p) + 2)%nat with true by lia. reflexivity.
Qed.

(** ** Which version bytes survive *)
Lemma version_iff major minor : 0 <= major <= 255 -> 0 <= minor <= 255 ->
  (ser_version16dot16 (version_of (65536 * major + 256 * minor)) = Ok [0; major; minor; 0] <->
   minor < 160 /\ minor mod 5 <> 2 /\ minor mod 5 <> 4).
Proof.
  intros H1 H2.
  assert (E: version_of (65536 * major + 256 * minor) = 65536 * major + (131072 * minor + 160) / 320).
  { unfold version_of. f_equal; [f_equal; lia|]. f_equal.
    replace ((65536 * major + 256 * minor) / 256) with (256 * major + minor).
    - replace ((256 * major + minor) mod 256) with minor by lia. lia.
    - replace (65536 * major + 256 * minor) with ((256 * major + minor) * 256) by lia. now rewrite Z.div_mul. }
  rewrite E. clear E.
  destruct (Z_lt_dec minor 160) as [L|L].
  - assert (B: 0 <= (131072 * minor + 160) / 320 < 65536) by (clear - L H2; lia).
    set (f := (131072 * minor + 160) / 320) in *.
    assert (F: 320 * f <= 131072 * minor + 160 < 320 * f + 320) by (unfold f; clear; lia). clearbody f.
    rewrite version_bytes by lia.
    assert (Q: (65536 * major + f) / 65536 = major) by (clear - B; lia).
    assert (M: (65536 * major + f) mod 65536 = f) by (clear - B; lia). rewrite Q, M.
    assert (G: f * 160 / 65536 = minor <-> minor mod 5 <> 2 /\ minor mod 5 <> 4).
    { assert (C: minor mod 5 = 0 \/ minor mod 5 = 1 \/ minor mod 5 = 2 \/ minor mod 5 = 3 \/ minor mod 5 = 4)
        by (pose proof (Z.mod_pos_bound minor 5 ltac:(lia)); lia).
      pose proof (Z.div_mod minor 5 ltac:(lia)) as D. set (k := minor / 5) in *. clearbody k.
      assert (K: f * 160 / 65536 = minor <-> minor * 65536 <= f * 160 < minor * 65536 + 65536).
      { split; [intros X; clear - X; lia|]. intros X. symmetry. apply Z.div_unique with (r := f * 160 - minor * 65536); lia. }
      rewrite K. clear K. destruct C as [C|[C|[C|[C|C]]]]; rewrite C in *; lia. }
    split.
    + intros X. injection X as X. tauto.
    + intros (_ & X). apply G in X. now rewrite X.
  - split; [|lia]. intros X. exfalso.
    assert (B: 65536 <= (131072 * minor + 160) / 320 < 131072) by (clear - L H2; lia).
    set (f := (131072 * minor + 160) / 320) in *. clearbody f.
    destruct (Z.eq_dec major 255) as [->|NE].
    + unfold ser_version16dot16 in X. rewrite chk_u_bad in X by (change (2 ^ 8) with 256; lia). discriminate.
    + rewrite version_bytes in X by lia. injection X as X _. lia.
Qed.

(** Proofs about the naming table. *)
From Coq Require Import List ZArith Lia.
Import ListNotations.
From Verif.Model Require Import MBase MLayout MOffset MCmap MName.
From Verif.Spec Require Import SBase SGlyph SLayout SName.
From Verif.Proofs Require Import PBase PGlyphFmt PCover PLow PCmap4.
Open Scope Z_scope.

Lemma get_encoding_ok p e cs : charset_for p e cs -> get_encoding p e = Ok cs.
Proof.
  unfold get_encoding. destruct cs; cbn [charset_for]; unfold unicode_record; intros H;
  repeat match goal with |- context [?a =? ?b] => destruct (Z.eqb_spec a b); try lia end; reflexivity.
Qed.
Lemma get_encoding_inv p e cs : 0 <= e -> get_encoding p e = Ok cs -> charset_for p e cs.
Proof.
  intros He. unfold get_encoding.
  repeat match goal with |- context [?a =? ?b] => destruct (Z.eqb_spec a b); try discriminate end;
  intros H; apply Ok_inj in H; subst cs; cbn [charset_for]; unfold unicode_record; lia.
Qed.
Lemma get_encoding_handled p e : 0 <= e -> handled p e -> exists cs, get_encoding p e = Ok cs.
Proof.
  intros He. unfold handled, get_encoding. intros H.
  repeat match goal with |- context [?a =? ?b] => destruct (Z.eqb_spec a b); try lia end;
  eexists; reflexivity.
Qed.
Lemma get_encoding_panic p e : ~ handled p e -> get_encoding p e = Panic.
Proof.
  unfold handled, get_encoding. intros H.
  repeat match goal with |- context [?a =? ?b] => destruct (Z.eqb_spec a b); try lia end;
  reflexivity.
Qed.
Lemma charset_unique p e cs cs' : charset_for p e cs -> charset_for p e cs' -> cs = cs'.
Proof. intros H H'. apply get_encoding_ok in H, H'. congruence. Qed.

(** ** UTF-16 *)
Lemma unit_word u : unit_bytes u = word u.
Proof. reflexivity. Qed.
Lemma words_app a b : words (a ++ b) = words a ++ words b.
Proof. unfold words. now rewrite map_app, concat_app. Qed.
Lemma utf16_char_units c : utf16_char c = words (units c).
Proof.
  unfold utf16_char, units, words.
  destruct (Z.ltb_spec c 65536), (Z.leb_spec c 65535); try lia; cbn [map concat];
  rewrite ?app_nil_r, !unit_word; reflexivity.
Qed.
Lemma utf16_encode_spec s : utf16_encode s = utf16 s.
Proof.
  unfold utf16_encode, utf16. induction s as [|c s IH]; cbn [map concat]; [reflexivity|].
  now rewrite words_app, IH, utf16_char_units.
Qed.
Lemma word_val u : 0 <= u < 65536 -> (u / 256) mod 256 * 256 + u mod 256 = u.
Proof. lia. Qed.
Lemma utf16_char_decode c rest : scalar c -> utf16_decode (utf16_char c ++ rest) = c :: utf16_decode rest.
Proof.
  unfold scalar, utf16_char, unit_bytes. intros H. destruct (Z.ltb_spec c 65536); cbn [app].
  - cbn [utf16_decode]. rewrite word_val by lia.
    replace ((c <? 55296) || (57344 <=? c)) with true by lia. reflexivity.
  - assert (D: 0 <= (c - 65536) / 1024 < 1024) by lia.
    assert (M: 0 <= (c - 65536) mod 1024 < 1024) by lia.
    assert (E: c - 65536 = 1024 * ((c - 65536) / 1024) + (c - 65536) mod 1024) by (apply Z.div_mod; lia).
    set (q := (c - 65536) / 1024) in *. set (m := (c - 65536) mod 1024) in *. clearbody q m.
    cbn [utf16_decode]. rewrite !word_val by lia.
    replace ((55296 + q <? 55296) || (57344 <=? 55296 + q)) with false by lia.
    replace (56320 <=? 55296 + q) with false by lia.
    replace ((56320 <=? 56320 + m) && (56320 + m <? 57344)) with true by lia.
    f_equal. lia.
Qed.
Lemma utf16_roundtrip s : Forall scalar s -> utf16_decode (utf16_encode s) = s.
Proof.
  unfold utf16_encode. induction 1 as [|c s Hc Hs IH]; cbn [map concat]; [reflexivity|].
  now rewrite utf16_char_decode, IH.
Qed.

Section Coders.
Variable other : charset -> coder.

(** ** Writing *)
Definition irec (r : name_record) (len off : Z) : list Z :=
  [nr_platform r; nr_encoding r; nr_language r; nr_name r; len; off].
Fixpoint irecs (pos : Z) (rs : list name_record) (bss : list (list Z)) : list (list Z) :=
  match rs, bss with
  | r :: rs', bs :: bss' =>
      irec r (Z.of_nat (length bs)) pos :: irecs (pos + Z.of_nat (length bs)) rs' bss'
  | _, _ => []
  end.
Lemma internal_words p e l n a b : internal_ser (p, e, l, n, a, b) = words [p; e; l; n; a; b].
Proof. unfold internal_ser, words. cbn [map concat]. rewrite <- !word_u16, app_nil_r. reflexivity. Qed.

Lemma names_loop_ok rs bss recs pool :
  Forall2 (encoded_as other) rs bss -> placed (Z.of_nat (length pool)) bss ->
  names_loop other rs recs pool =
    Ok (recs ++ words (concat (irecs (Z.of_nat (length pool)) rs bss)), pool ++ concat bss).
Proof.
  intros H. revert recs pool. induction H as [|r bs rs bss Hr HF IH]; intros recs pool HP.
  - cbn [names_loop irecs concat words map]. now rewrite !app_nil_r.
  - destruct HP as (P1 & P2 & P3). destruct Hr as (cs & C1 & C2).
    cbn [names_loop]. rewrite (get_encoding_ok _ _ _ C1). cbn [rbind]. rewrite <- C2.
    rewrite IH by (rewrite app_length, Nat2Z.inj_add; exact P3).
    rewrite internal_words, !u16_id by lia. rewrite app_length, Nat2Z.inj_add.
    cbn [irecs concat]. fold (irec r (Z.of_nat (length bs)) (Z.of_nat (length pool))).
    rewrite words_app, <- !app_assoc. reflexivity.
Qed.
Lemma name_ser_ok rs bss :
  Z.of_nat (length rs) <= 5460 -> Forall2 (encoded_as other) rs bss -> placed 0 bss ->
  name_ser other rs =
    Ok (word 0 ++ word (Z.of_nat (length rs)) ++ word (6 + 12 * Z.of_nat (length rs)) ++
        words (concat (irecs 0 rs bss)) ++ concat bss).
Proof.
  intros Hn HF HP. unfold name_ser. rewrite u16_id by lia.
  rewrite !chk_u_ok by (change (2 ^ 16) with 65536; lia). cbn [rbind].
  rewrite chk_u_ok by (change (2 ^ 16) with 65536; lia). cbn [rbind].
  change 0 with (Z.of_nat (length (@nil Z))) in HP.
  rewrite (names_loop_ok rs bss [] [] HF HP). cbn [rbind app]. rewrite <- !word_u16. reflexivity.
Qed.
Lemma irecs_at rs bss pre :
  Forall2 (encoded_as other) rs bss -> Forall (expressible other) rs ->
  placed (Z.of_nat (length pre)) bss ->
  Forall2 (record_at other (pre ++ concat bss)) rs (irecs (Z.of_nat (length pre)) rs bss).
Proof.
  intros H. revert pre. induction H as [|r bs rs bss Hr HF IH]; intros pre HE HP; cbn [irecs]; constructor.
  - inversion HE as [|? ? (bs' & E1 & E2) HE']; subst. destruct HP as (P1 & P2 & P3).
    exists pre, bs, (concat bss). cbn [concat]. repeat split; try lia.
    destruct Hr as (cs & C1 & ->). destruct E1 as (cs' & C1' & ->).
    rewrite (charset_unique _ _ _ _ C1 C1'). exact E2.
  - inversion HE; subst. destruct HP as (P1 & P2 & P3). cbn [concat]. rewrite app_assoc.
    replace (Z.of_nat (length pre) + Z.of_nat (length bs)) with (Z.of_nat (length (pre ++ bs)))
      in * by (rewrite app_length; lia).
    now apply IH.
Qed.

(** ** Reading *)
Lemma reads_internal p e l n a b :
  is_u16 p -> is_u16 e -> is_u16 l -> is_u16 n -> is_u16 a -> is_u16 b ->
  reads internal_de (words [p; e; l; n; a; b]) (p, e, l, n, a, b).
Proof.
  intros. unfold internal_de, words. cbn [map concat].
  do 5 (eapply reads_bind; [apply reads_word; assumption|cbv beta]).
  eapply reads_bind; [apply reads_word; assumption|cbv beta]. apply reads_pret.
Qed.
Lemma reads_byte x : reads de_u8 [x] x.
Proof.
  intros r post Hr. unfold de_u8, de_prim. cbn [prim_width].
  rewrite (reads_consume r [x] post ltac:(discriminate) Hr : consume r 1 = _). reflexivity.
Qed.
Lemma reads_bytes bs : reads (de_counted de_u8 (length bs)) bs bs.
Proof.
  pose proof (reads_counted de_u8 (fun x => [x]) bs) as H.
  assert (E: concat (map (fun x : Z => [x]) bs) = bs) by (clear; induction bs; cbn; congruence).
  rewrite E in H. apply H. clear. induction bs; constructor; auto using reads_byte.
Qed.

Definition as_internal (w : list Z) : internal :=
  match w with
  | [p; e; l; n; a; b] => (p, e, l, n, a, b)
  | _ => (0, 0, 0, 0, 0, 0)
  end.
Lemma names_de_ok head storage rs ws :
  Forall2 (record_at other storage) rs ws ->
  forall p stk, exists p',
  names_de other (map as_internal ws) (mkrd (head ++ storage) p (length head :: stk))
    = Ok (rs, mkrd (head ++ storage) p' (length head :: stk)).
Proof.
  induction 1 as [|r w rs ws Hr HF IH]; intros p stk.
  - exists p. reflexivity.
  - destruct Hr as (pre & bs & post & E & Hp & Hb & (cs & C1 & C2) & ->).
    cbn [map as_internal names_de]. unfold pbind at 1, seek. cbn [top_of_table rd_stack rd_input].
    rewrite !Nat2Z.id. unfold pbind at 1.
    rewrite (reads_bytes bs _ post).
    2:{ unfold rest. cbn [rd_ptr rd_input]. rewrite E, app_assoc, <- app_length. apply skipn_app_exact. }
    unfold pbind at 1, plift. rewrite (get_encoding_ok _ _ _ C1). unfold pbind at 1.
    unfold adv. cbn [rd_input rd_ptr rd_stack].
    destruct (IH (length head + length pre + length bs)%nat stk) as (p' & Hd). rewrite Hd.
    exists p'. unfold pret. rewrite C2. now destruct r.
Qed.
Lemma length_words (l : list Z) : length (words l) = (2 * length l)%nat.
Proof. unfold words. induction l; cbn [map concat word app length] in *; lia. Qed.

Lemma name_read rs b : Forall fields_ok rs -> Z.of_nat (length rs) <= 65535 ->
  name_table other rs b -> from_bytes (name_de other) b = Ok rs.
Proof.
  intros HO Hn (ws & storage & -> & HF).
  set (hd := word 0 ++ word (Z.of_nat (length rs)) ++ word (6 + 12 * Z.of_nat (length rs))).
  set (head := hd ++ words (concat ws)).
  replace (word 0 ++ word (Z.of_nat (length rs)) ++ word (6 + 12 * Z.of_nat (length rs)) ++
           words (concat ws) ++ storage) with (head ++ storage)
    by (unfold head, hd; now rewrite <- !app_assoc).
  assert (H1: from_bytes (name_de other) (head ++ storage) =
              match (irs <-- de_counted internal_de (length rs) ;;
                     _ <-- ppush ;; rs <-- names_de other irs ;; _ <-- ppop ;; pret rs)
                    (mkrd (head ++ storage) 6 [0%nat]) with
              | Ok (a, _) => Ok a | Err => Err | Panic => Panic end).
  { unfold from_bytes, name_de. unfold pbind at 1, pskip at 1, rd_new, rd_skip. cbn [rd_input rd_ptr rd_stack Nat.add].
    unfold pbind at 1.
    rewrite (reads_word (Z.of_nat (length rs)) ltac:(unfold is_u16; lia) _
               (word (6 + 12 * Z.of_nat (length rs)) ++ words (concat ws) ++ storage)).
    2:{ unfold rest, head, hd. cbn [rd_input rd_ptr]. rewrite <- !app_assoc. reflexivity. }
    unfold pbind at 1, pskip, rd_skip, adv. cbn [rd_input rd_ptr rd_stack word length Nat.add].
    rewrite Nat2Z.id. reflexivity. }
  rewrite H1. clear H1.
  assert (L: length rs = length (map as_internal ws)).
  { rewrite map_length. now apply Forall2_length in HF. }
  assert (W: words (concat ws) = concat (map (fun w => words w) ws)).
  { clear. induction ws as [|w ws IH]; cbn [map concat]; [reflexivity|]. now rewrite words_app, IH. }
  assert (RC: reads (de_counted internal_de (length rs)) (words (concat ws)) (map as_internal ws)).
  { rewrite L, W. apply reads_counted2. clear - HO HF. induction HF as [|r w rs ws Hr HF IH]; cbn [map]; constructor.
    - inversion HO as [|? ? (F1 & F2 & F3 & F4) HO']; subst.
      destruct Hr as (pre & bs & post & E & Hp & Hb & C & ->). cbn [as_internal]. now apply reads_internal.
    - inversion HO; subst. now apply IH. }
  unfold pbind at 1.
  rewrite (RC _ storage).
  2:{ unfold rest, head, hd. cbn [rd_ptr rd_input]. rewrite <- !app_assoc. reflexivity. }
  unfold pbind at 1, ppush, rd_push, adv. cbn [rd_input rd_ptr rd_stack].
  replace (6 + length (words (concat ws)))%nat with (length head)
    by (unfold head, hd; rewrite !app_length; reflexivity).
  unfold pbind at 1. destruct (names_de_ok head storage rs ws HF (length head) [0%nat]) as (p' & Hd).
  rewrite Hd. reflexivity.
Qed.

Lemma encoded_exists r : is_u16 (nr_encoding r) -> handled (nr_platform r) (nr_encoding r) ->
  exists bs, encoded_as other r bs.
Proof.
  unfold is_u16. intros He Hh. destruct (get_encoding_handled _ _ (proj1 He) Hh) as (cs & E).
  apply get_encoding_inv in E; [|lia]. now exists (encode (coder_of other cs) (nr_string r)), cs.
Qed.

(** ** When writing fails *)
Lemma names_loop_panic rs recs pool :
  Forall fields_ok rs ->
  (names_loop other rs recs pool = Panic <-> Exists (fun r => ~ handled (nr_platform r) (nr_encoding r)) rs) /\
  names_loop other rs recs pool <> Err.
Proof.
  intros HO. revert recs pool. induction HO as [|r rs (F1 & F2 & F3 & F4) HO IH]; intros recs pool; cbn [names_loop].
  - split; [|discriminate]. split; [discriminate|]. intros H; inversion H.
  - destruct (get_encoding (nr_platform r) (nr_encoding r)) as [cs| |] eqn:E; cbn [rbind].
    + destruct (IH (recs ++ internal_ser (nr_platform r, nr_encoding r, nr_language r, nr_name r,
          u16 (Z.of_nat (length (encode (coder_of other cs) (nr_string r)))), u16 (Z.of_nat (length pool))))
          (pool ++ encode (coder_of other cs) (nr_string r))) as [I1 I2].
      split; [|exact I2]. rewrite I1. split; intros H.
      * now right.
      * inversion H; subst; auto. exfalso. apply get_encoding_panic in H1. congruence.
    + exfalso. clear - E. unfold get_encoding in E.
      repeat match type of E with context [if ?c then _ else _] => destruct c; try discriminate end.
    + split; [|discriminate]. split; auto. intros _. left. intros H.
      destruct (get_encoding_handled (nr_platform r) (nr_encoding r) ltac:(unfold is_u16 in F2; lia) H). congruence.
Qed.
Lemma chk_u_bad w z : ~ 0 <= z < 2 ^ w -> chk_u w z = Panic.
Proof. intros H. unfold chk_u. replace ((0 <=? z) && (z <? 2 ^ w)) with false by lia. reflexivity. Qed.
Lemma name_ser_panic rs : Forall fields_ok rs ->
  (name_ser other rs = Panic <->
    Z.of_nat (length rs) mod 65536 > 5460 \/
    Exists (fun r => ~ handled (nr_platform r) (nr_encoding r)) rs) /\
  name_ser other rs <> Err.
Proof.
  intros HO. unfold name_ser.
  pose proof (Z.mod_pos_bound (Z.of_nat (length rs)) 65536 ltac:(lia)) as B.
  change (u16 (Z.of_nat (length rs))) with (Z.of_nat (length rs) mod 65536).
  set (n := Z.of_nat (length rs) mod 65536) in *. clearbody n.
  destruct (Z_lt_dec 5460 n) as [G|G].
  - destruct (Z_lt_dec 65535 (12 * n)) as [G'|G'].
    + rewrite chk_u_bad by (change (2 ^ 16) with 65536; lia). cbn [rbind]. split; [|discriminate]. split; auto. intros _. left. lia.
    + rewrite chk_u_ok by (change (2 ^ 16) with 65536; lia). cbn [rbind].
      rewrite chk_u_bad by (change (2 ^ 16) with 65536; lia). cbn [rbind]. split; [|discriminate]. split; auto. intros _. left. lia.
  - rewrite chk_u_ok by (change (2 ^ 16) with 65536; lia). cbn [rbind].
    rewrite chk_u_ok by (change (2 ^ 16) with 65536; lia). cbn [rbind].
    destruct (names_loop_panic rs [] [] HO) as [I1 I2].
    destruct (names_loop other rs [] []) as [[a b]| |] eqn:E; cbn [rbind].
    + split; [|discriminate]. split; [discriminate|]. intros [H|H]; [lia|]. apply I1 in H. discriminate.
    + congruence.
    + split; [|discriminate]. split; auto. intros _. right. now apply I1.
Qed.
End Coders.

(** ** A string that is too long *)
Lemma plain_fields t : fields_ok (mkNR 3 1 1033 4 t).
Proof. unfold fields_ok, is_u16; cbn [nr_platform nr_encoding nr_language nr_name]; lia. Qed.
Lemma plain_unicode : unicode_record 3 1.
Proof. unfold unicode_record; lia. Qed.
Lemma long_text : exists s, Forall scalar s /\ Z.of_nat (length (utf16_encode s)) = 65536 /\ s <> [].
Proof.
  assert (G: forall n, Z.of_nat (length (utf16_encode (repeat 65 n))) = 2 * Z.of_nat n).
  { intros n. unfold utf16_encode. induction n as [|n IH]; [reflexivity|]. cbn [repeat map concat].
    rewrite app_length. change (length (utf16_char 65)) with 2%nat. lia. }
  assert (H: exists n, Z.of_nat n = 32768) by (exists (Z.to_nat 32768); now apply Z2Nat.id).
  destruct H as (n & Hn). exists (repeat 65 n). split; [|split].
  - apply Forall_forall. intros c Hc. apply repeat_spec in Hc. subst c. unfold scalar. lia.
  - rewrite G. lia.
  - destruct n; [discriminate|]. cbn [repeat]. discriminate.
Qed.
Lemma long_text_lost other s : Forall scalar s -> Z.of_nat (length (utf16_encode s)) = 65536 ->
  exists b, name_ser other [mkNR 3 1 1033 4 s] = Ok b /\
            from_bytes (name_de other) b = Ok [mkNR 3 1 1033 4 []].
Proof.
  intros SC L. eexists. split.
  { unfold name_ser. change (u16 (Z.of_nat (length [mkNR 3 1 1033 4 s]))) with 1.
    change (12 * 1) with 12. change (chk_u 16 12) with (Ok 12). cbn [rbind].
    change (chk_u 16 (6 + 12)) with (Ok 18). cbn [rbind names_loop nr_platform nr_encoding].
    change (get_encoding 3 1) with (Ok Utf16be). cbn [rbind coder_of encode nr_string nr_language nr_name].
    rewrite L. change (u16 65536) with 0. rewrite internal_words. cbn [app length].
    change (u16 (Z.of_nat 0)) with 0. reflexivity. }
  apply name_read; [repeat (apply Forall_cons || apply Forall_nil); apply plain_fields|cbn [length]; lia|].
  exists [[3; 1; 1033; 4; 0; 0]], (utf16_encode s). split; [reflexivity|].
  apply Forall2_cons; [|apply Forall2_nil]. exists [], [], (utf16_encode s). split; [reflexivity|].
  split; [unfold is_u16; cbn [length]; lia|]. split; [unfold is_u16; cbn [length]; lia|]. split; [|reflexivity].
  exists Utf16be. split; [exact plain_unicode|reflexivity].
Qed.

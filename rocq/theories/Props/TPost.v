(** C41: the PostScript table and its glyph names. *)
From Coq Require Import String.
From Coq Require Import List ZArith Lia.
Import ListNotations.
From Verif.Model Require Import MBase MFixed MTables MPost.
From Verif.Spec Require Import SBase SGlyph SLayout SCmap STables SName SPost.
From Verif.Proofs Require Import PBase PName PPost.
Open Scope Z_scope.

(** A table whose fields are in range can always be written, and reads back
    equal exactly when version 2 goes with names that fit, and every other
    version with no names. *)
Theorem C41_roundtrip_iff : forall p, post_fields_ok p ->
  (forall names, po_glyphnames p = Some names -> Forall text names) ->
  exists b, post_ser p = Ok b /\
    (from_bytes post_de b = Ok p <->
     match po_glyphnames p with
     | Some names => po_version p = 2 * 65536 /\ names_fit names
     | None => po_version p <> 2 * 65536
     end).
Proof.
  intros p H T. change (2 * 65536) with version2.
  destruct (po_glyphnames p) as [names|] eqn:N.
  - specialize (T names eq_refl). destruct (Z.eq_dec (po_version p) version2) as [V|V].
    + eexists. split; [exact (post_ser2 p names H V N)|]. split.
      * intros R. split; [exact V|]. eapply post_lost2; eauto using post_ser2.
      * intros [_ F]. destruct (post_roundtrip2 p names H V N T F) as [W R].
        rewrite (post_ser2 p names H V N) in W. apply Ok_inj in W. rewrite W. exact R.
    + destruct (post_other p H V) as [W R]. exists (post_header p). split; [exact W|]. split; [|tauto].
      rewrite R. intros E. apply Ok_inj in E. apply (f_equal po_glyphnames) in E. rewrite N in E. discriminate.
  - destruct (Z.eq_dec (po_version p) version2) as [V|V].
    + destruct (post_no_names p H V N) as [W R]. exists (post_header p). split; [exact W|].
      rewrite R. split; [discriminate|tauto].
    + destruct (post_other p H V) as [W R]. exists (post_header p). split; [exact W|].
      rewrite R. split; [tauto|]. intros _. f_equal. rewrite <- N. apply with_same.
Qed.

(** Version 2 tables are written as OpenType says: the header, one index per
    name and a pool of the names that are not standard, in which the indices
    stand for the names. *)
Theorem C41_format : forall p names, post_fields_ok p -> po_version p = 2 * 65536 ->
  po_glyphnames p = Some names -> names_fit names ->
  exists ix pool, post_ser p = Ok (post_header p ++ names_bytes ix pool) /\
    Forall is_u16 ix /\ pool_ok pool /\ Forall2 (stands_for pool) ix names /\
    pool = own_names names.
Proof.
  intros p names H V N (F1 & F2 & F3).
  exists (indices 0 names), (own_names names). split; [|split; [|split; [|split]]].
  - rewrite (post_ser2 p names H V N), u16_id by lia. unfold names_bytes.
    rewrite indices_length, pool_pascal by exact F3. reflexivity.
  - apply indices_u16.
  - exact F3.
  - apply (indices_stand names []); [reflexivity|cbn; lia|]. exists []. now rewrite app_nil_r.
  - reflexivity.
Qed.

(** Every version 2 table is read with the names its indices stand for,
    whatever the order of its pool and however often entries are used. *)
Theorem C41_read : forall p ix pool names, post_fields_ok p -> po_version p = 2 * 65536 ->
  Forall is_u16 ix -> Z.of_nat (length ix) <= 65535 -> pool_ok pool -> Forall text pool ->
  Forall2 (stands_for pool) ix names -> po_glyphnames p = Some names ->
  from_bytes post_de (post_header p ++ names_bytes ix pool) = Ok p.
Proof.
  intros p ix pool names H V Hi Hl HP HT HF N. rewrite post_read_names by assumption.
  rewrite (stands_rmap _ _ _ HF), <- N, with_same. reflexivity.
Qed.

(** An index that stands for nothing aborts the reader. *)
Theorem C41_bad_index_aborts : forall p ix pool, post_fields_ok p -> po_version p = 2 * 65536 ->
  Forall is_u16 ix -> Z.of_nat (length ix) <= 65535 -> pool_ok pool -> Forall text pool ->
  Exists (fun i => 258 + Z.of_nat (length pool) <= i) ix ->
  from_bytes post_de (post_header p ++ names_bytes ix pool) = Panic.
Proof.
  intros p ix pool H V Hi Hl HP HT HX. rewrite post_read_names by assumption.
  assert (E: rmapM (name_at pool) ix = Panic).
  { clear - HX Hi.
    assert (NE: forall i, name_at pool i <> Err) by (intros i; unfold name_at; destruct (if i <? 258 then _ else _); discriminate).
    induction HX as [i ix Hx|i ix HX IH]; cbn [rmapM].
    - assert (E: name_at pool i = Panic).
      { unfold name_at. replace (i <? 258) with false by lia.
        destruct (nth_error pool (Z.to_nat (i - 258))) eqn:E; [|reflexivity].
        assert (nth_error pool (Z.to_nat (i - 258)) <> None) by congruence. apply nth_error_Some in H. lia. }
      now rewrite E.
    - inversion Hi; subst. destruct (name_at pool i) eqn:E; cbn [rbind]; [|now apply NE in E|reflexivity].
      now rewrite IH. }
  now rewrite E.
Qed.

(** The version [major].[minor/160] of a table that was read is written with
    the same bytes exactly when the minor byte is below 160 and not 2 or 4
    modulo 5. *)
Theorem C41_version_iff : forall major minor, 0 <= major <= 255 -> 0 <= minor <= 255 ->
  exists v, from_bytes de_version16dot16 [0; major; minor; 0] = Ok v /\
    (ser_version16dot16 v = Ok [0; major; minor; 0] <->
     minor < 160 /\ minor mod 5 <> 2 /\ minor mod 5 <> 4).
Proof.
  intros major minor H1 H2. exists (version_of (65536 * major + 256 * minor)). split.
  - unfold from_bytes, de_version16dot16, pbind, de_i32, de_prim, consume, consume_or_peek, rd_new.
    cbn [rd_input rd_ptr prim_width length Nat.add Nat.ltb Nat.leb firstn skipn prim_signed].
    unfold be_value. cbn [fold_left]. unfold pret. do 2 f_equal.
    rewrite wrap_i_id; [lia|lia|]. change (2 ^ (8 * Z.of_nat 4 - 1)) with 2147483648. lia.
  - now apply version_iff.
Qed.

(** Long names are written without an error and lost. *)
Theorem C41_long_refuted : exists p b p', post_fields_ok p /\ post_ser p = Ok b /\
  from_bytes post_de b = Ok p' /\ p' <> p.
Proof.
  set (p := post_new 131072 (fixed_from_packed 0) 0 0 false (Some [repeat 0 256])).
  exists p. eexists. eexists. split; [|split; [vm_compute; reflexivity|split; [vm_compute; reflexivity|]]].
  - unfold post_fields_ok, in_range. cbn [p post_new po_version po_italicAngle po_underlinePosition po_underlineThickness po_isFixedPitch po_minMemType42 po_maxMemType42 po_minMemType1 po_maxMemType1].
    split; [lia|]. split; [reflexivity|]. split; [|lia]. exists 0. unfold in_range. split; [lia|]. split; reflexivity.
  - intros E. apply (f_equal po_glyphnames) in E. vm_compute in E. discriminate.
Qed.

(** A table with a standard name, two names of its own and a repeated one. *)
Definition post_case : post :=
  post_new 131072 (fixed_from_packed (-786432)) (-100) 50 true
    (Some [ascii_bytes ".notdef"%string; ascii_bytes "uni0627"%string; ascii_bytes "A"%string;
           ascii_bytes "b.alt"%string; ascii_bytes "uni0627"%string]).
Example C41_case : post_fields_ok post_case /\
  match po_glyphnames post_case with Some names => Forall text names /\ names_fit names | None => False end /\
  post_ser post_case = Ok ([0; 2; 0; 0; 255; 244; 0; 0; 255; 156; 0; 50; 0; 0; 0; 1] ++ repeat 0 16 ++
    [0; 5; 0; 0; 1; 2; 0; 36; 1; 3; 1; 4] ++ [7; 117; 110; 105; 48; 54; 50; 55] ++
    [5; 98; 46; 97; 108; 116] ++ [7; 117; 110; 105; 48; 54; 50; 55]) .
Proof.
  split.
  { unfold post_fields_ok, in_range. cbn [post_case post_new po_version po_italicAngle po_underlinePosition po_underlineThickness po_isFixedPitch po_minMemType42 po_maxMemType42 po_minMemType1 po_maxMemType1].
    split; [lia|]. split; [reflexivity|]. split; [|lia]. exists (-786432). unfold in_range. split; [lia|]. split; reflexivity. }
  split; [|vm_compute; reflexivity].
  cbn [post_case post_new po_glyphnames]. split.
  - assert (A: forall n, forallb (fun c => (0 <=? c) && (c <=? 127)) n = true -> text n).
    { intros n Hn. exists n. rewrite forallb_forall in Hn. split.
      - apply Forall_forall. intros c Hc. specialize (Hn c Hc). unfold scalar. lia.
      - induction n as [|c n IH]; [reflexivity|]. cbn [map concat]. rewrite <- IH by (intros; apply Hn; now right).
        unfold utf8_char. specialize (Hn c (or_introl eq_refl)). replace (c <=? 127) with true by lia. reflexivity. }
    repeat (apply Forall_cons || apply Forall_nil); apply A; vm_compute; reflexivity.
  - unfold names_fit.
    assert (E: own_names [ascii_bytes ".notdef"%string; ascii_bytes "uni0627"%string; ascii_bytes "A"%string; ascii_bytes "b.alt"%string; ascii_bytes "uni0627"%string]
             = [ascii_bytes "uni0627"%string; ascii_bytes "b.alt"%string; ascii_bytes "uni0627"%string]) by (vm_compute; reflexivity).
    rewrite E. split; [cbn [length]; lia|]. split; [cbn [length]; lia|].
    repeat (apply Forall_cons || apply Forall_nil); vm_compute; discriminate.
Qed.

Print Assumptions C41_roundtrip_iff.
Print Assumptions C41_format.
Print Assumptions C41_read.
Print Assumptions C41_bad_index_aborts.
Print Assumptions C41_version_iff.
Print Assumptions C41_long_refuted.

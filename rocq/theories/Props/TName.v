(** C40: the naming table keeps every record, its order and its string. *)
From Coq Require Import List ZArith Lia.
Import ListNotations.
From Verif.Model Require Import MBase MName.
From Verif.Spec Require Import SBase SGlyph SLayout SName.
From Verif.Proofs Require Import PBase PName.
Open Scope Z_scope.

(** Records with 16-bit fields whose strings their character set can express,
    at most 5460 of them and with lengths and positions of 16 bits, are written
    and read back: same records, same order, same strings. *)
Theorem C40_roundtrip : forall other rs,
  Forall fields_ok rs -> Forall (expressible other) rs -> fits other rs ->
  exists b, name_ser other rs = Ok b /\ from_bytes (name_de other) b = Ok rs.
Proof.
  intros other rs HO HE (Hn & bss & HF & HP).
  eexists. split; [exact (name_ser_ok other rs bss Hn HF HP)|].
  apply name_read; [exact HO|lia|].
  exists (irecs 0 rs bss), (concat bss). split; [reflexivity|].
  exact (irecs_at other rs bss [] HF HE HP).
Qed.

(** The bytes written are a naming table of these records. *)
Theorem C40_layout : forall other rs b,
  Forall (expressible other) rs -> fits other rs -> name_ser other rs = Ok b ->
  name_table other rs b.
Proof.
  intros other rs b HE (Hn & bss & HF & HP) Hb.
  rewrite (name_ser_ok other rs bss Hn HF HP) in Hb. apply Ok_inj in Hb. subst b.
  exists (irecs 0 rs bss), (concat bss). split; [reflexivity|].
  exact (irecs_at other rs bss [] HF HE HP).
Qed.

(** Every naming table whose storage area follows its records is read, however
    its strings are ordered, shared or overlapping. *)
Theorem C40_read : forall other rs b,
  Forall fields_ok rs -> Z.of_nat (length rs) <= 65535 -> name_table other rs b ->
  from_bytes (name_de other) b = Ok rs.
Proof. intros; eapply name_read; eauto. Qed.

(** Writing never reports an error; it panics exactly when the record count
    overflows or a record has a platform and encoding the library does not
    handle. *)
Theorem C40_write_panics : forall other rs, Forall fields_ok rs ->
  (name_ser other rs = Panic <->
    Z.of_nat (length rs) mod 65536 > 5460 \/
    Exists (fun r => ~ handled (nr_platform r) (nr_encoding r)) rs) /\
  name_ser other rs <> Err.
Proof. intros; now apply name_ser_panic. Qed.

(** The strings of Unicode records are stored as UTF-16, and every string of
    Unicode scalar values is expressible there, whatever the other character
    sets do. *)
Theorem C40_unicode : forall other r,
  unicode_record (nr_platform r) (nr_encoding r) ->
  encoded_as other r (utf16 (nr_string r)) /\
  (Forall scalar (nr_string r) -> expressible other r).
Proof.
  intros other r H. assert (E: encoded_as other r (utf16 (nr_string r))).
  { exists Utf16be. split; [exact H|]. cbn [coder_of encode]. symmetry. apply utf16_encode_spec. }
  split; [exact E|]. intros Hs. exists (utf16 (nr_string r)). split; [exact E|].
  exists Utf16be. split; [exact H|]. cbn [coder_of decode].
  rewrite <- utf16_encode_spec. now apply utf16_roundtrip.
Qed.

(** Records made by [windows_unicode] are Unicode records, and say by their
    encoding whether all characters are in the Basic Multilingual Plane. *)
Theorem C40_windows_unicode : forall n s,
  let r := windows_unicode n s in
  unicode_record (nr_platform r) (nr_encoding r) /\
  nr_platform r = 3 /\ nr_language r = 1033 /\ nr_name r = n /\ nr_string r = s /\
  (nr_encoding r = 1 <-> Forall (fun c => c <= 65535) s) /\
  (nr_encoding r = 10 <-> Exists (fun c => c > 65535) s).
Proof.
  intros n s. cbn. unfold unicode_record.
  destruct (existsb (fun c => 65535 <? c) s) eqn:E.
  - apply existsb_exists in E. destruct E as (c & Hc & Hl).
    repeat split; try lia.
    + intros HF. rewrite Forall_forall in HF. specialize (HF c Hc). cbv beta in HF. lia.
    + intros _. apply Exists_exists. exists c. split; auto. lia.
  - assert (F: Forall (fun c => c <= 65535) s).
    { apply Forall_forall. intros c Hc. destruct (Z_le_dec c 65535); auto.
      assert (existsb (fun c => 65535 <? c) s = true) by (apply existsb_exists; exists c; split; auto; lia).
      congruence. }
    repeat split; try lia; auto. intros HE. apply Exists_exists in HE. destruct HE as (c & Hc & Hl).
    rewrite Forall_forall in F. specialize (F c Hc). cbv beta in F. lia.
Qed.

(** A string of 32768 letters takes 65536 bytes: it is written without an
    error, and reads back as the empty string. *)
Theorem C40_long_refuted : forall other, exists r b,
  fields_ok r /\ expressible other r /\ name_ser other [r] = Ok b /\
  exists r', from_bytes (name_de other) b = Ok [r'] /\ nr_string r' <> nr_string r.
Proof.
  intros other. destruct long_text as (s & SC & L & NE).
  destruct (long_text_lost other s SC L) as (b & W & R).
  exists (mkNR 3 1 1033 4 s), b. split; [apply plain_fields|].
  split; [apply C40_unicode; [apply plain_unicode|exact SC]|]. split; [exact W|].
  exists (mkNR 3 1 1033 4 []). split; [exact R|]. cbn [nr_string]. congruence.
Qed.

(** The header's pointer to the storage area is ignored: a valid table that
    leaves a gap after its records is read with other strings. *)
Theorem C40_storage_refuted : forall other, exists rs gap b rs',
  Forall fields_ok rs /\ name_table_gap other rs gap b /\
  from_bytes (name_de other) b = Ok rs' /\ rs' <> rs.
Proof.
  intros other.
  exists [mkNR 3 1 1033 4 [65]], [0; 66],
    ([0; 0; 0; 1; 0; 20] ++ words [3; 1; 1033; 4; 2; 0] ++ [0; 66] ++ [0; 65]), [mkNR 3 1 1033 4 [66]].
  split; [repeat (apply Forall_cons || apply Forall_nil); unfold fields_ok, is_u16; cbn [nr_platform nr_encoding nr_language nr_name]; lia|].
  split.
  { exists [[3; 1; 1033; 4; 2; 0]], [0; 65]. split; [reflexivity|].
    repeat constructor. exists [], [0; 65], []. repeat split; try (cbn; lia).
    exists Utf16be. split; [unfold charset_for, unicode_record; cbn; lia|reflexivity]. }
  split; [vm_compute; reflexivity|discriminate].
Qed.

(** A Windows record with a character outside the Basic Multilingual Plane and
    a Macintosh record, read with any coder that keeps ASCII. *)
Example C40_case : forall other,
  encode (other MacRoman) [82; 101; 103] = [82; 101; 103] ->
  decode (other MacRoman) [82; 101; 103] = [82; 101; 103] ->
  let rs := [windows_unicode 1 [82; 128512]; mkNR 1 0 0 2 [82; 101; 103]] in
  Forall fields_ok rs /\ Forall (expressible other) rs /\ fits other rs /\
  name_ser other rs = Ok [0; 0; 0; 2; 0; 30; 0; 3; 0; 10; 4; 9; 0; 1; 0; 6; 0; 0;
                          0; 1; 0; 0; 0; 0; 0; 2; 0; 3; 0; 6; 0; 82; 216; 61; 222; 0; 82; 101; 103].
Proof.
  intros other H1 H2 rs.
  assert (E: Forall2 (encoded_as other) rs [utf16 [82; 128512]; [82; 101; 103]]).
  { constructor; [apply C40_unicode; unfold unicode_record; cbn; lia|]. constructor; [|constructor].
    exists MacRoman. split; [cbn; lia|]. symmetry. exact H1. }
  split; [repeat (apply Forall_cons || apply Forall_nil); unfold fields_ok, is_u16; cbn; lia|].
  split.
  { repeat (apply Forall_cons || apply Forall_nil).
    - apply C40_unicode; [unfold unicode_record; cbn; lia|].
      repeat (apply Forall_cons || apply Forall_nil); unfold scalar; lia.
    - exists [82; 101; 103]. split; exists MacRoman; (split; [cbn; lia|]); [symmetry; exact H1|exact H2]. }
  assert (P: placed 0 [utf16 [82; 128512]; [82; 101; 103]]) by (cbn; lia).
  assert (N: Z.of_nat (length rs) <= 5460) by (cbn; lia).
  split; [split; [exact N|exists [utf16 [82; 128512]; [82; 101; 103]]; split; assumption]|].
  rewrite (name_ser_ok other rs _ N E P). vm_compute. reflexivity.
Qed.
Example C40_case_panic : forall other, name_ser other [mkNR 3 6 0 0 []] = Panic.
Proof. reflexivity. Qed.

Print Assumptions C40_roundtrip.
Print Assumptions C40_layout.
Print Assumptions C40_read.
Print Assumptions C40_write_panics.
Print Assumptions C40_unicode.
Print Assumptions C40_windows_unicode.
Print Assumptions C40_long_refuted.
Print Assumptions C40_storage_refuted.

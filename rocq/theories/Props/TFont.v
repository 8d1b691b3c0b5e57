(** Property theorems: the sfnt container (C06-C12, container part).
    [as_written] pairs each tag with the (successful) bytes of its table. *)
From Verif.Model Require Import MBase MTag MMap MFont.
From Verif.Spec Require Import SBase SReader SFont.
From Verif.Proofs Require PFont.

Definition as_written (tabs : list (list Z * list Z)) : list (list Z * res (list Z)) :=
  map (fun td => (fst td, Ok (snd td))) tabs.

(** ** C06 *)
Theorem C06_checksum_is_word_sum : forall l, checksum l = word_sum l mod 2 ^ 32.
Proof. exact PFont.checksum_spec. Qed.
Print Assumptions C06_checksum_is_word_sum.

Theorem C06_checksum_padding : forall l n, checksum (l ++ repeat 0 n) = checksum l.
Proof. exact PFont.checksum_pad. Qed.
Print Assumptions C06_checksum_padding.

Theorem C06_checksum_additive : forall a b, (length a mod 4 = 0)%nat ->
  checksum (a ++ b) = (checksum a + checksum b) mod 2 ^ 32.
Proof. exact PFont.checksum_app. Qed.
Print Assumptions C06_checksum_additive.

Example C06_ex : checksum [0xFF; 0xFF; 0xFF; 0xFF; 0; 0; 1; 2; 5] = 0x5000101.
Proof. reflexivity. Qed.

(** ** C07 *)
Theorem C07_whole_file_checksum : forall v tabs file,
  good_tabs tabs -> tags_increasing (map fst tabs) -> In HEAD (map fst tabs) ->
  font_to_bytes v (as_written tabs) = Ok file ->
  word_sum file mod 2 ^ 32 = 0xB1B0AFBA.
Proof. exact PFont.save_checksum. Qed.
Print Assumptions C07_whole_file_checksum.

Theorem C07_save_succeeds : forall v tabs,
  good_tabs tabs -> tags_increasing (map fst tabs) ->
  Z.of_nat (length tabs) < 4096 -> (forall d, In (HEAD, d) tabs -> (12 <= length d)%nat) ->
  exists file, font_to_bytes v (as_written tabs) = Ok file.
Proof. exact PFont.save_succeeds. Qed.
Print Assumptions C07_save_succeeds.

Definition ex_tabs : list (list Z * list Z) :=
  [([0x63; 0x76; 0x74; 0x20], [1; 2; 3]);
   (HEAD, [0; 1; 0; 0; 0; 0; 0; 9; 9; 9; 9; 9; 0x5F; 0x0F]);
   ([0x7A; 0x7A; 0x7A; 0x7A], [])].

Example C07_ex : good_tabs ex_tabs /\ tags_increasing (map fst ex_tabs) /\ In HEAD (map fst ex_tabs).
Proof.
  split; [|split].
  - repeat (constructor; [repeat split; repeat constructor; cbn; discriminate|]). constructor.
  - intros [|[|[|i]]] [|[|[|j]]] a b Hij Ha Hb; cbn in *;
      try (exfalso; inversion Hij; fail); try discriminate;
      try (injection Ha as <-); try (injection Hb as <-); try reflexivity;
      try (destruct j; discriminate); try (destruct i; discriminate);
      exfalso; apply PeanoNat.Nat.ltb_lt in Hij; discriminate.
  - right. now left.
Qed.
Example C07_ex_run : match font_to_bytes 0x00010000 (as_written ex_tabs) with
  | Ok f => (length f, checksum f) | _ => (0%nat, 0) end = (80%nat, 0xB1B0AFBA).
Proof. vm_compute. reflexivity. Qed.

(** ** C08 *)
Theorem C08_directory_well_formed : forall v tabs file,
  good_tabs tabs -> tags_increasing (map fst tabs) ->
  font_to_bytes v (as_written tabs) = Ok file -> Z.of_nat (length file) < 2 ^ 32 ->
  exists (offs : list Z) (w : list Z),
    length offs = length tabs /\ length w = 4%nat /\
    slice file 0 4 (be_bytes 4 v) /\
    (exists n, slice file 4 2 n /\ digits_value n = Z.of_nat (length tabs)) /\
    (forall i td off, nth_error tabs i = Some td -> nth_error offs i = Some off ->
       let len := Z.of_nat (length (snd td)) in
       entry_at file i (fst td) (word_sum (snd (adjusted [0; 0; 0; 0] td)) mod 2 ^ 32) off len /\
       off mod 4 = 0 /\ 12 + 16 * Z.of_nat (length tabs) <= off /\ off + len <= Z.of_nat (length file) /\
       slice file (Z.to_nat off) (length (snd td)) (snd (adjusted w td))) /\
    (forall i j td off off', (i < j)%nat -> nth_error tabs i = Some td ->
       nth_error offs i = Some off -> nth_error offs j = Some off' ->
       off + Z.of_nat (length (snd td)) <= off').
Proof. exact PFont.save_directory. Qed.
Print Assumptions C08_directory_well_formed.

(** ** C09 *)
Theorem C09_search_range : forall n itemsize,
  0 <= n < 32768 -> 0 <= itemsize < 65536 -> n * itemsize < 65536 ->
  get_search_range n itemsize
  = Ok (2 ^ Z.log2 n * itemsize, Z.log2 n,
        Z.max (2 ^ Z.log2 n * itemsize) (n * itemsize) - 2 ^ Z.log2 n * itemsize).
Proof. exact PFont.search_range_ok. Qed.
Print Assumptions C09_search_range.

Theorem C09_search_range_overflow : forall n itemsize,
  0 <= n < 65536 -> 0 <= itemsize < 65536 -> 32768 <= n \/ 65536 <= n * itemsize ->
  get_search_range n itemsize = Panic.
Proof. exact PFont.search_range_panic. Qed.
Print Assumptions C09_search_range_overflow.

(** 4096 tables (or cmap segments of 16 bytes) make the computation overflow. *)
Theorem C09_no_overflow_refuted : exists n itemsize,
  0 <= n < 65536 /\ 0 <= itemsize < 65536 /\ get_search_range n itemsize = Panic.
Proof.
  exact (ex_intro _ 4096 (ex_intro _ 16 (conj (conj (Zle_bool_imp_le 0 4096 eq_refl) eq_refl)
    (conj (conj (Zle_bool_imp_le 0 16 eq_refl) eq_refl) eq_refl)))).
Qed.
Print Assumptions C09_no_overflow_refuted.

Example C09_ex : get_search_range 11 16 = Ok (128, 3, 48).
Proof. reflexivity. Qed.

(** ** C10 *)
Theorem C10_save_load : forall v tabs file,
  v = 0x00010000 \/ v = 0x4F54544F -> good_tabs tabs -> tags_increasing (map fst tabs) ->
  font_to_bytes v (as_written tabs) = Ok file -> Z.of_nat (length file) < 2 ^ 32 ->
  exists w, length w = 4%nat /\ from_bytes font_read_raw file = Ok (v, map (adjusted w) tabs).
Proof. exact PFont.save_load. Qed.
Print Assumptions C10_save_load.

(** ** C11 *)
Theorem C11_save_load_save : forall v tabs file v' tabs',
  v = 0x00010000 \/ v = 0x4F54544F -> good_tabs tabs -> tags_increasing (map fst tabs) ->
  font_to_bytes v (as_written tabs) = Ok file -> Z.of_nat (length file) < 2 ^ 32 ->
  from_bytes font_read_raw file = Ok (v', tabs') ->
  font_to_bytes v' (as_written tabs') = Ok file.
Proof. exact PFont.save_load_save. Qed.
Print Assumptions C11_save_load_save.

(** ** C12: outcome of loading, for every byte string. *)
Theorem C12_load_success : forall file v m,
  Forall is_byte file -> from_bytes font_read_raw file = Ok (v, m) ->
  exists trs, directory file v trs /\
    Forall (fun tr => tr_offset tr + tr_length tr <= Z.of_nat (length file)) trs /\
    (forall tr, In tr trs -> exists d, bm_get lex_ltb (tr_tag tr) m = Some d) /\
    (forall t d, bm_get lex_ltb t m = Some d -> exists tr, In tr trs /\ tr_tag tr = t /\
       slice file (Z.to_nat (tr_offset tr)) (Z.to_nat (tr_length tr)) d).
Proof. exact PFont.load_ok_inv. Qed.
Print Assumptions C12_load_success.

Theorem C12_load_error_iff : forall file, Forall is_byte file ->
  (from_bytes font_read_raw file = Err <-> forall v trs, ~ directory file v trs).
Proof. exact PFont.load_err_iff. Qed.
Print Assumptions C12_load_error_iff.

(** Loading aborts exactly when some entry's range leaves the file. *)
Theorem C12_load_abort_iff : forall file, Forall is_byte file ->
  (from_bytes font_read_raw file = Panic <->
   exists v trs, directory file v trs /\
     Exists (fun tr => Z.of_nat (length file) < tr_offset tr + tr_length tr) trs).
Proof. exact PFont.load_panic_iff. Qed.
Print Assumptions C12_load_abort_iff.

Definition truncated_font : list Z :=
  [0; 1; 0; 0; 0; 1; 0; 16; 0; 0; 0; 0; 0x68; 0x65; 0x61; 0x64; 0; 0; 0; 0; 0; 0; 0; 28; 0; 0; 0; 54].

Theorem C12_no_abort_refuted : exists file,
  forallb (fun b => (0 <=? b) && (b <=? 255)) file = true /\ from_bytes font_read_raw file = Panic.
Proof. exact (ex_intro _ truncated_font (conj eq_refl eq_refl)). Qed.
Print Assumptions C12_no_abort_refuted.

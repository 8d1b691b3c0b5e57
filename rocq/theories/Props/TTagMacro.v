(** C80: the tag! macro. *)
From Coq Require Import List ZArith Bool Lia.
Import ListNotations.
From Verif.Model Require Import MBase MTag MTagMacro.
From Verif.Spec Require Import SBase SName SPost STagMacro.
From Verif.Proofs Require Import PBase PTag PTagMacro.
Open Scope Z_scope.

(** [tag!] of a string literal on one line: the tag is the one that
    Tag::from_raw makes of the string without the quotes at its ends, and there is
    one exactly if that succeeds and the string has neither a quote nor a
    backslash inside.  More tokens make no difference. *)
Theorem C80_tag text v w t more : string_literal text v -> one_line text -> unquoted v w ->
  expand_tag (Literal text :: more) = Ok t <-> tag_from_raw (utf8 w) = TagOk t /\ ~ In 34 w /\ ~ In 92 w.
Proof.
  intros (s & -> & Hs) H1 Hu. apply expand_iff_trim with (v := v); [|exact Hu]. apply spells_one_line; [|exact Hs].
  intros H. apply H1. right. apply in_or_app. now left.
Qed.
(** So for strings without quotes and backslashes the macro is Tag::from_raw, at
    compile time. *)
Theorem C80_from_raw text v t more : string_literal text v -> one_line text -> ~ In 34 v -> ~ In 92 v ->
  expand_tag (Literal text :: more) = Ok t <-> tag_from_raw (utf8 v) = TagOk t.
Proof.
  intros Hs H1 Hq Hb. rewrite (C80_tag text v v t more Hs H1); [tauto|]. exists [], []. rewrite app_nil_r.
  split; [reflexivity|]. split; [constructor|]. split; [constructor|].
  split; intros c w' -> ->; apply Hq; [now left|apply in_or_app; right; now left].
Qed.
(** A literal may be broken over lines, too. *)
Theorem C80_broken_lines text v t more : string_literal text v -> ~ In 34 v -> ~ In 92 v ->
  tag_from_raw (utf8 v) = TagOk t -> expand_tag (Literal text :: more) = Ok t.
Proof.
  intros (s & -> & Hs) Hq Hb Ht. pose proof Ht as Ht'. apply tag_from_raw_ok in Ht' as (_ & HP & _). apply utf8_printable in HP as [_ HP].
  apply expand_iff_trim with (v := v) (w := v); [now apply spells_printable| |tauto]. exists [], []. rewrite app_nil_r.
  split; [reflexivity|]. split; [constructor|]. split; [constructor|].
  split; intros c w' -> ->; apply Hq; [now left|apply in_or_app; right; now left].
Qed.
(** The ordinary use: one to four printable characters, padded with spaces. *)
Theorem C80_plain s : (1 <= length s <= 4)%nat -> Forall (fun c => 32 <= c <= 126 /\ c <> 34 /\ c <> 92) s ->
  expand_tag [Literal (34 :: s ++ [34])] = Ok (s ++ repeat 32 (4 - length s)).
Proof.
  intros HL HF. apply C80_broken_lines with (v := s).
  - exists s. split; [reflexivity|]. clear HL. induction HF as [|c s (H1 & H2 & H3) HF IH]; [constructor|]. apply sp_char; [lia|lia|lia|exact IH].
  - intros H. rewrite Forall_forall in HF. specialize (HF _ H). lia.
  - intros H. rewrite Forall_forall in HF. specialize (HF _ H). lia.
  - assert (HP: Forall (fun b => 32 <= b <= 126) s) by (eapply Forall_impl; [|exact HF]; cbn; tauto).
    rewrite utf8_ascii by exact HP. apply tag_from_raw_ok. tauto.
Qed.
(** Whatever the macro makes is a tag that Tag::from_raw accepts. *)
Theorem C80_valid toks t : expand_tag toks = Ok t -> tag_from_raw t = TagOk t.
Proof.
  intros H. destruct toks as [|[text|] toks]; try discriminate. cbn [expand_tag] in H.
  destruct (tag_literal text) as [inp| |] eqn:E; cbn [rbind] in H; try discriminate.
  assert (G: (1 <= length inp <= 4)%nat /\ Forall (fun b => 32 <= b <= 126) inp).
  { unfold tag_literal in E. destruct text as [|c s]; [discriminate|]. destruct (_ && _); [|discriminate].
    destruct (cook _ _) as [v| |]; cbn [rbind] in E; try discriminate.
    destruct (tag_from_raw (str_bytes (trim_quotes v))) as [t'|] eqn:T; [|discriminate]. injection E as <-.
    apply tag_from_raw_ok in T. tauto. }
  destruct G as [GL GP]. rewrite app_assoc in H. set (s := inp ++ repeat 32 (4 - length inp)) in *.
  assert (Ls: length s = 4%nat) by (unfold s; rewrite app_length, repeat_length; lia).
  assert (Ps: Forall (fun b => 32 <= b <= 126) s).
  { apply Forall_app. split; [exact GP|]. apply Forall_forall. intros x Hx. apply repeat_spec in Hx. lia. }
  destruct (byte_string (s ++ [34; 41; 32; 125])) as [[bs r]| |] eqn:B; cbn [rbind fst snd] in H; try discriminate.
  destruct (bytes_eqb r [41; 32; 125] && (length bs =? 4)%nat) eqn:C; [|discriminate]. injection H as <-.
  apply andb_prop in C as [C1 C2]. apply Nat.eqb_eq in C2.
  assert (Er: length r = 3%nat).
  { clear -C1. destruct r as [|a [|b [|c [|d r]]]]; cbn [bytes_eqb] in C1; rewrite ?andb_false_r in C1; try discriminate. reflexivity. }
  destruct (byte_string_length _ _ _ _ (Nat.le_refl _) B) as [_ X]. destruct X as (Eq & _).
  { rewrite app_length, Ls. cbn [length]. lia. }
  rewrite <- (app_same_length _ _ _ _ Eq) by lia. apply tag_from_raw_ok. split; [lia|]. split; [exact Ps|].
  rewrite Ls. cbn [repeat Nat.sub]. now rewrite app_nil_r.
Qed.
(** No literal, or one of another kind (it does not start with a quote), is no tag. *)
Theorem C80_other toks : (forall text more, toks = Literal (34 :: text) :: more -> False) -> expand_tag toks = Panic.
Proof.
  intros H. destruct toks as [|[text|] more]; try reflexivity. destruct text as [|c text]; [reflexivity|].
  cbn [expand_tag tag_literal]. destruct (Z.eqb_spec c 34) as [->|]; [|reflexivity]. now destruct (H text more).
Qed.

(** Quotes at the ends are lost: tag!("\"ab\"") is the tag of "ab". *)
Theorem C80_quotes_refuted : exists text v t, string_literal text v /\ one_line text /\
  tag_from_raw (utf8 v) = TagOk t /\ exists t', expand_tag [Literal text] = Ok t' /\ t' <> t.
Proof.
  exists [34; 92; 34; 97; 98; 92; 34; 34], [34; 97; 98; 34], [34; 97; 98; 34].
  split; [exists [92; 34; 97; 98; 92; 34]; split; [reflexivity|]|].
  { apply sp_escape; [cbn [In]; tauto|]. apply sp_char; [lia|lia|lia|]. apply sp_char; [lia|lia|lia|]. apply sp_escape; [cbn [In]; tauto|constructor]. }
  split; [unfold one_line; cbn [In]; lia|]. split; [reflexivity|]. exists [97; 98; 32; 32]. split; [reflexivity|discriminate].
Qed.
(** A tag with a backslash cannot be written: tag!("a\\b") does not compile. *)
Theorem C80_backslash_refuted : exists text v t, string_literal text v /\ one_line text /\
  tag_from_raw (utf8 v) = TagOk t /\ expand_tag [Literal text] = Panic.
Proof.
  exists [34; 97; 92; 92; 98; 34], [97; 92; 98], [97; 92; 98; 32].
  split; [exists [97; 92; 92; 98]; split; [reflexivity|]|].
  { apply sp_char; [lia|lia|lia|]. apply sp_escape; [cbn [In]; tauto|]. apply sp_char; [lia|lia|lia|constructor]. }
  split; [unfold one_line; cbn [In]; lia|]. split; reflexivity.
Qed.
(** After a broken line more is skipped than the compiler skips: here a
    no-break space, which no tag can have. *)
Theorem C80_blank_refuted : exists text v, string_literal text v /\
  (forall t, tag_from_raw (utf8 v) <> TagOk t) /\ exists t, expand_tag [Literal text] = Ok t.
Proof.
  exists [34; 92; 10; 160; 97; 34], [160; 97].
  split; [exists [92; 10; 160; 97]; split; [reflexivity|]|].
  { apply (sp_continued _ [] [160; 97]); [constructor|intros c s' E; injection E as <- _; unfold ascii_blank; lia|].
    apply sp_char; [lia|lia|lia|]. apply sp_char; [lia|lia|lia|constructor]. }
  split; [intros t; discriminate|]. eexists. reflexivity.
Qed.

(** tag!("\u{4f_}S\x2f2") is "OS/2"; tag!("cvt") is "cvt " *)
Example C80_example :
  string_literal [34; 92; 117; 123; 52; 102; 95; 125; 83; 92; 120; 50; 102; 50; 34] [79; 83; 47; 50] /\
  expand_tag [Literal [34; 92; 117; 123; 52; 102; 95; 125; 83; 92; 120; 50; 102; 50; 34]] = Ok [79; 83; 47; 50] /\
  expand_tag [Literal [34; 99; 118; 116; 34]; Other] = Ok [99; 118; 116; 32] /\
  expand_tag [Literal [34; 99; 118; 116; 99; 118; 34]] = Panic.
Proof.
  split; [|repeat split; reflexivity]. exists [92; 117; 123; 52; 102; 95; 125; 83; 92; 120; 50; 102; 50]. split; [reflexivity|].
  change 79 with (hex_value [4; 15]).
  apply (sp_unicode _ 52 4 [102; 95] [15] [83; 92; 120; 50; 102; 50]); [unfold hexit; lia| |cbn [length]; lia|unfold scalar, hex_value; cbn [fold_left]; lia|].
  - apply hx_digit; [unfold hexit; lia|]. apply hx_under. constructor.
  - apply sp_char; [lia|lia|lia|]. change 47 with (16 * 2 + 15). apply sp_hex; [unfold hexit; lia|unfold hexit; lia|lia|].
    apply sp_char; [lia|lia|lia|constructor].
Qed.

Print Assumptions C80_tag.
Print Assumptions C80_from_raw.
Print Assumptions C80_broken_lines.
Print Assumptions C80_plain.
Print Assumptions C80_valid.
Print Assumptions C80_other.
Print Assumptions C80_quotes_refuted.
Print Assumptions C80_backslash_refuted.
Print Assumptions C80_blank_refuted.

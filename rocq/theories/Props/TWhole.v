(** C82: an edited table is written to the file and found there again. *)
From Coq Require Import String QArith Lia.
From Verif.Model Require Import MBase MTag MMap MFont MFixed MTables MMetrics MGlyph MGlyf MStore MPost MCmap MCli MWhole.
From Verif.Model Require MName.
From Verif.Spec Require Import SBase SFont STables SGlyf SStore SWhole.
From Verif.Spec Require SName SLayout.
From Verif.Proofs Require PWhole PStore PSave PStoreEx PFont PTables.
From Verif.Props Require TName TTables.
Open Scope Z_scope.

(** ** For any way of writing the tables *)
(** The file contains what the writer of the table gives.  The tables which are
    made anew if glyf, loca or maxp was edited are described in C16. *)
Theorem C82_edited_saved : forall T (K : codecs T) v s file s',
  (v = 0x00010000 \/ v = 0x4F54544F) -> good_store K s ->
  font_write K v s = (Ok file, s') -> Z.of_nat (length file) < 2 ^ 32 -> Forall is_byte file ->
  forall tag l, contents s tag = Some (Typed l) -> ~ rebuilt_tag s tag -> ~ In tag [TAG_GPOS; TAG_GSUB] ->
  exists d, ser_loaded K l = Ok d /\ saved_as file tag d.
Proof. exact @PWhole.edited_saved. Qed.
(** GSUB and GPOS. *)
Theorem C82_layout_saved : forall T (K : codecs T) v s file s',
  (v = 0x00010000 \/ v = 0x4F54544F) -> good_store K s ->
  font_write K v s = (Ok file, s') -> Z.of_nat (length file) < 2 ^ 32 -> Forall is_byte file ->
  forall tag l, contents s tag = Some (Typed l) -> In tag [TAG_GPOS; TAG_GSUB] ->
  exists x m d, sel_other l = Some x /\ has_value K s TAG_maxp (LMaxp m) /\
    ser_layout K tag x (num_glyphs m) = Ok d /\ saved_as file tag d.
Proof. exact @PWhole.layout_saved. Qed.
(** The file can be loaded. *)
Theorem C82_loads : forall T (K : codecs T) v s file s' h,
  (v = 0x00010000 \/ v = 0x4F54544F) -> good_store K s ->
  font_write K v s = (Ok file, s') -> Z.of_nat (length file) < 2 ^ 32 -> Forall is_byte file ->
  has_value K s TAG_head (LHead h) -> head_tbl_ok h ->
  exists s2, font_load K file = Ok (v, s2).
Proof. exact @PWhole.saved_loads. Qed.

(** ** Names *)
(** The names of the tables, as the statements here and elsewhere write them. *)
Theorem C82_names : Forall2 named
  [TAG_avar; TAG_cmap; TAG_cvt; TAG_DSIG; TAG_fpgm; TAG_fvar; TAG_gasp; TAG_GDEF; TAG_glyf; TAG_GPOS; TAG_GSUB; TAG_gvar;
   TAG_head; TAG_hhea; TAG_hmtx; TAG_loca; TAG_MATH; TAG_maxp; TAG_name; TAG_OS2; TAG_post; TAG_prep; TAG_STAT]
  ["avar"; "cmap"; "cvt "; "DSIG"; "fpgm"; "fvar"; "gasp"; "GDEF"; "glyf"; "GPOS"; "GSUB"; "gvar";
   "head"; "hhea"; "hmtx"; "loca"; "MATH"; "maxp"; "name"; "OS/2"; "post"; "prep"; "STAT"]%string.
Proof. repeat constructor. Qed.
(** A table that is found is of the type its name says; it is left alone exactly
    if it has none of the names the library knows. *)
Theorem C82_kind : forall T (K : codecs T) s tag l, good_store K s -> finds K s tag l -> kind_named tag l.
Proof. exact @PWhole.found_kind. Qed.

(** ** With the tables of the library *)
Section Library.
Context {P : Type} (other : MName.charset -> MName.coder) (fragment : list Z -> further P -> list Z) (hash : cmapping -> Z).
Notation L := (library other fragment hash).

(** What the bytes set for a table are read as. *)
Theorem C82_type : forall s tag d l, finds L (ts_insert_raw tag d s) tag l -> type_named tag l.
Proof. apply PWhole.raw_type. Qed.
(** Tables that are read on their own. *)
Theorem C82_survives : forall v s file s' v2 s2 tag l,
  (v = 0x00010000 \/ v = 0x4F54544F) -> good_store L s ->
  font_write L v s = (Ok file, s') -> Z.of_nat (length file) < 2 ^ 32 -> Forall is_byte file ->
  font_load L file = Ok (v2, s2) ->
  contents s tag = Some (Typed l) -> self_contained tag -> ~ rebuilt_tag s tag -> keepable other hash l ->
  exists l', finds L s2 tag l' /\ comes_back l l'.
Proof. apply PWhole.plain_survives. Qed.
(** GSUB and GPOS, which need maxp. *)
Theorem C82_rules_survive : forall v s file s' v2 s2 tag l,
  (v = 0x00010000 \/ v = 0x4F54544F) -> good_store L s ->
  font_write L v s = (Ok file, s') -> Z.of_nat (length file) < 2 ^ 32 -> Forall is_byte file ->
  font_load L file = Ok (v2, s2) ->
  contents s tag = Some (Typed l) -> In tag [TAG_GPOS; TAG_GSUB] -> keepable other hash l ->
  (forall x, contents s TAG_maxp = Some (Typed (LMaxp x)) -> maxp_ok x) ->
  exists l', finds L s2 tag l' /\ comes_back l l'.
Proof. apply PWhole.layout_survives. Qed.
(** Outlines, which need head and loca. *)
Theorem C82_glyphs_survive : forall v s file s' v2 s2 gs,
  (v = 0x00010000 \/ v = 0x4F54544F) -> good_store L s ->
  font_write L v s = (Ok file, s') -> Z.of_nat (length file) < 2 ^ 32 -> Forall is_byte file ->
  font_load L file = Ok (v2, s2) ->
  contents s TAG_glyf = Some (Typed (LGlyf gs)) -> Forall glyph_fine gs ->
  (forall h, has_value L s TAG_head (LHead h) -> head_tbl_ok h) ->
  exists l', finds L s2 TAG_glyf l' /\ comes_back (LGlyf gs) l'.
Proof. apply PWhole.glyf_survives. Qed.

(** All of them at once, for a font loaded and edited in any way: every edited
    table which does not depend on others comes back. *)
Theorem C82_history : forall s ops v file s',
  (v = 0x00010000 \/ v = 0x4F54544F) -> good_store L s -> Forall (op_ok L) ops ->
  let edited := snd (run L ops s) in
  font_write L v edited = (Ok file, s') -> Z.of_nat (length file) < 2 ^ 32 -> Forall is_byte file ->
  (exists h, has_value L edited TAG_head (LHead h) /\ head_tbl_ok h) ->
  exists s2, font_load L file = Ok (v, s2) /\
    forall tag l, fold_left (fun m o => spec_step o m) ops (contents s) tag = Some (Typed l) -> self_contained tag ->
      ~ rebuilt_tag edited tag -> keepable other hash l ->
      exists l', finds L s2 tag l' /\ comes_back l l'.
Proof.
  intros s ops v file s' Hv Hg Ho edited E Hsz HB (h & Vh & Hh).
  destruct (PSave.run_good L ops s Hg Ho) as [G1 E1]. fold edited in G1, E1.
  destruct (PWhole.saved_loads L v edited file s' h Hv G1 E Hsz HB Vh Hh) as (s2 & L2). exists s2. split; [exact L2|].
  intros tag l Hc Hs Hn Hk. rewrite <- E1 in Hc. now apply (PWhole.plain_survives other fragment hash v edited file s' v s2 tag l).
Qed.
End Library.

(** A font with head and maxp in which the control values and the names are
    replaced by new ones. *)
Definition ex_codec : codecs (known (further unit)) := library (fun _ => MName.mkCoder (fun x => x) (fun x => x)) (fun _ _ => []) (fun _ => 0).
Definition ex_cvt : loaded (known (further unit)) := LOther TAG_cvt (KRest (FCvt [-1; 700])).
Definition ex_name : loaded (known (further unit)) := LOther TAG_name (KRest (FName [MName.windows_unicode 1 [82; 128512]])).
Definition ex_before : store (known (further unit)) :=
  [(TAG_head, Unloaded PStoreEx.head_bytes); (TAG_maxp, Unloaded (PStoreEx.maxp_bytes 1))].
Definition ex_ops : list (op (known (further unit))) :=
  [OInsert TAG_cvt (mk_table None ex_cvt); OInsert TAG_name (mk_table None ex_name)].
Definition ex_edited := snd (run ex_codec ex_ops ex_before).
Definition ex_file : list Z := Eval vm_compute in match fst (font_write ex_codec SFNT_TRUETYPE ex_edited) with Ok f => f | _ => [] end.

Lemma ex_file_result : fst (font_write ex_codec SFNT_TRUETYPE ex_edited) = Ok ex_file.
Proof. vm_compute. reflexivity. Qed.
Lemma ex_file_bytes : Forall is_byte ex_file.
Proof. apply PStoreEx.bytes_check. vm_compute. reflexivity. Qed.
Lemma ex_file_length : Z.of_nat (length ex_file) < 2 ^ 32.
Proof. vm_compute. reflexivity. Qed.
Example C82_case :
  good_store ex_codec ex_before /\ Forall (op_ok ex_codec) ex_ops /\
  (exists s', font_write ex_codec SFNT_TRUETYPE ex_edited = (Ok ex_file, s')) /\
  Z.of_nat (length ex_file) < 2 ^ 32 /\ Forall is_byte ex_file /\
  contents ex_edited TAG_cvt = Some (Typed ex_cvt) /\ keepable (fun _ => MName.mkCoder (fun x => x) (fun x => x)) (fun _ => 0) ex_cvt /\
  contents ex_edited TAG_name = Some (Typed ex_name) /\ keepable (fun _ => MName.mkCoder (fun x => x) (fun x => x)) (fun _ => 0) ex_name /\
  self_contained TAG_cvt /\ self_contained TAG_name /\
  (forall tag, ~ rebuilt_tag ex_edited tag) /\
  (exists h, has_value ex_codec ex_edited TAG_head (LHead h) /\ head_tbl_ok h).
Proof.
  split. { split; [apply PStoreEx.inc_check; reflexivity|]. repeat constructor; cbn; lia. }
  split. { apply Forall_cons; [|apply Forall_cons; [|apply Forall_nil]]; (split; [apply PStoreEx.pt; reflexivity|]); (split; [split; [reflexivity|apply PStore.tag_in_iff; reflexivity]|discriminate]). }
  split. { exists (snd (font_write ex_codec SFNT_TRUETYPE ex_edited)). rewrite (surjective_pairing (font_write _ _ _)) at 1. now rewrite ex_file_result. }
  split; [exact ex_file_length|]. split; [exact ex_file_bytes|].
  split; [reflexivity|]. split. { cbn. split; [reflexivity|]. repeat constructor; cbn; lia. }
  split; [reflexivity|]. split.
  { cbn [keepable ex_name]. split; [reflexivity|]. set (o := fun _ : MName.charset => _).
    split; [apply Forall_cons; [|apply Forall_nil]; unfold SName.fields_ok, SLayout.is_u16; cbn; lia|].
    assert (E: SName.encoded_as o (MName.windows_unicode 1 [82; 128512]) (SName.utf16 [82; 128512])) by (apply TName.C40_unicode; unfold SName.unicode_record; cbn; lia).
    split.
    - apply Forall_cons; [|apply Forall_nil]. apply TName.C40_unicode; [unfold SName.unicode_record; cbn; lia|].
      repeat (apply Forall_cons || apply Forall_nil); unfold SName.scalar; lia.
    - split; [cbn; lia|]. eexists. split; [apply Forall2_cons; [exact E|apply Forall2_nil]|]. cbn. lia. }
  split; [intros H; apply PStore.tag_in_iff in H; discriminate H|]. split; [intros H; apply PStore.tag_in_iff in H; discriminate H|].
  split. { intros tag [[H _] _]. now apply H. }
  exists (PStoreEx.ex_head 0). split; [right; eexists; split; [reflexivity|]; vm_compute; reflexivity|].
  apply PWhole.loc_format_ok; [exact TTables.C42_ex_head|reflexivity].
Qed.

Print Assumptions C82_names. Print Assumptions C82_kind. Print Assumptions C82_type.
Print Assumptions C82_edited_saved.
Print Assumptions C82_layout_saved.
Print Assumptions C82_loads.
Print Assumptions C82_survives.
Print Assumptions C82_rules_survive.
Print Assumptions C82_glyphs_survive.
Print Assumptions C82_history.

(** Hypotheses of [C82_type] and [C82_kind]: three control values, and a table
    of an unknown name. *)
Example C82_type_case : forall s : store (known (further unit)),
  finds ex_codec (ts_insert_raw TAG_cvt [0; 1; 255; 255; 2; 188] s) TAG_cvt (LOther TAG_cvt (KRest (FCvt [1; -1; 700]))) /\
  finds ex_codec (ts_insert_raw TAG_DSIG [7] s) TAG_DSIG (LUnknown [7]).
Proof.
  intros s. split.
  - eexists (mk_table _ _), _. split; [|reflexivity]. unfold ts_get, get_by, load_by, ts_insert_raw.
    rewrite PStore.st_get_set. destruct (list_eq_dec Z.eq_dec TAG_cvt TAG_cvt); [|congruence].
    rewrite PStore.des3_self by (apply PStore.not_dep; reflexivity).
    change (des0 ex_codec TAG_cvt [0; 1; 255; 255; 2; 188]) with (@Ok (loaded (known (further unit))) (LOther TAG_cvt (KRest (FCvt [1; -1; 700])))).
    cbv beta iota. rewrite PStore.st_get_set. destruct (list_eq_dec Z.eq_dec TAG_cvt TAG_cvt); [|congruence]. reflexivity.
  - eexists (mk_table _ _), _. split; [|reflexivity]. unfold ts_get, get_by, load_by, ts_insert_raw.
    rewrite PStore.st_get_set. destruct (list_eq_dec Z.eq_dec TAG_DSIG TAG_DSIG); [|congruence].
    rewrite PStore.des3_self by (apply PStore.not_dep; reflexivity).
    change (des0 ex_codec TAG_DSIG [7]) with (@Ok (loaded (known (further unit))) (LUnknown [7])).
    cbv beta iota. rewrite PStore.st_get_set. destruct (list_eq_dec Z.eq_dec TAG_DSIG TAG_DSIG); [|congruence]. reflexivity.
Qed.

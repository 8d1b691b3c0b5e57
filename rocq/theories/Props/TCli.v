(** C71: the command line tools that rewrite a font file.
    C72: renaming glyphs to production names. *)
From Coq Require Import String.
From Coq Require Import List ZArith.
Import ListNotations.
From Verif.Model Require Import MBase MTag MMap MFont MFixed MTables MMetrics MGlyph MGlyf MStore MPost MCmap MCli.
From Verif.Model Require MGvar.
From Verif.Spec Require Import SBase SFont STables SGlyf SStore SCmapTable SPost SCli.
From Verif.Proofs Require PCli PNames PStoreEx PTables PFont.
Open Scope Z_scope.

Section Tools.
Context {T : Type} (K0 : codecs T) (hash : cmapping -> Z).

(** ** ttf-fix-checksum *)
(** It gives a file exactly when the file is a font with fewer than 4096 tables
    whose maxp and head can be read. *)
Theorem C71_fix_works : forall file, Forall is_byte file ->
  (exists out, fix_checksum K0 hash file = Ok out) <-> exists v m, holds file v m /\ usable m /\ Z.of_nat (length m) < 4096.
Proof. apply PCli.fix_works. Qed.
(** No table changes, except for the checksum adjustment in head; if there is a
    head the words of the file sum up to the magic number; and the tool run on
    its own output changes nothing. *)
Theorem C71_fix_result : forall file out, Forall is_byte file -> fix_checksum K0 hash file = Ok out -> Z.of_nat (length out) < 2 ^ 32 ->
  rewrites nothing_new file out /\
  ((exists v m, holds file v m /\ bytes_of m TAG_head <> None) -> word_sum out mod 2 ^ 32 = 0xB1B0AFBA) /\
  fix_checksum K0 hash out = Ok out.
Proof. apply PCli.fix_result. Qed.

(** ** ttf-add-minimal-dsig *)
Theorem C71_dsig_works : forall file, Forall is_byte file ->
  (exists out, add_dsig K0 hash file = Ok out) <->
  exists v m, holds file v m /\ usable m /\ Z.of_nat (length m) + lacking m [TAG_DSIG] < 4096.
Proof. apply PCli.dsig_works. Qed.
Theorem C71_dsig_result : forall file out, Forall is_byte file -> add_dsig K0 hash file = Ok out -> Z.of_nat (length out) < 2 ^ 32 ->
  rewrites (added TAG_DSIG [0; 0; 0; 1; 0; 0; 0; 0]) file out /\
  ((exists v m, holds file v m /\ bytes_of m TAG_head <> None) -> word_sum out mod 2 ^ 32 = 0xB1B0AFBA) /\
  add_dsig K0 hash out = Ok out.
Proof. apply PCli.dsig_result. Qed.

(** ** ttf-fix-non-hinted *)
Theorem C71_hint_works : forall file, Forall is_byte file ->
  (exists out, fix_non_hinted K0 hash file = Ok out) <->
  exists v m, holds file v m /\ usable m /\ Z.of_nat (length m) + lacking m [TAG_gasp; TAG_prep] < 4096.
Proof. apply PCli.hint_works. Qed.
(** A gasp table asking for smoothing at every size is added if there is none;
    prep becomes the program that switches hinting off. *)
Theorem C71_hint_result : forall file out, Forall is_byte file -> fix_non_hinted K0 hash file = Ok out -> Z.of_nat (length out) < 2 ^ 32 ->
  rewrites (fun t o => replaced TAG_prep [0xb8; 0x01; 0xff; 0x85; 0xb0; 0x04; 0x8d] t
                         (added TAG_gasp [0; 1; 0; 1; 255; 255; 0; 15] t o)) file out /\
  ((exists v m, holds file v m /\ bytes_of m TAG_head <> None) -> word_sum out mod 2 ^ 32 = 0xB1B0AFBA) /\
  fix_non_hinted K0 hash out = Ok out.
Proof. apply PCli.hint_result. Qed.

(** ** ttf-optimize-gvar *)
(** Only gvar changes; it becomes what the variations of the file are written as
    along with its outlines (C28, C63). *)
Theorem C71_optimize : forall mc file out, Forall is_byte file -> optimize_gvar K0 hash mc file = Ok out ->
  Z.of_nat (length out) < 2 ^ 32 -> Forall is_byte out ->
  ((exists v m, holds file v m /\ bytes_of m TAG_head <> None) -> word_sum out mod 2 ^ 32 = 0xB1B0AFBA) /\
  exists v m, holds file v m /\
    match bytes_of m TAG_gvar with
    | None => rewrites nothing_new file out
    | Some _ => exists gs gv d, glyf_is m gs /\ gvar_is m gv /\ MGvar.gvar_ser mc gv (Some gs) = Ok d /\ rewrites (replaced TAG_gvar d) file out
    end.
Proof. apply PCli.optimize_result. Qed.

(** ** ttf-flatten-components *)
(** Which tables change: glyf and loca hold the flattened glyphs, head gets the
    format of loca, hhea the number of long metrics; no other table changes,
    maxp with its component statistics included. *)
Theorem C71_flatten : forall file out, Forall is_byte file -> flatten K0 hash file = Ok out ->
  Z.of_nat (length out) < 2 ^ 32 -> Forall is_byte out ->
  exists v m m' w gs gs' gl lo is32 h, holds file v m /\ holds out v m' /\ length w = 4%nat /\
    glyf_is m gs /\ flatten_components gs = Ok gs' /\ compile_glyf gs' = Ok (gl, lo, is32) /\ head_is m h /\
    bytes_of m' TAG_glyf = Some gl /\ bytes_of m' TAG_loca = Some lo /\
    bytes_of m' TAG_head = Some (with_adjustment w (ser_head_tbl (set_loc_format h (if is32 : bool then 1 else 0)))) /\
    (forall t, ~ In t [TAG_glyf; TAG_loca; TAG_head; TAG_hhea] -> bytes_of m' t = bytes_of m t) /\
    match bytes_of m TAG_hmtx with
    | None => bytes_of m' TAG_hhea = bytes_of m TAG_hhea
    | Some _ => exists ms n hh, hmtx_is m ms /\ number_of_hmetrics ms = Ok n /\ hhea_is m hh /\
        bytes_of m' TAG_hhea = Some (ser_hhea (set_hmetrics hh n))
    end.
Proof. apply PCli.flatten_result. Qed.
(** The output read again has the flattened glyphs (C23 says what these are). *)
Theorem C71_flatten_outlines : forall file out v m gs gs' h, Forall is_byte file -> flatten K0 hash file = Ok out ->
  Z.of_nat (length out) < 2 ^ 32 -> Forall is_byte out ->
  holds file v m -> glyf_is m gs -> flatten_components gs = Ok gs' -> Forall glyph_fine gs' -> head_is m h -> head_tbl_ok h ->
  exists m' gs'', holds out v m' /\ glyf_is m' gs'' /\ Forall2 glyph_same gs' gs''.
Proof. apply PCli.flatten_outlines. Qed.
(** Its metrics are those of the input exactly when the input stored no more
    long metrics than necessary. *)
Theorem C71_flatten_metrics : forall file out v m ms hh, Forall is_byte file -> flatten K0 hash file = Ok out ->
  Z.of_nat (length out) < 2 ^ 32 -> Forall is_byte out ->
  holds file v m -> hmtx_is m ms -> hhea_is m hh -> hhea_ok hh ->
  exists m', holds out v m' /\ (hmtx_is m' ms <-> number_of_hmetrics ms = Ok (hh_numberOfHMetrics hh)).
Proof. apply PCli.flatten_metrics. Qed.

(** ** The output path is the input path *)
(** After success the file holds the output; after failure it is as before or
    empty. *)
Theorem C71_in_place : forall edit file,
  (forall out, cli K0 hash edit file = Ok out -> cli_in_place K0 hash edit file = out) /\
  ((forall out, cli K0 hash edit file <> Ok out) -> cli_in_place K0 hash edit file = file \/ cli_in_place K0 hash edit file = []).
Proof.
  intros edit file. destruct (PCli.in_place_cases K0 hash edit file) as [A B]. split.
  - intros out E. rewrite E in A. exact A.
  - intros N. apply B. unfold cli in *. destruct (font_load _ file) as [[v s]| |]; auto. destruct (edit s) as [[u| |] s']; auto.
    destruct (font_write _ v s') as [[out| |] s'']; auto. now elim (N out).
Qed.
End Tools.

(** *** Examples *)
Definition font (tabs : list (list Z * list Z)) : list Z :=
  match font_to_bytes SFNT_TRUETYPE (map (fun td => (fst td, Ok (snd td))) tabs) with Ok f => f | _ => [] end.
Definition hhea2 (n : Z) : list Z := ser_hhea (mk_hhea 1 0 800 (-200) 0 500 0 0 500 1 0 0 0 0 0 0 0 n).
(** Two empty glyphs of width 500; hmtx stores both widths. *)
Definition wide : list Z := Eval vm_compute in font
  [(TAG_glyf, [0]); (TAG_head, PStoreEx.head_bytes); (TAG_hhea, hhea2 2); (TAG_hmtx, [1; 244; 0; 10; 1; 244; 0; 20]);
   (TAG_loca, [0; 0; 0; 0; 0; 0]); (TAG_maxp, PStoreEx.maxp_bytes 2)].
(** No maxp. *)
Definition headless : list Z := Eval vm_compute in font [(TAG_head, PStoreEx.head_bytes)].

(** Some font loses its metrics: the number of long metrics is set to the least
    possible, but hmtx is left as it is. *)
Theorem C71_metrics_refuted : forall T (K0 : codecs T) hash,
  exists file out v m ms, Forall is_byte file /\ flatten K0 hash file = Ok out /\ Forall is_byte out /\
    Z.of_nat (length out) < 2 ^ 32 /\ holds file v m /\ hmtx_is m ms /\
    exists m' ms', holds out v m' /\ hmtx_is m' ms' /\ ms' <> ms.
Proof.
  intros T K0 hash. exists wide. eexists. exists SFNT_TRUETYPE. eexists. exists [mk_metric 500 10; mk_metric 500 20].
  split; [apply PStoreEx.bytes_check; vm_compute; reflexivity|]. split; [vm_compute; reflexivity|].
  split; [apply PStoreEx.bytes_check; vm_compute; reflexivity|]. split; [vm_compute; reflexivity|].
  split; [vm_compute; reflexivity|]. split.
  - eexists. eexists. split; [eexists; split; [vm_compute; reflexivity|vm_compute; reflexivity]|]. split; [vm_compute; reflexivity|vm_compute; reflexivity].
  - eexists. exists [mk_metric 500 10; mk_metric 500 500; mk_metric 500 20]. split; [vm_compute; reflexivity|]. split; [|discriminate].
    eexists. eexists. split; [eexists; split; [vm_compute; reflexivity|vm_compute; reflexivity]|]. split; [vm_compute; reflexivity|vm_compute; reflexivity].
Qed.
(** A font that cannot be saved is lost when it is to be written over itself. *)
Theorem C71_in_place_refuted : forall T (K0 : codecs T) hash,
  exists file v m, Forall is_byte file /\ holds file v m /\ bytes_of m TAG_head <> None /\
    fix_checksum K0 hash file = Panic /\ cli_in_place K0 hash (slift (Ok tt)) file = [].
Proof.
  intros T K0 hash. exists headless. exists SFNT_TRUETYPE. eexists. split; [apply PStoreEx.bytes_check; vm_compute; reflexivity|].
  split; [vm_compute; reflexivity|]. split; [vm_compute; discriminate|]. split; [vm_compute; reflexivity|vm_compute; reflexivity].
Qed.

(** ** ttf-rename-glyphs *)
Section Rename.
Context {T : Type} (K0 : codecs T) (hash : cmapping -> Z).
(** If there is a post table every glyph of the font gets its production name:
    the name of the least character a Unicode cmap subtable gives it, else the
    name it had.  There must be a name for every glyph; names beyond are kept.
    Nothing but the names changes. *)
Theorem C72_rename : forall file out, Forall is_byte file -> rename_glyphs K0 hash false file = Ok out ->
  Z.of_nat (length out) < 2 ^ 32 -> Forall is_byte out ->
  exists v m mx sts, holds file v m /\ maxp_is m mx /\ cmap_is m sts /\
    match bytes_of m TAG_post with
    | None => rewrites nothing_new file out
    | Some _ => exists p names names' d, post_is m p /\ po_glyphnames p = Some names /\
        Z.to_nat (num_glyphs mx) <= length names /\ length names' = length names /\
        (forall k, k < Z.to_nat (num_glyphs mx) -> renamed sts (Z.of_nat k) (nth k names []) (nth k names' [])) /\
        (forall k, Z.to_nat (num_glyphs mx) <= k -> nth k names' [] = nth k names []) /\
        post_ser (set_names p names') = Ok d /\ rewrites (replaced TAG_post d) file out
    end%nat.
Proof. apply PCli.rename_names. Qed.
Theorem C72_checksum : forall drop file out, Forall is_byte file -> rename_glyphs K0 hash drop file = Ok out ->
  Z.of_nat (length out) < 2 ^ 32 -> Forall is_byte out ->
  (exists v m, holds file v m /\ bytes_of m TAG_head <> None) -> word_sum out mod 2 ^ 32 = 0xB1B0AFBA.
Proof. intros drop file out A B C D. apply (PCli.rename_result K0 hash drop file out A B C D). Qed.
(** The output read again has the new names exactly when these fit in a post
    table (C41). *)
Theorem C72_read_back : forall file out v m p names, Forall is_byte file -> rename_glyphs K0 hash false file = Ok out ->
  Z.of_nat (length out) < 2 ^ 32 -> Forall is_byte out ->
  holds file v m -> post_is m p -> post_fields_ok p -> po_glyphnames p = Some names -> Forall text names ->
  exists mx sts m' names', maxp_is m mx /\ cmap_is m sts /\ holds out v m' /\ length names' = length names /\
    (forall k, k < Z.to_nat (num_glyphs mx) -> renamed sts (Z.of_nat k) (nth k names []) (nth k names' []))%nat /\
    (forall k, Z.to_nat (num_glyphs mx) <= k -> nth k names' [] = nth k names [])%nat /\
    (post_is m' (set_names p names') <-> names_fit names').
Proof. apply PCli.rename_read_back. Qed.
(** With --drop-names nothing happens: the tool edits a copy of the table. *)
Theorem C72_drop_refuted : forall file out, Forall is_byte file -> rename_glyphs K0 hash true file = Ok out ->
  Z.of_nat (length out) < 2 ^ 32 -> Forall is_byte out -> rewrites nothing_new file out.
Proof.
  intros file out A B C D. destruct (PCli.rename_result K0 hash true file out A B C D) as (_ & v & m & mx & sts & _ & _ & _ & R).
  destruct (bytes_of m TAG_post); [|exact R]. now destruct R as (p & _ & R).
Qed.
End Rename.

(** ** Production names *)
(** A name is the production name of one character at most, and a character
    below 2^32 has exactly one. *)
Theorem C72_one_name : forall c, 0 <= c < 2 ^ 32 -> exists x, production c x /\ forall y, production c y -> y = x.
Proof.
  intros c H. destruct (PNames.production_exists c H) as [x Hx]. exists x. split; [exact Hx|]. intros y Hy. exact (PNames.production_unique c y x Hy Hx).
Qed.
Theorem C72_one_character : forall c c' x, production c x -> production c' x -> c = c'.
Proof. apply PNames.production_char. Qed.
(** Encoded glyphs get different names, unless a character has several glyphs. *)
Theorem C72_distinct : forall sts g g' old old' new, (forall c g g', reaches sts c g -> reaches sts c g' -> g = g') ->
  (exists c, reaches sts c g) -> (exists c, reaches sts c g') ->
  renamed sts g old new -> renamed sts g' old' new -> g = g'.
Proof. apply PNames.renamed_distinct. Qed.
(** The new name is determined, and renaming twice is renaming once. *)
Theorem C72_determined : forall sts g old x y, renamed sts g old x -> renamed sts g old y -> x = y.
Proof. apply PNames.renamed_unique. Qed.
Theorem C72_again : forall sts g old x y, renamed sts g old x -> renamed sts g x y -> y = x.
Proof. apply PNames.renamed_again. Qed.
(** A glyph without a character may keep a name that an encoded glyph gets: the
    names can clash although they did not before. *)
Theorem C72_clash_refuted : exists sts n names names', NoDup names /\ (forall c g g', reaches sts c g -> reaches sts c g' -> g = g') /\
  rename_loop n 0 (reversed sts) names = Ok names' /\ length names' = n /\ ~ NoDup names'.
Proof.
  exists [mkST 4 3 1 0 [(65, 1)] None], 3%nat, [ascii_bytes ".notdef"; ascii_bytes "A"; ascii_bytes "uni0041"]. eexists.
  split; [repeat constructor; cbn; intuition discriminate|]. split.
  { intros c g g' (st & [<-|[]] & _ & [[= <- <-]|[]]) (st' & [<-|[]] & _ & [[= <-]|[]]). reflexivity. }
  split; [vm_compute; reflexivity|]. split; [reflexivity|]. intros N. inversion N as [|? ? _ N']; subst. inversion N' as [|? ? X _]; subst. apply X. now left.
Qed.
(** With fewer names than glyphs the tool aborts. *)
Theorem C72_few_names : forall sts n names, (exists names', rename_loop n 0 (reversed sts) names = Ok names') <-> (n <= length names)%nat.
Proof.
  intros sts n names. split.
  - intros [names' E]. destruct (Nat.le_gt_cases n (length names)) as [L|L]; [exact L|]. rewrite PNames.rename_loop_few in E by exact L. discriminate.
  - apply PNames.rename_loop_total.
Qed.

(** *** Examples *)
Definition K1 : codecs unit := mk_codecs unit (fun _ _ => Err) (fun _ _ _ => Err) (fun _ _ => Err) (fun _ _ => Err) (fun _ _ _ => Ok []).
Definition h0 (m : cmapping) : Z := 0.
Definition small : list Z := Eval vm_compute in font [(TAG_head, PStoreEx.head_bytes); (TAG_maxp, PStoreEx.maxp_bytes 2)].
Definition get_ok {A} (d : A) (r : res A) : A := match r with Ok x => x | _ => d end.
(** A format 12 subtable: A is glyph 1, U+1F600 is glyph 2. *)
Definition cmap_bytes : list Z :=
  [0; 0; 0; 1; 0; 3; 0; 10; 0; 0; 0; 12; 0; 12; 0; 0; 0; 0; 0; 40; 0; 0; 0; 0; 0; 0; 0; 2;
   0; 0; 0; 65; 0; 0; 0; 65; 0; 0; 0; 1; 0; 1; 246; 0; 0; 1; 246; 0; 0; 0; 0; 2].
Definition post_names (names : list (list Z)) : post := mk_post version2 (Dy 0 0) (-75) 50 0 0 0 0 0 (Some names).
Definition post_bytes : list Z := Eval vm_compute in get_ok [] (post_ser (post_names [ascii_bytes ".notdef"; ascii_bytes "A"; ascii_bytes "smile"])).
Definition named : list Z := Eval vm_compute in font
  [(TAG_cmap, cmap_bytes); (TAG_head, PStoreEx.head_bytes); (TAG_maxp, PStoreEx.maxp_bytes 3); (TAG_post, post_bytes)].
Example small_fixed : exists out, fix_checksum K1 h0 small = Ok out /\ add_dsig K1 h0 small <> Ok out /\ fix_non_hinted K1 h0 small <> Ok out.
Proof. eexists. split; [vm_compute; reflexivity|]. split; vm_compute; discriminate. Qed.
Example small_usable : exists v m, holds small v m /\ usable m /\ Z.of_nat (length m) + lacking m [TAG_gasp; TAG_prep] < 4096.
Proof.
  exists SFNT_TRUETYPE. eexists. split; [vm_compute; reflexivity|]. split; [|vm_compute; reflexivity]. split; [eexists; eexists; split; [vm_compute; reflexivity|vm_compute; reflexivity]|].
  left. eexists. eexists. split; [vm_compute; reflexivity|vm_compute; reflexivity].
Qed.
(** Flattening [wide], with its metrics lost; the same font with one long metric keeps them. *)
Definition narrow : list Z := Eval vm_compute in font
  [(TAG_glyf, [0]); (TAG_head, PStoreEx.head_bytes); (TAG_hhea, hhea2 1); (TAG_hmtx, [1; 244; 0; 10; 0; 20]);
   (TAG_loca, [0; 0; 0; 0; 0; 0]); (TAG_maxp, PStoreEx.maxp_bytes 2)].
Example narrow_flat : exists out v m ms, flatten K1 h0 narrow = Ok out /\ holds narrow v m /\ hmtx_is m ms /\
  exists m', holds out v m' /\ hmtx_is m' ms.
Proof.
  eexists. exists SFNT_TRUETYPE. eexists. exists [mk_metric 500 10; mk_metric 500 20]. split; [vm_compute; reflexivity|]. split; [vm_compute; reflexivity|].
  split; [|eexists; split; [vm_compute; reflexivity|]]; (eexists; eexists; split; [eexists; split; [vm_compute; reflexivity|vm_compute; reflexivity]|split; [vm_compute; reflexivity|vm_compute; reflexivity]]).
Qed.
Definition new_names : list (list Z) := [ascii_bytes ".notdef"; ascii_bytes "uni0041"; ascii_bytes "u1F600"].
Example named_renamed : exists out v m', rename_glyphs K1 h0 false named = Ok out /\ holds out v m' /\
  exists p, post_is m' p /\ po_glyphnames p = Some new_names.
Proof.
  eexists. exists SFNT_TRUETYPE. eexists. split; [vm_compute; reflexivity|]. split; [vm_compute; reflexivity|].
  eexists. split; [eexists; split; [vm_compute; reflexivity|vm_compute; reflexivity]|]. reflexivity.
Qed.
Example named_dropped : exists out, rename_glyphs K1 h0 true named = Ok out.
Proof. eexists. vm_compute. reflexivity. Qed.
Example production_space : production 32 (ascii_bytes "space").
Proof. left. auto. Qed.

Print Assumptions C71_fix_works.
Print Assumptions C71_fix_result.
Print Assumptions C71_dsig_works.
Print Assumptions C71_dsig_result.
Print Assumptions C71_hint_works.
Print Assumptions C71_hint_result.
Print Assumptions C71_optimize.
Print Assumptions C71_flatten.
Print Assumptions C71_flatten_outlines.
Print Assumptions C71_flatten_metrics.
Print Assumptions C71_in_place.
Print Assumptions C71_metrics_refuted.
Print Assumptions C71_in_place_refuted.
Print Assumptions C72_rename.
Print Assumptions C72_checksum.
Print Assumptions C72_read_back.
Print Assumptions C72_drop_refuted.
Print Assumptions C72_one_name.
Print Assumptions C72_one_character.
Print Assumptions C72_distinct.
Print Assumptions C72_determined.
Print Assumptions C72_again.
Print Assumptions C72_clash_refuted.
Print Assumptions C72_few_names.

(** C83: when reading untrusted bytes aborts the program. *)
From Coq Require Import String List ZArith Bool Lia.
Import ListNotations.
From Verif.Model Require Import MBase MTag MMap MFont MTables MMetrics MStore MPost MCmap MCli MWhole.
From Verif.Model Require MName MDerive MMacro MDeclared.
From Verif.Spec Require Import SBase SReader SStore SWhole SName SPost SCalm.
From Verif.Spec Require SDerive.
From Verif.Proofs Require Import PBase PCalm.
From Verif.Proofs Require PDerive.
Open Scope Z_scope.

Section Tables.
Context {P : Type} (other : MName.charset -> MName.coder) (fragment : list Z -> further P -> list Z) (hash : cmapping -> Z).

(** Nine tables, and every table the library does not know, are read or refused,
    whatever their bytes. *)
Theorem C83_calm tag d : Forall is_byte d -> one_of tag calm_names \/ ~ one_of tag table_names ->
  aborts_iff (library other fragment hash) tag d False.
Proof. intros B H s. split; [exact (get_safe other fragment hash tag d s B H)|tauto]. Qed.

(** Four tables abort the program for certain bytes, and no others. *)
Theorem C83_head tag d : Forall is_byte d -> named tag "head" -> aborts_iff (library other fragment hash) tag d (head_bad d).
Proof. intros B -> s. exact (get_head other fragment hash d s B). Qed.
Theorem C83_fvar tag d : Forall is_byte d -> named tag "fvar" -> aborts_iff (library other fragment hash) tag d (fvar_bad d).
Proof. intros B -> s. exact (get_fvar other fragment hash d s B). Qed.
Theorem C83_name tag d : Forall is_byte d -> named tag "name" -> aborts_iff (library other fragment hash) tag d (name_bad d).
Proof. intros B -> s. exact (get_name other fragment hash d s B). Qed.
Theorem C83_post tag d : Forall is_byte d -> named tag "post" -> aborts_iff (library other fragment hash) tag d (post_bad d).
Proof. intros B -> s. exact (get_post other fragment hash d s B). Qed.
End Tables.
Print Assumptions C83_calm.
Print Assumptions C83_head.
Print Assumptions C83_fvar.
Print Assumptions C83_name.
Print Assumptions C83_post.

(** hmtx with the number of metrics that hhea gives; loca in either format. *)
Theorem C83_hmtx n d : Forall is_byte d -> 0 <= n -> (from_bytes (de_hmtx n) d = Panic <-> n = 0).
Proof. intros B H. now apply hmtx_aborts. Qed.
Print Assumptions C83_hmtx.
Theorem C83_loca is32 d : Forall is_byte d -> from_bytes (de_loca is32) d <> Panic.
Proof. exact (calm_never _ _ _ (calm_loca False is32)). Qed.
Print Assumptions C83_loca.

(** ** Readers made from declarations *)
Theorem C83_derived {F} (fdec : string -> parser F) t d : (forall n, steady (fdec n)) -> plain_shape t = true ->
  steady (MDerive.dec fdec t) /\ (Forall is_byte d -> from_bytes (MDerive.dec fdec t) d <> Panic).
Proof.
  intros HF H. pose proof (calm_derived fdec t HF H) as C. split; [now apply steady_calm|]. exact (calm_never _ _ _ C).
Qed.
Print Assumptions C83_derived.
(** A 32-bit offset of 65536 or more aborts, wherever it leads. *)
Theorem C83_wide {F} (fdec : string -> parser F) t d : Forall is_byte d ->
  (exists v, number_at U32 d 0 v /\ 65536 <= v) -> from_bytes (MDerive.dec fdec (MDerive.Ref true t)) d = Panic.
Proof.
  intros B (v & N & Hv). apply from_panic. cbn [MDerive.dec]. unfold pbind at 1, MOffset.de_offset, rd_new, de_u32.
  destruct (prim_at U32 d 0 [0%nat] B) as [(w & N' & E)|(L & E)]; [|apply number_fits in N; lia].
  rewrite (bind_at _ _ _ _ _ E). rewrite (number_unique _ _ _ _ _ N' N). replace (v =? 0) with false by lia.
  unfold try_u. replace ((0 <=? v) && (v <? 2 ^ 16))%bool with false by lia. reflexivity.
Qed.
Print Assumptions C83_wide.

(** Of the 109 structures of the library with derived readers, all but fourteen
    are free of dates, 32-bit offsets and optional fields. *)
Definition wide : list string :=
  ["FeatureVariations"; "FeatureVariationRecord"; "ConditionSet"; "FeatureTableSubstitution"; "FeatureTableSubstitutionRecord";
   "GPOS11"; "GSUB11"; "head"; "ItemVariationStoreInternal"; "gdefcore12"; "gdefcore13"; "MarkGlyphSets"; "cmap14"; "VariationSelector"]%string.
Definition calm_check (d : MMacro.decl) : bool := implb (MMacro.derived d)
  (Bool.eqb (plain_shape (MDeclared.library_type (MMacro.d_name d))) (negb (existsb (String.eqb (MMacro.d_name d)) wide))).
Lemma implb_true_l b : implb true b = true -> b = true.
Proof. exact (fun H => H). Qed.
Lemma calm_checked : forallb calm_check MDeclared.library = true.
Proof. vm_compute. reflexivity. Qed.
Theorem C83_library {F} (fdec : string -> parser F) d : (forall n, steady (fdec n)) ->
  In d MDeclared.library -> MMacro.derived d = true -> ~ In (MMacro.d_name d) wide ->
  steady (MDerive.dec fdec (MDeclared.library_type (MMacro.d_name d))).
Proof.
  intros HF Hd Hv Hn. pose proof (proj1 (forallb_forall _ _) calm_checked d Hd) as G. unfold calm_check in G. rewrite Hv in G. apply implb_true_l in G.
  apply Bool.eqb_prop in G. apply (C83_derived fdec _ []); [exact HF|]. rewrite G. apply negb_true_iff.
  destruct (existsb (String.eqb (MMacro.d_name d)) wide) eqn:E; [|reflexivity]. apply existsb_exists in E as (x & Hx & Ex). apply String.eqb_eq in Ex.
  exfalso. apply Hn. rewrite Ex. exact Hx.
Qed.
Print Assumptions C83_library.

(** ** Cases *)
(** A head table from the year 300000. *)
Example C83_head_case : let d := repeat 0 21 ++ [0; 8] ++ repeat 0 31 in
  Forall is_byte d /\ length d = 54%nat /\ head_bad d.
Proof.
  cbv zeta. split; [apply Forall_forall; intros x Hx; apply in_app_or in Hx as [Hx|Hx]; [apply repeat_spec in Hx; subst; unfold is_byte; lia|]; apply in_app_or in Hx as [[<-|[<-|[]]]|Hx]; try (unfold is_byte; lia); apply repeat_spec in Hx; subst; unfold is_byte; lia|].
  split; [reflexivity|]. exists 20%nat, (8 * 2 ^ 40). split; [auto|]. split; [|unfold no_date; lia].
  exists [0; 0; 8; 0; 0; 0; 0; 0]. split; [split; [reflexivity|split; [cbn; lia|]]|].
  - intros i Hi. do 8 (destruct i as [|i]; [reflexivity|]). cbn in Hi. lia.
  - split; [|cbn; lia]. split; [repeat (apply Forall_cons; [unfold is_byte; lia|]); apply Forall_nil|]. exists 0. reflexivity.
Qed.
(** A name table whose second record is for platform 4. *)
Definition two_names : list Z :=
  [0;0; 0;2; 0;30;  0;3; 0;1; 4;9; 0;1; 0;2; 0;0;  0;4; 0;0; 0;0; 0;1; 0;0; 0;0;  0;65].
Example C83_name_case other : from_bytes (MName.name_de other) two_names = Panic /\ name_bad two_names.
Proof.
  assert (X: from_bytes (MName.name_de other) two_names = Panic) by reflexivity. split; [exact X|].
  apply (name_aborts other); [|exact X]. unfold two_names. repeat (apply Forall_cons; [unfold is_byte; lia|]); apply Forall_nil.
Qed.
(** post: version 2, one index, beyond the empty pool; or a name that is not text. *)
Definition one_glyph (ix : Z) (pool : list Z) : list Z := [0; 2; 0; 0] ++ repeat 0 28 ++ [0; 1; 1; ix] ++ pool.
Example C83_post_case :
  from_bytes post_de (one_glyph 2 []) = Panic /\ from_bytes post_de (one_glyph 2 [1; 255]) = Panic /\
  from_bytes post_de (one_glyph 2 [1; 65]) <> Panic /\ from_bytes post_de (one_glyph 2 [2; 65]) = Err /\ post_bad (one_glyph 2 [1; 255]).
Proof.
  split; [reflexivity|]. split; [reflexivity|]. split; [discriminate|]. split; [reflexivity|]. apply post_aborts; [|reflexivity].
  cbn [one_glyph app repeat]. repeat (apply Forall_cons; [unfold is_byte; lia|]); apply Forall_nil.
Qed.
Example C83_hhea_case : one_of TAG_hhea calm_names /\ ~ one_of [88; 88; 88; 88] table_names.
Proof. split; [apply PWhole.one_of_iff; reflexivity|]. intros H. apply PWhole.one_of_iff in H. discriminate H. Qed.
Example C83_steady_case : steady de_u16 /\ In "SequenceLookupRecord"%string (map MMacro.d_name MDeclared.library) /\ ~ In "SequenceLookupRecord"%string wide.
Proof.
  split; [apply steady_calm; eapply calm_any, calm_prim|]. split; [|intros H; cbn in H; intuition discriminate].
  assert (X: existsb (String.eqb "SequenceLookupRecord") (map MMacro.d_name MDeclared.library) = true) by (vm_compute; reflexivity).
  apply existsb_exists in X as (x & Hx & Ex). apply String.eqb_eq in Ex. subst x. exact Hx.
Qed.
(** fvar: 16383 axes, all their tags blank. *)
Definition many_axes : list Z := [0;1; 0;0; 0;16; 0;2; 63;255; 0;20; 0;1; 0;0] ++ repeat 32 (Z.to_nat 327660).
Lemma early t k bs v l : slice l k (width t) bs -> big_endian bs v -> in_range t v -> forall m, number_at t (l ++ m) k v.
Proof.
  intros (L & B & H) E R m. exists bs. split; [|auto]. split; [exact L|]. split; [rewrite app_length; lia|]. intros i Hi. rewrite nth_error_app1 by lia. now apply H.
Qed.
Example C83_fvar_case : Forall is_byte many_axes /\ fvar_bad many_axes.
Proof.
  assert (LT: length (repeat 32 (Z.to_nat 327660)) = Z.to_nat 327660) by apply repeat_length.
  assert (two: forall a b, 0 <= a <= 255 -> 0 <= b <= 255 -> big_endian [a; b] (a * 256 + b)).
  { intros a b Ha Hb. split; [repeat (apply Forall_cons; [unfold is_byte; lia|]); apply Forall_nil|]. exists 0. cbn [digits_value length]. change (256 ^ Z.of_nat 1) with 256. change (256 ^ Z.of_nat 0) with 1. lia. }
  unfold many_axes. set (tail := repeat 32 (Z.to_nat 327660)) in *. split.
  - apply Forall_app. split; [repeat (apply Forall_cons; [unfold is_byte; lia|]); apply Forall_nil|].
    apply Forall_forall. intros x Hx. apply repeat_spec in Hx. subst. unfold is_byte. lia.
  - exists 16, 16383, 1. split; [rewrite app_length; cbn [length]; lia|].
    split; [apply (early U16 4 [0; 16]); [split; [reflexivity|split; [cbn; lia|]]; intros [|[|i]] Hi; [reflexivity|reflexivity|cbn in Hi; lia]|exact (two 0 16 ltac:(lia) ltac:(lia))|cbn; lia]|].
    split; [apply (early U16 8 [63; 255]); [split; [reflexivity|split; [cbn; lia|]]; intros [|[|i]] Hi; [reflexivity|reflexivity|cbn in Hi; lia]|exact (two 63 255 ltac:(lia) ltac:(lia))|cbn; lia]|].
    split; [apply (early U16 12 [0; 1]); [split; [reflexivity|split; [cbn; lia|]]; intros [|[|i]] Hi; [reflexivity|reflexivity|cbn in Hi; lia]|exact (two 0 1 ltac:(lia) ltac:(lia))|cbn; lia]|].
    split; [lia|]. split; [lia|]. split; [rewrite app_length, LT; cbn [length]; lia|].
    intros i j Hi Hj. exists 32. split; [|lia]. rewrite nth_error_app2 by (cbn [length]; lia). apply nth_error_repeat. cbn [length]. lia.
Qed.

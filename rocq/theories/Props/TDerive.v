(** C79: code derived for declared structures. *)
From Coq Require Import String List ZArith Bool Lia.
Import ListNotations.
From Verif.Model Require Import MBase MFixed MOffset MLayout MLow MDerive MMacro MDeclared.
From Verif.Spec Require Import SBase SOffset SLayout SContext SDerive.
From Verif.Proofs Require Import PBase POffset PPart PLow PDerive.
Open Scope string_scope.
Open Scope Z_scope.

(** What the hand-written types are assumed to do, where they are used: their
    good values can be written, and are read back wherever they are stored. *)
Definition by_hand {F} (fenc : string -> F -> res obj) (fdec : string -> parser F) (fok : string -> F -> Prop) : Prop :=
  forall n x, fok n x -> exists o, fenc n x = Ok o /\ decodes (fdec n) o x.

(** A structure without offsets is its fields in order, each in its own format;
    it can always be written, and is read back wherever the bytes are. *)
Theorem C79_plain {F} (fenc : string -> F -> res obj) (fdec : string -> parser F) (fok : string -> F -> Prop) t v :
  refs t = false -> suits fok t v ->
  exists o bs, enc fenc t v = Ok o /\ to_bytes o = Ok bs /\ layout t v bs /\
    (sound true t = true \/ sound false t = true -> reads_back (dec fdec t) bs v).
Proof.
  intros Hr Hv. destruct (flat_layout fenc fok t Hr v Hv) as (o & bs & E & P & L). exists o, bs.
  split; [exact E|]. split; [now apply pa_to_bytes|]. split; [exact L|]. intros Hs.
  destruct (flat_back fenc fdec fok t v Hr) as (o' & bs' & E' & B' & _ & R); [tauto|exact Hv|].
  rewrite E in E'. apply Ok_inj in E'. subst o'. rewrite (pa_to_bytes _ _ P) in B'. apply Ok_inj in B'. now subst bs'.
Qed.

(** A sound declaration: every value of the structure can be laid out; it is
    written exactly when every object is within reach of the offsets that lead
    to it; and what is written is read back as the same value (objects must be
    within 64k of each other, as the reader follows no larger offset). *)
Theorem C79_written {F} (fenc : string -> F -> res obj) (fdec : string -> parser F) (fok : string -> F -> Prop) t v :
  by_hand fenc fdec fok -> sound_table t = true -> suits fok t v ->
  exists o, enc fenc t v = Ok o /\
    (Z.of_nat (total o) < 2 ^ 32 -> (exists out, to_bytes o = Ok out) <-> reachable o).
Proof.
  intros Hh Hs Hv. unfold sound_table in Hs. apply andb_prop in Hs as [Hs _]. apply orb_prop in Hs.
  destruct (enc_ok fenc fdec fok Hh t) with (v := v) as [o E]; [destruct Hs as [Hs|Hs]; eapply sound_carried; exact Hs|exact Hv|].
  exists o. split; [exact E|]. apply to_bytes_iff.
Qed.
Theorem C79_roundtrip {F} (fenc : string -> F -> res obj) (fdec : string -> parser F) (fok : string -> F -> Prop) t v o out :
  by_hand fenc fdec fok -> sound_table t = true -> suits fok t v ->
  enc fenc t v = Ok o -> to_bytes o = Ok out ->
  Z.of_nat (total o) < 2 ^ 32 -> narrow o = true \/ Z.of_nat (total o) < 65536 ->
  from_bytes (dec fdec t) out = Ok v.
Proof.
  intros Hh Hs Hv E Ho Ht Hn. unfold sound_table in Hs. apply andb_prop in Hs as [Hs _]. apply orb_prop in Hs.
  eapply (derived_back fenc fdec fok Hh); eauto.
Qed.
(** In particular anything smaller than 64k. *)
Theorem C79_small {F} (fenc : string -> F -> res obj) (fdec : string -> parser F) (fok : string -> F -> Prop) t v :
  by_hand fenc fdec fok -> sound_table t = true -> suits fok t v ->
  exists o, enc fenc t v = Ok o /\
    (Z.of_nat (total o) < 65536 -> exists out, to_bytes o = Ok out /\ from_bytes (dec fdec t) out = Ok v).
Proof.
  intros Hh Hs Hv. destruct (C79_written fenc fdec fok t v Hh Hs Hv) as (o & E & _). exists o. split; [exact E|]. intros Ht.
  destruct (to_bytes_ok o Ht) as [out Ho]. exists out. split; [exact Ho|]. eapply C79_roundtrip; eauto. change (2 ^ 32) with 4294967296. lia.
Qed.

(** Where offsets count from: for the target of an offset from its own start,
    whatever else the reader has on its stack; for a structure without
    [offset_base], from the last start the reader has remembered. *)
Theorem C79_target {F} (fenc : string -> F -> res obj) (fdec : string -> parser F) (fok : string -> F -> Prop) t v o :
  by_hand fenc fdec fok -> sound true t = true -> suits fok t v -> enc fenc t v = Ok o -> decodes (dec fdec t) o v.
Proof. intros Hh Hs Hv E. exact (proj2 (sound_reads fenc fdec fok Hh t) Hs v o Hv E). Qed.
Theorem C79_part {F} (fenc : string -> F -> res obj) (fdec : string -> parser F) (fok : string -> F -> Prop) t v o buf base pos stk :
  by_hand fenc fdec fok -> sound false t = true -> suits fok t v -> enc fenc t v = Ok o ->
  stored 65536 buf base pos o ->
  dec fdec t (mkrd buf pos (base :: stk)) = Ok (v, mkrd buf (pos + size o) (base :: stk)).
Proof. intros Hh Hs Hv E S. exact (proj1 (sound_reads fenc fdec fok Hh t) Hs v o Hv E _ _ _ _ S). Qed.

(** Every structure declared in the library whose code is derived is soundly
    declared, with fourteen exceptions. *)
Definition unsound : list string :=
  ["FeatureVariations"; "FeatureVariationRecord"; "FeatureTableSubstitution"; "GPOS11"; "GSUB11";
   "gdefcore12"; "gdefcore13";
   "MATHinternal"; "MathConstants"; "MathGlyphInfo"; "MathItalicsCorrectionInfo"; "MathTopAccentAttachment";
   "MathGlyphConstruction"; "GlyphAssembly"].
Definition library_check (d : decl) : bool := implb (derived d)
  (Bool.eqb (sound true (library_type (d_name d)) || sound false (library_type (d_name d)))
            (negb (existsb (String.eqb (d_name d)) unsound))).
Lemma implb_true_l b : implb true b = true -> b = true.
Proof. exact (fun H => H). Qed.
Lemma library_checked : forallb library_check library = true.
Proof. vm_compute. reflexivity. Qed.
Theorem C79_library d : In d library -> derived d = true ->
  (sound true (library_type (d_name d)) = true \/ sound false (library_type (d_name d)) = true) <-> ~ In (d_name d) unsound.
Proof.
  intros Hd Hv.
  pose proof (proj1 (forallb_forall _ _) library_checked d Hd) as G. unfold library_check in G.
  rewrite Hv in G. apply implb_true_l in G. apply Bool.eqb_prop in G.
  rewrite <- orb_true_iff, G, negb_true_iff. split.
  - intros H Hi. assert (X: existsb (String.eqb (d_name d)) unsound = true) by (apply existsb_exists; exists (d_name d); split; [exact Hi|apply String.eqb_refl]). congruence.
  - intros H. destruct (existsb (String.eqb (d_name d)) unsound) eqn:E; [|reflexivity]. apply existsb_exists in E as (x & Hx & Ex). apply String.eqb_eq in Ex. exfalso. apply H. rewrite Ex. exact Hx.
Qed.
Definition outer_check (d : decl) : bool := implb (negb (fl_embedded (d_flags d)))
  match library_type (d_name d) with Rec emb _ => negb emb | _ => true end.
Lemma library_outer : forallb outer_check library = true.
Proof. vm_compute. reflexivity. Qed.
(** So each of the others reads what it writes (or, when it is a record inside
    other structures, is read with them). *)
Theorem C79_library_roundtrip {F} (fenc : string -> F -> res obj) (fdec : string -> parser F) (fok : string -> F -> Prop) d v :
  by_hand fenc fdec fok -> In d library -> derived d = true -> ~ In (d_name d) unsound ->
  fl_embedded (d_flags d) = false -> suits fok (library_type (d_name d)) v ->
  exists o, enc fenc (library_type (d_name d)) v = Ok o /\
    (Z.of_nat (total o) < 65536 -> exists out, to_bytes o = Ok out /\ from_bytes (dec fdec (library_type (d_name d))) out = Ok v).
Proof.
  intros Hh Hd Hv Hn He Hs. apply C79_small with (fok := fok); [exact Hh| |exact Hs]. unfold sound_table.
  pose proof (proj2 (C79_library d Hd Hv) Hn) as S. apply orb_true_iff in S. rewrite S. cbn [andb].
  pose proof (proj1 (forallb_forall _ _) library_outer d Hd) as G. unfold outer_check in G. rewrite He in G. apply implb_true_l in G.
  destruct (library_type (d_name d)); try reflexivity. rewrite G. reflexivity.
Qed.

(** ** Declarations that are not sound *)
Definition none_enc (_ : string) (x : Empty_set) : res obj := match x with end.
Definition none_de (_ : string) : parser Empty_set := fun _ => Err.
Definition none_ok (_ : string) (x : Empty_set) : Prop := False.
Definition named (toks : list tok) (n : string) : shape :=
  match expand toks with Ok ds => type_named 8 ds n | _ => Foreign "?" end.
Definition num (z : Z) : value Empty_set := VNum z.

(** The start of a linked structure is not marked: its offsets are followed from
    elsewhere. *)
Definition unmarked := named
  [Id "T"; Group Brace [Group Bracket [Id "offset_base"]; Id "uint16"; Id "a"; Id "Offset16"; Group Parens [Id "U"]; Id "b"];
   Id "U"; Group Brace [Id "Offset16"; Group Parens [Id "V"]; Id "c"];
   Id "V"; Group Brace [Id "uint16"; Id "d"]] "T".
Theorem C79_unmarked_refuted : exists v o out, suits none_ok unmarked v /\ enc none_enc unmarked v = Ok o /\ to_bytes o = Ok out /\
  from_bytes (dec none_de unmarked) out <> Ok v.
Proof.
  exists (VRec [num 1; VLink (Some (VRec [VLink (Some (VRec [num 7]))]))]). eexists. eexists.
  split; [cbn; repeat split; lia|]. split; [vm_compute; reflexivity|]. split; [vm_compute; reflexivity|]. vm_compute. discriminate.
Qed.
(** A second mark, or one that is not at the start. *)
Definition marked_twice := named
  [Id "T"; Group Brace [Group Bracket [Id "offset_base"]; Id "uint16"; Id "a"; Group Bracket [Id "offset_base"]; Id "Offset16"; Group Parens [Id "V"]; Id "b"];
   Id "V"; Group Brace [Id "uint16"; Id "d"]] "T".
Theorem C79_marked_twice_refuted : exists v o out, suits none_ok marked_twice v /\ enc none_enc marked_twice v = Ok o /\ to_bytes o = Ok out /\
  from_bytes (dec none_de marked_twice) out <> Ok v.
Proof.
  exists (VRec [num 1; VLink (Some (VRec [num 7]))]). eexists. eexists.
  split; [cbn; repeat split; lia|]. split; [vm_compute; reflexivity|]. split; [vm_compute; reflexivity|]. vm_compute. discriminate.
Qed.
Definition marked_late := named
  [Id "T"; Group Brace [Id "uint16"; Id "a"; Group Bracket [Id "offset_base"]; Id "Offset16"; Group Parens [Id "V"]; Id "b"];
   Id "V"; Group Brace [Id "uint16"; Id "d"]] "T".
Theorem C79_marked_late_refuted : exists v o out, suits none_ok marked_late v /\ enc none_enc marked_late v = Ok o /\ to_bytes o = Ok out /\
  from_bytes (dec none_de marked_late) out <> Ok v.
Proof.
  exists (VRec [num 1; VLink (Some (VRec [num 7]))]). eexists. eexists.
  split; [cbn; repeat split; lia|]. split; [vm_compute; reflexivity|]. split; [vm_compute; reflexivity|]. vm_compute. discriminate.
Qed.

(** FeatureVariations (part of GSUB and GPOS 1.1): declared as the format has
    it, a file is read correctly; as the library declares it, not. *)
Definition right_variations := named
  [Id "FeatureVariations"; Group Brace [Group Bracket [Id "offset_base"]; Id "uint16"; Id "majorVersion"; Id "uint16"; Id "minorVersion";
     Group Bracket [Id "embed"]; Id "Counted32"; Group Parens [Id "FeatureVariationRecord"]; Id "featureVariationRecords"];
   Id "FeatureVariationRecord"; Group Bracket [Id "embedded"]; Group Brace [Id "Offset32"; Group Parens [Id "ConditionSet"]; Id "conditionSet";
     Id "Offset32"; Group Parens [Id "FeatureTableSubstitution"]; Id "featureTableSubstitution"];
   Id "ConditionSet"; Group Brace [Group Bracket [Id "offset_base"]; Id "CountedOffset32"; Group Parens [Id "ConditionFormat1"]; Id "conditions"];
   Id "ConditionFormat1"; Group Brace [Id "uint16"; Id "format"; Id "uint16"; Id "axisIndex"; Id "F2DOT14"; Id "filterRangeMinValue"; Id "F2DOT14"; Id "filterRangeMaxValue"];
   Id "FeatureTableSubstitution"; Group Brace [Group Bracket [Id "offset_base"]; Id "uint16"; Id "majorVersion"; Id "uint16"; Id "minorVersion";
     Group Bracket [Id "embed"]; Id "Counted"; Group Parens [Id "FeatureTableSubstitutionRecord"]; Id "substitutions"];
   Id "FeatureTableSubstitutionRecord"; Group Bracket [Id "embedded"]; Group Brace [Id "uint16"; Id "featureIndex"; Id "Offset32"; Group Parens [Id "FeatureTable"]; Id "alternateFeature"];
   Id "FeatureTable"; Group Brace [Id "uint16"; Id "featureParamsOffset"; Id "Counted"; Group Parens [Id "uint16"]; Id "lookupListIndices"]]
  "FeatureVariations".
Theorem C79_feature_variations_refuted : exists v out,
  sound_table right_variations = true /\ suits none_ok right_variations v /\
  suits none_ok (library_type "FeatureVariations") v /\
  from_bytes (dec none_de right_variations) out = Ok v /\
  from_bytes (dec none_de (library_type "FeatureVariations")) out <> Ok v.
Proof.
  exists (VRec [num 1; num 0; VList [VRec [
    VLink (Some (VRec [VList [VLink (Some (VRec [num 1; num 0; VFloat (f2dot14_from_packed 8192); VFloat (f2dot14_from_packed 16384)]))]]));
    VLink None]]]).
  exists [0;1;0;0; 0;0;0;1; 0;0;0;16; 0;0;0;0; 0;1;0;0;0;6; 0;1;0;0;32;0;64;0].
  assert (P: forall p, -32768 <= p <= 32767 -> exists q, in_range I16 q /\ f2dot14_from_packed p = f2dot14_from_packed q)
    by (intros p Hp; exists p; split; [exact Hp|reflexivity]).
  assert (P1 := P 8192 ltac:(lia)). assert (P2 := P 16384 ltac:(lia)).
  split; [vm_compute; reflexivity|].
  assert (R: forall e1 b1 b2 b3 e2 b4 b5 e3 b6 e4 b7 b8 b9 b10 t,
    suits none_ok (Rec e1 [(b1, Plain (SPrim U16)); (b2, Plain (SPrim U16)); (b3, Many true (Rec e2 [(b4, Ref true (Rec e3 [(b6, Many false (Ref true (Rec e4
      [(b7, Plain (SPrim U16)); (b8, Plain (SPrim U16)); (b9, Plain SF2dot14); (b10, Plain SF2dot14)])))])); (b5, Ref true t)]))])
      (VRec [num 1; num 0; VList [VRec [
    VLink (Some (VRec [VList [VLink (Some (VRec [num 1; num 0; VFloat (f2dot14_from_packed 8192); VFloat (f2dot14_from_packed 16384)]))]]));
    VLink None]]])).
  { intros. unfold num. cbn [suits snd scalar_ok]. unfold fits_count. cbn [List.length]. unfold in_range. change (2 ^ 32) with 4294967296. change (2 ^ 16) with 65536.
    repeat split; try lia; constructor; [|constructor|..]; repeat split; try lia; try (constructor; [|constructor]); repeat split; try lia; assumption. }
  assert (E1: right_variations = ltac:(let t := eval vm_compute in right_variations in exact t)) by (vm_compute; reflexivity).
  assert (E2: library_type "FeatureVariations" = ltac:(let t := eval vm_compute in (library_type "FeatureVariations") in exact t)) by (vm_compute; reflexivity).
  split; [rewrite E1; apply R|]. split; [rewrite E2; apply R|]. split; [vm_compute; reflexivity|]. vm_compute. discriminate.
Qed.

(** GDEF 1.2: the coverage tables of the mark glyph sets are looked for in the
    wrong place.  (The hand-written type here is the coverage table.) *)
Definition cov_fok (n : string) (g : list Z) : Prop := n = "Coverage" /\ increasing g /\ Forall is_glyph g.
Lemma coverage_by_hand : by_hand (fun _ => cov_enc) (fun _ => cov_de) cov_fok.
Proof.
  intros n g (_ & Hi & Hg). destruct (cov_enc_obj g Hi Hg) as (o & E & C). exists o. split; [exact E|]. now apply cov_decodes.
Qed.
Theorem C79_gdef12_refuted : exists v o out, suits cov_fok (library_type "gdefcore12") v /\
  enc (fun _ => cov_enc) (library_type "gdefcore12") v = Ok o /\ to_bytes o = Ok out /\
  from_bytes (dec (fun _ => cov_de) (library_type "gdefcore12")) out <> Ok v.
Proof.
  exists (VRec [VNum 1; VNum 2; VLink None; VLink None; VLink None; VLink None;
    VLink (Some (VRec [VNum 1; VList [VLink (Some (VForeign [5]))]]))]). eexists. eexists.
  split; [|split; [vm_compute; reflexivity|]; split; [vm_compute; reflexivity|]; vm_compute; discriminate].
  assert (E: library_type "gdefcore12" = ltac:(let t := eval vm_compute in (library_type "gdefcore12") in exact t)) by (vm_compute; reflexivity).
  rewrite E. cbn [suits snd scalar_ok]. unfold in_range, fits_count, cov_fok. cbn [List.length]. change (2 ^ 16) with 65536.
  repeat split; try lia. constructor; [|constructor]. cbn [suits]. repeat split. repeat constructor; unfold is_glyph; lia.
Qed.

(** GDEF's attachment point lists: offsets to a coverage table and to the
    attachment points of each glyph. *)
Definition attach_value : value (list Z) :=
  VRec [VLink (Some (VForeign [3; 9])); VList [VLink (Some (VRec [VList [VNum 1; VNum 4]])); VLink (Some (VRec [VList [VNum 2]]))]].
Example C79_example : sound_table (library_type "AttachList") = true /\ suits cov_fok (library_type "AttachList") attach_value /\
  rbind (enc (fun _ => cov_enc) (library_type "AttachList") attach_value) to_bytes =
    Ok [0;8; 0;2; 0;16; 0;22;  0;1;0;2;0;3;0;9;  0;2;0;1;0;4;  0;1;0;2].
Proof.
  split; [vm_compute; reflexivity|]. split; [|vm_compute; reflexivity].
  assert (E: library_type "AttachList" = ltac:(let t := eval vm_compute in (library_type "AttachList") in exact t)) by (vm_compute; reflexivity).
  rewrite E. unfold attach_value. cbn [suits snd scalar_ok]. unfold in_range, fits_count, cov_fok. cbn [List.length]. change (2 ^ 16) with 65536.
  repeat split; try lia; repeat constructor; unfold is_glyph; cbn [List.length]; try lia.
Qed.
(** A structure without offsets: one axis of a variable font (fvar.rs) *)
Example C79_plain_example :
  refs (library_type "VariationAxisRecord") = false /\ sound_table (library_type "VariationAxisRecord") = true /\
  rbind (enc none_enc (library_type "VariationAxisRecord")
          (VRec [VTag [119;103;104;116]; VFloat (fixed_from_packed 6553600); VFloat (fixed_from_packed 26214400);
                 VFloat (fixed_from_packed 58982400); VNum 0; VNum 256])) to_bytes =
    Ok [119;103;104;116; 0;100;0;0; 1;144;0;0; 3;132;0;0; 0;0; 1;0].
Proof. split; [vm_compute; reflexivity|]. split; vm_compute; reflexivity. Qed.

Print Assumptions C79_plain.
Print Assumptions C79_written.
Print Assumptions C79_roundtrip.
Print Assumptions C79_small.
Print Assumptions C79_target.
Print Assumptions C79_part.
Print Assumptions C79_library.
Print Assumptions C79_library_roundtrip.
Print Assumptions C79_unmarked_refuted.
Print Assumptions C79_marked_twice_refuted.
Print Assumptions C79_marked_late_refuted.
Print Assumptions C79_feature_variations_refuted.
Print Assumptions C79_gdef12_refuted.

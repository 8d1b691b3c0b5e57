(** C78: the [tables!] macro. *)
From Coq Require Import String List.
Import ListNotations.
From Verif.Model Require Import MBase MMacro MDeclared.
From Verif.Spec Require Import SMacro.
From Verif.Proofs Require Import PMacro.
Open Scope string_scope.

(** The macro accepts exactly its language, and generates the structures that
    were written down: names, pragmas, and fields with their attributes, types
    and names, in order. *)
Theorem C78_language toks ds :
  expand toks = Ok ds /\ complete_decls ds <-> decls_toks ds toks.
Proof. apply expand_iff. Qed.

(** Anything else stops the compiler: the macro panics, or generates a field
    whose type is [compile_error]. *)
Theorem C78_otherwise toks : (forall ds, ~ decls_toks ds toks) ->
  expand toks = Panic \/ exists ds, expand toks = Ok ds /\ ~ complete_decls ds.
Proof.
  intros H. destruct (expand toks) as [ds| |] eqn:E.
  - right. exists ds. split; [reflexivity|]. intros C. apply (H ds). apply C78_language. now split.
  - exfalso. exact (tables_no_err toks None E).
  - now left.
Qed.

(** No text can be taken in two ways. *)
Theorem C78_unambiguous toks ds ds' : decls_toks ds toks -> decls_toks ds' toks -> ds = ds'.
Proof. intros H H'. apply C78_language in H as [E _]. apply C78_language in H' as [E' _]. congruence. Qed.

(** Texts that mean something else can have the same meaning for the macro: what
    follows the first token of an argument is ignored. *)
Theorem C78_arguments_refuted : exists s junk n,
  junk <> [] /\
  expand [Id "T"; Group Brace [Id "Offset16"; Group Parens (s :: junk); Id n]] =
  expand [Id "T"; Group Brace [Id "Offset16"; Group Parens [s]; Id n]] /\
  exists ds, expand [Id "T"; Group Brace [Id "Offset16"; Group Parens (s :: junk); Id n]] = Ok ds /\ complete_decls ds.
Proof.
  exists (Id "layout"), [Punct; Punct; Id "Coverage"], "coverage". split; [discriminate|]. split; [reflexivity|].
  eexists. split; [reflexivity|]. repeat constructor. intros k. discriminate.
Qed.

(** The invocations in the library are in the language. *)
Theorem C78_library toks : In toks invocations -> exists ds, decls_toks ds toks /\ Forall (fun d => d_trailing d = []) ds.
Proof.
  intros H.
  assert (G: forallb (fun toks => match expand toks with
    | Ok ds => forallb (fun d => match d_trailing d with [] => true | _ => false end &&
        forallb (fun f => match fd_type f with Wrapped _ (Id s) => negb (s =? "compile_error") | _ => true end) (d_fields d)) ds
    | _ => false end) invocations = true) by (vm_compute; reflexivity).
  rewrite forallb_forall in G. specialize (G toks H). destruct (expand toks) as [ds| |] eqn:E; try discriminate. exists ds.
  rewrite forallb_forall in G. split.
  - apply C78_language. split; [exact E|]. apply Forall_forall. intros d Hd. apply Forall_forall. intros f Hf k Ek.
    specialize (G d Hd). apply andb_prop in G as [_ G]. rewrite forallb_forall in G. specialize (G f Hf). rewrite Ek in G. discriminate.
  - apply Forall_forall. intros d Hd. specialize (G d Hd). apply andb_prop in G as [G _]. destruct (d_trailing d); [reflexivity|discriminate].
Qed.

(** cmap.rs:412-439, in part *)
Example C78_example :
  expand [Id "VariationSelector"; Group Bracket [Id "embedded"];
            Group Brace [Id "uint24"; Id "varSelector"; Id "Offset32"; Group Parens [Id "DefaultUVS"]; Id "defaultUVS"];
          Id "cmap14"; Group Brace [Group Bracket [Id "offset_base"]; Id "uint16"; Id "format";
            Group Bracket [Id "embed"]; Id "Counted32"; Group Parens [Id "VariationSelector"]; Id "varSelector"]] =
  Ok [mk_decl "VariationSelector" (mk_flags true true true false true)
        [mk_fdecl [] (Named "uint24") "varSelector"; mk_fdecl [] (Wrapped KOffset32 (Id "DefaultUVS")) "defaultUVS"] [];
      mk_decl "cmap14" (mk_flags false true true false true)
        [mk_fdecl [OffsetBase] (Named "uint16") "format";
         mk_fdecl [Embed] (Wrapped KCounted32 (Id "VariationSelector")) "varSelector"] []] /\
  List.length library = 118%nat /\
  expand [Id "T"; Group Bracket [Id "embed"]; Group Brace []] = Panic /\
  expand [Id "T"; Group Brace [Id "uint16"]] = Panic /\
  (exists ds, expand [Id "T"; Group Brace [Id "Counted"; Group Brace [Id "uint16"]; Id "x"]] = Ok ds /\ ~ complete_decls ds).
Proof.
  repeat split; try (vm_compute; reflexivity). eexists. split; [vm_compute; reflexivity|]. intros C.
  inversion C as [|? ? C1 _]; subst. inversion C1 as [|? ? C2 _]; subst. exact (C2 KCounted eq_refl).
Qed.

Print Assumptions C78_language.
Print Assumptions C78_otherwise.
Print Assumptions C78_unambiguous.
Print Assumptions C78_arguments_refuted.
Print Assumptions C78_library.

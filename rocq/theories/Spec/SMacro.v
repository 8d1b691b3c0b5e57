(** The language of the [tables!] macro. *)
From Coq Require Import String List.
Import ListNotations.
From Verif.Model Require Import MMacro.
Open Scope string_scope.

(** The seven type words that take an argument. *)
Definition keywords : list (string * wrapper) :=
  [("Maybe", KMaybe); ("Counted", KCounted); ("Counted32", KCounted32); ("Offset16", KOffset16);
   ("Offset32", KOffset32); ("CountedOffset16", KCountedOffset16); ("CountedOffset32", KCountedOffset32)].
Definition specials : list string := ["Fixed"; "F2DOT14"; "Version16Dot16"; "LONGDATETIME"].

(** A type: a word with an argument in parentheses, of which only the first
    token counts; one of the special types; or the name of a type. *)
Inductive type_toks : ftype -> list tok -> Prop :=
| tt_wrapped w k s junk : In (w, k) keywords -> s <> Id "compile_error" ->
    type_toks (Wrapped k s) [Id w; Group Parens (s :: junk)]
| tt_special t : In t specials -> type_toks (Special t) [Id t]
| tt_named t : ~ In t (map fst keywords) -> ~ In t specials -> type_toks (Named t) [Id t].

(** Attributes: [offset_base] or [embed], in brackets *)
Definition attr_tok (a : attr) : tok :=
  Group Bracket [Id (match a with OffsetBase => "offset_base" | Embed => "embed" end)].
(** A field: its attributes, its type, its name *)
Inductive field_toks : fdecl -> list tok -> Prop :=
| ft ats ty n l : type_toks ty l -> field_toks (mk_fdecl ats ty n) (map attr_tok ats ++ l ++ [Id n]).
Inductive fields_toks : list fdecl -> list tok -> Prop :=
| fts_nil : fields_toks [] []
| fts_cons f fs l l' : field_toks f l -> fields_toks fs l' -> fields_toks (f :: fs) (l ++ l').

(** A table: its name, its pragmas in any order and number, its fields in
    braces.  A pragma switches one thing on or off. *)
Definition pragmas : list string := ["embedded"; "nodebug"; "noserialize"; "default"; "nodeserialize"].
Definition pragma_tok (p : string) : tok := Group Bracket [Id p].
Definition has_pragma (p : string) (ps : list string) : bool := if in_dec string_dec p ps then true else false.
Definition flags_of (ps : list string) : flags :=
  mk_flags (has_pragma "embedded" ps) (negb (has_pragma "nodebug" ps)) (negb (has_pragma "noserialize" ps))
           (has_pragma "default" ps) (negb (has_pragma "nodeserialize" ps)).
Inductive decl_toks : decl -> list tok -> Prop :=
| dt n ps fs tr body : Forall (fun p => In p pragmas) ps -> fields_toks fs body ->
    decl_toks (mk_decl n (flags_of ps) fs tr) ([Id n] ++ map pragma_tok ps ++ [Group Brace (body ++ map attr_tok tr)]).
Inductive decls_toks : list decl -> list tok -> Prop :=
| dts_nil : decls_toks [] []
| dts_cons d ds l l' : decl_toks d l -> decls_toks ds l' -> decls_toks (d :: ds) (l ++ l').

(** No argument in parentheses was missing: in its place the macro puts the
    word [compile_error]. *)
Definition complete_field (f : fdecl) : Prop := forall k, fd_type f <> Wrapped k (Id "compile_error").
Definition complete_decls (ds : list decl) : Prop := Forall (fun d => Forall complete_field (d_fields d)) ds.

(** The [tables!] macro: crates/otspec_macros/src/tables.rs. *)
From Coq Require Import String List ZArith Bool.
Import ListNotations.
From Verif.Model Require Import MBase MDerive.
Open Scope string_scope.

(** proc_macro's TokenTree: identifiers, groups, and everything else
    (punctuation, literals). *)
Inductive delim := Brace | Bracket | Parens | Bare.
Inductive tok :=
| Id (s : string)
| Group (d : delim) (l : list tok)
| Punct.
Definition delim_eqb (a b : delim) : bool :=
  match a, b with Brace, Brace | Bracket, Bracket | Parens, Parens | Bare, Bare => true | _, _ => false end.

(** The tokens of [compile_error!("...")], tables.rs:36-38, 43-45, 49-50 *)
Definition error_toks : list tok := [Id "compile_error"; Punct; Group Parens [Punct]].
(** expect_group as compiled by a stable compiler, tables.rs:29-54 *)
Definition expect_group (t : option tok) (d : delim) : list tok :=
  match t with
  | Some (Group d' l) => if delim_eqb d' d then l else error_toks
  | _ => error_toks
  end.

(** tables.rs:126-139 *)
Record flags := mk_flags { fl_embedded : bool; fl_debug : bool; fl_serialize : bool; fl_default : bool; fl_deserialize : bool }.
Definition no_flags : flags := mk_flags false true true false true.
(** tables.rs:136-155.  The text of a bracket group is "[word]" if it holds that
    word and nothing else. *)
Definition table_pragma (fl : flags) (l : list tok) : option flags :=
  match l with
  | [Id s] =>
      if s =? "embedded" then Some (mk_flags true (fl_debug fl) (fl_serialize fl) (fl_default fl) (fl_deserialize fl))
      else if s =? "nodebug" then Some (mk_flags (fl_embedded fl) false (fl_serialize fl) (fl_default fl) (fl_deserialize fl))
      else if s =? "noserialize" then Some (mk_flags (fl_embedded fl) (fl_debug fl) false (fl_default fl) (fl_deserialize fl))
      else if s =? "default" then Some (mk_flags (fl_embedded fl) (fl_debug fl) (fl_serialize fl) true (fl_deserialize fl))
      else if s =? "nodeserialize" then Some (mk_flags (fl_embedded fl) (fl_debug fl) (fl_serialize fl) (fl_default fl) false)
      else None
  | _ => None
  end.

(** tables.rs:176-184 *)
Inductive attr := OffsetBase | Embed.
Definition field_pragma (l : list tok) : option attr :=
  match l with
  | [Id s] => if s =? "offset_base" then Some OffsetBase else if s =? "embed" then Some Embed else None
  | _ => None
  end.

(** The kinds of generated fields, tables.rs:188-251: [Wrapped k s] has the type
    in the second column below, for the token [s]; [Special t] is a field with
    [#[otspec(with = "t")]] (tables.rs:92-107); [Named t] has type [t].
      Maybe(s)            Option<s>
      Counted(s)          Vec<s>, with = "Counted"
      Counted32(s)        Vec<s>, with = "Counted32"
      Offset16(s)         Offset16<s>
      Offset32(s)         Offset32<s>
      CountedOffset16(s)  VecOffset16<s>, with = "Counted"
      CountedOffset32(s)  VecOffset32<s>, with = "Counted" *)
Inductive wrapper := KMaybe | KCounted | KCounted32 | KOffset16 | KOffset32 | KCountedOffset16 | KCountedOffset32.
Inductive ftype := Wrapped (k : wrapper) (s : tok) | Special (t : string) | Named (t : string).
Definition wrapper_of (t : string) : option wrapper :=
  if t =? "Maybe" then Some KMaybe
  else if t =? "Counted" then Some KCounted
  else if t =? "Counted32" then Some KCounted32
  else if t =? "Offset16" then Some KOffset16
  else if t =? "Offset32" then Some KOffset32
  else if t =? "CountedOffset16" then Some KCountedOffset16
  else if t =? "CountedOffset32" then Some KCountedOffset32
  else None.
(** special_type, tables.rs:92-107 *)
Definition special (t : string) : bool :=
  (t =? "Fixed") || (t =? "F2DOT14") || (t =? "Version16Dot16") || (t =? "LONGDATETIME").

Record fdecl := mk_fdecl { fd_attrs : list attr; fd_type : ftype; fd_name : string }.
(** [d_trailing]: attributes after the last field; what is generated then does
    not compile. *)
Record decl := mk_decl { d_name : string; d_flags : flags; d_fields : list fdecl; d_trailing : list attr }.

(** The loop over the fields, tables.rs:171-252; [acc] are the attributes
    written since the last field.  [expect_ident] (tables.rs:72-82) panics. *)
Fixpoint fields (acc : list attr) (toks : list tok) : res (list fdecl * list attr) :=
  match toks with
  | [] => Ok ([], acc)
  | Group Bracket l :: rest =>
      match field_pragma l with
      | Some a => fields (acc ++ [a])%list rest
      | None => Panic
      end
  | Id t :: rest =>
      match wrapper_of t with
      | Some k =>
          match rest with
          | g :: Id n :: rest' =>
              match expect_group (Some g) Parens with
              | [] => Panic
              | s :: _ => r <- fields [] rest' ;; Ok (mk_fdecl acc (Wrapped k s) n :: fst r, snd r)
              end
          | _ => Panic
          end
      | None =>
          match rest with
          | Id n :: rest' =>
              r <- fields [] rest' ;;
              Ok (mk_fdecl acc (if special t then Special t else Named t) n :: fst r, snd r)
          | _ => Panic
          end
      end
  | _ => Panic
  end.

(** expand_tables, tables.rs:109-256: the outer loop; [st] is the table whose
    name has been read and whose pragmas are being read (tables.rs:133-157).
    What is modelled is the list of declarations, not the text. *)
Fixpoint tables (st : option (string * flags)) (toks : list tok) : res (list decl) :=
  match st, toks with
  | None, [] => Ok []
  | None, Id n :: rest => tables (Some (n, no_flags)) rest
  | None, _ => Panic
  | Some (n, fl), Group Bracket l :: rest =>
      match table_pragma fl l with
      | Some fl' => tables (Some (n, fl')) rest
      | None => Panic
      end
  | Some (n, fl), g :: rest =>
      b <- fields [] (expect_group (Some g) Brace) ;;
      ds <- tables None rest ;;
      Ok (mk_decl n fl (fst b) (snd b) :: ds)
  | Some (n, fl), [] => b <- fields [] (expect_group None Brace) ;; Ok [mk_decl n fl (fst b) (snd b)]
  end.
Definition expand (toks : list tok) : res (list decl) := tables None toks.

(** ** From declarations to the types of MDerive

    The names of types with a codec of their own: types.rs:1-21 (aliases),
    lib.rs:184-217, tag.rs, and the bitflags structures whose derived code is
    that of their only field (src/tables/gasp.rs:21-34). *)
Definition scalar_named (t : string) : option scalar :=
  if (t =? "u8") || (t =? "uint8") then Some (SPrim U8)
  else if (t =? "i8") || (t =? "int8") then Some (SPrim I8)
  else if (t =? "u16") || (t =? "uint16") || (t =? "UFWORD") || (t =? "GlyphID") || (t =? "RangeGaspBehaviorFlags") then Some (SPrim U16)
  else if (t =? "i16") || (t =? "int16") || (t =? "FWORD") then Some (SPrim I16)
  else if (t =? "u32") || (t =? "uint32") then Some (SPrim U32)
  else if (t =? "i32") || (t =? "int32") then Some (SPrim I32)
  else if t =? "i64" then Some (SPrim I64)
  else if t =? "uint24" then Some SU24
  else if t =? "Tag" then Some STag
  else if t =? "Fixed" then Some SFixed
  else if t =? "F2DOT14" then Some SF2dot14
  else if t =? "Version16Dot16" then Some SVersion
  else if t =? "LONGDATETIME" then Some SDate
  else None.
Definition declared (ds : list decl) (n : string) : option decl := find (fun d => d_name d =? n) ds.
Definition derived (d : decl) : bool := fl_serialize (d_flags d) && fl_deserialize (d_flags d).
Definition has_attr (a : attr) (l : list attr) : bool :=
  existsb (fun b => match a, b with OffsetBase, OffsetBase | Embed, Embed => true | _, _ => false end) l.
(** [depth] bounds the nesting of declarations; a type beyond it, without
    derived code or not declared at all counts as written by hand. *)
Fixpoint type_named (depth : nat) (ds : list decl) (n : string) : shape :=
  match scalar_named n, depth with
  | Some c, _ => Plain c
  | None, S k =>
      match declared ds n with
      | Some d => if derived d then Rec (fl_embedded (d_flags d)) (map (fun f =>
          ((has_attr OffsetBase (fd_attrs f), has_attr Embed (fd_attrs f)),
           match fd_type f with
           | Named t | Special t => type_named k ds t
           | Wrapped w s =>
               let t := match s with Id t => type_named k ds t | _ => Foreign "?" end in
               match w with
               | KMaybe => Maybe t
               | KCounted => Many false t
               | KCounted32 => Many true t
               | KOffset16 => Ref false t
               | KOffset32 => Ref true t
               | KCountedOffset16 => Many false (Ref false t)
               | KCountedOffset32 => Many false (Ref true t)
               end
           end)) (d_fields d)) else Foreign n
      | None => Foreign n
      end
  | None, O => Foreign n
  end.

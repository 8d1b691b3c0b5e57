(** The [tag!] macro: crates/otspec_macros/src/tag.rs.  Texts are lists of
    characters (Unicode scalar values).  [Panic]: the program does not compile,
    because the macro panics, answers with [compile_error!], or generates
    something that is no tag. *)
From Coq Require Import List ZArith Bool.
Import ListNotations.
From Verif.Model Require Import MBase MTag.
Open Scope Z_scope.

(** The digits in backslash_x and backslash_u, tag.rs:119-131, 145-150 *)
Definition hex_digit (b : Z) : option Z :=
  if (48 <=? b) && (b <=? 57) then Some (b - 48)
  else if (97 <=? b) && (b <=? 102) then Some (10 + (b - 97))
  else if (65 <=? b) && (b <=? 70) then Some (10 + (b - 65))
  else None.
(** [char::from_u32] *)
Definition is_scalar (c : Z) : bool := (0 <=? c) && (c <? 55296) || (57344 <=? c) && (c <=? 1114111).
(** [char::is_whitespace]: the Unicode property White_Space *)
Definition is_whitespace (c : Z) : bool :=
  (9 <=? c) && (c <=? 13) || existsb (Z.eqb c) [32; 133; 160; 5760; 8232; 8233; 8239; 8287; 12288] || (8192 <=? c) && (c <=? 8202).
(** [str::len] counts bytes; [str::bytes] *)
Definition char_bytes (c : Z) : list Z :=
  if c <? 128 then [c]
  else if c <? 2048 then [192 + c / 64; 128 + c mod 64]
  else if c <? 65536 then [224 + c / 4096; 128 + c / 64 mod 64; 128 + c mod 64]
  else [240 + c / 262144; 128 + c / 4096 mod 64; 128 + c / 64 mod 64; 128 + c mod 64].
Definition str_bytes (s : list Z) : list Z := concat (map char_bytes s).

(** backslash_u after the opening brace, tag.rs:143-170 *)
Fixpoint backslash_u (digits : nat) (ch : Z) (s : list Z) : res (Z * list Z) :=
  match s with
  | [] => Panic
  | b :: s' =>
      match hex_digit b with
      | Some d => if (digits =? 6)%nat then Panic else backslash_u (S digits) (ch * 16 + d) s'
      | None =>
          if (b =? 95) && negb (digits =? 0)%nat then backslash_u digits ch s'
          else if (b =? 125) && negb (digits =? 0)%nat then (if is_scalar ch then Ok (ch, s') else Panic)
          else Panic
      end
  end.
(** tag.rs:204-211 *)
Fixpoint skip_white (s : list Z) : list Z :=
  match s with
  | c :: s' => if is_whitespace c then skip_white s' else s
  | [] => []
  end.
Definition push (c : Z) (r : res (list Z)) : res (list Z) := v <- r ;; Ok (c :: v).
(** parse_lit_str_cooked after the opening quote, tag.rs:176-231.  A byte that
    is compared with an ASCII character is the character itself or part of one
    beyond ASCII.  [fuel] is the length of the text. *)
Fixpoint cook (fuel : nat) (s : list Z) : res (list Z) :=
  match fuel with
  | O => Panic
  | S k =>
      match s with
      | [] => Panic
      | c :: s1 =>
          if c =? 34 then Ok []
          else if c =? 92 then
            match s1 with
            | [] => Panic
            | b :: s2 =>
                if b =? 120 then
                  match s2 with
                  | b0 :: b1 :: s3 =>
                      match hex_digit b0, hex_digit b1 with
                      | Some d0, Some d1 => if 16 * d0 + d1 <=? 128 then push (16 * d0 + d1) (cook k s3) else Panic
                      | _, _ => Panic
                      end
                  | _ => Panic
                  end
                else if b =? 117 then
                  match s2 with
                  | o :: s3 => if o =? 123 then r <- backslash_u 0 0 s3 ;; push (fst r) (cook k (snd r)) else Panic
                  | [] => Panic
                  end
                else if b =? 110 then push 10 (cook k s2)
                else if b =? 114 then push 13 (cook k s2)
                else if b =? 116 then push 9 (cook k s2)
                else if b =? 92 then push 92 (cook k s2)
                else if b =? 48 then push 0 (cook k s2)
                else if b =? 39 then push 39 (cook k s2)
                else if b =? 34 then push 34 (cook k s2)
                else if (b =? 13) || (b =? 10) then cook k (skip_white s2)
                else Panic
            end
          else if c =? 13 then
            match s1 with b :: s2 => if b =? 10 then push 10 (cook k s2) else Panic | [] => Panic end
          else push c (cook k s1)
      end
  end.

(** [trim_matches] *)
Fixpoint trim_start (s : list Z) : list Z :=
  match s with
  | c :: s' => if c =? 34 then trim_start s' else s
  | [] => []
  end.
Definition trim_quotes (s : list Z) : list Z := rev (trim_start (rev (trim_start s))).

(** expect_tag_literal, tag.rs:34-59, for the text of the literal *)
Definition tag_literal (text : list Z) : res (list Z) :=
  match text with
  | c :: s =>
      if (c =? 34) && (last text 0 =? 34) then
        v <- cook (length s) s ;;
        let bs := str_bytes (trim_quotes v) in
        match tag_from_raw bs with TagOk _ => Ok bs | TagErr _ => Panic end
      else Panic
  | [] => Panic
  end.

(** The compiler: a byte string literal after its opening quote, and what
    follows it (Rust reference, "Byte string literals"). *)
Fixpoint byte_string (s : list Z) : res (list Z * list Z) :=
  match s with
  | [] => Panic
  | c :: s1 =>
      if c =? 34 then Ok ([], s1)
      else if c =? 92 then
        match s1 with
        | [] => Panic
        | b :: s2 =>
            if b =? 120 then
              match s2 with
              | b0 :: b1 :: s3 =>
                  match hex_digit b0, hex_digit b1 with
                  | Some d0, Some d1 => r <- byte_string s3 ;; Ok (16 * d0 + d1 :: fst r, snd r)
                  | _, _ => Panic
                  end
              | _ => Panic
              end
            else match find (fun p => fst p =? b) [(110, 10); (114, 13); (116, 9); (92, 92); (48, 0); (39, 39); (34, 34)] with
                 | Some (_, x) => r <- byte_string s2 ;; Ok (x :: fst r, snd r)
                 | None => Panic
                 end
        end
      else r <- byte_string s1 ;; Ok (c :: fst r, snd r)
  end.
(** The first token in the parentheses: the text of a literal, or something
    else.  expand_tag_impl, tag.rs:14-32.  The generated text ends with a quote,
    a parenthesis, a space and a brace.  It compiles if nothing but the end follows the byte string (no other text of at
    most three characters completes an expression there) and the byte string has
    the length that Tag::from_raw_unchecked expects. *)
Inductive token := Literal (text : list Z) | Other.
Definition expand_tag (toks : list token) : res (list Z) :=
  match toks with
  | Literal text :: _ =>
      input <- tag_literal text ;;
      r <- byte_string (input ++ repeat 32 (4 - length input) ++ [34; 41; 32; 125]) ;;
      if bytes_eqb (snd r) [41; 32; 125] && (length (fst r) =? 4)%nat then Ok (fst r) else Panic
  | _ => Panic
  end.

(** String literals, as the Rust reference defines them. *)
From Coq Require Import List ZArith Bool.
Import ListNotations.
From Verif.Spec Require Import SName SPost.
Open Scope Z_scope.

(** A hexadecimal digit and its value *)
Definition hexit (c v : Z) : Prop :=
  48 <= c <= 57 /\ v = c - 48 \/ 97 <= c <= 102 /\ v = c - 87 \/ 65 <= c <= 70 /\ v = c - 55.
(** Hexadecimal digits, with underscores after them, and their values *)
Inductive hexits : list Z -> list Z -> Prop :=
| hx_nil : hexits [] []
| hx_under s vs : hexits s vs -> hexits (95 :: s) vs
| hx_digit c v s vs : hexit c v -> hexits s vs -> hexits (c :: s) (v :: vs).
Definition hex_value (vs : list Z) : Z := fold_left (fun a v => 16 * a + v) vs 0.

(** [spells blank s v]: the text [s] between quotes stands for the characters
    [v].  A backslash at the end of a line removes it and all [blank] characters
    that follow. *)
Inductive spells (blank : Z -> Prop) : list Z -> list Z -> Prop :=
| sp_end : spells blank [] []
| sp_char c s v : c <> 34 -> c <> 92 -> c <> 13 -> spells blank s v -> spells blank (c :: s) (c :: v)
| sp_escape e c s v : In (e, c) [(110, 10); (114, 13); (116, 9); (92, 92); (48, 0); (39, 39); (34, 34)] ->
    spells blank s v -> spells blank (92 :: e :: s) (c :: v)
| sp_hex h l a b s v : hexit h a -> hexit l b -> 16 * a + b <= 127 ->
    spells blank s v -> spells blank (92 :: 120 :: h :: l :: s) (16 * a + b :: v)
| sp_unicode h a ds vs s v : hexit h a -> hexits ds vs -> (length (a :: vs) <= 6)%nat ->
    scalar (hex_value (a :: vs)) ->
    spells blank s v -> spells blank (92 :: 117 :: 123 :: h :: ds ++ 125 :: s) (hex_value (a :: vs) :: v)
| sp_continued ws s v : Forall blank ws -> (forall c s', s = c :: s' -> ~ blank c) ->
    spells blank s v -> spells blank (92 :: 10 :: ws ++ s) v.
(** What the compiler skips, and what [char::is_whitespace] is true of *)
Definition ascii_blank (c : Z) : Prop := c = 9 \/ c = 10 \/ c = 13 \/ c = 32.
Definition white_space (c : Z) : Prop :=
  9 <= c <= 13 \/ In c [32; 133; 160; 5760; 8232; 8233; 8239; 8287; 12288] \/ 8192 <= c <= 8202.

(** A string literal and its value *)
Definition string_literal (text v : list Z) : Prop := exists s, text = 34 :: s ++ [34] /\ spells ascii_blank s v.
Definition one_line (text : list Z) : Prop := ~ In 10 text.
(** [w] is [v] without the quotes at its ends *)
Definition unquoted (v w : list Z) : Prop :=
  exists q q', v = q ++ w ++ q' /\ Forall (eq 34) q /\ Forall (eq 34) q' /\
    (forall c w', w = c :: w' -> c <> 34) /\ (forall c w', w = w' ++ [c] -> c <> 34).
Definition utf8 (v : list Z) : list Z := concat (map utf8_char v).

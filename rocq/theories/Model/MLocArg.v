(** ttf-instantiate: crates/fonttools-cli/src/bin/ttf-instantiate.rs.  Texts are
    their UTF-8 bytes. *)
From Coq Require Import List ZArith Bool.
Import ListNotations.
From Verif.Model Require Import MBase MFixed MFloat MFloat32 MTag MMap MVarModel MInst.
Open Scope Z_scope.

Definition is_digit (b : Z) : bool := (48 <=? b) && (b <=? 57).
(** [\w] on ASCII.  Other word characters match the expression as well, but then
    Tag::from_raw refuses the tag: the tool aborts either way. *)
Definition is_word (b : Z) : bool :=
  is_digit b || (65 <=? b) && (b <=? 90) || (97 <=? b) && (b <=? 122) || (b =? 95).

(** The longest beginning of [l] on which [f] holds, and what follows. *)
Fixpoint span (f : Z -> bool) (l : list Z) : list Z * list Z :=
  match l with
  | b :: l' => if f b then let '(x, y) := span f l' in (b :: x, y) else ([], l)
  | [] => ([], [])
  end.

(** ** str::parse::<f32>, as documented for [impl FromStr for f32]:
    [Sign? ('inf' | 'infinity' | 'nan' | Number)] in any case, where [Number] is
    [(Digit+ | Digit+ '.' Digit* | Digit* '.' Digit+) Exp?] and [Exp] is
    ['e' Sign? Digit+], correctly rounded.  There is no exponent range here: a
    number the code takes for an infinity is here very large, one it takes for
    0 very small, which makes no difference to [str_to_fixed] below. *)
Inductive f32_text := Finite (x : dyadic) | Infinite (negative : bool) | NotANumber.

Definition take_sign (s : list Z) : bool * list Z :=
  match s with
  | 43 :: r => (false, r)
  | 45 :: r => (true, r)
  | _ => (false, s)
  end.
Definition lower (b : Z) : Z := if (65 <=? b) && (b <=? 90) then b + 32 else b.
Definition digits_value (ds : list Z) : Z := fold_left (fun a d => 10 * a + (d - 48)) ds 0.
Definition signed (negative : bool) (z : Z) : Z := if negative then - z else z.

Definition parse_exponent (s : list Z) : option Z :=
  match s with
  | [] => Some 0
  | c :: r =>
      if lower c =? 101 then
        let '(neg, r1) := take_sign r in
        match span is_digit r1 with
        | ([], _) => None
        | (ds, []) => Some (signed neg (digits_value ds))
        | _ => None
        end
      else None
  end.
(** [m * 10^e], rounded *)
Definition f32_decimal (m e : Z) : dyadic :=
  if 0 <=? e then rnd24 (Dy (m * 10 ^ e) 0) else f32_div (Dy m 0) (Dy (10 ^ (- e)) 0).
Definition parse_number (neg : bool) (s : list Z) : option f32_text :=
  let '(ip, r1) := span is_digit s in
  let '(fp, r2) := match r1 with 46 :: r => span is_digit r | _ => ([], r1) end in
  match ip ++ fp with
  | [] => None
  | ds =>
      match parse_exponent r2 with
      | Some e => Some (Finite (f32_decimal (signed neg (digits_value ds)) (e - Z.of_nat (length fp))))
      | None => None
      end
  end.
Definition parse_f32 (s : list Z) : option f32_text :=
  let '(neg, r) := take_sign s in
  let w := map lower r in
  if bytes_eqb w [105; 110; 102] || bytes_eqb w [105; 110; 102; 105; 110; 105; 116; 121] then Some (Infinite neg)
  else if bytes_eqb w [110; 97; 110] then Some NotANumber
  else parse_number neg r.

(** str_to_fixed_to_float, ttf-instantiate.rs:71-73, with Fixed::round,
    crates/otspec/src/types.rs:85-87: [as i32] saturates and makes 0 of what is
    not a number. *)
Definition fixed_round (x : dyadic) : dyadic := fixed_from_packed (fixed_as_packed x).
Definition str_to_fixed (s : list Z) : res dyadic :=
  match parse_f32 s with
  | Some (Finite x) => Ok (fixed_round x)
  | Some (Infinite false) => Ok (fixed_from_packed (2 ^ 31 - 1))
  | Some (Infinite true) => Ok (fixed_from_packed (- 2 ^ 31))
  | Some NotANumber => Ok (fixed_from_packed 0)
  | None => Panic
  end.

(** parse_locargs, ttf-instantiate.rs:75-105: one argument.  The expression is
    [^(\w{1,4})=(?:(drop)|(?:([^:]+)(?:[:](.+))?))$].  [.] does not match the end of
    a line; a number with one in it aborts anyway. *)
Definition parse_locarg (s : list Z) : res (tag * limit) :=
  let '(key, r) := span is_word s in
  match r with
  | 61 :: body =>
      match tag_from_raw key with
      | TagOk t =>
          if bytes_eqb body [100; 114; 111; 112] then Ok (t, Drop)
          else
            let '(a, r2) := span (fun b => negb (b =? 58)) body in
            lo <- str_to_fixed a ;;
            match r2 with
            | [] => Ok (t, Pin lo)
            | _ :: b =>
                hi <- str_to_fixed b ;;
                if dy_eqb hi lo then Ok (t, Pin lo) else l <- axis_range lo hi ;; Ok (t, l)
            end
      | TagErr _ => Panic
      end
  | _ => Panic
  end.
Fixpoint parse_locargs (args : list (list Z)) (m : limits) : res limits :=
  match args with
  | [] => Ok m
  | s :: args' => '(t, l) <- parse_locarg s ;; parse_locargs args' (bm_insert lex_ltb t l m)
  end.

(** main, ttf-instantiate.rs:12-69: the font that is saved, if one is. *)
Definition ttf_instantiate (args : list (list Z)) (ft : vfont) : res (option vfont) :=
  m <- parse_locargs args [] ;;
  if (length m =? length args)%nat then
    match vf_fvar ft with
    | None => Ok None
    | Some _ => ft' <- instantiate ft m ;; Ok (Some ft')
    end
  else Ok None.

(** The OpenType formats of coverage tables, class definitions and device
    tables, written down independently of the code. *)
From Coq Require Import List ZArith.
Import ListNotations.
From Verif.Model Require Import MBase.
From Verif.Spec Require Import SBase SGlyph.
Open Scope Z_scope.

Definition is_u16 (z : Z) : Prop := 0 <= z <= 65535.
Definition words (l : list Z) : list Z := concat (map word l).
(** the integers from [s] to [e], both included *)
Definition interval (s e : Z) : list Z := map (fun i => s + Z.of_nat i) (seq 0 (Z.to_nat (e - s + 1))).
Definition range_words (r : Z * Z * Z) : list Z := word (fst (fst r)) ++ word (snd (fst r)) ++ word (snd r).
Definition range_ok (r : Z * Z * Z) : Prop :=
  is_u16 (fst (fst r)) /\ is_u16 (snd (fst r)) /\ is_u16 (snd r) /\ fst (fst r) <= snd (fst r).
Definition range_glyphs (r : Z * Z * Z) : list Z := interval (fst (fst r)) (snd (fst r)).

(** ** Coverage: the list of glyphs, in the order of their coverage indices *)
(** each range states the coverage index of its first glyph *)
Fixpoint indexed (n : Z) (rs : list (Z * Z * Z)) : Prop :=
  match rs with
  | [] => True
  | r :: rs' => snd r = n /\ indexed (n + Z.of_nat (length (range_glyphs r))) rs'
  end.
Inductive cov_bytes : list Z -> list Z -> Prop :=
| cov1 gs : Forall is_u16 gs -> Z.of_nat (length gs) <= 65535 ->
    cov_bytes (word 1 ++ word (Z.of_nat (length gs)) ++ words gs) gs
| cov2 rs : Forall range_ok rs -> Z.of_nat (length rs) <= 65535 -> indexed 0 rs ->
    cov_bytes (word 2 ++ word (Z.of_nat (length rs)) ++ concat (map range_words rs)) (concat (map range_glyphs rs)).
(** the number of maximal runs of successive glyphs *)
Fixpoint runs (l : list Z) : nat :=
  match l with
  | [] => 0
  | x :: l' => match l' with
               | [] => 1
               | y :: _ => if Z.eq_dec y (x + 1) then runs l' else S (runs l')
               end
  end.
Fixpoint nondecreasing (l : list Z) : Prop :=
  match l with
  | a :: ((b :: _) as l') => a <= b /\ nondecreasing l'
  | _ => True
  end.
(** ranges take less room *)
Definition ranges_shorter (g : list Z) : Prop := nondecreasing g /\ (3 * runs g < length g)%nat.

(** ** Class definitions: a class for every glyph, 0 unless stated *)
(** an ordered map from glyphs to classes *)
Definition class_map (m : list (Z * Z)) : Prop :=
  increasing (map fst m) /\ Forall (fun kv => is_u16 (fst kv) /\ is_u16 (snd kv)) m.
Definition first_key (m : list (Z * Z)) : Z := fst (hd (0, 0) m).
Definition last_key (m : list (Z * Z)) : Z := fst (last m (0, 0)).
(** no glyph between the first and the last is left out *)
Definition gapless (m : list (Z * Z)) : Prop := map fst m = interval (first_key m) (last_key m).
(** the bytes have no range that reaches glyph 65535 *)
Definition avoids_top (bs : list Z) : Prop :=
  forall rs, Forall range_ok rs -> bs = word 2 ++ word (Z.of_nat (length rs)) ++ concat (map range_words rs) ->
    forall r, In r rs -> ~ In 65535 (range_glyphs r).

Definition class_in (m : list (Z * Z)) (g : Z) : Z :=
  match find (fun kv => fst kv =? g) m with Some kv => snd kv | None => 0 end.
Inductive cd_bytes : list Z -> (Z -> Z) -> Prop :=
| cd1 start cs f : 0 <= start -> start + Z.of_nat (length cs) <= 65536 -> start <= 65535 -> Forall is_u16 cs ->
    Z.of_nat (length cs) <= 65535 ->
    (forall g, f g = if (start <=? g) && (g <? start + Z.of_nat (length cs)) then nth (Z.to_nat (g - start)) cs 0 else 0) ->
    cd_bytes (word 1 ++ word start ++ word (Z.of_nat (length cs)) ++ words cs) f
| cd2 rs f : Forall range_ok rs -> Z.of_nat (length rs) <= 65535 ->
    (forall r g, In r rs -> In g (range_glyphs r) -> f g = snd r) ->
    (forall g, (forall r, In r rs -> ~ In g (range_glyphs r)) -> f g = 0) ->
    cd_bytes (word 2 ++ word (Z.of_nat (length rs)) ++ concat (map range_words rs)) f.
(** the number of maximal runs of successive glyphs with the same class *)
Fixpoint class_runs (l : list (Z * Z)) : nat :=
  match l with
  | [] => 0
  | x :: l' => match l' with
               | [] => 1
               | y :: _ => if Z.eq_dec (fst y) (fst x + 1)
                           then if Z.eq_dec (snd x) (snd y) then class_runs l' else S (class_runs l')
                           else S (class_runs l')
               end
  end.

(** ** Device tables: a delta for every size from [start] to [end], each [n]
    bits in two's complement, packed into 16-bit words from the top *)
Fixpoint bits (n : nat) (z : Z) : list bool :=
  match n with O => [] | S k => Z.testbit z (Z.of_nat k) :: bits k z end.
Definition fits_bits (n : nat) (v : Z) : Prop := - 2 ^ (Z.of_nat n - 1) <= v < 2 ^ (Z.of_nat n - 1).
Definition bits_per_value (format : Z) : nat := Z.to_nat (2 ^ format).
(** the values one after the other, top bit first, then fewer than 16 padding
    bits to make up whole 16-bit words *)
Definition packed_bits (n : nat) (vs : list Z) (pad : list bool) (bs : list Z) : Prop :=
  Forall is_byte bs /\ Nat.even (length bs) = true /\ (length pad < 16)%nat /\
  concat (map (bits 8) bs) = concat (map (bits n) vs) ++ pad.
Definition dev_bytes (start last format : Z) (vs : list Z) (pad : list bool) (bs : list Z) : Prop :=
  exists bs', bs = word start ++ word last ++ word format ++ bs' /\
    packed_bits (bits_per_value format) vs pad bs'.
(** a value for every size *)
Definition dev_sized (s e : Z) (vs : list Z) : Prop :=
  is_u16 s /\ is_u16 e /\ s <= e /\ e - s <= 65534 /\ Z.of_nat (length vs) = e - s + 1.

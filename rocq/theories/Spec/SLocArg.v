(** Numbers and axis limits as they are written on the command line.  Texts are
    lists of bytes. *)
From Coq Require Import List ZArith QArith Qpower Qabs Sorting.Permutation.
Import ListNotations.
From Verif.Model Require Import MBase MFixed MFloat MTag MVarModel MInst MLocArg.
From Verif.Spec Require Import SFloat.
Open Scope Z_scope.

(** ** Numbers *)

(** Decimal digits and the number they write. *)
Inductive digits : list Z -> Z -> Prop :=
| no_digits : digits [] 0
| more_digits ds n d : digits ds n -> 0 <= d <= 9 -> digits (ds ++ [48 + d]) (10 * n + d).

Inductive sign : list Z -> Z -> Prop :=
| sign_none : sign [] 1
| sign_plus : sign [43] 1
| sign_minus : sign [45] (-1).

(** An exponent: nothing, or the letter e and a number. *)
Inductive exponent : list Z -> Z -> Prop :=
| exponent_none : exponent [] 0
| exponent_some c s k ds n : c = 101 \/ c = 69 -> sign s k -> ds <> [] -> digits ds n ->
    exponent (c :: s ++ ds) (k * n).

(** The text [s] writes the number [q] in decimal notation. *)
Definition decimal (s : list Z) (q : Q) : Prop :=
  exists sg k ip i fp f t e, sign sg k /\ digits ip i /\ digits fp f /\ ip ++ fp <> [] /\ exponent t e /\
    (s = sg ++ ip ++ [46] ++ fp ++ t \/ fp = [] /\ s = sg ++ ip ++ t) /\
    (q == inject_Z k * (inject_Z i + inject_Z f / Qpower 10 (Z.of_nat (length fp))) * Qpower 10 e)%Q.

(** The letters of [w], each small or capital. *)
Definition letters (w s : list Z) : Prop := Forall2 (fun l c => c = l \/ c = l - 32) w s.
Definition infinity_text (s : list Z) (k : Z) : Prop :=
  exists sg w, s = sg ++ w /\ sign sg k /\
    (letters [105; 110; 102] w \/ letters [105; 110; 102; 105; 110; 105; 116; 121] w).
Definition nan_text (s : list Z) : Prop := exists sg k w, s = sg ++ w /\ sign sg k /\ letters [110; 97; 110] w.

(** No number with a significand of 24 bits is nearer to [q] than [r]. *)
Definition nearest24 (q r : Q) : Prop :=
  representable 24 r /\ forall r', representable 24 r' -> (Qabs (r - q) <= Qabs (r' - q))%Q.

(** ** Limits *)
Definition word_byte (b : Z) : Prop := 48 <= b <= 57 \/ 65 <= b <= 90 \/ 97 <= b <= 122 \/ b = 95.
(** A tag, written without the spaces at its end. *)
Definition tag_text (s : list Z) (t : tag) : Prop :=
  (1 <= length s <= 4)%nat /\ Forall word_byte s /\ t = s ++ repeat 32 (4 - length s).

(** The text [s] writes the limit [l] of the axis [t], if [amount] tells what
    value a text stands for: [wght=drop], [wght=400] or [wght=300:700]. *)
Inductive limit_text (amount : list Z -> dyadic -> Prop) : list Z -> tag -> limit -> Prop :=
| text_drop key t : tag_text key t -> limit_text amount (key ++ [61; 100; 114; 111; 112]) t Drop
| text_pin key t a v : tag_text key t -> ~ In 58 a -> amount a v -> limit_text amount (key ++ [61] ++ a) t (Pin v)
| text_point key t a v b w : tag_text key t -> ~ In 58 a -> amount a v -> amount b w -> (val v == val w)%Q ->
    limit_text amount (key ++ [61] ++ a ++ [58] ++ b) t (Pin v)
| text_range key t a v b w : tag_text key t -> ~ In 58 a -> amount a v -> amount b w -> (val v < val w)%Q ->
    limit_text amount (key ++ [61] ++ a ++ [58] ++ b) t (Range v w).

(** The value the tool takes a text for. *)
Definition amount (s : list Z) (v : dyadic) : Prop := str_to_fixed s = Ok v.
(** Every argument writes a limit. *)
Definition texts (args : list (list Z)) (ls : limits) : Prop :=
  Forall2 (fun s kv => limit_text amount s (fst kv) (snd kv)) args ls.

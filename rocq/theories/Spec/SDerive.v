(** What it means for a value to fit a declaration, how it is laid out in
    bytes, and which declarations are sound. *)
From Coq Require Import String List ZArith Bool.
Import ListNotations.
From Verif.Model Require Import MBase MTag MFixed MTables MOffset MDerive.
From Verif.Spec Require Import SBase STables SOffset.
Open Scope Z_scope.

(** ** Values that fit

    A plain value suits if it is one of those its type can store. *)
Definition scalar_ok {F} (c : scalar) (v : value F) : Prop :=
  match c, v with
  | SPrim p, VNum z => in_range p z
  | SU24, VNum z => 0 <= z < 2 ^ 24
  | STag, VTag t => good_tag t
  | SFixed, VFloat x => fixed_value x
  | SF2dot14, VFloat x => exists p, in_range I16 p /\ x = f2dot14_from_packed p
  | SVersion, VNum z => 0 <= z < 256 * 65536 /\ z mod 2048 = 0
  | SDate, VDate d => date_ok d
  | _, _ => False
  end.
Definition fits_count (w : bool) (n : nat) : Prop := Z.of_nat n < (if w then 2 ^ 32 else 2 ^ 16).
(** [suits fok t v]; [fok] are the good values of the hand-written types. *)
Fixpoint suits {F} (fok : string -> F -> Prop) (t : shape) (v : value F) {struct t} : Prop :=
  match t, v with
  | Plain c, _ => scalar_ok c v
  | Foreign n, VForeign x => fok n x
  | Ref _ _, VLink None => True
  | Ref _ t', VLink (Some x) => suits fok t' x
  | Many w t', VList vs => fits_count w (List.length vs) /\ Forall (suits fok t') vs
  | Maybe _, VOpt None => True
  | Maybe t', VOpt (Some x) => suits fok t' x
  | Rec _ fs, VRec vs =>
      (fix each (fs : list ((bool * bool) * shape)) (vs : list (value F)) : Prop :=
         match fs, vs with
         | [], [] => True
         | f :: fs', v :: vs' => suits fok (snd f) v /\ each fs' vs'
         | _, _ => False
         end) fs vs
  | _, _ => False
  end.

(** ** Layout of a structure without offsets: the fields in the order in which
    they are declared, each in its own format, with nothing in between; numbers
    are big-endian, and an array is its length followed by its elements. *)
Definition number (w : nat) (z : Z) (bs : list Z) : Prop := List.length bs = w /\ big_endian bs z.
Definition scalar_layout {F} (c : scalar) (v : value F) (bs : list Z) : Prop :=
  match c, v with
  | SPrim p, VNum z => number (width p) z bs
  | SU24, VNum z => number 3 z bs
  | STag, VTag t => bs = t
  | SFixed, VFloat x => exists p, x = fixed_from_packed p /\ number 4 p bs
  | SF2dot14, VFloat x => exists p, x = f2dot14_from_packed p /\ number 2 p bs
  | SVersion, VNum z => bs = [0; z / 65536; (z mod 65536) * 160 / 65536; 0]
  | SDate, VDate d => number 8 (dt_secs d) bs
  | _, _ => False
  end.
Inductive split_in {A} (P : A -> list Z -> Prop) : list A -> list Z -> Prop :=
| split_nil : split_in P [] []
| split_cons a l b bs : P a b -> split_in P l bs -> split_in P (a :: l) (b ++ bs).
Fixpoint layout {F} (t : shape) (v : value F) (bs : list Z) {struct t} : Prop :=
  match t, v with
  | Plain c, _ => scalar_layout c v bs
  | Many w t', VList vs =>
      exists n b, bs = n ++ b /\ number (if w then 4 else 2)%nat (Z.of_nat (List.length vs)) n /\ split_in (layout t') vs b
  | Maybe _, VOpt None => bs = []
  | Maybe t', VOpt (Some x) => layout t' x bs
  | Rec _ fs, VRec vs =>
      (fix each (fs : list ((bool * bool) * shape)) (vs : list (value F)) (bs : list Z) : Prop :=
         match fs, vs with
         | [], [] => bs = []
         | f :: fs', v :: vs' => exists b b', bs = b ++ b' /\ layout (snd f) v b /\ each fs' vs' b'
         | _, _ => False
         end) fs vs bs
  | _, _ => False
  end.

(** ** Sound declarations

    [sound at_start t]: code derived for [t] reads what it writes, when offsets
    count from the start of the value itself ([at_start]: it is the target of an
    offset) or from a start that the reader already knows (it is a part of
    something else).
    - a structure with offsets that is the target of an offset marks its first
      field, and no other, as [offset_base];
    - one that is part of something else marks no field;
    - one without offsets marks at most one;
    - whatever holds offsets can be resolved when writing ([carried]);
    - nothing is optional, and hand-written types are targets of offsets. *)
Definition bases (fs : list ((bool * bool) * shape)) : nat := List.length (filter f_base fs).
Fixpoint sound (at_start : bool) (t : shape) : bool :=
  match t with
  | Plain _ => true
  | Foreign _ => at_start
  | Ref _ t' => negb at_start && sound true t'
  | Many _ t' => sound false t' && (negb at_start || negb (refs t'))
  | Maybe _ => false
  | Rec _ fs =>
      forallb (fun f => sound false (snd f)) fs && carried fs &&
      (if existsb (fun f => refs (snd f)) fs then
         if at_start then Nat.eqb (bases fs) 1 && match fs with f :: _ => f_base f | [] => false end
         else Nat.eqb (bases fs) 0
       else Nat.leb (bases fs) 1)
  end.
(** A table of its own: it starts where the file starts, so the reader knows
    that start already; and it is not itself marked as [embedded]. *)
Definition sound_table (t : shape) : bool :=
  (sound true t || sound false t) && match t with Rec emb _ => negb emb || negb (refs t) | _ => true end.

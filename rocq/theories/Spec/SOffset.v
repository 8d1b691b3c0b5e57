(** What it means for linked objects to be stored in a buffer. *)
From Coq Require Import List ZArith.
Import ListNotations.
From Verif.Model Require Import MBase MOffset.
Open Scope Z_scope.

Definition at_pos (buf : list Z) (pos : nat) (bs : list Z) : Prop :=
  exists pre post, buf = pre ++ bs ++ post /\ length pre = pos.

(** [stored lim buf base pos l]: the items [l] are at [pos] in [buf], and every
    offset among them is the distance, less than [lim] or what is allowed for
    the offsets of extension subtables, from [base] to a place where its target is
    stored (with offsets relative to its own start), or 0 if it has no target. *)
Definition farthest (lim : Z) (k : off_kind) : Z := match k with Far32 => 2 ^ 32 | _ => lim end.
Inductive stored (lim : Z) (buf : list Z) : nat -> nat -> list item -> Prop :=
| st_nil base pos : (pos <= length buf)%nat -> stored lim buf base pos []
| st_byte base pos b l : at_pos buf pos [b] -> stored lim buf base (pos + 1) l ->
    stored lim buf base pos (IB b :: l)
| st_null base pos k l : at_pos buf pos (be_bytes (off_width k) 0) ->
    stored lim buf base (pos + off_width k) l -> stored lim buf base pos (IRef k None :: l)
| st_link base pos k o v l : 0 < v < farthest lim k -> v < 256 ^ Z.of_nat (off_width k) ->
    at_pos buf pos (be_bytes (off_width k) v) ->
    stored lim buf (base + Z.to_nat v) (base + Z.to_nat v) o ->
    stored lim buf base (pos + off_width k) l -> stored lim buf base pos (IRef k (Some o) :: l)
| st_group base pos g l : stored lim buf base pos (g ++ l) -> stored lim buf base pos (IGroup g :: l).

(** The number of bytes of an object and everything below it. *)
Fixpoint item_total (i : item) : nat :=
  match i with
  | IB _ => 1
  | IRef k None => off_width k
  | IRef k (Some l) => off_width k + list_sum (map item_total l)
  | IGroup l => list_sum (map item_total l)
  end.
Definition total (o : obj) : nat := list_sum (map item_total o).

(** [decodes p o v]: wherever [o] is stored, in whatever arrangement, the
    parser [p] started there reads [v] and stops after [o]'s own bytes. *)
Definition decodes {A} (p : parser A) (o : obj) (v : A) : Prop :=
  forall buf pos stk, stored 65536 buf pos pos o ->
    p (mkrd buf pos stk) = Ok (v, mkrd buf (pos + size o) stk).

(** [finds p o v]: the same for a reader that may stop anywhere (the caller puts
    the pointer back). *)
Definition finds {A} (p : parser A) (o : obj) (v : A) : Prop :=
  forall buf pos stk, stored 65536 buf pos pos o ->
    exists q, p (mkrd buf pos stk) = Ok (v, mkrd buf q stk).

(** A reader for objects of a given shape: the code's own reading of bytes,
    offsets and offset bases (de_u8, de_offset, with_base), one for each item.
    An offset that is null in the shape must be null in the bytes. *)
Fixpoint read_item (i : item) : parser item :=
  match i with
  | IB _ => pbind de_u8 (fun b => pret (IB b))
  | IRef k None =>
      pbind (de_offset (negb (off_width k =? 2)%nat) (fun _ => Err : res (list item * rd))) (fun x => pret (IRef k x))
  | IRef k (Some l) =>
      pbind (de_offset (negb (off_width k =? 2)%nat)
               (with_base ((fix go (l : list item) : parser (list item) :=
                  match l with [] => pret [] | i :: l' => pbind (read_item i) (fun x => pbind (go l') (fun xs => pret (x :: xs))) end) l)))
            (fun x => pret (IRef k x))
  | IGroup l =>
      pbind ((fix go (l : list item) : parser (list item) :=
                match l with [] => pret [] | i :: l' => pbind (read_item i) (fun x => pbind (go l') (fun xs => pret (x :: xs))) end) l)
            (fun x => pret (IGroup x))
  end.
Fixpoint read_items (l : list item) : parser (list item) :=
  match l with [] => pret [] | i :: l' => pbind (read_item i) (fun x => pbind (read_items l') (fun xs => pret (x :: xs))) end.
Definition read_like (o : obj) : parser obj := with_base (read_items o).

(** All plain bytes are bytes, and there are no extension subtables. *)
Fixpoint item_bytes_ok (i : item) : bool :=
  match i with
  | IB b => (0 <=? b) && (b <? 256)
  | IRef Far32 _ => false
  | IRef _ None => true
  | IRef _ (Some l) => forallb item_bytes_ok l
  | IGroup l => forallb item_bytes_ok l
  end.
Definition bytes_ok (o : obj) : bool := forallb item_bytes_ok o.

(** Offsets that the reader cannot follow: 32 bits wide. *)
Fixpoint item_short (i : item) : bool :=
  match i with
  | IB _ => true
  | IRef Off32 _ | IRef Far32 _ => false
  | IRef _ None => true
  | IRef _ (Some l) => forallb item_short l
  | IGroup l => forallb item_short l
  end.
Definition short_offsets (o : obj) : bool := forallb item_short o.

(** Objects are written one after the other, each followed by what its offsets
    lead to, in the order of [kids].  So the distance from an object to the
    target of its [j]-th offset is its own size and everything below its earlier
    offsets.  [reachable o]: all these distances fit the offsets that hold
    them. *)
Definition distance (o : obj) (j : nat) : nat :=
  size o + list_sum (map (fun r => match snd r with Some l => total l | None => 0%nat end) (firstn j (kids o))).
Inductive reachable : obj -> Prop :=
| reach o : (forall j k t, nth_error (kids o) j = Some (k, Some t) ->
      (off_width k = 2%nat -> Z.of_nat (distance o j) < 65536) /\ reachable t) -> reachable o.

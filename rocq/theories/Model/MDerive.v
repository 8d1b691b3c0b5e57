(** The code generated for a declared structure: what
    [#[derive(Serialize, Deserialize)]] of crates/otspec_macros (src/ser.rs,
    src/de.rs) makes of a list of fields.  The generated functions are modelled
    for every declaration at once, by interpreting the declaration. *)
From Coq Require Import String List ZArith Bool.
Import ListNotations.
From Verif.Model Require Import MBase MTag MFixed MTables MPost MOffset.
Open Scope Z_scope.

(** The types with a codec of their own that a field can have:
    crates/otspec/src/lib.rs:184-217 (otspec_primitive!), types.rs:1-250, tag.rs. *)
Inductive scalar :=
| SPrim (p : prim)        (* u8 i8 u16 i16 u32 i32 i64 and their aliases *)
| SU24 | STag | SFixed | SF2dot14 | SVersion | SDate.

(** The type of a field.
    - [Ref w t]: Offset16<t> ([w = false]) or Offset32<t>
    - [Many w t]: Vec<t> with "Counted" or "Counted32"; a VecOffset16<t> or
      VecOffset32<t> is [Many _ (Ref _ t)]
    - [Maybe t]: Option<t>
    - [Rec emb fs]: a structure with derived code; [emb] is
      [#[otspec(embedded)]], and a field is ((offset_base, embed), type)
    - [Foreign n]: a type whose code is written by hand *)
Inductive shape :=
| Plain (c : scalar)
| Foreign (n : string)
| Ref (w : bool) (t : shape)
| Many (w : bool) (t : shape)
| Maybe (t : shape)
| Rec (emb : bool) (fs : list ((bool * bool) * shape)).
Definition f_base (f : (bool * bool) * shape) : bool := fst (fst f).
Definition f_embed (f : (bool * bool) * shape) : bool := snd (fst f).

(** A value of such a type; [F] are the values of the types with hand-written
    code.  The stored number of an offset is left out, as in MOffset. *)
Inductive value (F : Type) :=
| VNum (z : Z)
| VFloat (x : dyadic)
| VTag (t : list Z)
| VDate (d : date)
| VForeign (x : F)
| VLink (o : option (value F))
| VList (l : list (value F))
| VOpt (o : option (value F))
| VRec (l : list (value F)).
Arguments VNum {F}. Arguments VFloat {F}. Arguments VTag {F}. Arguments VDate {F}.
Arguments VForeign {F}. Arguments VLink {F}. Arguments VList {F}. Arguments VOpt {F}. Arguments VRec {F}.

(** Does a value of the type hold offsets of its own (not those of the objects
    its offsets lead to)?  A hand-written type may. *)
Fixpoint refs (t : shape) : bool :=
  match t with
  | Plain _ => false
  | Foreign _ | Ref _ _ => true
  | Many _ t' | Maybe t' => refs t'
  | Rec _ fs => existsb (fun f => refs (snd f)) fs
  end.
(** Does a Version16Dot16 occur?  It writes four bytes and says it is two long
    (types.rs:200-209), so the positions of whatever follows are wrong. *)
Fixpoint versioned (t : shape) : bool :=
  match t with
  | Plain SVersion => true
  | Plain _ | Foreign _ | Ref _ _ => false
  | Many _ t' | Maybe t' => versioned t'
  | Rec _ fs => existsb (fun f => versioned (snd f)) fs
  end.
(** Written in place by the parent: a structure with offsets that is not marked
    [embedded] writes its descendants right after itself (ser.rs:30-49). *)
Fixpoint in_place (t : shape) : bool :=
  match t with
  | Plain _ | Ref _ _ => true
  | Foreign _ => false
  | Many _ t' | Maybe t' => in_place t'
  | Rec emb fs => emb || negb (existsb (fun f => refs (snd f)) fs)
  end.
(** serialize_offset_fields and serialize_embed_fields, ser.rs:152-203: the
    offsets in a field are resolved if the field is an offset, an optional
    offset or an array of offsets, or is marked [embed]. *)
Definition listed (f : (bool * bool) * shape) : bool :=
  negb (refs (snd f)) ||
  match snd f with
  | Ref _ _ | Maybe (Ref _ _) | Many _ (Ref _ _) => true
  | t => f_embed f && in_place t
  end.
Definition carried (fs : list ((bool * bool) * shape)) : bool :=
  forallb listed fs && (negb (existsb (fun f => refs (snd f)) fs) || negb (existsb (fun f => versioned (snd f)) fs)).

Section Derived.
Context {F : Type} (fenc : string -> F -> res obj) (fdec : string -> parser F).

(** types.rs, lib.rs:184-217, tag.rs; a value of another type does not occur *)
Definition scalar_ser (c : scalar) (v : value F) : res (list Z) :=
  match c, v with
  | SPrim p, VNum z => Ok (ser_prim p z)
  | SU24, VNum z => ser_u24 z
  | STag, VTag t => Ok (ser_tag t)
  | SFixed, VFloat x => Ok (ser_fixed x)
  | SF2dot14, VFloat x => ser_f2dot14 x
  | SVersion, VNum z => ser_version16dot16 z
  | SDate, VDate d => Ok (ser_date d)
  | _, _ => Panic
  end.
Definition scalar_de (c : scalar) : parser (value F) :=
  match c with
  | SPrim p => z <-- de_prim p ;; pret (VNum z)
  | SU24 => z <-- de_u24 ;; pret (VNum z)
  | STag => t <-- de_tag ;; pret (VTag t)
  | SFixed => x <-- de_fixed ;; pret (VFloat x)
  | SF2dot14 => x <-- de_f2dot14 ;; pret (VFloat x)
  | SVersion => z <-- de_version16dot16 ;; pret (VNum z)
  | SDate => d <-- de_date ;; pret (VDate d)
  end.

Definition kind (w : bool) : off_kind := if w then Off32 else Off16.
(** counted.rs: [self.0.len() as uint16] ([uint32]) *)
Definition count_ser (w : bool) (n : nat) : list Z :=
  if w then ser_u32 (u32 (Z.of_nat n)) else ser_u16 (u16 (Z.of_nat n)).
(** offsets.rs:367-383: setting the number of an Option<Offset16> *)
Definition optional (l : list item) : list item :=
  map (fun i => match i with IRef Off16 o => IRef OptOff16 o | _ => i end) l.

(** The fields of a structure in order, ser.rs:85-117 *)
Fixpoint enc_fields (es : list (value F -> res (list item))) (vs : list (value F)) : res (list item) :=
  match es, vs with
  | [], [] => Ok []
  | e :: es', v :: vs' => a <- e v ;; b <- enc_fields es' vs' ;; Ok (a ++ b)
  | _, _ => Panic
  end.
(** What derived code writes of a value, ser.rs:10-83, as the items the offset
    manager works on (MOffset).  [Panic] stands for what this model does not
    describe: values of another type, and declarations whose offsets are not
    [carried] (the generated code then writes descendants in the middle of a
    structure, or fails on offsets that were never resolved). *)
Fixpoint enc (t : shape) (v : value F) {struct t} : res (list item) :=
  match t, v with
  | Plain c, _ => bs <- scalar_ser c v ;; Ok (raw bs)
  | Foreign n, VForeign x => fenc n x
  | Ref w _, VLink None => Ok [IRef (kind w) None]
  | Ref w t', VLink (Some x) => o <- enc t' x ;; Ok [IRef (kind w) (Some o)]
  | Many w t', VList vs =>
      ls <- rmapM (enc t') vs ;; Ok (raw (count_ser w (List.length vs)) ++ [IGroup (concat ls)])
  | Maybe _, VOpt None => Ok []
  | Maybe t', VOpt (Some x) => l <- enc t' x ;; Ok (optional l)
  | Rec _ fs, VRec vs =>
      if carried fs then l <- enc_fields (map (fun f => enc (snd f)) fs) vs ;; Ok [IGroup l]
      else Panic
  | _, _ => Panic
  end.

(** The fields of a structure in order, de.rs:48-132: [c.push()] before each
    field marked [offset_base] *)
Fixpoint dec_fields (ds : list (bool * parser (value F))) : parser (list (value F)) :=
  match ds with
  | [] => pret []
  | (b, p) :: ds' => fun r =>
      match p (if b then rd_push r else r) with
      | Ok (v, r1) =>
          match dec_fields ds' r1 with
          | Ok (vs, r2) => Ok (v :: vs, r2)
          | Err => Err | Panic => Panic end
      | Err => Err | Panic => Panic end
  end.
(** de.rs:26-30: one [c.pop()] if any field is so marked *)
Definition closing {A} (b : bool) (p : parser A) : parser A := fun r =>
  match p r with
  | Ok (x, r1) =>
      if b then match rd_pop r1 with Ok r2 => Ok (x, r2) | Err => Err | Panic => Panic end
      else Ok (x, r1)
  | Err => Err | Panic => Panic end.
(** What derived code reads, de.rs:9-46.  There is no [Deserialize] for Option:
    a structure with such a field that derives it does not compile. *)
Fixpoint dec (t : shape) : parser (value F) :=
  match t with
  | Plain c => scalar_de c
  | Foreign n => x <-- fdec n ;; pret (VForeign x)
  | Ref w t' => x <-- de_offset w (dec t') ;; pret (VLink x)
  | Many w t' =>
      l <-- (if w then de_counted32 (dec t') else de_counted16 (dec t')) ;; pret (VList l)
  | Maybe _ => ppanic
  | Rec _ fs =>
      l <-- closing (existsb f_base fs) (dec_fields (map (fun f => (f_base f, dec (snd f))) fs)) ;;
      pret (VRec l)
  end.
End Derived.

(** Value records: crates/otspec/src/layout/valuerecord.rs *)
From Verif.Model Require Import MBase MGlyph MOffset MLayout.

(** ValueRecord, valuerecord.rs:18-30.  A device field is absent, an offset
    without a target, or an offset to a device table. *)
Record vrec := mk_vrec {
  vr_xpla : option Z; vr_ypla : option Z; vr_xadv : option Z; vr_yadv : option Z;
  vr_xplad : option (option device); vr_yplad : option (option device);
  vr_xadvd : option (option device); vr_yadvd : option (option device) }.

(** ValueRecordFlags, valuerecord.rs:37-54 *)
Definition V_XPLA := 1. Definition V_YPLA := 2. Definition V_XADV := 4. Definition V_YADV := 8.
Definition V_XPLAD := 16. Definition V_YPLAD := 32. Definition V_XADVD := 64. Definition V_YADVD := 128.

Definition flag_if {A} (o : option A) (m : Z) (f : Z) : Z := match o with Some _ => Z.lor f m | None => f end.
(** flags, valuerecord.rs:76-103 (the second test of [xPlaDevice] is the code's) *)
Definition vr_flags (v : vrec) : Z :=
  let f := 0 in
  let f := flag_if (vr_xpla v) V_XPLA f in
  let f := flag_if (vr_ypla v) V_YPLA f in
  let f := flag_if (vr_xadv v) V_XADV f in
  let f := flag_if (vr_yadv v) V_YADV f in
  let f := flag_if (vr_xplad v) V_XPLAD f in
  let f := flag_if (vr_xplad v) V_YPLAD f in
  let f := flag_if (vr_xadvd v) V_XADVD f in
  flag_if (vr_yadvd v) V_YADVD f.
(** has_any, valuerecord.rs:64-73 *)
Definition is_some {A} (o : option A) : bool := match o with Some _ => true | None => false end.
Definition vr_has_any (v : vrec) : bool :=
  is_some (vr_xpla v) || is_some (vr_ypla v) || is_some (vr_xadv v) || is_some (vr_yadv v) ||
  is_some (vr_xplad v) || is_some (vr_yplad v) || is_some (vr_xadvd v) || is_some (vr_yadvd v).

(** from_bytes, valuerecord.rs:106-137 *)
Definition de_if {A} (b : bool) (p : parser A) : parser (option A) :=
  if b then x <-- p ;; pret (Some x) else pret None.
Definition vr_de (flags : Z) : parser vrec :=
  a <-- de_if (contains flags V_XPLA) de_i16 ;;
  b <-- de_if (contains flags V_YPLA) de_i16 ;;
  c <-- de_if (contains flags V_XADV) de_i16 ;;
  d <-- de_if (contains flags V_YADV) de_i16 ;;
  e <-- de_if (contains flags V_XPLAD) (de_off16 dv_de) ;;
  f <-- de_if (contains flags V_YPLAD) (de_off16 dv_de) ;;
  g <-- de_if (contains flags V_XADVD) (de_off16 dv_de) ;;
  h <-- de_if (contains flags V_YADVD) (de_off16 dv_de) ;;
  pret (mk_vrec a b c d e f g h).

(** The derived [Serialize] (valuerecord.rs:15, an [embedded] structure): the
    present fields in order. *)
Definition vr_int (o : option Z) : list item := match o with Some z => raw (ser_i16 z) | None => [] end.
Definition vr_dev (o : option (option device)) : res (list item) :=
  match o with
  | None => Ok []
  | Some None => Ok [IRef OptOff16 None]
  | Some (Some d) => bs <- dv_ser d ;; Ok [IRef OptOff16 (Some (raw bs))]
  end.
Definition vr_enc (v : vrec) : res (list item) :=
  e <- vr_dev (vr_xplad v) ;;
  f <- vr_dev (vr_yplad v) ;;
  g <- vr_dev (vr_xadvd v) ;;
  h <- vr_dev (vr_yadvd v) ;;
  Ok (vr_int (vr_xpla v) ++ vr_int (vr_ypla v) ++ vr_int (vr_xadv v) ++ vr_int (vr_yadv v) ++ e ++ f ++ g ++ h).

(** coerce_to_format, valuerecord.rs:140-153 *)
Definition fill (b : bool) (o : option Z) : option Z :=
  match o with None => if b then Some 0 else None | Some z => Some z end.
Definition vr_coerce (flags : Z) (v : vrec) : vrec :=
  mk_vrec (fill (contains flags V_XPLA) (vr_xpla v)) (fill (contains flags V_YPLA) (vr_ypla v))
          (fill (contains flags V_XADV) (vr_xadv v)) (fill (contains flags V_YADV) (vr_yadv v))
          (vr_xplad v) (vr_yplad v) (vr_xadvd v) (vr_yadvd v).
(** simplify, valuerecord.rs:156-177 *)
Definition drop_zero (o : option Z) : option Z :=
  match o with Some z => if z =? 0 then None else Some z | None => None end.
Definition vr_simplify (v : vrec) : vrec :=
  mk_vrec (drop_zero (vr_xpla v)) (drop_zero (vr_ypla v)) (drop_zero (vr_xadv v)) (drop_zero (vr_yadv v))
          (vr_xplad v) (vr_yplad v) (vr_xadvd v) (vr_yadvd v).
(** highest_format, valuerecord.rs:181-188 ([reduce]) *)
Definition highest_format (vs : list vrec) : Z :=
  match map vr_flags vs with [] => 0 | f :: fs => fold_left Z.lor fs f end.
(** is_all_the_same, utils.rs:19-33 *)
Definition all_same {A} (eqb : A -> A -> bool) (l : list A) : bool :=
  match l with [] => true | a :: l' => forallb (eqb a) l' end.
(** coerce_to_same_format, valuerecord.rs:191-203 *)
Definition coerce_same (vs : list vrec) : list vrec :=
  if all_same Z.eqb (map vr_flags vs) then vs else map (vr_coerce (highest_format vs)) vs.

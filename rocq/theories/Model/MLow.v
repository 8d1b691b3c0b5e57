(** Building blocks of the layout subtables: offsets to coverage tables and
    class definitions, arrays of offsets, arrays of numbers. *)
From Verif.Model Require Import MBase MOffset MLayout.

(** An [Offset16<T>] field *)
Definition link_enc {A} (enc : A -> res obj) (o : option A) : res item :=
  match o with
  | None => Ok (IRef Off16 None)
  | Some a => b <- enc a ;; Ok (IRef Off16 (Some b))
  end.
(** A [CountedOffset16(T)] field: a [VecOffset16<T>] (offsets.rs:228-295)
    written through [Counted] *)
Definition vec_enc {A} (enc : A -> res obj) (l : list (option A)) : res (list item) :=
  is <- rmapM (link_enc enc) l ;;
  Ok (raw (ser_u16 (u16 (Z.of_nat (length l)))) ++ [IGroup is]).
(** A [Counted(uint16)] field *)
Definition words_enc (l : list Z) : list item :=
  raw (ser_u16 (u16 (Z.of_nat (length l))) ++ concat (map ser_u16 l)).
(** Offset targets with a hand-written [Serialize] and no offsets of their own *)
Definition cov_enc (g : list Z) : res obj := bs <- cov_ser g ;; Ok (raw bs).
Definition cd_enc (m : classdef) : res obj := bs <- cd_ser m ;; Ok (raw bs).

Definition de_vec16 {A} (p : parser A) : parser (list (option A)) := de_counted16 (de_off16 p).
Definition de_words : parser (list Z) := de_counted16 de_u16.
Definition de_cov : parser (option (list Z)) := de_off16 cov_de.
(** [c.peek(2)?], then a parser chosen by the two bytes (e.g. gsub1.rs:22-39) *)
Definition by_format {A} (f : list Z -> parser A) : parser A := fun r =>
  match peek r 2 with
  | Ok (s, _) => f s r
  | Err => Err
  | Panic => Panic
  end.
(** coverage_or_nah, src/layout/common.rs:25-32 *)
Definition cov_or_nah (o : option (list Z)) : list Z := match o with Some g => g | None => [] end.

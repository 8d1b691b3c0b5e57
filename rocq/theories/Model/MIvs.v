(** Item variation stores: src/otvar/itemvariationstore.rs.  The parts
    (ItemVariationData, VariationRegionList) are in MPacked. *)
From Verif.Model Require Import MBase MFixed MPacked MOffset MLow.

(** itemvariationstore.rs:122-132 *)
Record ivs := mk_ivs { vs_format : Z; vs_axes : Z; vs_regions : list (list region_axis); vs_data : list ivd }.

(** The size of an object without a size of its own is that of its bytes, which
    are computed and unwrapped while the offsets are resolved (lib.rs:159-163):
    an error on writing it is a panic. *)
Definition blob {A} (ser : A -> res (list Z)) (a : A) : res obj :=
  match ser a with Ok bs => Ok (raw bs) | _ => Panic end.
(** An [Offset32<T>] that leads somewhere *)
Definition link32 (o : obj) : item := IRef Off32 (Some o).
(** A [CountedOffset32(T)] field: a [VecOffset32<T>] (offsets.rs:228-295)
    written through [Counted] *)
Definition vec32_enc {A} (enc : A -> res obj) (l : list A) : res (list item) :=
  os <- rmapM enc l ;;
  Ok (raw (ser_u16 (u16 (Z.of_nat (length l)))) ++ [IGroup (map link32 os)]).
Definition de_vec32 {A} (p : parser A) : parser (list (option A)) := de_counted16 (de_off32 p).

(** ItemVariationStore::to_bytes, itemvariationstore.rs:151-171.  The format is
    always 1. *)
Definition ivs_enc (s : ivs) : res obj :=
  rl <- blob ser_region_list (mk_region_list (vs_axes s) (u16 (Z.of_nat (length (vs_regions s)))) (vs_regions s)) ;;
  ds <- vec32_enc (blob ser_ivd) (vs_data s) ;;
  Ok (raw (ser_u16 1) ++ [link32 rl] ++ ds).
Definition ivs_ser (s : ivs) : res (list Z) := o <- ivs_enc s ;; to_bytes o.

(** ItemVariationStore::from_bytes, itemvariationstore.rs:18-22, 134-149.
    ItemVariationStoreInternal is not an offset base. *)
Definition ivs_de : parser ivs :=
  format <-- de_u16 ;;
  rl <-- de_off32 de_region_list ;;
  ds <-- de_vec32 de_ivd ;;
  plift (rl <- unwrap rl ;;
         ds <- rmapM unwrap ds ;;
         Ok (mk_ivs format (rl_axes rl) (rl_regions rl) ds)).

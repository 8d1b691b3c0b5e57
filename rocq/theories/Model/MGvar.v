(** The glyph variations table: src/tables/gvar.rs *)
From Verif.Model Require Import MBase MFixed MFloat MGlyph MGlyf MPacked MIup.

(** gvar.rs:37-46 *)
Record delta_set := mk_ds {
  ds_peak : list dyadic; ds_start : list dyadic; ds_end : list dyadic;
  ds_deltas : list (Z * Z) }.
(** gvar.rs:155-172: for each glyph, its delta sets if it has any data *)
Definition gvar := list (option (list delta_set)).

(** ** Writing *)

(** gvar.rs:54-57 and 273-276: each coordinate as an F2DOT14, [unwrap] *)
Definition tuple_bytes (t : list dyadic) : res (list Z) := unwrap_res (ser_tuple t).
(** [==] on byte vectors *)
Fixpoint bytes_eqb (a b : list Z) : bool :=
  match a, b with
  | [], [] => true
  | x :: a', y :: b' => (x =? y) && bytes_eqb a' b'
  | _, _ => false
  end.
(** [==] on [Tuple]s: length and values *)
Fixpoint tuple_eqb (a b : list dyadic) : bool :=
  match a, b with
  | [], [] => true
  | x :: a', y :: b' => dy_eqb x y && tuple_eqb a' b'
  | _, _ => false
  end.
(** [iter().position(|t| t == x)], counting from [i] *)
Fixpoint position_from (i : Z) (x : list Z) (l : list (list Z)) : option Z :=
  match l with
  | [] => None
  | t :: l' => if bytes_eqb t x then Some i else position_from (i + 1) x l'
  end.
(** gvar.rs:58-89: the header of the variation *)
Definition ds_header (shared : list (list Z)) (peak : list Z) (d : delta_set) : tvh :=
  let '(index, embedded) :=
    match position_from 0 peak shared with
    | Some i => (u16 i, 0)
    | None => (0, EMBEDDED_PEAK_TUPLE)
    end in
  let intermediate := negb (tuple_eqb (ds_peak d) (ds_start d)) || negb (tuple_eqb (ds_peak d) (ds_end d)) in
  let flags := Z.lor embedded (if intermediate then INTERMEDIATE_REGION else 0) in
  mk_tvh 0 flags index
    (if contains flags EMBEDDED_PEAK_TUPLE then Some (ds_peak d) else None)
    (if contains flags INTERMEDIATE_REGION then Some (ds_start d) else None)
    (if contains flags INTERMEDIATE_REGION then Some (ds_end d) else None).
(** gvar.rs:91-95 *)
Definition full_deltas (d : delta_set) : list (option delta) :=
  map (fun p => Some (Delta2D (fst p) (snd p))) (ds_deltas d).
(** gvar.rs:49-125.  [iter().flatten().count() == 0]: nothing was kept. *)
Definition to_tuple_variation (shared : list (list Z)) (g : option glyph) (d : delta_set) : res tuple_variation :=
  peak <- tuple_bytes (ds_peak d) ;;
  let h := ds_header shared peak d in
  let deltas := full_deltas d in
  match g with
  | None => Ok (mk_tv h deltas)
  | Some g =>
      optimized <- optimize_deltas deltas g ;;
      if forallb is_none optimized then Ok (mk_tv h deltas)
      else
        a <- unwrap_res (ser_tvs [mk_tv h deltas]) ;;
        b <- unwrap_res (ser_tvs [mk_tv h optimized]) ;;
        if (length b <? length a)%nat then Ok (mk_tv h optimized) else Ok (mk_tv h deltas)
  end.
(** gvar.rs:305-321: [map] and [filter]; the parallel version collects in the
    same order *)
Fixpoint keep_effective (vs : list tuple_variation) : res (list tuple_variation) :=
  match vs with
  | [] => Ok []
  | v :: vs' => b <- has_effect (tv_deltas v) ;; r <- keep_effective vs' ;; Ok (if b then v :: r else r)
  end.
(** gvar.rs:303-327, one glyph with data; [at_] is [g.glyphs[ix]].  [len] is
    the length of the data so far: a 0 is added if the length is odd. *)
Definition glyph_data (shared : list (list Z)) (glyf : option (list glyph)) (ix len : nat) (sets : list delta_set)
  : res (list Z) :=
  g <- match glyf with Some gs => rmap Some (at_ gs ix) | None => Ok None end ;;
  vs <- rmapM (to_tuple_variation shared g) sets ;;
  vs' <- keep_effective vs ;;
  bs <- unwrap_res (ser_tvs vs') ;;
  Ok (if Nat.odd (len + length bs) then bs ++ [0] else bs).
(** gvar.rs:292-336 (the offsets are long: [flags] is 1): the offsets, the
    final one included, and the data *)
Fixpoint all_data (shared : list (list Z)) (glyf : option (list glyph)) (ix len : nat) (v : gvar)
  : res (list Z * list Z) :=
  let here := ser_u32 (u32 (Z.of_nat len)) in
  match v with
  | [] => Ok (here, [])
  | s :: v' =>
      bs <- match s with None => Ok [] | Some sets => glyph_data shared glyf ix len sets end ;;
      ' (os, ds) <- all_data shared glyf (S ix) (len + length bs) v' ;;
      Ok (here ++ os, bs ++ ds)
  end.
(** All delta sets in order, gvar.rs:269-270 *)
Definition all_sets (v : gvar) : list delta_set :=
  concat (map (fun s => match s with Some sets => sets | None => [] end) v).
(** gvar::to_bytes, gvar.rs:261-359.  [most_common] stands for
    [Counter::most_common] on the serialized peaks, without the counts: the
    keys of a hash map, by decreasing count; keys with equal counts come in an
    unspecified order. *)
Definition gvar_ser (most_common : list (list Z) -> list (list Z)) (v : gvar) (glyf : option (list glyph))
  : res (list Z) :=
  peaks <- rmapM (fun d => tuple_bytes (ds_peak d)) (all_sets v) ;;
  let axis_count := u16 (last (map (fun d => Z.of_nat (length (ds_peak d))) (all_sets v)) 0) in
  let shared := most_common peaks in
  match shared with
  | [] => Panic
  | _ =>
      let tuples := concat shared in
      ' (offsets, data) <- all_data shared glyf 0 0 v ;;
      shared_offset <- chk_u 32 (20 + u32 (Z.of_nat (length offsets))) ;;
      data_offset <- chk_u 32 (shared_offset + u32 (Z.of_nat (length tuples))) ;;
      Ok (ser_u16 1 ++ ser_u16 0 ++ ser_u16 axis_count ++ ser_u16 (u16 (Z.of_nat (length shared))) ++
          ser_u32 shared_offset ++ ser_u16 (u16 (Z.of_nat (length v))) ++ ser_u16 1 ++ ser_u32 data_offset ++
          offsets ++ tuples ++ data)
  end.

(** ** Reading *)

(** [c.ptr = c.top_of_table() + off] *)
Definition move_to (off : Z) : parser unit := fun r =>
  match top_of_table r with
  | Ok t => Ok (tt, mkrd (rd_input r) (t + Z.to_nat off) (rd_stack r))
  | Err => Err | Panic => Panic
  end.
(** gvar.rs:211-244, one variation; [x > 0.0] *)
Definition positive (x : dyadic) : bool := dy_ltb (Dy 0 0) x.
Definition read_set (shared : list (list dyadic)) (coords : list (Z * Z)) (ends : list Z) (v : tuple_variation)
  : res delta_set :=
  deltas <- iup_delta (tv_deltas v) coords ends ;;
  let h := tv_header v in
  let index := tv_index h in
  if index >? Z.of_nat (length shared) then Err
  else
    peak <- match tv_peak h with Some p => Ok p | None => at_ shared (Z.to_nat index) end ;;
    let start := match tv_start h with
                 | Some s => s
                 | None => map (fun x => if positive x then Dy 0 0 else Dy (-1) 0) peak
                 end in
    let end_ := match tv_end h with
                | Some e => e
                | None => map (fun x => if positive x then Dy 1 0 else Dy 0 0) peak
                end in
    Ok (mk_ds peak start end_ deltas).
(** gvar.rs:188-247, glyph [i] and the ones after it; [data] is
    glyphVariationDataArrayOffset, the sums are on u32 and the difference on usize *)
Fixpoint read_glyphs (ces : list (list (Z * Z) * list Z)) (axis_count : nat) (shared : list (list dyadic))
    (offsets : list Z) (data : Z) (i n : nat) : parser gvar :=
  match n with
  | O => pret []
  | S k =>
      o <-- plift (at_ offsets i) ;;
      offset <-- plift (chk_u 32 (o + data)) ;;
      o' <-- plift (at_ offsets (S i)) ;;
      next <-- plift (chk_u 32 (o' + data)) ;;
      len <-- plift (chk_u 64 (next - offset)) ;;
      s <-- (if len =? 0 then pret None
             else
               _ <-- move_to offset ;;
               ce <-- plift (at_ ces i) ;;
               vs <-- de_tvs axis_count true (Z.to_nat (u16 (Z.of_nat (length (fst ce))))) ;;
               sets <-- plift (rmapM (read_set shared (fst ce) (snd ce)) vs) ;;
               pret (Some sets)) ;;
      r <-- read_glyphs ces axis_count shared offsets data (S i) k ;;
      pret (s :: r)
  end.
(** gvar.rs:21-31, 162-257.  One tuple more than sharedTupleCount is read. *)
Definition gvar_de (ces : list (list (Z * Z) * list Z)) : parser gvar := fun r0 =>
  (_ <-- de_u16 ;; _ <-- de_u16 ;;
   axis_count <-- de_u16 ;; tuple_count <-- de_u16 ;; shared_offset <-- de_u32 ;;
   glyph_count <-- de_u16 ;; flags <-- de_u16 ;; data_offset <-- de_u32 ;;
   offset_count <-- plift (chk_u 16 (glyph_count + 1)) ;;
   offsets <-- (if Z.land flags 1 =? 0 then
                  l <-- de_counted de_u16 (Z.to_nat offset_count) ;;
                  plift (rmapM (fun x => chk_u 16 (x * 2)) l)
                else de_counted de_u32 (Z.to_nat offset_count)) ;;
   _ <-- move_to shared_offset ;;
   n <-- plift (chk_u 16 (tuple_count + 1)) ;;
   shared <-- de_counted (de_tuple (Z.to_nat axis_count)) (Z.to_nat n) ;;
   read_glyphs ces (Z.to_nat axis_count) shared offsets data_offset 0 (Z.to_nat glyph_count)) (rd_push r0).

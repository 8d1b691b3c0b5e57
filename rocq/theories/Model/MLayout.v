(** The leaves of the layout tables: coverage tables, class definitions and
    device tables (crates/otspec/src/layout/{coverage,classdef,device}.rs). *)
From Verif.Model Require Import MBase MMap.

(** A Rust range [s..e] of integers *)
Definition zrange (s e : Z) : list Z := map (fun i => s + Z.of_nat i) (seq 0 (Z.to_nat (e - s))).

(** consecutive_slices, coverage.rs:51-64 and classdef.rs:76-89: [next a b] is
    the negation of the test in the loop.  The slices are built from the back;
    the loop's panics (overflow of [data[i - 1] + 1]) do not depend on that. *)
Fixpoint slices {A} (next : A -> A -> res bool) (l : list A) : res (list (list A)) :=
  match l with
  | [] => Ok []
  | x :: l' =>
      match l' with
      | [] => Ok [[x]]
      | y :: _ =>
          b <- next x y ;;
          r <- slices next l' ;;
          Ok (if b then match r with h :: t => (x :: h) :: t | [] => [[x]] end else [x] :: r)
      end
  end.

(** ** Coverage *)
(** coverage.rs:55 *)
Definition cov_next (a b : Z) : res bool := s <- chk_u 16 (a + 1) ;; Ok (s =? b).
Definition cov_slices (l : list Z) : res (list (list Z)) := slices cov_next l.
(** is_sorted, coverage.rs:68-81 *)
Fixpoint is_sorted (l : list Z) : bool :=
  match l with
  | a :: ((b :: _) as l') => negb (b <? a) && is_sorted l'
  | _ => true
  end.
(** most_efficient_format, coverage.rs:84-94 *)
Definition cov_format (glyphs : list Z) : res Z :=
  sl <- cov_slices glyphs ;;
  Ok (if (length glyphs =? 0)%nat || negb (is_sorted glyphs) || (length glyphs <=? length sl * 3)%nat then 1 else 2).
(** the loop at coverage.rs:111-119 *)
Fixpoint cov_records (index : Z) (sl : list (list Z)) : res (list Z) :=
  match sl with
  | [] => Ok []
  | s :: sl' =>
      match s with
      | [] => Panic
      | a :: _ =>
          index' <- chk_u 16 (index + u16 (Z.of_nat (length s))) ;;
          r <- cov_records index' sl' ;;
          Ok (ser_u16 a ++ ser_u16 (last s 0) ++ ser_u16 index ++ r)
      end
  end.
(** Coverage::to_bytes, coverage.rs:98-123.  (The addition to [index] after the
    last slice is made as well.) *)
Definition cov_ser (glyphs : list Z) : res (list Z) :=
  sl <- cov_slices glyphs ;;
  fmt <- cov_format glyphs ;;
  if fmt =? 1 then
    a <- ser_counted (fun g => Ok (ser_u16 g)) glyphs ;;
    Ok (ser_u16 1 ++ a)
  else
    r <- cov_records 0 sl ;;
    Ok (ser_u16 2 ++ ser_u16 (u16 (Z.of_nat (length sl))) ++ r).
(** ot_binary_size, coverage.rs:124-131 *)
Definition cov_size (glyphs : list Z) : res nat :=
  fmt <- cov_format glyphs ;;
  sl <- cov_slices glyphs ;;
  Ok (2 + if (fmt =? 1)%Z then 2 + 2 * length glyphs else 2 + 6 * length sl)%nat.

(** three uint16 fields: RangeRecord (coverage.rs:15-19), ClassRangeRecord
    (classdef.rs:18-22) *)
Definition de_triple : parser (Z * Z * Z) :=
  a <-- de_u16 ;; b <-- de_u16 ;; c <-- de_u16 ;; pret (a, b, c).
(** coverage.rs:40-45 *)
Fixpoint cov_expand (rs : list (Z * Z * Z)) : res (list Z) :=
  match rs with
  | [] => Ok []
  | (s, e, _) :: rs' =>
      e1 <- chk_u 16 (e + 1) ;;
      r <- cov_expand rs' ;;
      Ok (zrange s e1 ++ r)
  end.
(** Coverage::from_bytes, coverage.rs:34-49 *)
Definition cov_de : parser (list Z) :=
  format <-- de_u16 ;;
  if format =? 1 then de_counted16 de_u16
  else rs <-- de_counted16 de_triple ;; plift (cov_expand rs).

(** ** Class definitions; the map is a BTreeMap<GlyphID, uint16> *)
Definition classdef := list (Z * Z).
Definition cd_get (g : Z) (m : classdef) : option Z := bm_get Z.ltb g m.
(** get_glyphs, classdef.rs:40-53 *)
Definition cd_get_glyphs (m : classdef) (class_id max_gid : Z) : list Z :=
  if class_id =? 0 then
    filter (fun g => match cd_get g m with Some _ => false | None => true end) (zrange 0 (max_gid + 1))
  else bs_of_list (map fst (filter (fun kv => snd kv =? class_id) m)).
(** classdef.rs:81 *)
Definition cd_next (a b : Z * Z) : res bool :=
  s <- chk_u 16 (fst a + 1) ;; Ok ((s =? fst b) && (snd a =? snd b)).
Definition cd_slices (m : classdef) : res (list (list (Z * Z))) := slices cd_next m.
(** the loop at classdef.rs:116-122 *)
Fixpoint cd_records (sl : list (list (Z * Z))) : res (list Z) :=
  match sl with
  | [] => Ok []
  | s :: sl' =>
      match s with
      | [] => Panic
      | a :: _ =>
          r <- cd_records sl' ;;
          Ok (ser_u16 (fst a) ++ ser_u16 (fst (last s (0, 0))) ++ ser_u16 (snd a) ++ r)
      end
  end.
(** ClassDef::to_bytes, classdef.rs:92-125 *)
Definition cd_ser (m : classdef) : res (list Z) :=
  sl <- cd_slices m ;;
  match m with
  | [] => Ok (ser_u16 2 ++ ser_u16 0)
  | (first, _) :: _ =>
      let last_gid := fst (last m (0, 0)) in
      lhs <- chk_u 16 (u16 (Z.of_nat (length sl)) * 3) ;;
      t <- chk_u 16 (2 + last_gid) ;;
      rhs <- chk_u 16 (t - first) ;;
      if rhs <? lhs then
        e <- chk_u 16 (last_gid + 1) ;;
        a <- ser_counted (fun g => Ok (ser_u16 (match cd_get g m with Some c => c | None => 0 end))) (zrange first e) ;;
        Ok (ser_u16 1 ++ ser_u16 first ++ a)
      else
        r <- cd_records sl ;;
        Ok (ser_u16 2 ++ ser_u16 (u16 (Z.of_nat (length sl))) ++ r)
  end.
(** classdef.rs:61-63; [ix] counts from 0 *)
Fixpoint cd_read1 (start ix : Z) (cs : list Z) (m : classdef) : res classdef :=
  match cs with
  | [] => Ok m
  | c :: cs' =>
      g <- chk_u 16 (start + u16 ix) ;;
      cd_read1 start (ix + 1) cs' (bm_insert Z.ltb g c m)
  end.
(** classdef.rs:66-70 *)
Fixpoint cd_read2 (rs : list (Z * Z * Z)) (m : classdef) : res classdef :=
  match rs with
  | [] => Ok m
  | (s, e, c) :: rs' =>
      e1 <- chk_u 16 (e + 1) ;;
      cd_read2 rs' (fold_left (fun m g => bm_insert Z.ltb g c m) (zrange s e1) m)
  end.
(** ClassDef::from_bytes, classdef.rs:56-74 *)
Definition cd_de : parser classdef :=
  format <-- de_u16 ;;
  if format =? 1 then
    start <-- de_u16 ;; cs <-- de_counted16 de_u16 ;; plift (cd_read1 start 0 cs [])
  else
    rs <-- de_counted16 de_triple ;; plift (cd_read2 rs []).

(** ** Device tables *)
Record device := mk_device { dv_start : Z; dv_end : Z; dv_format : option Z; dv_values : list Z }.
(** suggest_format, device.rs:59-69 *)
Fixpoint suggest_format (vs : list Z) : Z :=
  match vs with
  | [] => 1
  | v :: vs' =>
      if (v <? -9) || (8 <? v) then 3
      else if (v <? -3) || (2 <? v) then 2
      else suggest_format vs'
  end.
(** the loop at device.rs:83-91 and the rest at 92-94 *)
Fixpoint dv_pack (nb tmp shift : Z) (vs : list Z) : list Z :=
  match vs with
  | [] => if shift =? 16 then [] else ser_u16 tmp
  | v :: vs' =>
      let shift := shift - nb in
      let tmp := Z.lor tmp (Z.shiftl (Z.land v (2 ^ nb - 1)) shift) in
      if shift =? 0 then ser_u16 tmp ++ dv_pack nb 0 16 vs' else dv_pack nb tmp shift vs'
  end.
(** Device::to_bytes, device.rs:73-96: for a format of 4 or more [1 << num_bits]
    (an i16) or [1 << format] (a u16) overflows *)
Definition dv_ser (d : device) : res (list Z) :=
  let format := match dv_format d with Some f => f | None => suggest_format (dv_values d) end in
  if 3 <? format then Panic
  else Ok (ser_u16 (dv_start d) ++ ser_u16 (dv_end d) ++ ser_u16 format ++
           dv_pack (2 ^ format) 0 16 (dv_values d)).
(** the loop at device.rs:34-46 *)
Fixpoint dv_unpack (nb tmp shift : Z) (count : nat) : parser (list Z) :=
  match count with
  | O => pret []
  | S n =>
      ts <-- (if shift =? 0 then t <-- de_u16 ;; pret (t, 16) else pret (tmp, shift)) ;;
      let shift := snd ts - nb in
      let v := Z.land (Z.shiftr (fst ts) shift) (2 ^ nb - 1) in
      let v := if Z.land v (2 ^ (nb - 1)) =? 0 then v else v - 2 ^ nb in
      vs <-- dv_unpack nb (fst ts) shift n ;;
      pret (i8 v :: vs)
  end.
(** Device::from_bytes, device.rs:20-55 *)
Definition dv_de : parser device :=
  s <-- de_u16 ;; e <-- de_u16 ;; format <-- de_u16 ;;
  if format =? 32768 then pret (mk_device s e (Some format) [])
  else
    t <-- plift (chk_u 16 (e - s)) ;;
    count <-- plift (chk_u 16 (t + 1)) ;;
    if 3 <? format then ppanic
    else vs <-- dv_unpack (2 ^ format) 0 0 (Z.to_nat count) ;;
         pret (mk_device s e (Some format) vs).

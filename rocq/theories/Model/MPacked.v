(** Packed deltas, packed points, tuple variation stores and item variation
    data: src/otvar/*.rs *)
From Verif.Model Require Import MBase MFixed MGlyph.

(** ** src/otvar/packeddeltas.rs *)

(** packeddeltas.rs:14-18 *)
Definition DELTAS_ARE_WORDS : Z := 0x40.
Definition DELTAS_ARE_ZERO : Z := 0x80.
Definition DELTA_RUN_COUNT_MASK : Z := 0x3f.

(** packeddeltas.rs:29-42, one run: a control byte and its deltas. *)
Definition de_delta_run : parser (list Z) :=
  control <-- de_u8 ;;
  let run_count := Z.to_nat (Z.land control DELTA_RUN_COUNT_MASK + 1) in
  if Z.land control DELTAS_ARE_ZERO >? 0 then pret (repeat 0 run_count)
  else if Z.land control DELTAS_ARE_WORDS >? 0 then de_counted de_i16 run_count
  else de_counted de_i8 run_count.
(** packeddeltas.rs:23-46.  The loop runs while fewer than [num_points] deltas
    were read; [n] is the number still missing.  A run is never empty, so
    [num_points] iterations of fuel are enough. *)
Fixpoint de_deltas_fuel (fuel n : nat) : parser (list Z) :=
  match fuel, n with
  | O, _ | _, O => pret []
  | S k, _ =>
      run <-- de_delta_run ;;
      rest <-- de_deltas_fuel k (n - length run) ;;
      pret (run ++ rest)
  end.
Definition de_deltas (num_points : nat) : parser (list Z) := de_deltas_fuel num_points num_points.

Definition fits_i8 (v : Z) : bool := (-128 <=? v) && (v <=? 127).
Definition next_zero (l : list Z) : bool := match l with w :: _ => w =? 0 | [] => false end.
Definition next_i8 (l : list Z) : bool := match l with w :: _ => fits_i8 w | [] => false end.

(** packeddeltas.rs:55-59.  [run_length] is a u8 (its type is that of
    [DELTAS_ARE_ZERO | (run_length - 1)]), so the 256th zero overflows. *)
Fixpoint zero_run (run_length : Z) (l : list Z) : res (Z * list Z) :=
  match l with
  | v :: l' => if v =? 0 then n <- chk_u 8 (run_length + 1) ;; zero_run n l'
               else Ok (run_length, l)
  | [] => Ok (run_length, [])
  end.
(** packeddeltas.rs:60-66; a u8 is at least 64 at most three times *)
Fixpoint put_zeros (fuel : nat) (run_length : Z) : list Z :=
  match fuel with
  | O => []
  | S k => if run_length >=? 64 then Z.lor DELTAS_ARE_ZERO 63 :: put_zeros k (run_length - 64)
           else if run_length >? 0 then [Z.lor DELTAS_ARE_ZERO (run_length - 1)] else []
  end.
(** packeddeltas.rs:69-80: the byte run and what follows it *)
Fixpoint byte_run (l : list Z) : list Z * list Z :=
  match l with
  | [] => ([], [])
  | v :: l' =>
      if negb (fits_i8 v) then ([], l)
      else if (v =? 0) && next_zero l' then ([], l)
      else let (run, rest) := byte_run l' in (v :: run, rest)
  end.
(** packeddeltas.rs:104-119: the word run and what follows it *)
Fixpoint word_run (l : list Z) : list Z * list Z :=
  match l with
  | [] => ([], [])
  | v :: l' =>
      if v =? 0 then ([], l)
      else if fits_i8 v && next_i8 l' then ([], l)
      else let (run, rest) := word_run l' in (v :: run, rest)
  end.
(** packeddeltas.rs:81-101 and 120-134: a run in pieces of 64, each with its
    control byte.  [ctl] is 0 or DELTAS_ARE_WORDS. *)
Fixpoint put_run (fuel : nat) (ctl : Z) (enc : Z -> list Z) (run : list Z) : list Z :=
  match fuel with
  | O => []
  | S k =>
      if (64 <=? length run)%nat then
        Z.lor ctl 63 :: concat (map enc (firstn 64 run)) ++ put_run k ctl enc (skipn 64 run)
      else if (0 <? length run)%nat then
        Z.lor ctl (Z.of_nat (length run) - 1) :: concat (map enc run)
      else []
  end.
(** packeddeltas.rs:48-139.  [l] is the deltas from [pos] on; every pass of
    the loop consumes at least one. *)
Fixpoint ser_deltas_fuel (fuel : nat) (l : list Z) : res (list Z) :=
  match fuel, l with
  | O, _ | _, [] => Ok []
  | S k, value :: _ =>
      if value =? 0 then
        ' (n, rest) <- zero_run 0 l ;;
        bs <- ser_deltas_fuel k rest ;;
        Ok (put_zeros 4 n ++ bs)
      else if fits_i8 value then
        let (run, rest) := byte_run l in
        bs <- ser_deltas_fuel k rest ;;
        Ok (put_run (S (length run)) 0 (fun x => ser_i8 (i8 x)) run ++ bs)
      else
        let (run, rest) := word_run l in
        bs <- ser_deltas_fuel k rest ;;
        Ok (put_run (S (length run)) DELTAS_ARE_WORDS ser_i16 run ++ bs)
  end.
Definition ser_deltas (l : list Z) : res (list Z) := ser_deltas_fuel (length l) l.

(** ** src/otvar/packedpoints.rs *)

(** packedpoints.rs:33-46, one run *)
Definition de_point_run : parser (list Z) :=
  control <-- de_u8 ;;
  let run_count := Z.to_nat (Z.land control 0x7f + 1) in
  if Z.land control 0x80 >? 0 then de_counted de_u16 run_count
  else de_counted de_u8 run_count.
(** packedpoints.rs:32-47 (loop as in [de_deltas_fuel]) *)
Fixpoint de_point_runs (fuel n : nat) : parser (list Z) :=
  match fuel, n with
  | O, _ | _, O => pret []
  | S k, _ =>
      run <-- de_point_run ;;
      rest <-- de_point_runs k (n - length run) ;;
      pret (run ++ rest)
  end.
(** packedpoints.rs:48-54: [*acc += x] on u16 *)
Fixpoint cumsum (acc : Z) (l : list Z) : res (list Z) :=
  match l with
  | [] => Ok []
  | x :: l' => a <- chk_u 16 (acc + x) ;; r <- cumsum a l' ;; Ok (a :: r)
  end.
(** packedpoints.rs:22-27.  [(count & 0xff) << 8 | count2] *)
Definition de_point_count : parser Z :=
  c1 <-- de_u8 ;;
  if c1 >? 127 then c2 <-- de_u8 ;; pret (Z.lor (Z.shiftl (Z.land c1 0xff) 8) c2)
  else pret c1.
(** packedpoints.rs:20-59 *)
Definition de_points : parser (option (list Z)) :=
  count <-- de_point_count ;;
  if count =? 0 then pret None
  else res <-- de_point_runs (Z.to_nat count) (Z.to_nat count) ;;
       pts <-- plift (cumsum 0 res) ;;
       pret (Some pts).

(** packedpoints.rs:79-96: from the points left [l], the bytes of one run
    after its control byte, whether they are single bytes, the last point and
    the points left.  [rl] is [run.len()]; [current - last_value] is u16. *)
Fixpoint point_run (rl : nat) (use_bytes : option bool) (last : Z) (l : list Z)
  : res (list Z * option bool * Z * list Z) :=
  match l with
  | [] => Ok ([], use_bytes, last, [])
  | current :: l' =>
      if (rl <? 127)%nat then
        delta <- chk_u 16 (current - last) ;;
        let small := (0 <=? delta) && (delta <=? 0xff) in
        let ub := match use_bytes with Some b => b | None => small end in
        if ub && negb small then Ok ([], Some ub, last, l)
        else if ub then
          ' (bs, u, la, rest) <- point_run (S rl) (Some ub) current l' ;;
          Ok (u8 delta :: bs, u, la, rest)
        else
          ' (bs, u, la, rest) <- point_run (S (S rl)) (Some ub) current l' ;;
          Ok (u8 (Z.shiftr delta 8) :: Z.land delta 0xff :: bs, u, la, rest)
      else Ok ([], use_bytes, last, l)
  end.
(** packedpoints.rs:76-103; every run holds at least one point *)
Fixpoint ser_point_runs (fuel : nat) (last : Z) (l : list Z) : res (list Z) :=
  match fuel, l with
  | O, _ | _, [] => Ok []
  | S k, _ =>
      ' (run, use_bytes, last', rest) <- point_run 1 None last l ;;
      ub <- unwrap use_bytes ;;
      n <- chk_u 8 (u8 (Z.of_nat (S (length run))) - 2) ;;
      bs <- ser_point_runs k last' rest ;;
      Ok ((if ub then n else Z.lor n 0x80) :: run ++ bs)
  end.
(** packedpoints.rs:61-106 *)
Definition ser_points (p : option (list Z)) : res (list Z) :=
  match p with
  | None => Ok (ser_u8 0)
  | Some points =>
      let num_points := u16 (Z.of_nat (length points)) in
      runs <- ser_point_runs (length points) 0 points ;;
      Ok ((if num_points <=? 0x80 then ser_u8 (u8 num_points) else ser_u16 (Z.lor num_points 0x8000))
          ++ runs)
  end.

(** ** src/otvar/tuplevariationheader.rs *)

(** tuplevariationheader.rs:18-24 *)
Definition EMBEDDED_PEAK_TUPLE : Z := 0x8000.
Definition INTERMEDIATE_REGION : Z := 0x4000.
Definition PRIVATE_POINT_NUMBERS : Z := 0x2000.
Definition TUPLE_INDEX_MASK : Z := 0x0FFF.
(** tuplevariationheader.rs:33-48 *)
Record tvh := mk_tvh {
  tv_size : Z; tv_flags : Z; tv_index : Z;
  tv_peak : option (list dyadic); tv_start : option (list dyadic); tv_end : option (list dyadic) }.
(** tuplevariationheader.rs:68-73: axis_count i16 values as F2DOT14 *)
Definition de_tuple (axis_count : nat) : parser (list dyadic) :=
  l <-- de_counted de_i16 axis_count ;; pret (map f2dot14_from_packed l).
(** tuplevariationheader.rs:52-90 *)
Definition de_tvh (axis_count : nat) : parser tvh :=
  size <-- de_u16 ;;
  flags <-- de_u16 ;;
  peak <-- (if contains flags EMBEDDED_PEAK_TUPLE then t <-- de_tuple axis_count ;; pret (Some t) else pret None) ;;
  se <-- (if contains flags INTERMEDIATE_REGION then
            s <-- de_tuple axis_count ;; e <-- de_tuple axis_count ;; pret (Some s, Some e)
          else pret (None, None)) ;;
  pret (mk_tvh size flags (Z.land flags TUPLE_INDEX_MASK) peak (fst se) (snd se)).
(** tuplevariationheader.rs:102-104: each coordinate as an F2DOT14 *)
Definition ser_tuple (t : list dyadic) : res (list Z) := rmap (@concat Z) (rmapM ser_f2dot14 t).
(** tuplevariationheader.rs:100-108: panic! when the tuple is missing *)
Definition ser_opt_tuple (wanted : bool) (t : option (list dyadic)) : res (list Z) :=
  if wanted then match t with Some t => ser_tuple t | None => Panic end else Ok [].
(** tuplevariationheader.rs:96-127 *)
Definition ser_tvh (h : tvh) : res (list Z) :=
  p <- ser_opt_tuple (contains (tv_flags h) EMBEDDED_PEAK_TUPLE) (tv_peak h) ;;
  s <- ser_opt_tuple (contains (tv_flags h) INTERMEDIATE_REGION) (tv_start h) ;;
  e <- ser_opt_tuple (contains (tv_flags h) INTERMEDIATE_REGION) (tv_end h) ;;
  Ok (ser_u16 (tv_size h) ++ ser_u16 (Z.lor (tv_index h) (tv_flags h)) ++ p ++ s ++ e).

(** ** src/otvar/tuplevariationstore.rs *)

(** otvar.rs:30-35 *)
Inductive delta := Delta1D (d : Z) | Delta2D (x y : Z).
(** tuplevariationstore.rs:16 *)
Record tuple_variation := mk_tv { tv_header : tvh; tv_deltas : list (option delta) }.

(** tuplevariationstore.rs:130-138: the deltas spread over the points [i, i+1, ...] *)
Fixpoint spread (n : nat) (i : Z) (points : list Z) (deltas : list delta) : res (list (option delta)) :=
  match n with
  | O => Ok []
  | S k =>
      match points with
      | p :: points' =>
          if i =? p then
            match deltas with
            | d :: deltas' => r <- spread k (i + 1) points' deltas' ;; Ok (Some d :: r)
            | [] => Panic
            end
          else r <- spread k (i + 1) points deltas ;; Ok (None :: r)
      | [] => r <- spread k (i + 1) [] deltas ;; Ok (None :: r)
      end
  end.
(** [(0..point_count)] *)
Definition all_points (point_count : nat) : list Z := map Z.of_nat (seq 0 point_count).
(** tuplevariationstore.rs:118-129; [zip] stops at the shorter list *)
Definition de_delta_data (is_gvar : bool) (n : nat) : parser (list delta) :=
  if is_gvar then
    xs <-- de_deltas n ;; ys <-- de_deltas n ;;
    pret (map (fun p => Delta2D (fst p) (snd p)) (combine xs ys))
  else xs <-- de_deltas n ;; pret (map Delta1D xs).
(** tuplevariationstore.rs:101-140, one header *)
Definition de_tv (is_gvar : bool) (point_count : nat) (shared : list Z) (h : tvh) : parser tuple_variation :=
  points <-- (if contains (tv_flags h) PRIVATE_POINT_NUMBERS then
                pp <-- de_points ;;
                pret (match pp with Some p => p | None => all_points point_count end)
              else pret shared) ;;
  deltas <-- de_delta_data is_gvar (length points) ;;
  all_deltas <-- plift (spread point_count 0 points deltas) ;;
  pret (mk_tv h all_deltas).
Fixpoint de_tvs_data (is_gvar : bool) (point_count : nat) (shared : list Z) (hs : list tvh)
  : parser (list tuple_variation) :=
  match hs with
  | [] => pret []
  | h :: hs' => v <-- de_tv is_gvar point_count shared h ;;
                vs <-- de_tvs_data is_gvar point_count shared hs' ;;
                pret (v :: vs)
  end.
(** tuplevariationstore.rs:69-143; counts are u16 *)
Definition de_tvs (axis_count : nat) (is_gvar : bool) (point_count : nat) : parser (list tuple_variation) :=
  packed_count <-- de_u16 ;;
  let count := Z.to_nat (Z.land packed_count 0x0FFF) in
  let points_are_shared := negb (Z.land packed_count 0x8000 =? 0) in
  _ <-- de_u16 ;;
  headers <-- de_counted (de_tvh axis_count) count ;;
  shared <-- (if points_are_shared then
                pp <-- de_points ;;
                pret (match pp with Some p => p | None => all_points point_count end)
              else pret []) ;;
  de_tvs_data is_gvar point_count shared headers.

(** [.unwrap()] on a serialization result *)
Definition unwrap_res {A} (x : res A) : res A :=
  match x with Ok a => Ok a | Err => Panic | Panic => Panic end.
(** tuplevariationstore.rs:166-173 *)
Fixpoint point_numbers (i : Z) (ds : list (option delta)) : list Z :=
  match ds with
  | [] => []
  | Some _ :: ds' => u16 i :: point_numbers (i + 1) ds'
  | None :: ds' => point_numbers (i + 1) ds'
  end.
Definition is_none {A} (o : option A) : bool := match o with None => true | Some _ => false end.
(** tuplevariationstore.rs:183-195 *)
Fixpoint delta_xs (ds : list (option delta)) : list Z :=
  match ds with
  | [] => []
  | Some (Delta1D d) :: ds' => d :: delta_xs ds'
  | Some (Delta2D x _) :: ds' => x :: delta_xs ds'
  | None :: ds' => delta_xs ds'
  end.
Fixpoint delta_ys (ds : list (option delta)) : list Z :=
  match ds with
  | [] => []
  | Some (Delta2D _ y) :: ds' => y :: delta_ys ds'
  | _ :: ds' => delta_ys ds'
  end.
Definition set_flags (h : tvh) (f : Z) : tvh :=
  mk_tvh (tv_size h) f (tv_index h) (tv_peak h) (tv_start h) (tv_end h).
(** tuplevariationstore.rs:159-221, one variation: its header bytes (with the
    size written over the first two) and its data bytes *)
Definition ser_tv (v : tuple_variation) : res (list Z * list Z) :=
  let some_missing := existsb is_none (tv_deltas v) in
  let h := if some_missing
           then set_flags (tv_header v) (Z.lor (tv_flags (tv_header v)) PRIVATE_POINT_NUMBERS)
           else tv_header v in
  pts <- (if some_missing then unwrap_res (ser_points (Some (point_numbers 0 (tv_deltas v)))) else Ok []) ;;
  xs <- unwrap_res (ser_deltas (delta_xs (tv_deltas v))) ;;
  let dy := delta_ys (tv_deltas v) in
  ys <- (if negb (match dy with [] => true | _ => false end) then unwrap_res (ser_deltas dy) else Ok []) ;;
  hb <- unwrap_res (ser_tvh h) ;;
  let block := pts ++ xs ++ ys in
  Ok (ser_u16 (u16 (Z.of_nat (length block))) ++ skipn 2 hb, block).
(** tuplevariationstore.rs:146-228.  [4 + (len as uint16)] is u16 arithmetic;
    the data block begins with one 0 byte ("all points"). *)
Definition ser_tvs (s : list tuple_variation) : res (list Z) :=
  parts <- rmapM ser_tv s ;;
  let headers := concat (map fst parts) in
  data_offset <- chk_u 16 (4 + u16 (Z.of_nat (length headers))) ;;
  Ok (ser_u16 (Z.lor (u16 (Z.of_nat (length s))) 0x8000) ++ ser_u16 data_offset ++
      headers ++ [0] ++ concat (map snd parts)).

(** ** src/otvar/itemvariationstore.rs *)

(** itemvariationstore.rs:28-35 *)
Record ivd := mk_ivd { iv_regions : list Z; iv_deltas : list (list Z) }.
(** itemvariationstore.rs:43-53, one row: word columns before [short], byte columns after *)
Fixpoint de_row (short col : Z) (cols : nat) : parser (list Z) :=
  match cols with
  | O => pret []
  | S k => d <-- (if col <? short then de_i16 else de_i8) ;;
           ds <-- de_row short (col + 1) k ;;
           pret (d :: ds)
  end.
(** itemvariationstore.rs:13-17, 37-60 *)
Definition de_ivd : parser ivd :=
  items <-- de_u16 ;;
  short <-- de_u16 ;;
  regions <-- de_counted16 de_u16 ;;
  rows <-- de_counted (de_row short 0 (length regions)) (Z.to_nat items) ;;
  pret (mk_ivd regions rows).
(** itemvariationstore.rs:72-78, one row; [short] is the number of regions *)
Fixpoint ser_row (short ix : Z) (row : list Z) : list Z :=
  match row with
  | [] => []
  | d :: row' => (if ix <? short then ser_i16 d else ser_i8 (i8 d)) ++ ser_row short (ix + 1) row'
  end.
(** itemvariationstore.rs:62-82 *)
Definition ser_ivd (v : ivd) : res (list Z) :=
  let short := Z.of_nat (length (iv_regions v)) in
  regs <- ser_counted (fun r => Ok (ser_u16 r)) (iv_regions v) ;;
  Ok (ser_u16 (u16 (Z.of_nat (length (iv_deltas v)))) ++ ser_u16 (u16 short) ++ regs ++
      concat (map (ser_row short 0) (iv_deltas v))).

(** itemvariationstore.rs:8-12 *)
Record region_axis := mk_region_axis { ra_start : dyadic; ra_peak : dyadic; ra_end : dyadic }.
Definition de_region_axis : parser region_axis :=
  s <-- de_f2dot14 ;; p <-- de_f2dot14 ;; e <-- de_f2dot14 ;; pret (mk_region_axis s p e).
Definition ser_region_axis (r : region_axis) : res (list Z) :=
  s <- ser_f2dot14 (ra_start r) ;; p <- ser_f2dot14 (ra_peak r) ;; e <- ser_f2dot14 (ra_end r) ;;
  Ok (s ++ p ++ e).
(** itemvariationstore.rs:86-93 *)
Record region_list := mk_region_list { rl_axes : Z; rl_count : Z; rl_regions : list (list region_axis) }.
(** itemvariationstore.rs:95-110 *)
Definition de_region_list : parser region_list :=
  axes <-- de_u16 ;;
  count <-- de_u16 ;;
  regions <-- de_counted (de_counted de_region_axis (Z.to_nat axes)) (Z.to_nat count) ;;
  pret (mk_region_list axes count regions).
(** itemvariationstore.rs:112-118 *)
Definition ser_region_list (l : region_list) : res (list Z) :=
  rs <- rmapM (fun r => rmap (@concat Z) (rmapM ser_region_axis r)) (rl_regions l) ;;
  Ok (ser_u16 (rl_axes l) ++ ser_u16 (rl_count l) ++ concat rs).

(** The style attributes table: src/tables/STAT.rs. *)
From Verif.Model Require Import MBase MTag MFixed MMap MLow.

(** AxisRecord, STAT.rs:23-27 *)
Record design_axis := mk_design_axis { da_tag : list Z; da_name : Z; da_ordering : Z }.
(** AxisValue, STAT.rs:86-103.  The flags are their two bits. *)
Record axis_value := mk_av {
  av_axis : option Z;
  av_flags : Z;
  av_name : Z;
  av_nominal : option dyadic;
  av_range : option (dyadic * dyadic);
  av_linked : option dyadic;
  av_locations : option (list (Z * dyadic)) }.
(** STAT, STAT.rs:108-115 *)
Record stat := mk_stat { st_elided : option Z; st_axes : list design_axis; st_values : list axis_value }.

(** ** Reading *)
Definition design_axis_de : parser design_axis :=
  t <-- de_tag ;; n <-- de_u16 ;; o <-- de_u16 ;; pret (mk_design_axis t n o).
(** from_bits_truncate *)
Definition truncate_flags (f : Z) : Z := Z.land f 3.
(** AxisValueFormat1..3, AxisValueFormat4Core and its records, STAT.rs:29-65,
    with the conversions at STAT.rs:153-195, 212-229 *)
Definition value1_de : parser axis_value :=
  _ <-- de_u16 ;; ax <-- de_u16 ;; fl <-- de_u16 ;; nm <-- de_u16 ;; v <-- de_fixed ;;
  pret (mk_av (Some ax) (truncate_flags fl) nm (Some v) None None None).
Definition value2_de : parser axis_value :=
  _ <-- de_u16 ;; ax <-- de_u16 ;; fl <-- de_u16 ;; nm <-- de_u16 ;; v <-- de_fixed ;; a <-- de_fixed ;; b <-- de_fixed ;;
  pret (mk_av (Some ax) (truncate_flags fl) nm (Some v) (Some (a, b)) None None).
Definition value3_de : parser axis_value :=
  _ <-- de_u16 ;; ax <-- de_u16 ;; fl <-- de_u16 ;; nm <-- de_u16 ;; v <-- de_fixed ;; l <-- de_fixed ;;
  pret (mk_av (Some ax) (truncate_flags fl) nm (Some v) None (Some l) None).
Definition location_de : parser (Z * dyadic) := ax <-- de_u16 ;; v <-- de_fixed ;; pret (ax, v).
Definition value4_de : parser axis_value :=
  _ <-- de_u16 ;; n <-- de_u16 ;; fl <-- de_u16 ;; nm <-- de_u16 ;; l <-- de_counted location_de (Z.to_nat n) ;;
  pret (mk_av None (truncate_flags fl) nm None None None (Some (bm_of_list Z.ltb l))).
(** AxisValue::from_bytes, STAT.rs:197-236 *)
Definition value_de : parser axis_value := by_format (fun s =>
  match s with
  | [0; 1] => value1_de
  | [0; 2] => value2_de
  | [0; 3] => value3_de
  | [0; 4] => value4_de
  | _ => perr
  end).
(** [c.ptr = c.top_of_table() + off] *)
Definition jump (off : Z) : parser unit := fun r =>
  match top_of_table r with
  | Ok t => Ok (tt, mkrd (rd_input r) (t + Z.to_nat off) (rd_stack r))
  | Err => Err | Panic => Panic
  end.
(** the loop at STAT.rs:138-142 *)
Fixpoint values_de (start : Z) (offs : list Z) : parser (list axis_value) :=
  match offs with
  | [] => pret []
  | off :: offs' => _ <-- jump (start + off) ;; v <-- value_de ;; vs <-- values_de start offs' ;; pret (v :: vs)
  end.
(** STAT::from_bytes, STAT.rs:117-150: the size of the axis records is not used;
    the context pushed at the start is not popped *)
Definition stat_body : parser stat :=
  major <-- de_u16 ;; minor <-- de_u16 ;; axis_size <-- de_u16 ;; axis_count <-- de_u16 ;;
  axes_off <-- de_u32 ;; value_count <-- de_u16 ;; values_off <-- de_u32 ;;
  elided <-- (if 1 <=? minor then e <-- de_u16 ;; pret (Some e) else pret None) ;;
  _ <-- jump axes_off ;;
  axes <-- de_counted design_axis_de (Z.to_nat axis_count) ;;
  _ <-- jump values_off ;;
  offs <-- de_counted de_u16 (Z.to_nat value_count) ;;
  values <-- values_de values_off offs ;;
  pret (mk_stat elided axes values).
Definition stat_read : parser stat := fun r => stat_body (rd_push r).

(** ** Writing *)
Definition design_axis_ser (a : design_axis) : list Z := ser_tag (da_tag a) ++ ser_u16 (da_name a) ++ ser_u16 (da_ordering a).
Definition or_zero (o : option dyadic) : dyadic := match o with Some v => v | None => Dy 0 0 end.
(** AxisValue::to_bytes, STAT.rs:280-319 *)
Definition value_ser (v : axis_value) : res (list Z) :=
  match av_locations v with
  | Some m => Ok (ser_u16 4 ++ ser_u16 (u16 (Z.of_nat (length m))) ++ ser_u16 (av_flags v) ++ ser_u16 (av_name v) ++
                  concat (map (fun kv => ser_u16 (fst kv) ++ ser_fixed (snd kv)) m))
  | None =>
      match av_linked v with
      | Some l => ax <- unwrap (av_axis v) ;;
                  Ok (ser_u16 3 ++ ser_u16 ax ++ ser_u16 (av_flags v) ++ ser_u16 (av_name v) ++ ser_fixed (or_zero (av_nominal v)) ++ ser_fixed l)
      | None =>
          match av_range v with
          | Some (a, b) => ax <- unwrap (av_axis v) ;;
                  Ok (ser_u16 2 ++ ser_u16 ax ++ ser_u16 (av_flags v) ++ ser_u16 (av_name v) ++ ser_fixed (or_zero (av_nominal v)) ++ ser_fixed a ++ ser_fixed b)
          | None => ax <- unwrap (av_axis v) ;;
                  Ok (ser_u16 1 ++ ser_u16 ax ++ ser_u16 (av_flags v) ++ ser_u16 (av_name v) ++ ser_fixed (or_zero (av_nominal v)))
          end
      end
  end.
(** the loop at STAT.rs:266-271: the offsets and the bytes of the values *)
Fixpoint values_ser (offset : Z) (vs : list axis_value) : res (list Z * list Z) :=
  match vs with
  | [] => Ok ([], [])
  | v :: vs' =>
      bs <- value_ser v ;;
      next <- chk_u 16 (offset + u16 (Z.of_nat (length bs))) ;;
      r <- values_ser next vs' ;;
      Ok (ser_u16 offset ++ fst r, bs ++ snd r)
  end.
(** STAT::to_bytes, STAT.rs:238-278 *)
Definition stat_ser (t : stat) : res (list Z) :=
  first <- chk_u 16 (2 * u16 (Z.of_nat (length (st_values t)))) ;;
  vs <- values_ser first (st_values t) ;;
  Ok (ser_u16 1 ++ ser_u16 (if existsb (fun v => match av_locations v with Some _ => true | None => false end) (st_values t) then 2 else 1) ++
      ser_u16 8 ++ ser_u16 (u16 (Z.of_nat (length (st_axes t)))) ++
      ser_u32 (match st_axes t with [] => 0 | _ => 20 end) ++
      ser_u16 (u16 (Z.of_nat (length (st_values t)))) ++
      ser_u32 (match st_values t with [] => 0 | _ => u32 (20 + 8 * Z.of_nat (length (st_axes t))) end) ++
      ser_u16 (match st_elided t with Some e => e | None => 17 end) ++
      concat (map design_axis_ser (st_axes t)) ++ fst vs ++ snd vs).

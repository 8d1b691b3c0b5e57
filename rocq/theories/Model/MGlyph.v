(** Glyph outlines: src/tables/glyf/{glyph,component,point}.rs *)
From Verif.Model Require Import MBase MFixed MFloat.

(** point.rs:6-13 *)
Record point := mk_point { pt_x : Z; pt_y : Z; pt_on : bool }.

(** [kurbo::Affine] (external crate, kurbo::affine): six f64 coefficients
    [a,b,c,d,e,f] mapping (x,y) to (a x + c y + e, b x + d y + f). *)
Record affine := mk_affine { af_a : dyadic; af_b : dyadic; af_c : dyadic; af_d : dyadic; af_e : dyadic; af_f : dyadic }.
(** kurbo: [impl Mul<Point> for Affine] *)
Definition aff_apply (t : affine) (x y : dyadic) : dyadic * dyadic :=
  (f64_add (f64_add (f64_mul (af_a t) x) (f64_mul (af_c t) y)) (af_e t),
   f64_add (f64_add (f64_mul (af_b t) x) (f64_mul (af_d t) y)) (af_f t)).
(** kurbo: [impl Mul for Affine] *)
Definition aff_mul (s t : affine) : affine :=
  mk_affine
    (f64_add (f64_mul (af_a s) (af_a t)) (f64_mul (af_c s) (af_b t)))
    (f64_add (f64_mul (af_b s) (af_a t)) (f64_mul (af_d s) (af_b t)))
    (f64_add (f64_mul (af_a s) (af_c t)) (f64_mul (af_c s) (af_d t)))
    (f64_add (f64_mul (af_b s) (af_c t)) (f64_mul (af_d s) (af_d t)))
    (f64_add (f64_add (f64_mul (af_a s) (af_e t)) (f64_mul (af_c s) (af_f t))) (af_e s))
    (f64_add (f64_add (f64_mul (af_b s) (af_e t)) (f64_mul (af_d s) (af_f t))) (af_f s)).

(** point.rs:20-27 *)
Definition pt_transform (t : affine) (p : point) : point :=
  let '(x, y) := aff_apply t (dy_of_Z (pt_x p)) (dy_of_Z (pt_y p)) in
  mk_point (f_as_i16 x) (f_as_i16 y) (pt_on p).

(** component.rs:55-68.  Flags are the raw u16 bits. *)
Record component := mk_comp {
  cp_glyph : Z;
  cp_trans : affine;
  cp_match : option (Z * Z);
  cp_flags : Z }.

(** glyph.rs:44-64 *)
Record glyph := mk_glyph {
  g_xMin : Z; g_xMax : Z; g_yMin : Z; g_yMax : Z;
  g_contours : list (list point);
  g_instr : list Z;
  g_comps : list component;
  g_overlap : bool }.

(** glyph.rs:214-223 *)
Definition is_nil {A} (l : list A) : bool := match l with [] => true | _ => false end.
Definition has_components (g : glyph) : bool := negb (is_nil (g_comps g)).
Definition is_empty_glyph (g : glyph) : bool := is_nil (g_comps g) && is_nil (g_contours g).
(** glyf.rs:48-57 *)
Definition empty_glyph : glyph := mk_glyph 0 0 0 0 [] [] [] false.

(** ** Flags *)

(** bitflags [contains] *)
Definition contains (f m : Z) : bool := Z.land f m =? m.
(** glyph.rs:22-33 *)
Definition F_ON := 1.
Definition F_XSHORT := 2.
Definition F_YSHORT := 4.
Definition F_REPEAT := 8.
Definition F_XSAME := 16.
Definition F_YSAME := 32.
Definition F_OVERLAP := 64.
(** component.rs:13-43 *)
Definition C_WORDS := 1.
Definition C_XY := 2.
Definition C_ROUND := 4.
Definition C_SCALE := 8.
Definition C_MORE := 32.
Definition C_XYSCALE := 64.
Definition C_2X2 := 128.
Definition C_INSTR := 256.
Definition C_METRICS := 512.
Definition C_OVERLAP := 1024.
Definition C_SCALED := 2048.
Definition C_UNSCALED := 4096.

(** ** Components *)

(** f64::EPSILON *)
Definition EPS := Dy 1 (-52).
Definition dy0 := Dy 0 0.
Definition dy1 := Dy 1 0.

(** component.rs:75-111 *)
Definition recompute_flags (c : component) (more instructions : bool) : Z :=
  let f0 := Z.land (cp_flags c)
              (Z.lor C_ROUND (Z.lor C_METRICS (Z.lor C_SCALED (Z.lor C_UNSCALED C_OVERLAP)))) in
  let f1 := if more then Z.lor f0 C_MORE else if instructions then Z.lor f0 C_INSTR else f0 in
  let t := cp_trans c in
  let f2 :=
    match cp_match c with
    | Some (x, y) => if negb ((x <=? 255) && (y <=? 255)) then Z.lor f1 C_WORDS else f1
    | None =>
        let f := Z.lor f1 C_XY in
        let inr v := dy_leb (dy_of_Z (-128)) v && dy_leb v (dy_of_Z 127) in
        if negb (inr (af_e t) && inr (af_f t)) then Z.lor f C_WORDS else f
    end in
  if negb (dy_eqb (af_b t) dy0) || negb (dy_eqb (af_c t) dy0) then Z.lor f2 C_2X2
  else if dy_ltb EPS (dy_abs (f64_sub (af_a t) (af_d t))) then Z.lor f2 C_XYSCALE
  else if dy_ltb EPS (dy_abs (f64_sub (af_a t) dy1)) then Z.lor f2 C_SCALE
  else f2.

(** [F2DOT14(x as f32)] written out *)
Definition ser_f2dot14_of_f64 (x : dyadic) : res (list Z) := ser_f2dot14 (rnd24 x).

(** glyph.rs:471-503: one component record, without the trailing instructions *)
Definition ser_component (flags : Z) (c : component) : res (list Z) :=
  let t := cp_trans c in
  args <-
    (if contains flags C_XY then
       if contains flags C_WORDS
       then Ok (ser_i16 (sat 16 (dy_round (af_e t))) ++ ser_i16 (f_as_i16 (af_f t)))
       else Ok (ser_i8 (sat 8 (dy_round (af_e t))) ++ ser_i8 (f_as_i8 (af_f t)))
     else
       ' (x, y) <- unwrap (cp_match c) ;;
       if contains flags C_WORDS then Ok (ser_i16 (i16 x) ++ ser_i16 (i16 y))
       else Ok (ser_i8 (i8 x) ++ ser_i8 (i8 y))) ;;
  scale <-
    (if contains flags C_2X2 then
       a <- ser_f2dot14_of_f64 (af_a t) ;;
       b <- ser_f2dot14_of_f64 (af_b t) ;;
       c' <- ser_f2dot14_of_f64 (af_c t) ;;
       d <- ser_f2dot14_of_f64 (af_d t) ;;
       Ok (a ++ b ++ c' ++ d)
     else if contains flags C_XYSCALE then
       a <- ser_f2dot14_of_f64 (af_a t) ;;
       d <- ser_f2dot14_of_f64 (af_d t) ;;
       Ok (a ++ d)
     else if contains flags C_SCALE then ser_f2dot14_of_f64 (af_a t)
     else Ok []) ;;
  Ok (ser_u16 flags ++ ser_u16 (cp_glyph c) ++ args ++ scale).

(** component.rs:114-118: f32 to f64 is exact *)
Definition de_f64_f2dot14 : parser dyadic := de_f2dot14.

(** component.rs:120-189 *)
Definition de_component : parser component :=
  flags <-- de_u16 ;;
  gi <-- de_u16 ;;
  args <--
    (if negb (contains flags C_XY) then
       mp <-- (if contains flags C_WORDS
               then (a <-- de_u16 ;; b <-- de_u16 ;; pret (a, b))
               else (a <-- de_u8 ;; b <-- de_u8 ;; pret (a, b))) ;;
       if contains flags (Z.lor C_SCALE (Z.lor C_XYSCALE C_2X2)) then perr
       else pret (Some mp, 0, 0)
     else if contains flags C_WORDS
     then (a <-- de_i16 ;; b <-- de_i16 ;; pret (None, a, b))
     else (a <-- de_i8 ;; b <-- de_i8 ;; pret (None, a, b))) ;;
  let '(mp, x, y) := args in
  sc <--
    (if contains flags C_SCALE then
       (a <-- de_f64_f2dot14 ;; pret (a, dy0, dy0, a))
     else if contains flags C_XYSCALE then
       (a <-- de_f64_f2dot14 ;; d <-- de_f64_f2dot14 ;; pret (a, dy0, dy0, d))
     else if contains flags C_2X2 then
       (a <-- de_f64_f2dot14 ;; b <-- de_f64_f2dot14 ;;
        c <-- de_f64_f2dot14 ;; d <-- de_f64_f2dot14 ;; pret (a, b, c, d))
     else pret (dy1, dy0, dy0, dy1)) ;;
  let '(a, b, c, d) := sc in
  pret (mk_comp gi (mk_affine a b c d (dy_of_Z x) (dy_of_Z y)) mp flags).

(** glyph.rs:86-101: the component loop; returns components, overlap, has_instructions.
    Every component takes at least six bytes, so a fuel of one more than the
    remaining bytes is never exhausted. *)
Fixpoint de_components (fuel : nat) : parser (list component * bool * bool) :=
  match fuel with
  | O => perr
  | S k =>
      comp <-- de_component ;;
      let ov := contains (cp_flags comp) C_OVERLAP in
      let hi := contains (cp_flags comp) C_INSTR in
      if contains (cp_flags comp) C_MORE then
        more <-- de_components k ;;
        let '(cs, ov', hi') := more in
        pret (comp :: cs, ov || ov', hi || hi')
      else pret ([comp], ov, hi)
  end.

(** glyph.rs:103-107, 120-123 *)
Definition de_instructions : parser (list Z) :=
  n <-- de_i16 ;; if 0 <? n then de_counted de_u8 (Z.to_nat n) else pret [].

(** glyph.rs:112-117: a short read here is unwrapped *)
Definition de_u16_unwrap : parser Z := fun r =>
  match de_u16 r with Ok x => Ok x | _ => Panic end.

(** glyph.rs:133-147: the flag loop, [n] points still to cover.  The last
    repeat may overshoot.  Each round covers at least one point. *)
Fixpoint de_flags (fuel : nat) (n : nat) : parser (list Z) :=
  match n with
  | O => pret []
  | _ =>
      match fuel with
      | O => pret []
      | S k =>
          flag <-- de_u8 ;;
          if contains flag F_REPEAT then
            rep <-- de_u8 ;;
            fs <-- de_flags k (n - S (Z.to_nat rep)) ;;
            pret (repeat flag (S (Z.to_nat rep)) ++ fs)
          else
            fs <-- de_flags k (n - 1) ;;
            pret (flag :: fs)
      end
  end.

(** glyph.rs:152-174 and 175-198: coordinates, one per flag *)
Fixpoint de_coords (short same : Z) (last : Z) (flags : list Z) : parser (list Z) :=
  match flags with
  | [] => pret []
  | flag :: fl =>
      v <--
        (if contains flag short then
           (c <-- de_u8 ;;
            if contains flag same then plift (chk_i 16 (last + c))
            else plift (chk_i 16 (last - c)))
         else if contains flag same then pret last
         else (c <-- de_i16 ;; plift (chk_i 16 (last + c)))) ;;
      vs <-- de_coords short same v fl ;;
      pret (v :: vs)
  end.

(** glyph.rs:200-206: izip *)
Fixpoint zip_points (xs ys fl : list Z) : list point :=
  match xs, ys, fl with
  | x :: xs', y :: ys', f :: fl' => mk_point x y (contains f F_ON) :: zip_points xs' ys' fl'
  | _, _, _ => []
  end.

(** [v[a..b]] *)
Definition slice_range {A} (l : list A) (a b : nat) : res (list A) :=
  if (b <? a)%nat || (length l <? b)%nat then Panic else Ok (firstn (b - a) (skipn a l)).

(** glyph.rs:207-211: [windows(2)] over 0 :: ends *)
Fixpoint split_contours {A} (l : list A) (start : nat) (ends : list nat) : res (list (list A)) :=
  match ends with
  | [] => Ok []
  | e :: ends' =>
      c <- slice_range l start e ;;
      cs <- split_contours l e ends' ;;
      Ok (c :: cs)
  end.

(** glyph.rs:66-226 *)
Definition de_glyph : parser glyph :=
  num_contours <-- de_i16 ;;
  xMin <-- de_i16 ;; yMin <-- de_i16 ;; xMax <-- de_i16 ;; yMax <-- de_i16 ;;
  if num_contours <? 1 then
    cs <-- (fun r => de_components (S (length (rd_input r) - rd_ptr r)) r) ;;
    let '(comps, overlap, has_instr) := cs in
    instr <-- (if (has_instr : bool) then de_instructions else pret []) ;;
    pret (mk_glyph xMin xMax yMin yMax [] instr comps overlap)
  else
    ends0 <-- de_counted de_u16_unwrap (Z.to_nat num_contours) ;;
    let ends := map (fun x => S (Z.to_nat x)) ends0 in
    instr <-- de_instructions ;;
    let num_points := last ends 0%nat in
    flags <-- de_flags num_points num_points ;;
    xs <-- de_coords F_XSHORT F_XSAME 0 flags ;;
    ys <-- de_coords F_YSHORT F_YSAME 0 flags ;;
    let overlap := existsb (fun f => contains f F_OVERLAP) flags in
    contours <-- plift (split_contours (zip_points xs ys flags) 0 ends) ;;
    pret (mk_glyph xMin xMax yMin yMax contours instr [] overlap).

(** glyph.rs:244-253 *)
Fixpoint end_points_from (count : Z) (cs : list (list point)) : res (list Z) :=
  match cs with
  | [] => Ok []
  | c :: cs' =>
      count' <- chk_i 16 (count + i16 (Z.of_nat (length c))) ;;
      es <- end_points_from count' cs' ;;
      Ok (u16 count' :: es)
  end.
Definition end_points (g : glyph) : res (list Z) :=
  if has_components g then Panic else end_points_from (-1) (g_contours g).

(** glyph.rs:283-295 / 296-308: one coordinate difference: flag bits and bytes *)
Definition enc_delta (short same : Z) (d : Z) : Z * list Z :=
  if d =? 0 then (same, [])
  else if (-255 <=? d) && (d <=? 255) then
    if 0 <? d then (Z.lor short same, [u8 d]) else (short, [u8 (- d)])
  else (0, ser_i16 d).

(** glyph.rs:268-316; the loop over points, threading the last position *)
Fixpoint compile_deltas_from (lx ly : Z) (pts : list point) : res (list Z * list Z * list Z) :=
  match pts with
  | [] => Ok ([], [], [])
  | p :: pts' =>
      x <- chk_i 16 (pt_x p - lx) ;;
      y <- chk_i 16 (pt_y p - ly) ;;
      let '(fx, bx) := enc_delta F_XSHORT F_XSAME x in
      let '(fy, by_) := enc_delta F_YSHORT F_YSAME y in
      let flag := Z.lor (Z.lor (if pt_on p then F_ON else 0) fx) fy in
      ' (fs, xs, ys) <- compile_deltas_from (pt_x p) (pt_y p) pts' ;;
      Ok (flag :: fs, bx ++ xs, by_ ++ ys)
  end.
Definition compile_deltas (g : glyph) : res (list Z * list Z * list Z) :=
  if has_components g then Panic else compile_deltas_from 0 0 (concat (g_contours g)).

(** glyph.rs:466-506: all components; [i < len - 1] is "not the last" *)
Fixpoint ser_components (instr : list Z) (cs : list component) : res (list Z) :=
  match cs with
  | [] => Ok []
  | c :: cs' =>
      let flags := recompute_flags c (negb (is_nil cs')) (negb (is_nil instr)) in
      b <- ser_component flags c ;;
      let ib := if contains flags C_INSTR
                then ser_u16 (u16 (Z.of_nat (length instr))) ++ instr else [] in
      bs <- ser_components instr cs' ;;
      Ok (b ++ ib ++ bs)
  end.

(** glyph.rs:450-525.  The instruction bytes are written as they are. *)
Definition ser_glyph (g : glyph) : res (list Z) :=
  if is_empty_glyph g then Ok []
  else
    let hdr n := ser_i16 n ++ ser_i16 (g_xMin g) ++ ser_i16 (g_yMin g) ++ ser_i16 (g_xMax g) ++ ser_i16 (g_yMax g) in
    if has_components g then
      body <- ser_components (g_instr g) (g_comps g) ;;
      Ok (hdr (-1) ++ body)
    else
      ends <- end_points g ;;
      ' (fs, xs, ys) <- compile_deltas g ;;
      Ok (hdr (i16 (Z.of_nat (length (g_contours g)))) ++
          concat (map ser_u16 ends) ++
          ser_u16 (u16 (Z.of_nat (length (g_instr g)))) ++ g_instr g ++
          fs ++ xs ++ ys).

(** fontcrunch: crates/fonttools-cli/src/bin/fontcrunch.rs.

    The outline is split at its corners, each run of segments is replaced by
    fewer curves that a dynamic program chooses, and the pieces are put together
    again.  Coordinates and scores are f64 (MFloat: no infinities, no NaN).

    Parameters, not modelled: the numerical integration (Runge-Kutta steps and
    square roots) in [Thetas::new] (lines 195-236), which samples a run of curves
    at whole distances along it, and in [Thetas::measure_quad] (29-186, 255-281),
    which gives the error [measure s0 s1 q] of a curve [q] that stands for the
    stretch from [s0] to [s1]; the libm function [hypot].  The theorems hold for
    all of them. *)
From Verif.Model Require Import MBase MTag MMap MFixed MFloat MFloat32 MGlyph MGlyf MPath MFont MTables MMetrics MStore MPost MCmap MCli MIup.
Open Scope Z_scope.

(** [0.5], [1e-8] and [0.02] as f64; [f64::EPSILON] *)
Definition f_half : dyadic := Dy 1 (-1).
Definition f_1e8 : dyadic := Dy 3022314549036573 (-78).
Definition f_002 : dyadic := Dy 5764607523034235 (-58).
Definition f_eps : dyadic := Dy 1 (-52).
Definition f_0 : dyadic := Dy 0 0.

(** fontcrunch.rs:23-25 *)
Definition f64_is_close (a b : dyadic) : bool := dy_ltb (dy_abs (f64_sub a b)) f_1e8.
(** fontcrunch.rs:78-80 *)
Definition kp_close (p q : kpoint) : bool := f64_is_close (fst p) (fst q) && f64_is_close (snd p) (snd q).
(** kurbo: [Point::lerp] is [self + t * (other - self)] *)
Definition f64_lerp (a b t : dyadic) : dyadic := f64_add a (f64_mul t (f64_sub b a)).
Definition kp_lerp (p q : kpoint) (t : dyadic) : kpoint := (f64_lerp (fst p) (fst q) t, f64_lerp (snd p) (snd q) t).
(** kurbo: [Point::round] *)
Definition kp_round (p : kpoint) : kpoint := (dy_of_Z (dy_round (fst p)), dy_of_Z (dy_round (snd p))).

(** [kurbo::QuadBez] *)
Record quad := mk_quad { q_p0 : kpoint; q_p1 : kpoint; q_p2 : kpoint }.
(** fontcrunch.rs:98-100 *)
Definition is_line (q : quad) : bool := kp_close (q_p1 q) (kp_lerp (q_p0 q) (q_p2 q) f_half).

(** fontcrunch.rs:59-70 *)
Definition intersect (p0 dir0 p1 dir1 : kpoint) : option kpoint :=
  let det := f64_sub (f64_mul (fst dir0) (snd dir1)) (f64_mul (snd dir0) (fst dir1)) in
  if dy_ltb (dy_abs det) f_eps then None
  else
    let a := f64_sub (f64_mul (snd p0) (fst dir0)) (f64_mul (fst p0) (snd dir0)) in
    let b := f64_sub (f64_mul (snd p1) (fst dir1)) (f64_mul (fst p1) (snd dir1)) in
    Some (f64_div (f64_sub (f64_mul a (fst dir1)) (f64_mul b (fst dir0))) det,
          f64_div (f64_sub (f64_mul a (snd dir1)) (f64_mul b (snd dir0))) det).

(** Break, fontcrunch.rs:367-372 *)
Record brk := mk_brk { bk_s : dyadic; bk_xy : kpoint; bk_dir : kpoint }.
Definition brk0 : brk := mk_brk f_0 (f_0, f_0) (f_0, f_0).
(** Statelet, fontcrunch.rs:374-379: the chain of statelets, the newest first,
    each with its score.  State (412-416): the chain, empty for None; [init] is
    set for state 0 only (328). *)
Notation chain := (list (dyadic * quad)).

(** the multiplier in Statelet::combine, fontcrunch.rs:390-405 *)
Definition smooth (p q : quad) : bool := negb (is_line p) && kp_close (kp_lerp (q_p1 p) (q_p1 q) f_half) (q_p0 q).
Definition pmul (prev : chain) (q : quad) : dyadic :=
  if is_line q || match prev with (_, p) :: _ => smooth p q | [] => false end then Dy 1 0 else Dy 2 0.
(** fontcrunch.rs:407 *)
Definition chain_score (c : chain) : dyadic := match c with (s, _) :: _ => s | [] => f_0 end.
Definition combined (prev : chain) (newscore : dyadic) (q : quad) (penalty : dyadic) : dyadic :=
  f64_add (f64_add (chain_score prev) (f64_mul penalty (pmul prev q))) newscore.

(** fontcrunch.rs:418-420 *)
Definition is_int (f : dyadic) : bool := f64_is_close (f64_sub f (dy_of_Z (dy_floor f))) f_0.
Definition kp_int (p : kpoint) : bool := is_int (fst p) && is_int (snd p).
(** fontcrunch.rs:430-452 *)
Definition ok_for_half (c : chain) (q : quad) : bool :=
  if kp_int (q_p0 q) then true
  else if is_line q then false
  else match c with (_, p) :: _ => smooth p q | [] => false end.

(** [states[i] = x] *)
Fixpoint set_nth {A} (i : nat) (x : A) (l : list A) : list A :=
  match l, i with
  | [], _ => []
  | _ :: l', O => x :: l'
  | a :: l', S k => a :: set_nth k x l'
  end.

Section Optimize.
Variable measure : dyadic -> dyadic -> quad -> dyadic.
Variable penalty : dyadic.
Variable breaks : list brk.
Definition bk (i : nat) : brk := nth i breaks brk0.

(** fontcrunch.rs:456-485; [bk0] and [bk1] are always the breaks at [prev] and [this] *)
Definition try_quad (prev this : nat) (q : quad) (states : list chain) : list chain :=
  let score := measure (bk_s (bk prev)) (bk_s (bk this)) q in
  let ps := nth prev states [] in
  if negb (prev =? 0)%nat && match ps with [] => true | _ => false end then states
  else
    let s := combined ps score q penalty in
    match nth this states [] with
    | [] => set_nth this ((s, q) :: ps) states
    | (best, _) :: _ => if dy_ltb s best then set_nth this ((s, q) :: ps) states else states
    end.
(** the straight line and the curve tried at fontcrunch.rs:498, 502 *)
Definition straight (b0 b1 : brk) : quad := mk_quad (bk_xy b0) (kp_lerp (bk_xy b0) (bk_xy b1) f_half) (bk_xy b1).
Definition curved (b0 b1 : brk) : option quad :=
  match intersect (bk_xy b0) (bk_dir b0) (bk_xy b1) (bk_dir b1) with
  | Some m => Some (mk_quad (bk_xy b0) (kp_round m) (bk_xy b1))
  | None => None
  end.
(** fontcrunch.rs:487-507 *)
Definition try_line_quad (prev this : nat) (states : list chain) : list chain :=
  let b0 := bk prev in
  let b1 := bk this in
  let s1 := if kp_int (bk_xy b0) then try_quad prev this (straight b0 b1) states else states in
  match curved b0 b1 with
  | Some q => if ok_for_half (nth prev s1 []) q then try_quad prev this q s1 else s1
  | None => s1
  end.
(** fontcrunch.rs:332-337 *)
Definition split_once (n : nat) (states : list chain) : list chain :=
  fold_left (fun s i => try_line_quad i n (try_line_quad 0 i s)) (seq 1 (n - 1)) states.
(** fontcrunch.rs:339-350 *)
Definition try_all (n : nat) (states : list chain) : list chain :=
  fold_left (fun s i => fold_left (fun s j => try_line_quad j i s) (rev (seq 0 i)) s) (seq 1 n) states.
(** Thetas::optimize after find_breaks, fontcrunch.rs:326-363: [breaks.len() - 1]
    underflows without breaks *)
Definition optimize : res (option (list quad)) :=
  match breaks with
  | [] => Panic
  | _ =>
      let n := (length breaks - 1)%nat in
      let s1 := try_line_quad 0 n (map (fun _ => []) breaks) in
      match nth n s1 [] with
      | [] => Ok None
      | (sc1, _) :: _ =>
          let s2 := if dy_ltb (f64_mul (Dy 3 0) penalty) sc1 then
                      let s2 := split_once n s1 in
                      if dy_ltb (f64_mul (Dy 4 0) penalty) (chain_score (nth n s2 [])) then try_all n s2 else s2
                    else s1 in
          Ok (Some (rev (map snd (nth n s2 []))))
      end
  end.
End Optimize.

(** ** Candidate break points *)
(** Thetas, fontcrunch.rs:188-193 *)
Record thetas := mk_thetas { th_xys : list kpoint; th_dirs : list kpoint; th_arclen : dyadic }.
(** Thetas::xy and Thetas::dir, fontcrunch.rs:237-253: [as usize] cuts the
    fraction and makes 0 of a negative number; [fract] is exact *)
Definition along (l : list kpoint) (s : dyadic) : res kpoint :=
  let bucket := Z.to_nat (dy_trunc s) in
  if (length l <=? bucket)%nat then Ok (f_0, f_0)
  else p <- at_ l bucket ;; q <- at_ l (bucket + 1) ;; Ok (kp_lerp p q (f64_sub s (dy_of_Z (dy_trunc s)))).
(** fontcrunch.rs:294-297 *)
Definition half_step (v : dyadic) : dyadic := f64_mul f_half (dy_of_Z (dy_round (f64_mul (Dy 2 0) v))).
Definition kp_half_step (p : kpoint) : kpoint := (half_step (fst p), half_step (snd p)).
Section Breaks.
Variable hypot : dyadic -> dyadic -> dyadic.
Variable t : thetas.
(** 288 *)
Definition sample_at (n i : Z) : dyadic := f64_div (f64_mul (th_arclen t) (dy_of_Z i)) (dy_of_Z n).
(** 287-320, for the samples [is]; [acc] is the vector, the newest first.
    [lastd] is not updated when a break is replaced. *)
Fixpoint break_loop (n : Z) (acc : list brk) (lastd : dyadic) (is : list Z) : res (option (list brk)) :=
  match is with
  | [] => Ok (Some (rev acc))
  | i :: is' =>
      let s := sample_at n i in
      if (length (th_xys t) <? Z.to_nat (dy_trunc s) + 1)%nat then Ok None
      else
        orig <- along (th_xys t) s ;;
        let p := kp_half_step orig in
        let dist := hypot (f64_sub (fst p) (fst orig)) (f64_sub (snd p) (snd orig)) in
        match acc with
        | [] => if i =? 0 then d <- along (th_dirs t) s ;; break_loop n [mk_brk s p d] dist is' else Panic
        | b :: acc' =>
            if (i =? 0) || negb (kp_close p (bk_xy b)) then
              d <- along (th_dirs t) s ;; break_loop n (mk_brk s p d :: acc) dist is'
            else if dy_ltb dist lastd then
              d <- along (th_dirs t) s ;; break_loop n (mk_brk s p d :: acc') lastd is'
            else break_loop n acc lastd is'
        end
  end.
(** 286: [as i32] *)
Definition sample_count : Z := sat 32 (dy_round (f64_mul (Dy 10 0) (th_arclen t))).
(** Thetas::find_breaks, fontcrunch.rs:283-322; [n + 1] overflows *)
Definition find_breaks : res (option (list brk)) :=
  let n := sample_count in
  top <- chk_i 32 (n + 1) ;;
  break_loop n [] f_0 (map Z.of_nat (seq 0 (Z.to_nat top))).
(** Thetas::optimize, fontcrunch.rs:324-364.  A run shorter than a twentieth of
    a unit has [n = 0]: the only break lies at 0/0, no curve can start there
    ([is_int] of NaN is false) and the answer is None (331). *)
Definition thetas_optimize (measure : dyadic -> dyadic -> quad -> dyadic) (penalty : dyadic) : res (option (list quad)) :=
  if sample_count =? 0 then Ok None
  else
    o <- find_breaks ;;
    match o with
    | None => Ok None
    | Some breaks => optimize measure penalty breaks
    end.
End Breaks.

(** ** Corners: segment_sp, fontcrunch.rs:509-585 *)
Section Corners.
Variable hypot : dyadic -> dyadic -> dyadic.
Definition kp_sub (b a : kpoint) : kpoint := (f64_sub (fst b) (fst a), f64_sub (snd b) (snd a)).
(** from start to end (517-527), the direction at the end (549-559) and at the start (560-570) *)
Definition chord (s : path_seg) : res kpoint :=
  match s with SegLine a b => Ok (kp_sub b a) | SegQuad a _ b => Ok (kp_sub b a) | SegCubic _ _ _ _ => Panic end.
Definition leaving (s : path_seg) : res kpoint :=
  match s with SegLine a b => Ok (kp_sub b a) | SegQuad _ c b => Ok (kp_sub b c) | SegCubic _ _ _ _ => Panic end.
Definition entering (s : path_seg) : res kpoint :=
  match s with SegLine a b => Ok (kp_sub b a) | SegQuad a c _ => Ok (kp_sub c a) | SegCubic _ _ _ _ => Panic end.
(** 511-540; [l] is the sequence of segments visited, with their numbers *)
Fixpoint turn_loop (xsg ysg : dyadic) (l : list (nat * path_seg)) : res (list nat) :=
  match l with
  | [] => Ok []
  | (i, s) :: l' =>
      d <- chord s ;;
      if dy_ltb (f64_mul xsg (fst d)) f_0 || dy_ltb (f64_mul ysg (snd d)) f_0 then
        r <- turn_loop (fst d) (snd d) l' ;; Ok (i :: r)
      else
        turn_loop (if f64_is_close xsg f_0 then fst d else xsg) (if f64_is_close ysg f_0 then snd d else ysg) l'
  end.
(** 571-581 *)
Definition sharp (d0 d1 : kpoint) : bool :=
  let bend := f64_sub (f64_mul (fst d1) (snd d0)) (f64_mul (fst d0) (snd d1)) in
  if (f64_is_close (fst d0) f_0 && f64_is_close (snd d0) f_0) || (f64_is_close (fst d1) f_0 && f64_is_close (snd d1) f_0) then true
  else dy_ltb f_002 (dy_abs (f64_div bend (f64_mul (hypot (fst d0) (snd d0)) (hypot (fst d1) (snd d1))))).
(** 543-582 *)
Fixpoint angle_loop (prev : path_seg) (l : list (nat * path_seg)) : res (list nat) :=
  match l with
  | [] => Ok []
  | (i, s) :: l' =>
      d0 <- leaving prev ;; d1 <- entering s ;;
      r <- angle_loop s l' ;;
      Ok (if sharp d0 d1 then i :: r else r)
  end.
(** The members of the set, in order (584) *)
Definition segment_sp (segs : list path_seg) : res (list nat) :=
  let l := combine (seq 0 (length segs)) segs in
  t <- turn_loop f_0 f_0 (l ++ l) ;;
  a <- match segs with [] => Ok [] | s0 :: _ => angle_loop (last segs s0) l end ;;
  Ok (filter (fun i => existsb (Nat.eqb i) (t ++ a)) (seq 0 (length segs))).

(** ** Putting the contour together *)
(** [Thetas::new(&quadbezes).optimize(1.0)], 607-608: [fit_run] below, or any other way to fit curves to a run *)
Variable fit : list quad -> res (option (list quad)).
(** 599-606 *)
Definition seg_quad (s : path_seg) : res quad :=
  match s with
  | SegLine a b => Ok (mk_quad a (kp_lerp a b f_half) b)
  | SegQuad a c b => Ok (mk_quad a c b)
  | SegCubic _ _ _ _ => Panic
  end.
(** 612-618 *)
Definition emit (q : quad) : path_el := if is_line q then LineTo (q_p2 q) else QuadTo (q_p1 q) (q_p2 q).
(** 595-626, one window; None: the contour is left as it was *)
Definition run_els (segs : list path_seg) (bk0 bk1 : nat) : res (option bez_path) :=
  let s := nth_error segs bk0 in
  if negb (bk1 =? (bk0 + 1) mod length segs)%nat || match s with Some (SegQuad _ _ _) => true | _ => false end then
    qs <- rmapM seg_quad (firstn (bk1 - bk0) (skipn bk0 segs)) ;;
    o <- fit qs ;;
    Ok (option_map (map emit) o)
  else match s with
       | Some (SegQuad _ c b) => Ok (Some [QuadTo c b])
       | Some (SegLine _ b) => Ok (Some [LineTo b])
       | _ => Ok (Some [])
       end.
Fixpoint windows (segs : list path_seg) (breaks : list nat) : res (option bez_path) :=
  match breaks with
  | [] => Ok (Some [])
  | bk0 :: rest =>
      match rest with
      | [] => Ok (Some [])
      | bk1 :: _ =>
          o <- run_els segs bk0 bk1 ;;
          match o with
          | None => Ok None
          | Some els => r <- windows segs rest ;; Ok (option_map (app els) r)
          end
      end
  end.
(** crunch_contour, 586-630 *)
Definition crunch_contour (path : bez_path) : res bez_path :=
  segs <- path_segments path ;;
  breaks <- segment_sp segs ;;
  el <- unwrap (hd_error path) ;;
  o <- windows segs breaks ;;
  Ok (match o with Some els => el :: els | None => path end).
(** crunch_glyph, 632-647 *)
Definition crunch_outline (tq : kpoint -> kpoint -> kpoint -> kpoint -> list (kpoint * kpoint)) (c : list point) : res (list point) :=
  path <- contour_to_path c ;;
  path' <- crunch_contour path ;;
  c' <- path_to_contour tq path' ;;
  remove_implied_oncurves c'.
Definition set_contours (g : glyph) (cs : list (list point)) : glyph :=
  mk_glyph (g_xMin g) (g_xMax g) (g_yMin g) (g_yMax g) cs (g_instr g) (g_comps g) (g_overlap g).
Definition crunch_glyph (tq : kpoint -> kpoint -> kpoint -> kpoint -> list (kpoint * kpoint)) (g : glyph) : res glyph :=
  cs <- rmapM (crunch_outline tq) (g_contours g) ;; Ok (set_contours g cs).

(** main, 649-705.  [gn\[ix\]] panics for a glyph with contours that has no name
    in a list of names. *)
Fixpoint crunch_all (tq : kpoint -> kpoint -> kpoint -> kpoint -> list (kpoint * kpoint)) (names : option (list (list Z))) (ix : nat)
    (gs : list glyph) : res (list glyph) :=
  match gs with
  | [] => Ok []
  | g :: gs' =>
      g' <- (match g_contours g with
             | [] => Ok g
             | _ => match names with
                    | Some l => _ <- unwrap (nth_error l ix) ;; crunch_glyph tq g
                    | None => crunch_glyph tq g
                    end
             end) ;;
      r <- crunch_all tq names (S ix) gs' ;;
      Ok (g' :: r)
  end.
End Corners.

(** 607-608, with [sample] for [Thetas::new] and [measure] for [measure_quad] *)
Definition fit_run (hypot : dyadic -> dyadic -> dyadic) (sample : list quad -> res thetas)
    (measure : thetas -> dyadic -> dyadic -> quad -> dyadic) (qs : list quad) : res (option (list quad)) :=
  t <- sample qs ;; thetas_optimize hypot t (measure t) (Dy 1 0).

Section Tool.
Context {T : Type} (K0 : codecs T).
Variable hash : cmapping -> Z.
Variable hypot : dyadic -> dyadic -> dyadic.
Variable fit : list quad -> res (option (list quad)).
Variable tq : kpoint -> kpoint -> kpoint -> kpoint -> list (kpoint * kpoint).
Let K := K K0 hash.
Definition crunch_edit : sop (T:=known T) unit :=
  sbind (unwrap_s (typed K TAG_post sel_post)) (fun op =>
  let names := match op with Some p => po_glyphnames p | None => None end in
  sbind (unwrap_s (typed K TAG_glyf sel_glyf)) (fun og =>
  match og with
  | None => slift (Ok tt)
  | Some gs => sbind (slift (crunch_all hypot fit tq names 0 gs)) (fun gs' =>
               smodify (ts_insert_typed TAG_glyf (LGlyf gs')))
  end)).
(** None: nothing is written.  As in [cli], every failure is [Panic]. *)
Definition fontcrunch (file : list Z) : res (option (list Z)) :=
  match font_load K file with
  | Ok (_, s) => if ts_contains TAG_gvar s then Ok None else rmap Some (cli K0 hash crunch_edit file)
  | _ => Panic
  end.
End Tool.

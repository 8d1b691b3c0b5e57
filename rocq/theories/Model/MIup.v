(** Interpolation of untouched points and its optimizer: src/otvar/iup.rs,
    src/otvar/tuplevariationstore.rs:27-57 *)
From Verif.Model Require Import MBase MFixed MFloat MFloat32 MGlyph MGlyf MPacked.

Definition pt := (Z * Z)%type.

(** [&l[a..b]] and [l[i]] *)
Definition slice {A} (l : list A) (a b : nat) : res (list A) :=
  if (a <=? b)%nat && (b <=? length l)%nat then Ok (firstn (b - a) (skipn a l)) else Panic.
Definition at_ {A} (l : list A) (i : nat) : res A := unwrap (nth_error l i).
(** get_2d, otvar.rs:38-45, on an [Option] that is unwrapped first *)
Definition get_2d (d : option delta) : res pt :=
  match d with Some (Delta2D x y) => Ok (x, y) | _ => Panic end.

(** ** Inference *)

(** iup.rs:17-46, one axis; [x1], [d1], [x2], [d2] after the swap at 28-31 *)
Definition between (x1 d1 x2 d2 : Z) (xs : list Z) : res (list Z) :=
  dd <- chk_i 16 (d2 - d1) ;;
  xx <- chk_i 16 (x2 - x1) ;;
  let scale := f32_div (f32_of_int dd) (f32_of_int xx) in
  rmapM (fun x =>
    if x <=? x1 then Ok d1
    else if x2 <=? x then Ok d2
    else e <- chk_i 16 (x - x1) ;;
         chk_i 16 (d1 + f_as_i16 (f32_mul (f32_of_int e) scale))) xs.
Definition seg_axis (x1 d1 x2 d2 : Z) (xs : list Z) : res (list Z) :=
  if x1 =? x2 then Ok (map (fun _ => if d1 =? d2 then d1 else 0) xs)
  else if x1 >? x2 then between x2 d2 x1 d1 xs
  else between x1 d1 x2 d2 xs.
(** iup_segment, iup.rs:6-53: what is appended to [newdeltas] *)
Definition iup_segment (cs : list pt) (rc1 : pt) (rd1 : option delta) (rc2 : pt) (rd2 : option delta) : res (list pt) :=
  d1 <- get_2d rd1 ;;
  d2 <- get_2d rd2 ;;
  xs <- seg_axis (fst rc1) (fst d1) (fst rc2) (fst d2) (map fst cs) ;;
  ys <- seg_axis (snd rc1) (snd d1) (snd rc2) (snd d2) (map snd cs) ;;
  Ok (combine xs ys).

(** [&coords[i1..i2], coords[ri1], &deltas[ri1], coords[ri2], &deltas[ri2]] *)
Definition segment (ds : list (option delta)) (cs : list pt) (i1 i2 r1 r2 : nat) : res (list pt) :=
  xs <- slice cs i1 i2 ;;
  c1 <- at_ cs r1 ;; d1 <- at_ ds r1 ;;
  c2 <- at_ cs r2 ;; d2 <- at_ ds r2 ;;
  iup_segment xs c1 d1 c2 d2.
(** the indices of the given deltas, iup.rs:71-76 *)
Definition indices (ds : list (option delta)) : list nat :=
  map fst (filter (fun id => negb (is_none (snd id))) (combine (seq 0 (length ds)) ds)).
(** iup.rs:95-109; also gives the last [start] *)
Fixpoint walk (ds : list (option delta)) (cs : list pt) (start : nat) (ends : list nat) : res (list pt * nat) :=
  match ends with
  | [] => Ok ([], start)
  | e :: ends' =>
      s <- (if (1 <? e - start)%nat then segment ds cs (S start) e start e else Ok []) ;;
      d <- at_ ds e ;; p <- get_2d d ;;
      ' (r, l) <- walk ds cs e ends' ;;
      Ok (s ++ p :: r, l)
  end.
(** iup_contour, iup.rs:56-121 *)
Definition iup_contour (ds : list (option delta)) (cs : list pt) : res (list pt) :=
  if forallb (fun d => negb (is_none d)) ds then rmapM get_2d ds
  else
    let n := length ds in
    match indices ds with
    | [] => Ok (repeat (0, 0) n)
    | s0 :: ends =>
        a <- (if (s0 =? 0)%nat then Ok [] else segment ds cs 0 s0 s0 (last (s0 :: ends) 0%nat)) ;;
        d <- at_ ds s0 ;; p <- get_2d d ;;
        ' (r, l) <- walk ds cs s0 ends ;;
        b <- (if (l =? n - 1)%nat then Ok [] else segment ds cs (S l) n l s0) ;;
        Ok (a ++ p :: r ++ b)
    end.

(** the loops at tuplevariationstore.rs:38-46 and iup.rs:131-139; [end + 1] is
    on usize *)
Fixpoint iup_contours (ds : list (option delta)) (cs : list pt) (start : nat) (ends : list Z) : res (list pt) :=
  match ends with
  | [] => Ok []
  | e :: ends' =>
      e1 <- chk_u 64 (e + 1) ;;
      d <- slice ds start (Z.to_nat e1) ;;
      c <- slice cs start (Z.to_nat e1) ;;
      a <- iup_contour d c ;;
      r <- iup_contours ds cs (Z.to_nat e1) ends' ;;
      Ok (a ++ r)
  end.
(** TupleVariation::iup_delta, tuplevariationstore.rs:27-47; iup.rs:127-151
    is the same but for the message of the panic *)
Definition iup_delta (ds : list (option delta)) (cs : list pt) (ends : list Z) : res (list pt) :=
  if forallb (fun d => negb (is_none d)) ds then rmapM get_2d ds
  else iup_contours ds cs 0 ends.
(** has_effect, tuplevariationstore.rs:50-57; [any] stops at the first *)
Fixpoint has_effect (ds : list (option delta)) : res bool :=
  match ds with
  | [] => Ok false
  | None :: ds' => has_effect ds'
  | Some d :: ds' =>
      p <- get_2d (Some d) ;;
      if negb (fst p =? 0) || negb (snd p =? 0) then Ok true else has_effect ds'
  end.

(** ** The optimizer *)

(** [a.rem_euclid(b)] on i16 (the overflowing -32768 by -1 does not occur) *)
Definition rem_euclid (a b : Z) : res Z := if b =? 0 then Panic else Ok (a mod Z.abs b).
(** [l[i as usize]]: a negative [i] is past the end *)
Definition at_i16 {A} (l : list A) (i : Z) : res A := if i <? 0 then Panic else at_ l (Z.to_nat i).

(** iup.rs:451-456: [all] stops at the first failure *)
Fixpoint all_close (tol : dyadic) (ds interp : list pt) : res bool :=
  match ds, interp with
  | (x, y) :: ds', (p, q) :: interp' =>
      u <- chk_i 16 (x - p) ;;
      v <- chk_i 16 (y - q) ;;
      let a := f32_of_int u in
      let b := f32_of_int v in
      if dy_leb (f32_add (f32_mul a a) (f32_mul b b)) tol then all_close tol ds' interp' else Ok false
  | _, _ => Ok true
  end.
(** can_iup_between, iup.rs:419-458 *)
Definition can_iup_between (ds cs : list pt) (i j : Z) (tol : dyadic) : res bool :=
  d <- chk_i 16 (j - i) ;;
  if d <? 2 then Panic
  else
    let n := length ds in
    i' <- rem_euclid i (i16 (Z.of_nat n)) ;;
    j' <- rem_euclid j (i16 (Z.of_nat n)) ;;
    let i' := Z.to_nat i' in
    let j' := Z.to_nat j' in
    cp <- (if (j' <? S i')%nat then a <- slice cs (S i') (length cs) ;; b <- slice cs 0 j' ;; Ok (a ++ b)
           else slice cs (S i') j') ;;
    dp <- (if (j' <? S i')%nat then a <- slice ds (S i') n ;; b <- slice ds 0 j' ;; Ok (a ++ b)
           else slice ds (S i') j') ;;
    ci <- at_ cs i' ;; di <- at_ ds i' ;; cj <- at_ cs j' ;; dj <- at_ ds j' ;;
    interp <- iup_segment cp ci (Some (Delta2D (fst di) (snd di))) cj (Some (Delta2D (fst dj) (snd dj))) ;;
    if (length interp =? length dp)%nat then all_close tol dp interp else Panic.

(** f32::EPSILON *)
Definition EPS : dyadic := Dy 1 (-23).
(** iup.rs:316-368: is the point forced by this axis?  [c], [d]: the point;
    [lc], [ld]: the one before; [nc], [nd]: the one after *)
Definition force_axis (tol : dyadic) (c d lc ld nc nd : Z) : bool :=
  let f := f32_of_int in
  let '(c1, c2, d1, d2) := if lc <=? nc then (f lc, f nc, f ld, f nd) else (f nc, f lc, f nd, f ld) in
  let cj := f c in
  let dj := f d in
  if dy_leb c1 cj && dy_leb cj c2 then
    negb (dy_leb (f32_sub (dy_min d1 d2) tol) dj && dy_leb dj (f32_add (dy_max d1 d2) tol))
  else if dy_ltb (dy_abs (f32_sub c1 c2)) EPS then
    if dy_ltb (dy_abs (f32_sub d1 d2)) EPS then dy_ltb tol (dy_abs (f32_sub dj d1)) else false
  else if dy_ltb EPS (dy_abs (f32_sub d1 d2)) then
    if dy_ltb cj c1 then
      dy_ltb EPS (dy_abs (f32_sub dj d1)) && negb (Bool.eqb (dy_ltb (f32_sub dj tol) d1) (dy_ltb d1 d2))
    else
      dy_ltb EPS (dy_abs (f32_sub d2 dj)) && negb (Bool.eqb (dy_ltb d2 (f32_add dj tol)) (dy_ltb d1 d2))
  else false.
(** the loop of _iup_contour_bound_forced_set, iup.rs:310-372; [fuel] is the
    number of points, [i] counts down to 0.  A HashSet is a list. *)
Fixpoint forced_loop (ds cs : list pt) (tol : dyadic) (fuel : nat) (i : Z) (ld lc nd nc : pt) : res (list Z) :=
  match fuel with
  | O => Ok []
  | S k =>
      if i >? -1 then
        l1 <- rem_euclid (i - 1) (i16 (Z.of_nat (length ds))) ;;
        ld' <- at_i16 ds l1 ;;
        l2 <- rem_euclid (i - 1) (i16 (Z.of_nat (length cs))) ;;
        lc' <- at_i16 cs l2 ;;
        let force := force_axis tol (fst lc) (fst ld) (fst lc') (fst ld') (fst nc) (fst nd)
                     || force_axis tol (snd lc) (snd ld) (snd lc') (snd ld') (snd nc) (snd nd) in
        r <- forced_loop ds cs tol k (i - 1) ld' lc' ld lc ;;
        Ok (if force then i :: r else r)
      else Ok []
  end.
(** _iup_contour_bound_forced_set, iup.rs:298-374 *)
Definition forced_set (ds cs : list pt) (tol : dyadic) : res (list Z) :=
  if (length ds =? length cs)%nat then
    nd <- at_ ds 0 ;;
    nc <- at_ cs 0 ;;
    let i := i16 (Z.of_nat (length ds) - 1) in
    ld <- at_i16 ds i ;;
    lc <- at_i16 cs i ;;
    forced_loop ds cs tol (length ds) i ld lc nd nc
  else Panic.

(** HashMap<i16, i16> *)
Definition hmap := list (Z * Z).
Fixpoint hget (k : Z) (m : hmap) : option Z :=
  match m with [] => None | (a, v) :: m' => if a =? k then Some v else hget k m' end.
Definition zmem (k : Z) (l : list Z) : bool := existsb (Z.eqb k) l.

(** the inner loop, iup.rs:402-413; gives costs and chain.  [lo] is
    (i - lookback).max(-2), [fuel] at least the number of turns. *)
Fixpoint dp_inner (ds cs : list pt) (forced : list Z) (tol : dyadic) (i lo : Z) (fuel : nat)
    (j best : Z) (costs chain : hmap) : res (hmap * hmap) :=
  match fuel with
  | O => Ok (costs, chain)
  | S k =>
      if j >? lo then
        cj <- unwrap (hget j costs) ;;
        cost <- chk_i 16 (cj + 1) ;;
        ok <- (if cost <? best then can_iup_between ds cs j i tol else Ok false) ;;
        let best' := if ok : bool then cost else best in
        let costs' := if ok : bool then (i, cost) :: costs else costs in
        let chain' := if ok : bool then (i, j) :: chain else chain in
        if zmem j forced then Ok (costs', chain')
        else j' <- chk_i 16 (j - 1) ;; dp_inner ds cs forced tol i lo k j' best' costs' chain'
      else Ok (costs, chain)
  end.
(** iup.rs:389-414, the points in the list *)
Fixpoint dp_outer (ds cs : list pt) (forced : list Z) (tol : dyadic) (lookback : Z) (is : list nat)
    (costs chain : hmap) : res (hmap * hmap) :=
  match is with
  | [] => Ok (costs, chain)
  | i0 :: is' =>
      let i := i16 (Z.of_nat i0) in
      p <- chk_i 16 (i - 1) ;;
      c <- unwrap (hget p costs) ;;
      best <- chk_i 16 (c + 1) ;;
      let costs := (i, best) :: costs in
      let chain := (i, p) :: chain in
      if zmem p forced then dp_outer ds cs forced tol lookback is' costs chain
      else
        j <- chk_i 16 (i - 2) ;;
        lo <- chk_i 16 (i - lookback) ;;
        ' (costs, chain) <- dp_inner ds cs forced tol i (Z.max lo (-2)) (length ds) j best costs chain ;;
        dp_outer ds cs forced tol lookback is' costs chain
  end.
(** _iup_contour_optimize_dp, iup.rs:376-417: (chain, costs) *)
Definition optimize_dp (ds cs : list pt) (forced : list Z) (tol : dyadic) (lookback : option Z) : res (hmap * hmap) :=
  let n := length ds in
  let lb := match lookback with Some l => l | None => i16 (Z.of_nat n) end in
  ' (costs, chain) <- dp_outer ds cs forced tol lb (seq 0 n) [(-1, 0)] [] ;;
  Ok (chain, costs).

(** rotate_list, iup.rs:283-296 *)
Definition rotate_list {A} (l : list A) (k : Z) : res (list A) :=
  let n := i16 (Z.of_nat (length l)) in
  k <- rem_euclid k n ;;
  if k =? 0 then Ok l
  else
    p <- chk_i 16 (n - k) ;;
    if p <? 0 then Panic
    else a <- slice l (Z.to_nat p) (length l) ;; b <- slice l 0 (Z.to_nat p) ;; Ok (a ++ b).
(** rotate_set, iup.rs:275-281; [%] truncates *)
Definition rotate_set (s : list Z) (k n : Z) : res (list Z) :=
  if i16 n =? 0 then Panic
  else
    let k := Z.rem k (i16 n) in
    if k =? 0 then Ok s else rmapM (fun v => x <- chk_i 16 (v + k) ;; Ok (Z.rem x (i16 n))) s.

(** iup.rs:210-220: the chain from [i] to its end *)
Fixpoint follow (fuel : nat) (chain : hmap) (i : Z) : res (list Z) :=
  match fuel with
  | O => Panic
  | S k => match hget i chain with None => Ok [i] | Some j => r <- follow k chain j ;; Ok (i :: r) end
  end.
(** iup.rs:239-249: the solution and where it stops; [lo] is start - n *)
Fixpoint follow_to (fuel : nat) (chain : hmap) (n lo i : Z) : res (list Z * Z) :=
  match fuel with
  | O => Panic
  | S k =>
      if i >? lo then
        r <- rem_euclid i n ;;
        match hget i chain with
        | None => Ok ([r], i)
        | Some j => ' (s, e) <- follow_to k chain n lo j ;; Ok (r :: s, e)
        end
      else Ok ([], i)
  end.
(** the choice of the cheapest cycle, iup.rs:236-260 *)
Fixpoint best_loop (chain costs : hmap) (n : nat) (starts : list nat) (best_cost : Z) (best : list Z) : res (list Z) :=
  match starts with
  | [] => Ok best
  | s0 :: starts' =>
      let n16 := i16 (Z.of_nat n) in
      let s := i16 (Z.of_nat s0) in
      lo <- chk_i 16 (s - n16) ;;
      ' (sol, e) <- follow_to (S (S n)) chain n16 lo s ;;
      if e =? lo then
        n4 <- chk_i 16 (n16 * 4) ;;
        n3 <- chk_i 16 (n16 * 3) ;;
        cost <- chk_i 16 ((match hget s costs with Some c => c | None => n4 end)
                          - (match hget lo costs with Some c => c | None => n3 end)) ;;
        if cost <=? best_cost then best_loop chain costs n starts' cost sol
        else best_loop chain costs n starts' best_cost best
      else best_loop chain costs n starts' best_cost best
  end.
(** iup.rs:221-229: the deltas at the chosen points; [ix as i16] *)
Definition keep_chosen (sol : list Z) (n : nat) (ds : list pt) : res (list (option delta)) :=
  rmapM (fun ix => if zmem (i16 (Z.of_nat ix)) sol
                   then d <- at_ ds ix ;; Ok (Some (Delta2D (fst d) (snd d))) else Ok None) (seq 0 n).

(** [x.abs()] on i16 *)
Definition abs16 (x : Z) : res Z := chk_i 16 (Z.abs x).
(** iup.rs:178-181, with its short circuits *)
Fixpoint all_small (tol : dyadic) (ds : list pt) : res bool :=
  match ds with
  | [] => Ok true
  | (x, y) :: ds' =>
      a <- abs16 x ;;
      if dy_leb (f32_of_int a) tol then
        b <- abs16 y ;;
        if dy_leb (f32_of_int b) tol then all_small tol ds' else Ok false
      else Ok false
  end.
Definition full (d : pt) : option delta := Some (Delta2D (fst d) (snd d)).
Definition pt_eqb (a b : pt) : bool := (fst a =? fst b) && (snd a =? snd b).
(** iup_contour_optimize, iup.rs:169-273.  In the second case [ix] is a usize
    and is not cut to 16 bits, and neither are the members of the solution,
    which are below n as an i16. *)
Definition iup_contour_optimize (ds cs : list pt) (tol : dyadic) : res (list (option delta)) :=
  let n := length ds in
  small <- all_small tol ds ;;
  if small then Ok (repeat None n)
  else match ds with
  | [] => Panic
  | [d] => Ok [full d]
  | d0 :: _ =>
      if forallb (pt_eqb d0) ds then Ok (full d0 :: repeat None (n - 1))
      else
        forced <- forced_set ds cs tol ;;
        match forced with
        | f0 :: fs =>
            let k := i16 (Z.of_nat n - 1 - fold_left Z.max fs f0) in
            if k <? 0 then Panic
            else
              ds' <- rotate_list ds k ;;
              cs' <- rotate_list cs k ;;
              forced' <- rotate_set forced k (Z.of_nat n) ;;
              ' (chain, _) <- optimize_dp ds' cs' forced' tol None ;;
              last_i <- chk_i 16 (i16 (Z.of_nat n) - 1) ;;
              sol <- follow (S (S n)) chain last_i ;;
              out <- keep_chosen sol n ds' ;;
              rotate_list out (- k)
        | [] =>
            let ds2 := ds ++ ds in
            let cs2 := cs ++ cs in
            ' (chain, costs) <- optimize_dp ds2 cs2 [] tol (Some (i16 (Z.of_nat n))) ;;
            b0 <- chk_i 16 (i16 (Z.of_nat n) + 1) ;;
            sol <- best_loop chain costs n (seq (n - 1) (n + 2)) b0 [] ;;
            rmapM (fun ix => if zmem (Z.of_nat ix) sol then d <- at_ ds2 ix ;; Ok (full d) else Ok None) (seq 0 n)
        end
  end.

(** iup.rs:153-165; the assertion computes [end - start + 1] on usize *)
Definition half : dyadic := Dy 1 (-1).
Fixpoint optimize_contours (ds cs : list pt) (start : nat) (ends : list Z) : res (list (option delta)) :=
  match ends with
  | [] => Ok []
  | e :: ends' =>
      e1 <- chk_u 64 (e + 1) ;;
      d <- slice ds start (Z.to_nat e1) ;;
      c <- slice cs start (Z.to_nat e1) ;;
      a <- iup_contour_optimize d c half ;;
      m <- chk_u 64 (e - Z.of_nat start) ;;
      if Z.of_nat (length a) =? m + 1 then
        r <- optimize_contours ds cs (Z.to_nat e1) ends' ;;
        Ok (a ++ r)
      else Panic
  end.
(** optimize_deltas, iup.rs:124-167 *)
Definition optimize_deltas (ds : list (option delta)) (g : glyph) : res (list (option delta)) :=
  ' (cs, ends) <- gvar_coords_and_ends g ;;
  xy <- iup_delta ds cs ends ;;
  optimize_contours xy cs 0 ends.

(** GPOS subtables: crates/otspec/src/layout/{anchor,gpos1..gpos6}.rs,
    src/layout/gpos{1..6}.rs, crates/otspec/src/tables/GPOS.rs,
    src/tables/GPOS.rs. *)
From Verif.Model Require Import MBase MMap MTag MGlyph MOffset MLayout MLow MContext MLookup MValue MGsub.

(** ** Low level *)
(** Anchor, otspec anchor.rs:9-17 *)
Record anchor := mk_anchor { an_x : Z; an_y : Z; an_point : option Z }.
(** [#[derive(Default)]], anchor.rs:9 *)
Definition anchor_default : anchor := mk_anchor 0 0 None.
(** Anchor::to_bytes, anchor.rs:58-67 *)
Definition anchor_ser (a : anchor) : list Z :=
  ser_u16 (match an_point a with Some _ => 2 | None => 1 end) ++ ser_i16 (an_x a) ++ ser_i16 (an_y a) ++
  match an_point a with Some p => ser_u16 p | None => [] end.
Definition anchor_enc (a : anchor) : res obj := Ok (raw (anchor_ser a)).
(** Anchor::from_bytes, anchor.rs:29-55 *)
Definition anchor_de : parser anchor :=
  f <-- de_u16 ;; x <-- de_i16 ;; y <-- de_i16 ;;
  if f =? 1 then pret (mk_anchor x y None)
  else if f =? 2 then p <-- de_u16 ;; pret (mk_anchor x y (Some p))
  else perr.

(** PairValueRecord, otspec gpos2.rs:29-37: secondGlyph, valueRecord1, valueRecord2 *)
Definition pair_record : Type := Z * (vrec * vrec).
(** MarkRecord, otspec common.rs:71-74 *)
Definition mark_record : Type := Z * option anchor.
(** BaseRecord, Mark2Record, ComponentRecord (gpos4.rs:27-33, gpos6.rs:27-33, gpos5.rs:35-41) *)
Definition anchor_row : Type := list (option anchor).
(** GPOSSubtable, otspec tables/GPOS.rs:192-210.  The offsets of the pair sets
    (otspec gpos2.rs:99-104), of the base and mark2 arrays (gpos4.rs:90-95,
    gpos6.rs:90-95) and of the ligature array and its members (gpos5.rs:102-118)
    are always made with a target, so their targets are kept directly. *)
Inductive gpos_sub :=
| P11 (format : Z) (cov : option (list Z)) (vf : Z) (v : vrec)
| P12 (format : Z) (cov : option (list Z)) (vf : Z) (vs : list vrec)
| P21 (format : Z) (cov : option (list Z)) (vf1 vf2 : Z) (sets : list (list pair_record))
| P22 (format : Z) (cov : option (list Z)) (vf1 vf2 : Z) (cd1 cd2 : option classdef) (n1 n2 : Z) (recs : list (list (vrec * vrec)))
| P31 (format : Z) (cov : option (list Z)) (recs : list (option anchor * option anchor))
| P41 (format : Z) (marks bases : option (list Z)) (n : Z) (ma : option (list mark_record)) (ba : list anchor_row)
| P51 (format : Z) (marks ligs : option (list Z)) (n : Z) (ma : option (list mark_record)) (la : list (list anchor_row))
| P61 (format : Z) (marks1 marks2 : option (list Z)) (n : Z) (ma : option (list mark_record)) (ba : list anchor_row)
| P7 (s : seq_low)
| P8 (s : chain_low)
| P9 (format type : Z) (s : gpos_sub).

(** A value record written outside the offset manager, as the records of
    SinglePosFormat2 are (gpos1.rs:26-27 has no [embed]): an offset whose place
    was never set is an error (offsets.rs:154-170). *)
Definition dev_plain (o : option (option device)) : res (list Z) :=
  match o with
  | None => Ok []
  | Some None => Ok (ser_u16 0)
  | Some (Some _) => Err
  end.
Definition int_plain (o : option Z) : list Z := match o with Some z => ser_i16 z | None => [] end.
Definition vr_plain (v : vrec) : res (list Z) :=
  e <- dev_plain (vr_xplad v) ;;
  f <- dev_plain (vr_yplad v) ;;
  g <- dev_plain (vr_xadvd v) ;;
  h <- dev_plain (vr_yadvd v) ;;
  Ok (int_plain (vr_xpla v) ++ int_plain (vr_ypla v) ++ int_plain (vr_xadv v) ++ int_plain (vr_yadv v) ++ e ++ f ++ g ++ h).
(** PairValueRecord (otspec gpos2.rs:29-37), PairSet (20-26).  A pair record is
    written with an offset manager of its own; without device tables that makes
    no difference, and pair records with device tables are not modelled ([Err]). *)
Definition pair_plain (r : pair_record) : res (list Z) :=
  a <- vr_plain (fst (snd r)) ;; b <- vr_plain (snd (snd r)) ;; Ok (ser_u16 (fst r) ++ a ++ b).
Definition pair_set_enc (l : list pair_record) : res obj :=
  bs <- rmapM pair_plain l ;; Ok (raw (ser_u16 (u16 (Z.of_nat (length l))) ++ concat bs)).
(** MarkArray, otspec common.rs:65-74 *)
Definition mark_enc (r : mark_record) : res item :=
  l <- link_enc anchor_enc (snd r) ;; Ok (IGroup (raw (ser_u16 (fst r)) ++ [l])).
Definition mark_array_enc (l : list mark_record) : res obj :=
  is <- rmapM mark_enc l ;; Ok (raw (ser_u16 (u16 (Z.of_nat (length l)))) ++ [IGroup is]).
(** BaseArray, LigatureAttach, Mark2Array (gpos4.rs:20-24, 35-55; gpos5.rs:28-32, 43-63; gpos6.rs:20-24, 35-55) *)
Definition row_enc (r : anchor_row) : res item := ls <- rmapM (link_enc anchor_enc) r ;; Ok (IGroup ls).
Definition rows_enc (l : list anchor_row) : res obj :=
  is <- rmapM row_enc l ;; Ok (raw (ser_u16 (u16 (Z.of_nat (length l)))) ++ [IGroup is]).
(** EntryExitRecord, otspec gpos3.rs:15-18 *)
Definition entry_exit_enc (r : option anchor * option anchor) : res item :=
  a <- link_enc anchor_enc (fst r) ;; b <- link_enc anchor_enc (snd r) ;; Ok (IGroup [a; b]).
(** the derived [Serialize]s.  Class pair tables and extension subtables are
    only read: [to_lowlevel] never makes them. *)
Definition gpos_enc (s : gpos_sub) : res obj :=
  match s with
  | P11 f c vf v =>
      l <- link_enc cov_enc c ;; r <- vr_enc v ;;
      Ok (raw (ser_u16 f) ++ [l] ++ raw (ser_u16 vf) ++ [IGroup r])
  | P12 f c vf vs =>
      l <- link_enc cov_enc c ;; rs <- rmapM vr_plain vs ;;
      Ok (raw (ser_u16 f) ++ [l] ++ raw (ser_u16 vf ++ ser_u16 (u16 (Z.of_nat (length vs))) ++ concat rs))
  | P21 f c vf1 vf2 sets =>
      l <- link_enc cov_enc c ;; v <- vec_enc pair_set_enc (map Some sets) ;;
      Ok (raw (ser_u16 f) ++ [l] ++ raw (ser_u16 vf1 ++ ser_u16 vf2) ++ v)
  | P22 _ _ _ _ _ _ _ _ _ => Panic
  | P31 f c rs =>
      l <- link_enc cov_enc c ;; is <- rmapM entry_exit_enc rs ;;
      Ok (raw (ser_u16 f) ++ [l] ++ raw (ser_u16 (u16 (Z.of_nat (length rs)))) ++ [IGroup is])
  | P41 f m b n ma ba | P61 f m b n ma ba =>
      l1 <- link_enc cov_enc m ;; l2 <- link_enc cov_enc b ;;
      la <- link_enc mark_array_enc ma ;; lb <- link_enc rows_enc (Some ba) ;;
      Ok (raw (ser_u16 f) ++ [l1; l2] ++ raw (ser_u16 n) ++ [la; lb])
  | P51 f m b n ma ligs =>
      l1 <- link_enc cov_enc m ;; l2 <- link_enc cov_enc b ;;
      la <- link_enc mark_array_enc ma ;; lb <- link_enc (fun l => vec_enc rows_enc (map Some l)) (Some ligs) ;;
      Ok (raw (ser_u16 f) ++ [l1; l2] ++ raw (ser_u16 n) ++ [la; lb])
  | P7 s => seq_enc s
  | P8 s => chain_enc s
  | P9 _ _ _ => Panic
  end.

(** deserialize_gpos1, otspec gpos1.rs:30-69 (posFormat becomes 1) *)
Definition p1_de : parser gpos_sub := with_base (
  f <-- de_u16 ;; c <-- de_cov ;; vf <-- de_u16 ;;
  if f =? 1 then v <-- vr_de vf ;; pret (P11 1 c vf v)
  else if f =? 2 then vs <-- de_counted16 (vr_de vf) ;; pret (P12 1 c vf vs)
  else perr).
(** [c.ptr = c.top_of_table() + off] *)
Definition goto (off : Z) : parser unit := fun r =>
  match top_of_table r with
  | Ok t => Ok (tt, mkrd (rd_input r) (t + Z.to_nat off) (rd_stack r))
  | Err => Err | Panic => Panic
  end.
(** [c.follow_offset(off)?] *)
Definition follow (off : Z) : parser unit := fun r =>
  match follow_offset r off with
  | Ok r1 => Ok (tt, r1)
  | Err => Err | Panic => Panic
  end.
(** gpos2.rs:90-97 (the body of the inner loop) and 123-132 *)
Definition pair_de (vf1 vf2 : Z) : parser (vrec * vrec) := a <-- vr_de vf1 ;; b <-- vr_de vf2 ;; pret (a, b).
Definition pair_record_de (vf1 vf2 : Z) : parser pair_record := g <-- de_u16 ;; p <-- pair_de vf1 vf2 ;; pret (g, p).
(** gpos2.rs:83-105; the pointer is left where the last pair set ends *)
Fixpoint pair_sets_de (vf1 vf2 : Z) (offs : list (Z * Z)) : parser (list (list pair_record)) :=
  match offs with
  | [] => pret []
  | (_, off) :: offs' =>
      _ <-- goto off ;;
      s <-- de_counted16 (pair_record_de vf1 vf2) ;;
      l <-- pair_sets_de vf1 vf2 offs' ;;
      pret (s :: l)
  end.
(** deserialize_gpos2, otspec gpos2.rs:69-152 *)
Definition p2_de : parser gpos_sub := with_base (
  f <-- de_u16 ;; c <-- de_cov ;; vf1 <-- de_u16 ;; vf2 <-- de_u16 ;;
  if f =? 1 then
    offs <-- de_words ;; g <-- plift (unwrap c) ;;
    sets <-- pair_sets_de vf1 vf2 (combine g offs) ;;
    pret (P21 1 c vf1 vf2 sets)
  else if f =? 2 then
    d1 <-- de_off16 cd_de ;; d2 <-- de_off16 cd_de ;; n1 <-- de_u16 ;; n2 <-- de_u16 ;;
    rs <-- de_counted (de_counted (pair_de vf1 vf2) (Z.to_nat n2)) (Z.to_nat n1) ;;
    pret (P22 2 c vf1 vf2 d1 d2 n1 n2 rs)
  else ppanic).
(** otspec gpos3.rs:8-18 *)
Definition entry_exit_de : parser (option anchor * option anchor) :=
  a <-- de_off16 anchor_de ;; b <-- de_off16 anchor_de ;; pret (a, b).
Definition p3_de : parser gpos_sub := with_base (
  f <-- de_u16 ;; c <-- de_cov ;; rs <-- de_counted16 entry_exit_de ;; pret (P31 f c rs)).
(** otspec common.rs:65-74 *)
Definition mark_de : parser mark_record := k <-- de_u16 ;; a <-- de_off16 anchor_de ;; pret (k, a).
Definition mark_array_de : parser (list mark_record) := with_base (de_counted16 mark_de).
(** gpos4.rs:73-82, gpos5.rs:91-100, gpos6.rs:73-82 *)
Definition rows_de (n : Z) : parser (list anchor_row) :=
  with_base (de_counted16 (de_counted (de_off16 anchor_de) (Z.to_nat n))).
(** MarkBasePosFormat1::from_bytes, otspec gpos4.rs:59-98; MarkMarkPosFormat1::from_bytes, gpos6.rs:59-98 *)
Definition attach_de (k : Z -> option (list Z) -> option (list Z) -> Z -> option (list mark_record) -> list anchor_row -> gpos_sub)
  : parser gpos_sub := with_base (
  f <-- de_u16 ;; m <-- de_cov ;; b <-- de_cov ;; n <-- de_u16 ;; ma <-- de_off16 mark_array_de ;;
  off <-- de_u16 ;; _ <-- goto off ;; ba <-- rows_de n ;;
  pret (k f m b n ma ba)).
(** MarkLigPosFormat1::from_bytes, otspec gpos5.rs:67-122; the pointer is not
    brought back after a ligature *)
Definition lig_attach_de (n : Z) : parser (list anchor_row) := off <-- de_u16 ;; _ <-- follow off ;; rows_de n.
Definition p5_de : parser gpos_sub := with_base (
  f <-- de_u16 ;; m <-- de_cov ;; b <-- de_cov ;; n <-- de_u16 ;; ma <-- de_off16 mark_array_de ;;
  off <-- de_u16 ;; _ <-- follow off ;;
  la <-- with_base (de_counted16 (lig_attach_de n)) ;;
  pret (P51 f m b n ma la)).
(** GPOSSubtable::deserialize, otspec tables/GPOS.rs:94-129, without extensions *)
Definition gpos_plain_de (t : Z) : parser gpos_sub :=
  match t with
  | 1 => p1_de | 2 => p2_de | 3 => p3_de
  | 4 => attach_de P41 | 5 => p5_de | 6 => attach_de P61
  | 7 => s <-- seq_de ;; pret (P7 s)
  | 8 => s <-- chain_de ;; pret (P8 s)
  | _ => ppanic
  end.
(** ExtensionPosFormat1::from_bytes, otspec tables/GPOS.rs:165-190 *)
Definition p9_de : parser gpos_sub := with_base (
  f <-- de_u16 ;; t <-- de_u16 ;;
  if 6 <? t then perr else s <-- de_sub32 (gpos_plain_de t) ;; pret (P9 f t s)).
Definition gpos_de (t : Z) : parser gpos_sub := if t =? 9 then p9_de else gpos_plain_de t.

(** ** High level *)
(** [#[derive(PartialEq)]] of ValueRecord (valuerecord.rs:17; offsets.rs:76-80
    compares targets) and Device (device.rs:9) *)
Definition opt_eqb {A} (e : A -> A -> bool) (a b : option A) : bool :=
  match a, b with Some x, Some y => e x y | None, None => true | _, _ => false end.
Fixpoint list_eqb {A} (e : A -> A -> bool) (a b : list A) : bool :=
  match a, b with
  | [], [] => true
  | x :: a', y :: b' => e x y && list_eqb e a' b'
  | _, _ => false
  end.
Definition dev_eqb (a b : device) : bool :=
  (dv_start a =? dv_start b) && (dv_end a =? dv_end b) && opt_eqb Z.eqb (dv_format a) (dv_format b) &&
  list_eqb Z.eqb (dv_values a) (dv_values b).
Definition vrec_eqb (a b : vrec) : bool :=
  opt_eqb Z.eqb (vr_xpla a) (vr_xpla b) && opt_eqb Z.eqb (vr_ypla a) (vr_ypla b) &&
  opt_eqb Z.eqb (vr_xadv a) (vr_xadv b) && opt_eqb Z.eqb (vr_yadv a) (vr_yadv b) &&
  opt_eqb (opt_eqb dev_eqb) (vr_xplad a) (vr_xplad b) && opt_eqb (opt_eqb dev_eqb) (vr_yplad a) (vr_yplad b) &&
  opt_eqb (opt_eqb dev_eqb) (vr_xadvd a) (vr_xadvd b) && opt_eqb (opt_eqb dev_eqb) (vr_yadvd a) (vr_yadvd b).

(** SinglePos, gpos1.rs:12-17 *)
Definition single_pos := list (Z * vrec).
(** from_lowlevel, gpos1.rs:18-41 *)
Definition spos_from_low (s : gpos_sub) : res single_pos :=
  match s with
  | P11 _ c _ v => Ok (bm_of_list Z.ltb (map (fun g => (g, v)) (cov_or_nah c)))
  | P12 _ c _ vs => Ok (bm_of_list Z.ltb (combine (cov_or_nah c) vs))
  | _ => Panic
  end.
(** to_lowlevel, gpos1.rs:44-72 *)
Definition spos_to_low (m : single_pos) : res gpos_sub :=
  let vs := map (fun kv : Z * vrec => vr_simplify (snd kv)) m in
  if all_same vrec_eqb vs then
    match vs with
    | [] => Panic
    | v :: _ => Ok (P11 1 (Some (map fst m)) (vr_flags v) v)
    end
  else
    let vs' := coerce_same vs in
    match vs' with
    | [] => Panic
    | v :: _ => Ok (P12 2 (Some (map fst m)) (vr_flags v) vs')
    end.

(** PairPos, gpos2.rs:9-19, with keys in lexicographic order *)
Definition pair_pos := list ((Z * Z) * (vrec * vrec)).
Definition pair_ltb (a b : Z * Z) : bool :=
  (fst a <? fst b) || ((fst a =? fst b) && (snd a <? snd b)).
(** the inserts at gpos2.rs:62-69 *)
Definition class_entries (max : Z) (d1 d2 : classdef) (c1 c2 : Z) (v : vrec * vrec) : pair_pos :=
  let v1 := vr_simplify (fst v) in
  let v2 := vr_simplify (snd v) in
  if vr_has_any v1 || vr_has_any v2 then
    concat (map (fun l => map (fun r => ((l, r), (v1, v2))) (cd_get_glyphs d2 (u16 c2) max)) (cd_get_glyphs d1 (u16 c1) max))
  else [].
(** the loops at gpos2.rs:43-71; [i] counts from 0 *)
Fixpoint enumerate {A} (i : Z) (l : list A) : list (Z * A) :=
  match l with [] => [] | a :: l' => (i, a) :: enumerate (i + 1) l' end.
Definition class_pairs (max : Z) (d1 d2 : classdef) (recs : list (list (vrec * vrec))) : pair_pos :=
  concat (map (fun ir : Z * list (vrec * vrec) =>
    concat (map (fun jv : Z * (vrec * vrec) => class_entries max d1 d2 (fst ir) (fst jv) (snd jv)) (enumerate 0 (snd ir))))
    (enumerate 0 recs)).
Definition cd_or_default (o : option classdef) : classdef := match o with Some d => d | None => [] end.
(** from_lowlevel, gpos2.rs:21-77 *)
Definition ppos_from_low (max : Z) (s : gpos_sub) : res pair_pos :=
  match s with
  | P21 _ c _ _ sets =>
      Ok (bm_of_list pair_ltb (concat (map (fun gs : Z * list pair_record => map (fun p : pair_record => ((fst gs, fst p), snd p)) (snd gs))
                                           (combine (cov_or_nah c) sets))))
  | P22 _ _ _ _ d1 d2 _ _ recs => Ok (bm_of_list pair_ltb (class_pairs max (cd_or_default d1) (cd_or_default d2) recs))
  | _ => Panic
  end.
(** split_into_two_layer, gpos2.rs:79-88 *)
Definition two_layer (m : pair_pos) : list (Z * list (Z * (vrec * vrec))) :=
  fold_left (fun out (kv : (Z * Z) * (vrec * vrec)) =>
    let old := match bm_get Z.ltb (fst (fst kv)) out with Some s => s | None => [] end in
    bm_insert Z.ltb (fst (fst kv)) (bm_insert Z.ltb (snd (fst kv)) (snd kv) old) out) m [].
(** to_format_1, gpos2.rs:104-145; [get(left)] of each key is its entry *)
Definition ppos_to_low (m : pair_pos) : gpos_sub :=
  let sp := two_layer (map (fun kv : (Z * Z) * (vrec * vrec) => (fst kv, (vr_simplify (fst (snd kv)), vr_simplify (snd (snd kv))))) m) in
  let vs := map snd (concat (map snd sp)) in
  P21 1 (Some (map fst sp)) (highest_format (map fst vs)) (highest_format (map snd vs)) (map snd sp).

(** CursivePos, gpos3.rs:10-56 *)
Definition cursive_pos := list (Z * (option anchor * option anchor)).
Definition curs_from_low (s : gpos_sub) : res cursive_pos :=
  match s with
  | P31 _ c rs => Ok (bm_of_list Z.ltb (combine (cov_or_nah c) rs))
  | _ => Panic
  end.
Definition curs_to_low (m : cursive_pos) : gpos_sub := P31 1 (Some (map fst m)) (map snd m).

(** MarkBasePos, gpos4.rs:11-20; MarkMarkPos, gpos6.rs:11-20 (combining marks, base marks) *)
Definition mark_map := list (Z * (Z * anchor)).
Definition anchor_map := list (Z * anchor).
Record mark_base := mk_mark_base { mb_marks : mark_map; mb_bases : list (Z * anchor_map) }.
(** MarkLigPos, gpos5.rs:11-20 *)
Record mark_lig := mk_mark_lig { ml_marks : mark_map; ml_ligs : list (Z * list anchor_map) }.
Definition or_nil {A} (o : option (list A)) : list A := match o with Some l => l | None => [] end.
Definition or_anchor (o : option anchor) : anchor := match o with Some a => a | None => anchor_default end.
(** gpos4.rs:32-42, gpos5.rs:33-43, gpos6.rs:32-43 *)
Definition marks_from_low (c : option (list Z)) (ma : option (list mark_record)) : mark_map :=
  bm_of_list Z.ltb (combine (cov_or_nah c) (map (fun r : mark_record => (fst r, or_anchor (snd r))) (or_nil ma))).
(** gpos4.rs:46-53, gpos5.rs:55-62, gpos6.rs:48-58 *)
Definition row_from_low (r : anchor_row) : anchor_map :=
  fold_left (fun m (ia : Z * option anchor) => match snd ia with Some a => bm_insert Z.ltb (u16 (fst ia)) a m | None => m end)
            (enumerate 0 r) [].
(** the loop at gpos4.rs:64-79, gpos5.rs:75-90, gpos6.rs:72-87: [class + 1] may overflow *)
Fixpoint class_count (l : list Z) (n : Z) : res Z :=
  match l with
  | [] => Ok n
  | k :: l' => k1 <- chk_u 16 (k + 1) ;; class_count l' (if n <? k1 then k1 else n)
  end.
(** gpos4.rs:85-92, gpos5.rs:100-108, gpos6.rs:93-100 *)
Definition row_to_low (n : Z) (m : anchor_map) : anchor_row := map (fun i => bm_get Z.ltb i m) (zrange 0 n).
Definition marks_to_low (m : mark_map) : list mark_record := map (fun kv : Z * (Z * anchor) => (fst (snd kv), Some (snd (snd kv)))) m.
(** gpos4.rs:22-61, gpos6.rs:22-69 *)
Definition mb_from (c b : option (list Z)) (ma : option (list mark_record)) (ba : list anchor_row) : mark_base :=
  mk_mark_base (marks_from_low c ma) (bm_of_list Z.ltb (combine (cov_or_nah b) (map row_from_low ba))).
Definition mbase_from_low (s : gpos_sub) : res mark_base :=
  match s with P41 _ c b _ ma ba => Ok (mb_from c b ma ba) | _ => Panic end.
Definition mmark_from_low (s : gpos_sub) : res mark_base :=
  match s with P61 _ c b _ ma ba => Ok (mb_from c b ma ba) | _ => Panic end.
(** gpos4.rs:62-111, gpos6.rs:70-119 *)
Definition mb_to (k : Z -> option (list Z) -> option (list Z) -> Z -> option (list mark_record) -> list anchor_row -> gpos_sub)
    (m : mark_base) : res gpos_sub :=
  n <- class_count (map (fun kv => fst (snd kv)) (mb_marks m)) 0 ;;
  Ok (k 1 (Some (map fst (mb_marks m))) (Some (map fst (mb_bases m))) n (Some (marks_to_low (mb_marks m)))
        (map (fun kv => row_to_low n (snd kv)) (mb_bases m))).
Definition mbase_to_low : mark_base -> res gpos_sub := mb_to P41.
Definition mmark_to_low : mark_base -> res gpos_sub := mb_to P61.
(** gpos5.rs:22-72, 73-130 *)
Definition mlig_from_low (s : gpos_sub) : res mark_lig :=
  match s with
  | P51 _ c b _ ma la =>
      Ok (mk_mark_lig (marks_from_low c ma) (bm_of_list Z.ltb (combine (cov_or_nah b) (map (map row_from_low) la))))
  | _ => Panic
  end.
Definition mlig_to_low (m : mark_lig) : res gpos_sub :=
  n <- class_count (map (fun kv => fst (snd kv)) (ml_marks m)) 0 ;;
  Ok (P51 1 (Some (map fst (ml_marks m))) (Some (map fst (ml_ligs m))) n (Some (marks_to_low (ml_marks m)))
        (map (fun kv => map (row_to_low n) (snd kv)) (ml_ligs m))).
(** contextual.rs: the same conversions as for GSUB *)
Definition pcontext_from_low (max : Z) (s : gpos_sub) : res (list context_rule) :=
  match s with P7 l => Ok (seq_from_low max l) | _ => Panic end.
Definition pchained_from_low (max : Z) (s : gpos_sub) : res (list chained_rule) :=
  match s with P8 l => Ok (chain_from_low max l) | _ => Panic end.

(** One subtable at a time, as in MGsub *)
Definition spos_read : parser single_pos := s <-- gpos_de 1 ;; plift (spos_from_low s).
Definition ppos_read (max : Z) : parser pair_pos := s <-- gpos_de 2 ;; plift (ppos_from_low max s).
Definition curs_read : parser cursive_pos := s <-- gpos_de 3 ;; plift (curs_from_low s).
Definition mbase_read : parser mark_base := s <-- gpos_de 4 ;; plift (mbase_from_low s).
Definition mlig_read : parser mark_lig := s <-- gpos_de 5 ;; plift (mlig_from_low s).
Definition mmark_read : parser mark_base := s <-- gpos_de 6 ;; plift (mmark_from_low s).
Definition spos_write (m : single_pos) : res obj := s <- spos_to_low m ;; gpos_enc s.
Definition ppos_write (m : pair_pos) : res obj := gpos_enc (ppos_to_low m).
Definition curs_write (m : cursive_pos) : res obj := gpos_enc (curs_to_low m).
Definition mbase_write (m : mark_base) : res obj := s <- mbase_to_low m ;; gpos_enc s.
Definition mlig_write (m : mark_lig) : res obj := s <- mlig_to_low m ;; gpos_enc s.
Definition mmark_write (m : mark_base) : res obj := s <- mmark_to_low m ;; gpos_enc s.

(** Positioning, src/tables/GPOS.rs:22-40 *)
Inductive positioning :=
| PSingle (l : list single_pos)
| PPair (l : list pair_pos)
| PCursive (l : list cursive_pos)
| PMarkToBase (l : list mark_base)
| PMarkToLig (l : list mark_lig)
| PMarkToMark (l : list mark_base)
| PContextual (l : list (list context_rule))
| PChained (l : list (list chained_rule)).
(** src/tables/GPOS.rs:58-72 *)
Definition gpos_type (p : positioning) : Z :=
  match p with
  | PSingle _ => 1 | PPair _ => 2 | PCursive _ => 3 | PMarkToBase _ => 4
  | PMarkToLig _ => 5 | PMarkToMark _ => 6 | PContextual _ => 7 | PChained _ => 8
  end.
(** add_subtable_break, src/tables/GPOS.rs:42-56 *)
Definition pos_subtable_break (p : positioning) : positioning :=
  match p with
  | PSingle v => PSingle (v ++ [[]])
  | PPair v => PPair (v ++ [[]])
  | PCursive v => PCursive (v ++ [[]])
  | PMarkToBase v => PMarkToBase (v ++ [mk_mark_base [] []])
  | PMarkToLig v => PMarkToLig (v ++ [mk_mark_lig [] []])
  | PMarkToMark v => PMarkToMark (v ++ [mk_mark_base [] []])
  | PContextual v => PContextual (v ++ [[]])
  | PChained v => PChained (v ++ [[]])
  end.
(** src/tables/GPOS.rs:210-263 *)
Definition gpos_subtables (p : positioning) : res (list gpos_sub) :=
  match p with
  | PSingle l => rmapM spos_to_low l
  | PPair l => Ok (map ppos_to_low l)
  | PCursive l => Ok (map curs_to_low l)
  | PMarkToBase l => rmapM mbase_to_low l
  | PMarkToLig l => rmapM mlig_to_low l
  | PMarkToMark l => rmapM mmark_to_low l
  | PContextual l => Ok (map (fun r => P7 (seq_to_low r)) (concat l))
  | PChained l => Ok (map (fun r => P8 (chain_to_low r)) (concat l))
  end.
(** subtables_from_lowlevel, src/tables/GPOS.rs:124-176, without extensions *)
Definition gpos_plain_from_low (max t : Z) (l : list gpos_sub) : res positioning :=
  match t with
  | 1 => rmap PSingle (rmapM spos_from_low l)
  | 2 => rmap PPair (rmapM (ppos_from_low max) l)
  | 3 => rmap PCursive (rmapM curs_from_low l)
  | 4 => rmap PMarkToBase (rmapM mbase_from_low l)
  | 5 => rmap PMarkToLig (rmapM mlig_from_low l)
  | 7 => rmap PContextual (rmapM (pcontext_from_low max) l)
  | 8 => rmap PChained (rmapM (pchained_from_low max) l)
  | _ => Panic
  end.
(** extension_from_lowlevel, src/tables/GPOS.rs:97-122 *)
Definition gpos_from_low (max t : Z) (l : list gpos_sub) : res positioning :=
  if t =? 9 then
    es <- rmapM (fun s => match s with P9 _ t' s' => Ok (t', s') | _ => Panic end) l ;;
    match es with
    | [] => Panic
    | (t', _) :: _ =>
        if forallb (fun e : Z * gpos_sub => fst e =? t') es then gpos_plain_from_low max t' (map snd es) else Panic
    end
  else gpos_plain_from_low max t l.

(** from_bytes and to_bytes, src/tables/GPOS.rs:78-95, 290-297 *)
Definition gpos_read {P} (max : Z) : parser (layout P positioning) :=
  t <-- table_de gpos_de ;; plift (layout_from_low (gpos_from_low max) t).
Definition gpos_write {P} (g : layout P positioning) : res (list Z) :=
  t <- layout_to_low gpos_type gpos_subtables g ;;
  o <- table_enc gpos_enc t ;;
  to_bytes o.

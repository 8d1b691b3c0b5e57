(** The character map: src/tables/cmap.rs *)
From Verif.Model Require Import MBase MMap MFont MLayout MOffset.

(** BTreeMap<uint32, uint16>, as a list sorted by code *)
Definition cmapping := list (Z * Z).
(** [map.get(&code).unwrap_or(&0)], cmap.rs:117 and 224 *)
Definition gid_of (m : cmapping) (c : Z) : Z :=
  match bm_get Z.ltb c m with Some g => g | None => 0 end.

(** ** Format 0, cmap.rs:31-70: the reader gives the language; the mapping is
    always empty (50-52).  256.max(length - 6) bytes are read; the
    subtraction is on u16. *)
Definition cmap0_de : parser Z :=
  _ <-- de_u16 ;; len <-- de_u16 ;; lang <-- de_u16 ;;
  n <-- plift (chk_u 16 (len - 6)) ;;
  _ <-- de_counted de_u8 (Z.to_nat (Z.max 256 n)) ;;
  pret lang.

(** ** Format 4 *)

Record cmap4 := mkC4 {
  c4_length : Z; c4_language : Z; c4_search : Z * Z * Z; c4_segx2 : Z;
  c4_end : list Z; c4_start : list Z; c4_delta : list Z; c4_offset : list Z; c4_array : list Z }.

(** is_contiguous_list, cmap.rs:92-101; [*a + 1] is on u16 *)
Fixpoint contiguous (l : list Z) : res bool :=
  match l with
  | a :: ((b :: _) as l') =>
      a1 <- chk_u 16 (a + 1) ;;
      if b =? a1 then contiguous l' else Ok false
  | _ => Ok true
  end.

(** split_range, cmap.rs:103-180.  The variables of the loop at 116-130;
    [in_order] is None, Some(0) or Some(1). *)
Record sr_state := mkSR {
  sr_id : Z; sr_code : Z; sr_order : option Z; sr_begin : option Z; sr_subs : list (option Z * Z) }.
(** cmap.rs:117-129 *)
Definition sr_step (m : cmapping) (st : sr_state) (code : Z) : sr_state :=
  let gid := gid_of m code in
  if (gid >? 0) && (gid - 1 =? sr_id st) then
    match sr_order st with
    | Some 1 => mkSR gid code (sr_order st) (sr_begin st) (sr_subs st)
    | _ => mkSR gid code (Some 1) (Some (sr_code st)) (sr_subs st)
    end
  else
    match sr_order st with
    | Some 1 => mkSR gid code (Some 0) None (sr_subs st ++ [(sr_begin st, sr_code st)])
    | _ => mkSR gid code (sr_order st) (sr_begin st) (sr_subs st)
    end.
(** cmap.rs:137-151 *)
Fixpoint sr_keep (start fin : Z) (subs : list (option Z * Z)) : res (list (Z * Z)) :=
  match subs with
  | [] => Ok []
  | (ob, e) :: subs' =>
      b <- unwrap ob ;;
      if (b =? start) && (e =? fin) then Ok []
      else
        let threshold := if (b =? start) || (e =? fin) then 4 else 8 in
        d <- chk_u 16 (e - b) ;;
        n <- chk_u 16 (d + 1) ;;
        r <- sr_keep start fin subs' ;;
        Ok (if n >? threshold then (b, e) :: r else r)
  end.
(** cmap.rs:163-170: the ranges after [prev], with the gaps filled *)
Fixpoint sr_fill (prev_end : Z) (l : list (Z * Z)) : res (list (Z * Z)) :=
  match l with
  | [] => Ok []
  | (b, e) :: l' =>
      p <- chk_u 32 (prev_end + 1) ;;
      r <- sr_fill e l' ;;
      if p =? b then Ok ((b, e) :: r)
      else b1 <- chk_u 32 (b - 1) ;; Ok ((p, b1) :: (b, e) :: r)
  end.
(** cmap.rs:157-162 *)
Definition sr_edges (start fin : Z) (l : list (Z * Z)) : res (list (Z * Z)) :=
  match l with
  | [] => Ok []
  | (b, e) :: _ =>
      l1 <- (if b =? start then Ok l else b1 <- chk_u 32 (b - 1) ;; Ok ((start, b1) :: l)) ;;
      let le := snd (last l1 (0, 0)) in
      if le =? fin then Ok l1 else le1 <- chk_u 32 (le + 1) ;; Ok (l1 ++ [(le1, fin)])
  end.
(** cmap.rs:108-179 *)
Definition split_range (start fin : Z) (m : cmapping) : res (list Z * list Z) :=
  if start =? fin then Ok ([], [fin])
  else
    id0 <- unwrap (bm_get Z.ltb start m) ;;
    s1 <- chk_u 16 (start + 1) ;;
    e1 <- chk_u 16 (fin + 1) ;;
    let st := fold_left (sr_step m) (zrange s1 e1) (mkSR id0 start None None []) in
    let subs := match sr_order st with
                | Some 1 => sr_subs st ++ [(sr_begin st, sr_code st)]
                | _ => sr_subs st end in
    if negb (sr_code st =? fin) then Panic
    else
      kept <- sr_keep start fin subs ;;
      match kept with
      | [] => Ok ([], [fin])
      | _ =>
          l <- sr_edges start fin kept ;;
          match l with
          | [] => Panic
          | (b, e) :: l' =>
              l'' <- sr_fill e l' ;;
              Ok (map (fun r => u16 (fst r)) l'', u16 e :: map (fun r => u16 (snd r)) l'')
          end
      end.

(** cmap.rs:191-215: [cur] is the last of the start codes so far, [last] is
    last_code; gives the start codes after [cur] and the end codes.
    [last_code + 1] cannot overflow, a greater code follows. *)
Fixpoint segments (m : cmapping) (cur last : Z) (codes : list Z) : res (list Z * list Z) :=
  match codes with
  | [] =>
      l16 <- unwrap (try_u 16 last) ;;
      ' (s, e) <- split_range cur l16 m ;;
      Ok (s ++ [0xffff], e ++ [0xffff])
  | c :: codes' =>
      if c =? last + 1 then segments m cur c codes'
      else
        l16 <- unwrap (try_u 16 last) ;;
        ' (s, e) <- split_range cur l16 m ;;
        c16 <- unwrap (try_u 16 c) ;;
        ' (s', e') <- segments m c16 c codes' ;;
        Ok (s ++ c16 :: s', e ++ e')
  end.

(** cmap.rs:221-237: the segments from the [i]-th on; [n] is end_code.len(),
    [a] the length of the glyph array so far.  Gives the deltas, the offsets
    and what is appended to the glyph array. *)
Fixpoint seg_arrays (m : cmapping) (n i a : Z) (l : list (Z * Z)) : res (list Z * list Z * list Z) :=
  match l with
  | [] => Ok ([], [], [])
  | (s, e) :: l' =>
      e1 <- chk_u 16 (e + 1) ;;
      let indices := map (gid_of m) (zrange s e1) in
      c <- contiguous indices ;;
      if c then
        g <- unwrap (hd_error indices) ;;
        ' (d, o, x) <- seg_arrays m n (i + 1) a l' ;;
        Ok (i16 (g - s) :: d, 0 :: o, x)
      else
        off <- chk_u 16 (2 * u16 (n + a - i)) ;;
        ' (d, o, x) <- seg_arrays m n (i + 1) (a + Z.of_nat (length indices)) l' ;;
        Ok (0 :: d, off :: o, indices ++ x)
  end.

(** cmap4::from_mapping, cmap.rs:185-259.  The keys of a BTreeMap are already
    sorted. *)
Definition cmap4_of (lang : Z) (m : cmapping) : res cmap4 :=
  match map fst m with
  | [] => Panic
  | c0 :: codes =>
      s0 <- unwrap (try_u 16 c0) ;;
      ' (s, e) <- segments m s0 c0 codes ;;
      let starts := s0 :: s in
      let n := Z.of_nat (length e) in
      ' (d, o, arr) <- seg_arrays m n 0 0 (firstn (length e - 1) (combine starts e)) ;;
      let segcount := u16 n in
      sr <- get_search_range segcount 2 ;;
      x2 <- chk_u 16 (segcount * 2) ;;
      Ok (mkC4 (u16 (Z.of_nat (length arr) * 2 + 16 + 8 * segcount)) lang sr x2
               e starts (d ++ [1]) (o ++ [0]) arr)
  end.

Definition ser_u16s (l : list Z) : list Z := concat (map ser_u16 l).
Definition ser_i16s (l : list Z) : list Z := concat (map ser_i16 l).
(** derived Serialize for cmap4, cmap.rs:73-90 *)
Definition cmap4_ser (t : cmap4) : list Z :=
  let '(sr, es, rs) := c4_search t in
  ser_u16 4 ++ ser_u16 (c4_length t) ++ ser_u16 (c4_language t) ++ ser_u16 (c4_segx2 t)
  ++ ser_u16 sr ++ ser_u16 es ++ ser_u16 rs
  ++ ser_u16s (c4_end t) ++ ser_u16 0 ++ ser_u16s (c4_start t)
  ++ ser_i16s (c4_delta t) ++ ser_u16s (c4_offset t) ++ ser_u16s (c4_array t).

(** [c.de_counted(n).unwrap_or_default()]; the position after a failure is not
    used again *)
Definition or_default {A} (p : parser (list A)) : parser (list A) := fun r =>
  match p r with Err => Ok ([], r) | x => x end.

(** Deserialize for cmap4, cmap.rs:296-328; the subtraction is on usize *)
Definition cmap4_de : parser cmap4 :=
  _ <-- de_u16 ;; len <-- de_u16 ;; lang <-- de_u16 ;; x2 <-- de_u16 ;;
  let n := Z.to_nat (x2 / 2) in
  _ <-- pskip 6 ;;
  e <-- de_counted de_u16 n ;;
  _ <-- pskip 2 ;;
  s <-- de_counted de_u16 n ;;
  d <-- de_counted de_i16 n ;;
  o <-- de_counted de_u16 n ;;
  rem <-- plift (chk_u 64 (len - (16 + Z.of_nat n * 8))) ;;
  arr <-- or_default (de_counted de_u16 (Z.to_nat (rem / 2))) ;;
  pret (mkC4 len lang (0, 0, 0) x2 e s d o arr).

(** cmap.rs:274-290: the codes of one segment.  A negative index becomes a huge
    usize, so it is past the end as well. *)
Fixpoint seg_codes (arr : list Z) (delta off partial : Z) (m : cmapping) (codes : list Z) : res cmapping :=
  match codes with
  | [] => Ok m
  | c :: codes' =>
      if off =? 0 then seg_codes arr delta off partial (bm_insert Z.ltb c (u16 (c + delta)) m) codes'
      else
        let index := c + partial in
        if (index <? 0) || (Z.of_nat (length arr) <=? index) then Ok m
        else
          let v := nth (Z.to_nat index) arr 0 in
          if v =? 0 then seg_codes arr delta off partial (bm_insert Z.ltb c 0 m) codes'
          else
            g <- chk_i 16 (i16 v + delta) ;;
            seg_codes arr delta off partial (bm_insert Z.ltb c (u16 g) m) codes'
  end.
(** cmap.rs:263-291: the segments from the [i]-th to the last but one; the four
    arrays have the same length, they are walked together. *)
Fixpoint seg_maps (arr : list Z) (n i : Z) (m : cmapping) (l : list (Z * Z * Z * Z)) : res cmapping :=
  match l with
  | [] | [_] => Ok m
  | (s, e, d, o) :: l' =>
      let partial := o / 2 - s + i - n in
      if e =? 0xffff then Ok m
      else m1 <- seg_codes arr d o partial m (zrange s (1 + e)) ;;
           seg_maps arr n (i + 1) m1 l'
  end.
Definition c4_segments (t : cmap4) : list (Z * Z * Z * Z) :=
  combine (combine (combine (c4_start t) (c4_end t)) (c4_delta t)) (c4_offset t).
(** cmap4::to_mapping, cmap.rs:261-293; [len() - 1] is on usize *)
Definition cmap4_mapping (t : cmap4) : res cmapping :=
  match c4_start t with
  | [] => Panic
  | _ => seg_maps (c4_array t) (Z.of_nat (length (c4_offset t))) 0 [] (c4_segments t)
  end.

(** cmap.rs:554 and 620-628: what writing and reading a format 4 subtable does
    with the language and the mapping *)
Definition cmap4_write (lang : Z) (m : cmapping) : res (list Z) :=
  t <- cmap4_of lang m ;; Ok (cmap4_ser t).
Definition cmap4_read : parser (Z * cmapping) :=
  t <-- cmap4_de ;; m <-- plift (cmap4_mapping t) ;; pret (c4_language t, m).

(** ** Format 12 *)

(** cmap.rs:330-344: a group is (startCharCode, endCharCode, startGlyphID) *)
Definition group := (Z * Z * Z)%type.
Record cmap12 := mkC12 { c12_length : Z; c12_language : Z; c12_groups : list group }.

(** in_run, cmap.rs:346-353: [1 + last_gid] is on u16; [1 + lc] on u32 *)
Definition in_run (gid last_gid code : Z) (last_code : option Z) : res bool :=
  g <- chk_u 16 (1 + last_gid) ;;
  if gid =? g then
    match last_code with
    | Some lc => l <- chk_u 32 (1 + lc) ;; Ok (code =? l)
    | None => Ok true
    end
  else Ok false.
(** [last_code.unwrap_or(start_code)] *)
Definition or_start (lc : option Z) (start : Z) : Z := match lc with Some c => c | None => start end.
(** cmap.rs:370-388 *)
Fixpoint runs12 (start_code start_gid last_gid : Z) (last_code : option Z) (l : list (Z * Z)) : res (list group) :=
  match l with
  | [] => Ok [(start_code, or_start last_code start_code, start_gid)]
  | (code, gid) :: l' =>
      r <- in_run gid last_gid code last_code ;;
      if r then runs12 start_code start_gid gid (Some code) l'
      else
        gs <- runs12 code gid gid (Some code) l' ;;
        Ok ((start_code, or_start last_code start_code, start_gid) :: gs)
  end.
(** cmap12::from_mapping, cmap.rs:357-396: [start_gid - 1] is on u16 *)
Definition cmap12_of (lang : Z) (m : cmapping) : res cmap12 :=
  match m with
  | [] => Panic
  | (c0, g0) :: m' =>
      lg <- chk_u 16 (g0 - 1) ;;
      gs <- runs12 c0 g0 lg (if c0 =? 0 then None else Some (c0 - 1)) m' ;;
      Ok (mkC12 (u32 (16 + 12 * Z.of_nat (length gs))) lang gs)
  end.
Definition group_ser (g : group) : list Z :=
  ser_u32 (fst (fst g)) ++ ser_u32 (snd (fst g)) ++ ser_u32 (snd g).
(** derived Serialize and Deserialize, cmap.rs:330-344 *)
Definition cmap12_ser (t : cmap12) : list Z :=
  ser_u16 12 ++ ser_u16 0 ++ ser_u32 (c12_length t) ++ ser_u32 (c12_language t)
  ++ ser_u32 (u32 (Z.of_nat (length (c12_groups t)))) ++ concat (map group_ser (c12_groups t)).
Definition group_de : parser group :=
  a <-- de_u32 ;; b <-- de_u32 ;; c <-- de_u32 ;; pret (a, b, c).
Definition cmap12_de : parser cmap12 :=
  _ <-- de_u16 ;; _ <-- de_u16 ;; len <-- de_u32 ;; lang <-- de_u32 ;;
  gs <-- de_counted32 group_de ;;
  pret (mkC12 len lang gs).
(** cmap.rs:401-406: item [i] of a group *)
Fixpoint group_items (g : group) (m : cmapping) (l : list Z) : res cmapping :=
  match l with
  | [] => Ok m
  | i :: l' =>
      c <- chk_u 32 (fst (fst g) + i) ;;
      x <- chk_u 16 (u16 (snd g) + u16 i) ;;
      group_items g (bm_insert Z.ltb c x m) l'
  end.
(** cmap12::to_mapping, cmap.rs:397-409 *)
Fixpoint groups_mapping (m : cmapping) (gs : list group) : res cmapping :=
  match gs with
  | [] => Ok m
  | g :: gs' =>
      d <- chk_u 32 (snd (fst g) - fst (fst g)) ;;
      items <- chk_u 32 (1 + d) ;;
      m1 <- group_items g m (zrange 0 items) ;;
      groups_mapping m1 gs'
  end.
Definition cmap12_mapping (t : cmap12) : res cmapping := groups_mapping [] (c12_groups t).

(** cmap.rs:555 and 631-639; the language is cut to 16 bits *)
Definition cmap12_write (lang : Z) (m : cmapping) : res (list Z) :=
  t <- cmap12_of lang m ;; Ok (cmap12_ser t).
Definition cmap12_read : parser (Z * cmapping) :=
  t <-- cmap12_de ;; m <-- plift (cmap12_mapping t) ;; pret (u16 (c12_language t), m).

(** ** Format 14 *)

(** BTreeMap<(uint32, uint32), uint16> keyed by (character, selector) *)
Definition uvs_mapping := list ((Z * Z) * Z).
Definition pair_ltb (a b : Z * Z) : bool :=
  (fst a <? fst b) || ((fst a =? fst b) && (snd a <? snd b)).

(** cmap.rs:459-464: [entry(selector).or_insert_with(Vec::new).push((codepoint, gid))] *)
Definition uvs_push (m : list (Z * list (Z * Z))) (kv : (Z * Z) * Z) : list (Z * list (Z * Z)) :=
  let sel := snd (fst kv) in
  let old := match bm_get Z.ltb sel m with Some l => l | None => [] end in
  bm_insert Z.ltb sel (old ++ [(fst (fst kv), snd kv)]) m.
Definition uvs_split (m : uvs_mapping) : list (Z * list (Z * Z)) := fold_left uvs_push m [].

(** cmap.rs:484, on u32 *)
Fixpoint uvs_length (total : Z) (l : list (Z * list (Z * Z))) : res Z :=
  match l with
  | [] => Ok total
  | (_, rs) :: l' =>
      t <- chk_u 32 (total + (5 * Z.of_nat (length rs) + 4 + 11)) ;;
      uvs_length t l'
  end.
(** UVSMapping and NonDefaultUVS, cmap.rs:432-438 *)
Definition uvs_record (r : Z * Z) : res (list Z) :=
  c <- ser_u24 (fst r) ;; Ok (c ++ ser_u16 (snd r)).
Definition uvs_table (rs : list (Z * Z)) : res obj :=
  b <- ser_counted32 uvs_record rs ;; Ok (raw b).
(** VariationSelector, cmap.rs:420-424 and 476-480 *)
Definition uvs_selector (x : Z * list (Z * Z)) : res item :=
  s <- ser_u24 (fst x) ;;
  t <- uvs_table (snd x) ;;
  Ok (IGroup (raw s ++ [IRef Off32 None; IRef Off32 (Some t)])).
(** cmap14::from_uvs_mapping and its derived Serialize, cmap.rs:412-419, 446-489 *)
Definition cmap14_obj (m : option uvs_mapping) : res obj :=
  let split := match m with None => [] | Some m => uvs_split m end in
  len <- uvs_length 10 split ;;
  vs <- rmapM uvs_selector split ;;
  Ok (raw (ser_u16 14 ++ ser_u32 len ++ ser_u32 (u32 (Z.of_nat (length split)))) ++ vs).
Definition cmap14_write (m : option uvs_mapping) : res (list Z) :=
  o <- cmap14_obj m ;; to_bytes o.

(** DefaultUVS and UnicodeRange, cmap.rs:425-431 *)
Definition default_uvs_de : parser (list (Z * Z)) :=
  de_counted32 (a <-- de_u24 ;; b <-- de_u8 ;; pret (a, b)).
Definition uvs_de : parser (list (Z * Z)) :=
  de_counted32 (a <-- de_u24 ;; b <-- de_u16 ;; pret (a, b)).
Definition selector_de : parser (Z * option (list (Z * Z)) * option (list (Z * Z))) :=
  s <-- de_u24 ;; d <-- de_off32 default_uvs_de ;; n <-- de_off32 uvs_de ;; pret (s, d, n).
(** cmap.rs:413-419 *)
Definition cmap14_de : parser (list (Z * option (list (Z * Z)) * option (list (Z * Z)))) :=
  with_base (_ <-- de_u16 ;; _ <-- de_u32 ;; de_counted32 selector_de).
(** to_uvs_mapping, cmap.rs:491-505: the default tables are ignored *)
Definition uvs_of (l : list (Z * option (list (Z * Z)) * option (list (Z * Z)))) : uvs_mapping :=
  fold_left (fun m x =>
    match snd x with
    | None => m
    | Some rs => fold_left (fun m r => bm_insert pair_ltb (fst r, fst (fst x)) (snd r) m) rs m
    end) l [].

(** ** Subtables and the table *)

(** CmapSubtable, cmap.rs:518-533 *)
Record subtable := mkST {
  st_format : Z; st_platform : Z; st_encoding : Z; st_language : Z;
  st_mapping : cmapping; st_uvs : option uvs_mapping }.

(** Serialize for CmapSubtable, cmap.rs:550-560; formats other than 4, 12 and
    14 are unimplemented!() *)
Definition subtable_write (st : subtable) : res (list Z) :=
  match st_format st with
  | 4 => cmap4_write (st_language st) (st_mapping st)
  | 12 => cmap12_write (st_language st) (st_mapping st)
  | 14 => cmap14_write (st_uvs st)
  | _ => Panic
  end.

(** cmap.rs:574-590.  [hash] is what DefaultHasher computes from a mapping;
    [offsets] the map from hash values to offsets.  An error of the subtable is
    unwrapped. *)
Fixpoint write_subtables (hash : cmapping -> Z) (base : Z) (offsets : list (Z * Z)) (output : list Z)
    (sts : list subtable) : res (list (Z * Z * Z) * list Z) :=
  match sts with
  | [] => Ok ([], output)
  | st :: sts' =>
      let h := hash (st_mapping st) in
      match bm_get Z.ltb h offsets with
      | Some off =>
          ' (rs, out) <- write_subtables hash base offsets output sts' ;;
          Ok ((st_platform st, st_encoding st, off) :: rs, out)
      | None =>
          let off := base + Z.of_nat (length output) in
          off <- chk_u 32 off ;;
          b <- match subtable_write st with Ok b => Ok b | _ => Panic end ;;
          ' (rs, out) <- write_subtables hash base (bm_insert Z.ltb h off offsets) (output ++ b) sts' ;;
          Ok ((st_platform st, st_encoding st, off) :: rs, out)
      end
  end.
(** EncodingRecord and CmapHeader, cmap.rs:15-29 *)
Definition record_ser (r : Z * Z * Z) : list Z :=
  ser_u16 (fst (fst r)) ++ ser_u16 (snd (fst r)) ++ ser_u32 (snd r).
Definition record_de : parser (Z * Z * Z) :=
  a <-- de_u16 ;; b <-- de_u16 ;; c <-- de_u32 ;; pret (a, b, c).
(** Serialize for cmap, cmap.rs:570-598 *)
Definition cmap_write (hash : cmapping -> Z) (sts : list subtable) : res (list Z) :=
  ' (rs, out) <- write_subtables hash (u32 (4 + Z.of_nat (length sts) * 8)) [] [] sts ;;
  Ok (ser_u16 0 ++ ser_u16 (u16 (Z.of_nat (length rs))) ++ concat (map record_ser rs) ++ out).

(** cmap.rs:605: [c.ptr = c.top_of_table() + offset] *)
Definition seek (off : Z) : parser unit := fun r =>
  match top_of_table r with
  | Ok t => Ok (tt, mkrd (rd_input r) (t + Z.to_nat off)%nat (rd_stack r))
  | Err => Err | Panic => Panic end.
Definition ppeek (n : nat) : parser (list Z) := fun r => peek r n.
(** cmap.rs:605-662 *)
Definition subtable_de (er : Z * Z * Z) : parser subtable :=
  let '(p, e, off) := er in
  _ <-- seek off ;;
  f <-- ppeek 2 ;;
  match f with
  | [0; 0] => lang <-- cmap0_de ;; pret (mkST 0 p e lang [] None)
  | [0; 4] => x <-- cmap4_read ;; pret (mkST 4 p e (fst x) (snd x) None)
  | [0; 12] => x <-- cmap12_read ;; pret (mkST 12 p e (fst x) (snd x) None)
  | [0; 14] => t <-- cmap14_de ;; pret (mkST 14 0 5 0 [] (Some (uvs_of t)))
  | _ => perr
  end.
Fixpoint subtables_de (ers : list (Z * Z * Z)) : parser (list subtable) :=
  match ers with
  | [] => pret []
  | er :: ers' => st <-- subtable_de er ;; sts <-- subtables_de ers' ;; pret (st :: sts)
  end.
(** Deserialize for cmap, cmap.rs:600-666 *)
Definition cmap_de : parser (list subtable) :=
  ers <-- with_base (_ <-- de_u16 ;; de_counted16 record_de) ;;
  subtables_de ers.

(** get_mapping, cmap.rs:671-682 *)
Fixpoint get_mapping (sts : list subtable) (p e : Z) : option cmapping :=
  match sts with
  | [] => None
  | st :: sts' =>
      if (st_platform st =? p) && (st_encoding st =? e) then Some (st_mapping st)
      else get_mapping sts' p e
  end.
(** cmap.rs:688-697 *)
Definition best_order : list (Z * Z) :=
  [(3, 10); (0, 6); (0, 4); (3, 1); (0, 3); (0, 2); (0, 1); (0, 0)].
(** get_best_mapping, cmap.rs:687-704 *)
Fixpoint best_of (sts : list subtable) (l : list (Z * Z)) : option cmapping :=
  match l with
  | [] => None
  | (p, e) :: l' => match get_mapping sts p e with Some m => Some m | None => best_of sts l' end
  end.
Definition get_best_mapping (sts : list subtable) : option cmapping := best_of sts best_order.

(** is_unicode and is_symbol, cmap.rs:538-547 *)
Definition is_unicode (st : subtable) : bool :=
  (st_platform st =? 0)
  || ((st_platform st =? 3) && ((st_encoding st =? 0) || (st_encoding st =? 1) || (st_encoding st =? 10))).
Definition is_symbol (st : subtable) : bool := (st_platform st =? 3) && (st_encoding st =? 0).

(** reversed, cmap.rs:707-720; a HashSet is the sorted list of its members *)
Definition rev_insert (res : list (Z * list Z)) (kv : Z * Z) : list (Z * list Z) :=
  let old := match bm_get Z.ltb (snd kv) res with Some s => s | None => [] end in
  bm_insert Z.ltb (snd kv) (bs_insert (fst kv) old) res.
Definition reversed (sts : list subtable) : list (Z * list Z) :=
  fold_left (fun res st => if is_unicode st then fold_left rev_insert (st_mapping st) res else res) sts [].

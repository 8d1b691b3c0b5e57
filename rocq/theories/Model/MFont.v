(** The sfnt container: src/font.rs. *)
From Verif.Model Require Import MBase MTag MMap.

(** src/font.rs:18-23 *)
Definition SFNT_TRUETYPE : Z := 0x00010000.
Definition SFNT_OPENTYPE : Z := 0x4F54544F.
(** src/font.rs:25-35 *)
Definition sfnt_version_of (v : Z) : option Z :=
  if v =? SFNT_TRUETYPE then Some SFNT_TRUETYPE
  else if v =? SFNT_OPENTYPE then Some SFNT_OPENTYPE else None.

(** src/tables/head.rs: TAG = "head" *)
Definition TAG_head : list Z := [0x68; 0x65; 0x61; 0x64].

(** src/font.rs:152-167.  [x.chunks(4)]: full words are added as they are, a
    shorter last chunk is first copied into a zeroed 4-byte array. *)
Fixpoint checksum_loop (l : list Z) (sum : Z) {struct l} : Z :=
  match l with
  | a :: b :: c :: d :: l' => checksum_loop l' (u32 (sum + be_value [a; b; c; d]))
  | [a; b; c] => u32 (sum + be_value [a; b; c; 0])
  | [a; b] => u32 (sum + be_value [a; b; 0; 0])
  | [a] => u32 (sum + be_value [a; 0; 0; 0])
  | [] => sum
  end.
Definition checksum (x : list Z) : Z := checksum_loop x 0.

(** src/font.rs:177-185.  [1u16 << k] overflows (panics) for k >= 16; the
    multiplications are checked u16 products.  Fuel 17 always suffices. *)
Fixpoint max_pow2_loop (fuel : nat) (n p : Z) : res Z :=
  match fuel with
  | O => Panic
  | S f =>
      if 16 <=? p + 1 then Panic
      else if Z.shiftl 1 (p + 1) <=? n then max_pow2_loop f n (p + 1)
      else Ok p
  end.
Definition get_search_range (n itemsize : Z) : res (Z * Z * Z) :=
  p <- max_pow2_loop 17 n 0 ;;
  search_range <- chk_u 16 (Z.shiftl 1 p * itemsize) ;;
  total <- chk_u 16 (n * itemsize) ;;
  range_shift <- chk_u 16 (Z.max search_range total - search_range) ;;
  Ok (search_range, p, range_shift).

(** src/font.rs:215-217: [while temp.len() % 4 != 0 { temp.push(0) }] *)
Definition pad4 (l : list Z) : list Z := l ++ repeat 0 ((4 - length l mod 4) mod 4)%nat.

(** [s[start..start+len(repl)].copy_from_slice(repl)]; panics out of range *)
Definition splice (l : list Z) (start : nat) (repl : list Z) : res (list Z) :=
  if (length l <? start + length repl)%nat then Panic
  else Ok (firstn start l ++ repl ++ skipn (start + length repl) l).

(** src/font.rs:202-226: the loop over the tables in key order.  [tabs] pairs
    each tag with the outcome of [write_table] for it. *)
Fixpoint write_tables (tabs : list (list Z * res (list Z))) (pos : Z) (head_pos : option Z)
    (output output_tables : list Z) : res (list Z * list Z * option Z) :=
  match tabs with
  | [] => Ok (output, output_tables, head_pos)
  | (tag, w) :: tabs' =>
      temp <- w ;;
      ' (temp, head_pos) <-
        (if bytes_eqb tag TAG_head
         then t <- splice temp 8 [0; 0; 0; 0] ;; Ok (t, Some pos)
         else Ok (temp, head_pos)) ;;
      let orig_len := Z.of_nat (length temp) in
      let padded := pad4 temp in
      write_tables tabs' (pos + Z.of_nat (length padded)) head_pos
        (output ++ tag ++ ser_u32 (checksum temp) ++ ser_u32 (u32 pos) ++ ser_u32 (u32 orig_len))
        (output_tables ++ padded)
  end.

(** src/font.rs:187-231 *)
Definition font_to_bytes (version : Z) (tabs : list (list Z * res (list Z))) : res (list Z) :=
  lenu16 <- unwrap (try_u 16 (Z.of_nat (length tabs))) ;;
  ' (search_range, max_pow2, range_shift) <- get_search_range lenu16 16 ;;
  let header := ser_u32 version ++ ser_u16 lenu16 ++ ser_u16 search_range
                ++ ser_u16 max_pow2 ++ ser_u16 range_shift in
  ' (output, output_tables, head_pos) <-
     write_tables tabs (16 * Z.of_nat (length tabs) + 12) None header [] ;;
  let output := output ++ output_tables in
  let full_checksum := u32 (0xB1B0AFBA - checksum output) in
  match head_pos with
  | Some hp => splice output (Z.to_nat (hp + 8)) (ser_u32 full_checksum)
  | None => Ok output
  end.

(** src/font.rs:39-44 *)
Record table_record := mkTR { tr_tag : list Z; tr_checksum : Z; tr_offset : Z; tr_length : Z }.
Definition de_table_record : parser table_record :=
  tag <-- de_tag ;; cs <-- de_u32 ;; off <-- de_u32 ;; len <-- de_u32 ;;
  pret (mkTR tag cs off len).

(** src/font.rs:246: Vec::sort_by_key (stable) *)
Fixpoint insert_by_offset (r : table_record) (l : list table_record) : list table_record :=
  match l with
  | [] => [r]
  | y :: l' => if tr_offset r <? tr_offset y then r :: l else y :: insert_by_offset r l'
  end.
Definition sort_by_offset (l : list table_record) : list table_record :=
  fold_left (fun acc r => insert_by_offset r acc) l [].

(** src/font.rs:248-251: slice each table out of the input (out of range panics)
    and add it to the map (TableLoader::add, src/table_store.rs:188-192). *)
Fixpoint load_records (input : list Z) (trs : list table_record) (m : list (list Z * list Z))
    : res (list (list Z * list Z)) :=
  match trs with
  | [] => Ok m
  | tr :: trs' =>
      let start := tr_offset tr in
      let stop := start + tr_length tr in
      if Z.of_nat (length input) <? stop then Panic
      else
        let this_table := firstn (Z.to_nat (tr_length tr)) (skipn (Z.to_nat start) input) in
        load_records input trs' (bm_insert lex_ltb (tr_tag tr) this_table m)
  end.

(** src/font.rs:233-252, everything before [raw_tables.finish()]: the flavour
    and the map from tag to raw bytes. *)
Definition font_read_raw : parser (Z * list (list Z * list Z)) := fun r =>
  (sfntVersion <-- de_u32 ;; numTables <-- de_u16 ;;
   _ <-- de_u16 ;; _ <-- de_u16 ;; _ <-- de_u16 ;;
   match sfnt_version_of sfntVersion with
   | None => perr
   | Some version =>
       table_records <-- de_counted de_table_record (Z.to_nat numTables) ;;
       m <-- plift (load_records (rd_input r) (sort_by_offset table_records) []) ;;
       pret (version, m)
   end) r.

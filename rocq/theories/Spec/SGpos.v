(** The OpenType formats of the positioning subtables, written down
    independently of the code. *)
From Coq Require Import List ZArith Sorted.
Import ListNotations.
From Verif.Model Require Import MBase MOffset MLayout MContext MValue MGpos.
From Verif.Spec Require Import SBase SGlyph SOffset SLayout SContext SValue SGsub.
Open Scope Z_scope.

(** ** Value records *)
(** The format of a record has a bit for each field; the eight bits above are
    reserved and can be anything. *)
Definition format_word (fs : list bool) (w : Z) : Prop := is_u16 w /\ w mod 256 = bit_number fs.
Definition devices (v : vrec) : list (option (option device)) := [vr_xplad v; vr_yplad v; vr_xadvd v; vr_yadvd v].
(** a device field: nothing, a null offset, or an offset to a device table *)
Inductive device_items : option (option device) -> list item -> Prop :=
| device_absent : device_items None []
| device_null k : off_width k = 2%nat -> device_items (Some None) [IRef k None]
| device_zero : device_items (Some None) (raw (word 0))
| device_table k s e f vs pad bs : off_width k = 2%nat -> 0 <= f <= 3 -> dev_sized s e vs -> Forall (fits_bits (bits_per_value f)) vs ->
    dev_bytes s e f vs pad bs -> device_items (Some (Some (mk_device s e (Some f) vs))) [IRef k (Some (raw bs))].
Definition number_bytes (o : option Z) : list Z := match o with Some z => word z | None => [] end.
Definition numbers_bytes (v : vrec) : list Z := concat (map number_bytes (numbers v)).
(** the record: the numbers that are present, then the device fields *)
Inductive record_items (v : vrec) : list item -> Prop :=
| record_items1 ds : Forall number_ok (numbers v) -> Forall2 device_items (devices v) ds ->
    record_items v (raw (numbers_bytes v) ++ concat ds).
(** a record that leads to no device tables, as bytes *)
Definition tableless (v : vrec) : Prop := Forall (fun d => table d = None) (devices v).
Definition tableless_bytes (v : vrec) : list Z :=
  numbers_bytes v ++ concat (map (fun d : option (option device) => match d with Some _ => word 0 | None => [] end) (devices v)).

(** ** Single positioning.  [spos_file m o]: the subtable [o] means [m]. *)
Inductive spos_file : single_pos -> obj -> Prop :=
| spos1 gs c w v l : increasing gs -> cov_obj gs c -> format_word (fields v) w -> record_items v l ->
    spos_file (map (fun g => (g, v)) gs) (raw (word 1) ++ [link c] ++ raw (word w) ++ [IGroup l])
| spos2 gs c w vs ls : increasing gs -> cov_obj gs c -> length gs = length vs -> countable vs -> is_u16 w ->
    Forall (fun v => format_word (fields v) w) vs -> Forall2 record_items vs ls ->
    spos_file (combine gs vs) (raw (word 2) ++ [link c] ++ raw (word w ++ word (Z.of_nat (length vs))) ++ concat ls).
(** records that make the same adjustment with the same device fields *)
Definition alike (v w : vrec) : Prop := map amount (numbers v) = map amount (numbers w) /\ devices v = devices w.
(** What can be written (the code writes one record for all glyphs if they are
    alike, and can then write device tables; it confuses two of the device
    fields, C34) *)
Definition spos_ok (m : single_pos) : Prop :=
  m <> [] /\ glyph_map vrec_ok m /\ Forall (fun kv => placement_paired (snd kv)) m /\
  ((forall kv kv', In kv m -> In kv' m -> alike (snd kv) (snd kv')) \/
   (Forall (fun kv => tableless (snd kv)) m /\
    forall kv kv', In kv m -> In kv' m -> device_fields (snd kv) = device_fields (snd kv'))).
(** the same glyphs with records that make the same adjustments *)
Definition same_single (m m' : single_pos) : Prop :=
  Forall2 (fun a b => fst a = fst b /\ alike (snd a) (snd b)) m m'.

(** ** Pair positioning *)
Definition pair_set_obj (s : list pair_record) : obj :=
  raw (word (Z.of_nat (length s)) ++
       concat (map (fun p => word (fst p) ++ tableless_bytes (fst (snd p)) ++ tableless_bytes (snd (snd p))) s)).
Definition pair_side (w : Z) (v : vrec) : Prop := format_word (fields v) w /\ tableless v /\ Forall number_ok (numbers v).
Definition pair_set_ok (w1 w2 : Z) (s : list pair_record) : Prop :=
  countable s /\ increasing (map fst s) /\
  Forall (fun p => is_u16 (fst p) /\ pair_side w1 (fst (snd p)) /\ pair_side w2 (snd (snd p))) s.
Definition pairs_of (gs : list Z) (sets : list (list pair_record)) : pair_pos :=
  concat (map (fun s => map (fun p => ((fst s, fst p), snd p)) (snd s)) (combine gs sets)).
(** a record without the numbers that are 0, and whether anything is left *)
Definition nonzero (o : option Z) : option Z := match o with Some 0 => None | _ => o end.
Definition without_zeros (v : vrec) : vrec :=
  mk_vrec (nonzero (vr_xpla v)) (nonzero (vr_ypla v)) (nonzero (vr_xadv v)) (nonzero (vr_yadv v))
          (vr_xplad v) (vr_yplad v) (vr_xadvd v) (vr_yadvd v).
Definition has_fields (v : vrec) : Prop := In true (fields v).
(** glyph [g] is of class [c], as the reader sees it (C32): class 0 is every glyph without
    an entry, up to the last glyph *)
Definition of_class (m : list (Z * Z)) (max c g : Z) : Prop :=
  if c =? 0 then 0 <= g <= max /\ ~ In g (map fst m) else class_in m g = c.
Definition pairs_ordered {V} (m : list ((Z * Z) * V)) : Prop :=
  StronglySorted (fun a b : Z * Z => fst a < fst b \/ (fst a = fst b /\ snd a < snd b)) (map fst m).
(** rows of pairs of records, by class of the first glyph *)
Definition class_rows : Type := list (list (vrec * vrec)).
Definition row_at (rows : class_rows) (c1 c2 : Z) (u : vrec * vrec) : Prop :=
  0 <= c1 /\ 0 <= c2 /\ exists row, nth_error rows (Z.to_nat c1) = Some row /\ nth_error row (Z.to_nat c2) = Some u.
Definition class_pairs_of (m1 m2 : list (Z * Z)) (max : Z) (rows : class_rows) (m : pair_pos) : Prop :=
  pairs_ordered m /\ forall l r v1 v2, In ((l, r), (v1, v2)) m <->
    exists c1 c2 u, row_at rows c1 c2 u /\ of_class m1 max c1 l /\ of_class m2 max c2 r /\
      v1 = without_zeros (fst u) /\ v2 = without_zeros (snd u) /\ (has_fields v1 \/ has_fields v2).
Inductive ppos_file (max : Z) : pair_pos -> obj -> Prop :=
| ppos1 gs c w1 w2 sets : increasing gs -> cov_obj gs c -> length gs = length sets -> countable sets -> is_u16 w1 -> is_u16 w2 ->
    Forall (pair_set_ok w1 w2) sets ->
    ppos_file max (pairs_of gs sets) (raw (word 1) ++ [link c] ++ raw (word w1 ++ word w2) ++ links (map pair_set_obj sets))
| ppos2 gs c w1 w2 m1 m2 k1 k2 n rows items m : cov_obj gs c -> is_u16 w1 -> is_u16 w2 ->
    classes_obj m1 k1 -> classes_obj m2 k2 -> is_u16 max -> countable rows -> is_u16 n ->
    Forall2 (fun row its => Z.of_nat (length row) = n /\
      Forall2 (fun u i => format_word (fields (fst u)) w1 /\ format_word (fields (snd u)) w2 /\
                 exists i1 i2, record_items (fst u) i1 /\ record_items (snd u) i2 /\ i = i1 ++ i2) row its) rows items ->
    class_pairs_of m1 m2 max rows m ->
    ppos_file max m (raw (word 2) ++ [link c] ++ raw (word w1 ++ word w2) ++ [olink k1; olink k2] ++
                     raw (word (Z.of_nat (length rows)) ++ word n) ++ concat (map (@concat item) items)).
(** What can be written: no device tables, and on each side all records have the
    same numbers that are not 0 (the code writes records without their zeros, but
    one format for all) *)
Definition uniform (vs : list vrec) : Prop :=
  forall v w, In v vs -> In w vs -> fields (without_zeros v) = fields (without_zeros w).
Definition ppos_ok (m : pair_pos) : Prop :=
  pairs_ordered m /\
  Forall (fun kv => is_glyph (fst (fst kv)) /\ is_glyph (snd (fst kv)) /\ vrec_ok (fst (snd kv)) /\ vrec_ok (snd (snd kv)) /\
    tableless (fst (snd kv)) /\ tableless (snd (snd kv)) /\ placement_paired (fst (snd kv)) /\ placement_paired (snd (snd kv))) m /\
  uniform (map (fun kv => fst (snd kv)) m) /\ uniform (map (fun kv => snd (snd kv)) m).
Definition pairs_without_zeros (m : pair_pos) : pair_pos :=
  map (fun kv => (fst kv, (without_zeros (fst (snd kv)), without_zeros (snd (snd kv))))) m.
(** What a shaping engine does with a pair of glyphs: the adjustments, none if the
    pair is not in the map. *)
Definition nothing : vrec := mk_vrec None None None None None None None None.
Definition adjusts (m : pair_pos) (l r : Z) (a : (Z * Z * Z * Z * list (option device)) * (Z * Z * Z * Z * list (option device))) : Prop :=
  (exists v1 v2, In ((l, r), (v1, v2)) m /\ a = (adjustment v1, adjustment v2)) \/
  ((forall v, ~ In ((l, r), v) m) /\ a = (adjustment nothing, adjustment nothing)).

(** ** Anchors *)
Definition anchor_bytes (a : anchor) : list Z :=
  match an_point a with
  | None => word 1 ++ word (an_x a) ++ word (an_y a)
  | Some p => word 2 ++ word (an_x a) ++ word (an_y a) ++ word p
  end.
Definition anchor_ok (a : anchor) : Prop :=
  is_i16 (an_x a) /\ is_i16 (an_y a) /\ match an_point a with Some p => is_u16 p | None => True end.
Definition anchor_link (a : option anchor) : item := olink (option_map (fun a => raw (anchor_bytes a)) a).
Definition opt_anchor_ok (a : option anchor) : Prop := match a with Some a => anchor_ok a | None => True end.

(** ** Cursive attachment *)
Definition entry_exit_ok (r : option anchor * option anchor) : Prop := opt_anchor_ok (fst r) /\ opt_anchor_ok (snd r).
Definition curs_obj (c : obj) (rs : list (option anchor * option anchor)) : obj :=
  raw (word 1) ++ [link c] ++ raw (word (Z.of_nat (length rs))) ++ [IGroup (map (fun r => IGroup [anchor_link (fst r); anchor_link (snd r)]) rs)].
Inductive curs_file : cursive_pos -> obj -> Prop :=
| curs1 m c : increasing (map fst m) -> cov_obj (map fst m) c -> countable m -> Forall entry_exit_ok (map snd m) ->
    curs_file m (curs_obj c (map snd m)).

(** ** Marks and what they attach to *)
(** marks with their class and anchor *)
Definition mark_array_obj (ms : list (Z * anchor)) : obj :=
  raw (word (Z.of_nat (length ms))) ++ [IGroup (map (fun m => IGroup (raw (word (fst m)) ++ [anchor_link (Some (snd m))])) ms)].
(** a row of anchors, one for each class, or none *)
Definition rows_obj (rows : list (list (option anchor))) : obj :=
  raw (word (Z.of_nat (length rows))) ++ [IGroup (map (fun r => IGroup (map anchor_link r)) rows)].
(** the row [r] of [n] anchors gives class [k] the anchor that [m] gives it *)
Definition row_shows (n : Z) (m : anchor_map) (r : list (option anchor)) : Prop :=
  Z.of_nat (length r) = n /\ increasing (map fst m) /\ Forall opt_anchor_ok r /\
  forall k a, In (k, a) m <-> 0 <= k /\ nth_error r (Z.to_nat k) = Some (Some a).
Definition mark_ok (ka : Z * anchor) : Prop := is_u16 (fst ka) /\ anchor_ok (snd ka).
Definition attach_obj (c b : obj) (n : Z) (ms : list (Z * anchor)) (target : obj) : obj :=
  raw (word 1) ++ [link c; link b] ++ raw (word n) ++ [link (mark_array_obj ms); link target].
Definition marks_file (m : mark_map) (c : obj) : Prop :=
  increasing (map fst m) /\ cov_obj (map fst m) c /\ countable m /\ Forall mark_ok (map snd m).
(** mark-to-base and mark-to-mark subtables *)
Inductive mbase_file : mark_base -> obj -> Prop :=
| mbase1 ms bs c b n rows : marks_file ms c -> increasing (map fst bs) -> cov_obj (map fst bs) b -> countable bs -> is_u16 n ->
    Forall2 (row_shows n) (map snd bs) rows ->
    mbase_file (mk_mark_base ms bs) (attach_obj c b n (map snd ms) (rows_obj rows)).
(** mark-to-ligature subtables: a row for each component of each ligature *)
Inductive mlig_file : mark_lig -> obj -> Prop :=
| mlig1 ms ls c b n ligs : marks_file ms c -> increasing (map fst ls) -> cov_obj (map fst ls) b -> countable ls -> is_u16 n ->
    Forall2 (fun comps rows => countable comps /\ Forall2 (row_shows n) comps rows) (map snd ls) ligs ->
    mlig_file (mk_mark_lig ms ls) (attach_obj c b n (map snd ms) (links (map rows_obj ligs))).

(** What can be written; the class 65535 cannot be *)
Definition marks_ok (m : mark_map) : Prop := glyph_map (fun ka => 0 <= fst ka <= 65534 /\ anchor_ok (snd ka)) m.
Definition anchors_ok (m : anchor_map) : Prop := increasing (map fst m) /\ Forall mark_ok m.
Definition mbase_ok (m : mark_base) : Prop := marks_ok (mb_marks m) /\ glyph_map anchors_ok (mb_bases m).
Definition mlig_ok (m : mark_lig) : Prop :=
  marks_ok (ml_marks m) /\ glyph_map (fun comps => countable comps /\ Forall anchors_ok comps) (ml_ligs m).
(** anchors of classes above those of all marks are left out *)
Definition reached (ms : mark_map) (k : Z) : bool := existsb (fun m => k <=? fst (snd m)) ms.
Definition kept_anchors (ms : mark_map) (a : anchor_map) : anchor_map := filter (fun ka => reached ms (fst ka)) a.
Definition mbase_kept (m : mark_base) : mark_base :=
  mk_mark_base (mb_marks m) (map (fun b => (fst b, kept_anchors (mb_marks m) (snd b))) (mb_bases m)).
Definition mlig_kept (m : mark_lig) : mark_lig :=
  mk_mark_lig (ml_marks m) (map (fun b => (fst b, map (kept_anchors (ml_marks m)) (snd b))) (ml_ligs m)).
(** How the tables are used: mark [g] attaches to base [b] with its own anchor
    [x] on the base's anchor [y] for the mark's class. *)
Definition attaches (m : mark_base) (g b : Z) (x y : anchor) : Prop :=
  exists k a, In (g, (k, x)) (mb_marks m) /\ In (b, a) (mb_bases m) /\ In (k, y) a.
Definition lig_attaches (m : mark_lig) (g b : Z) (i : nat) (x y : anchor) : Prop :=
  exists k cs a, In (g, (k, x)) (ml_marks m) /\ In (b, cs) (ml_ligs m) /\ nth_error cs i = Some a /\ In (k, y) a.

(** What the glyph variations table holds (OpenType, "gvar"). *)
From Coq Require Import Sorted.
From Verif.Model Require Import MBase MFixed MGlyph MGlyf MPacked MIup MGvar.
From Verif.Spec Require Import SBase SGlyph SCmap SPacked.
From Verif.Spec Require SIup.

(** ** Values *)

(** A delta set for a glyph of [points] points: 2.14 coordinates for every axis
    and a 16-bit delta pair for every point (no 256 zeros in a row, see C24). *)
Definition tuple_of (axes : nat) (t : list dyadic) : Prop := length t = axes /\ Forall f2dot14_value t.
Definition set_ok (axes points : nat) (d : delta_set) : Prop :=
  tuple_of axes (ds_peak d) /\ tuple_of axes (ds_start d) /\ tuple_of axes (ds_end d) /\
  length (ds_deltas d) = points /\ Forall SIup.i16_pair (ds_deltas d) /\
  ~ zeros_256 (map fst (ds_deltas d)) /\ ~ zeros_256 (map snd (ds_deltas d)).
(** The region is more than a single location. *)
Definition extended (d : delta_set) : Prop := ~ (ds_start d = ds_peak d /\ ds_end d = ds_peak d).
(** Some point moves. *)
Definition moves (d : delta_set) : bool :=
  existsb (fun p => negb ((fst p =? 0) && (snd p =? 0))) (ds_deltas d).
(** The points and contour ends of the glyphs, one entry for each. *)
Definition outlines := list (list (Z * Z) * list Z).
Definition sets_ok (axes : nat) (s : option (list delta_set)) (ce : list (Z * Z) * list Z) : Prop :=
  match s with
  | None => True
  | Some sets => Z.of_nat (length (fst ce)) <= 65535 /\ (length sets < Z.to_nat 4096)%nat /\
                 Forall (fun d => set_ok axes (length (fst ce)) d /\ extended d) sets
  end.
(** No more than 4096 different peaks. *)
Definition few_peaks (v : gvar) : Prop :=
  exists ps, (length ps <= Z.to_nat 4096)%nat /\ forall d, In d (all_sets v) -> In (ds_peak d) ps.
Definition gvar_ok (axes : nat) (v : gvar) (ces : outlines) : Prop :=
  Z.of_nat axes <= 10000 /\ Z.of_nat (length v) < 65535 /\ all_sets v <> [] /\ few_peaks v /\
  Forall2 (sets_ok axes) v ces.

(** What the optimizer makes of a delta set can be stored: at most 127 kept
    points, not too far apart (see C25), no 256 zeros in a row. *)
Definition storable (o : list (option delta)) : Prop :=
  ~ zeros_256 (map delta_x (given o)) /\ ~ zeros_256 (map delta_y (given o)) /\
  (In None o -> given o <> [] -> points_ok (touched 0 o)).
Definition optimizable (g : glyph) (d : delta_set) : Prop :=
  exists o, optimize_deltas (full_deltas d) g = Ok o /\ storable o.
(** The glyphs handed to the writer, if any, are the ones the outlines belong to. *)
Definition glyphs_match (v : gvar) (ces : outlines) (glyf : option (list glyph)) : Prop :=
  forall gs i sets ce, glyf = Some gs -> nth_error v i = Some (Some sets) -> nth_error ces i = Some ce ->
    exists g, nth_error gs i = Some g /\ gvar_coords_and_ends g = Ok ce /\ Forall (optimizable g) sets.

(** What comes back: every glyph with its delta sets that move a point. *)
Definition kept (v : gvar) : gvar := map (option_map (filter moves)) v.

(** The number of glyphs with variation data. *)
Definition with_data (v : gvar) : nat := length (filter (fun s => match s with Some _ => true | None => false end) v).

(** ** Order of the shared tuples *)

Definition uses (t : list Z) (l : list (list Z)) : nat := count_occ (list_eq_dec Z.eq_dec) l t.
(** The different elements of [l], the more frequent ones first. *)
Definition by_frequency (l m : list (list Z)) : Prop :=
  NoDup m /\ (forall t, In t m <-> In t l) /\ StronglySorted (fun a b => (uses b l <= uses a l)%nat) m.
Definition most_common_first (f : list (list Z) -> list (list Z)) : Prop := forall l, by_frequency l (f l).

(** ** Bytes *)

(** Where each chunk starts, and where the last one ends. *)
Fixpoint starts (pos : Z) (chunks : list (list Z)) : list Z :=
  match chunks with
  | [] => [pos]
  | c :: chunks' => pos :: starts (pos + Z.of_nat (length c)) chunks'
  end.
Definition offset_bytes (long : bool) (chunks : list (list Z)) : list Z :=
  concat (map (fun o => if long then dword o else word (o / 2)) (starts 0 chunks)).
(** A table with the shared tuples [tuples] (2.14 bit patterns) and the variation
    data [chunks] of the glyphs, nothing between its parts. *)
Definition gvar_file (long : bool) (axes : nat) (tuples : list (list Z)) (chunks : list (list Z)) : list Z :=
  let tuple_pos := 20 + Z.of_nat (length (offset_bytes long chunks)) in
  let data_pos := tuple_pos + 2 * Z.of_nat axes * Z.of_nat (length tuples) in
  word 1 ++ word 0 ++ word (Z.of_nat axes) ++ word (Z.of_nat (length tuples)) ++ dword tuple_pos ++
  word (Z.of_nat (length chunks)) ++ word (if long then 1 else 0) ++ dword data_pos ++
  offset_bytes long chunks ++ concat (map (fun t => concat (map word t)) tuples) ++ concat chunks.
Definition tuples_ok (axes : nat) (tuples : list (list Z)) : Prop :=
  Z.of_nat (length tuples) < 65535 /\
  Forall (fun t => length t = axes /\ Forall (in_range I16) t) tuples.
(** Short offsets are halved. *)
Definition chunks_ok (long : bool) (axes : nat) (tuples chunks : list (list Z)) : Prop :=
  Z.of_nat (length chunks) < 65535 /\
  Z.of_nat (length (gvar_file long axes tuples chunks)) < 2 ^ 32 /\
  (long = false -> Forall (fun c => (length c mod 2 = 0)%nat) chunks).

(** The delta set a variation stands for: its own or a shared peak, the deltas
    of the points that have none inferred from the outline, and the region.  The
    last two cases are the code's own idea of a region without explicit start and
    end (see C63_implied_region_refuted). *)
Definition implied_start (peak : list dyadic) : list dyadic :=
  map (fun x => if 0 <? mant x then Dy 0 0 else Dy (-1) 0) peak.
Definition implied_end (peak : list dyadic) : list dyadic :=
  map (fun x => if 0 <? mant x then Dy 1 0 else Dy 0 0) peak.
Definition stands_for (tuples : list (list Z)) (ce : list (Z * Z) * list Z) (v : tuple_variation) (d : delta_set) : Prop :=
  iup_delta (tv_deltas v) (fst ce) (snd ce) = Ok (ds_deltas d) /\
  0 <= tv_index (tv_header v) <= Z.of_nat (length tuples) /\
  match tv_peak (tv_header v) with
  | Some p => ds_peak d = p
  | None => exists t, nth_error tuples (Z.to_nat (tv_index (tv_header v))) = Some t /\ ds_peak d = map f2dot14_from_packed t
  end /\
  ds_start d = match tv_start (tv_header v) with Some s => s | None => implied_start (ds_peak d) end /\
  ds_end d = match tv_end (tv_header v) with Some e => e | None => implied_end (ds_peak d) end.
(** The chunk of a glyph: nothing, or a variation store and perhaps padding. *)
Definition chunk_holds (axes : nat) (tuples : list (list Z)) (ce : list (Z * Z) * list Z) (chunk : list Z)
    (s : option (list delta_set)) : Prop :=
  match s with
  | None => chunk = []
  | Some sets => chunk <> [] /\ Z.of_nat (length (fst ce)) <= 65535 /\
      exists bs pad vs, chunk = bs ++ pad /\ reads_back (de_tvs axes true (length (fst ce))) bs vs /\
        Forall2 (stands_for tuples ce) vs sets
  end.
Definition chunks_hold (axes : nat) (tuples : list (list Z)) (ces : outlines) (chunks : list (list Z)) (v : gvar) : Prop :=
  length chunks = length v /\ length ces = length v /\
  forall i ce chunk s, nth_error ces i = Some ce -> nth_error chunks i = Some chunk -> nth_error v i = Some s ->
    chunk_holds axes tuples ce chunk s.

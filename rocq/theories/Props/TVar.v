(** Property theorems: variation data (C24, C25, C26, C55). *)
From Verif.Model Require Import MBase MFixed MGlyph MPacked.
From Verif.Spec Require Import SBase SGlyph SPacked.
From Coq Require Import Lia.
From Verif.Proofs Require PPacked PPoints PVarStore.

(** ** C24: packed deltas *)

Theorem C24_written_follows_format : forall l bs, Forall (in_range I16) l ->
  ser_deltas l = Ok bs -> delta_runs l bs.
Proof. exact PPacked.deltas_written. Qed.
Print Assumptions C24_written_follows_format.

Theorem C24_every_encoding_read : forall l bs,
  delta_runs l bs -> reads_back (de_deltas (length l)) bs l.
Proof. exact PPacked.deltas_read. Qed.
Print Assumptions C24_every_encoding_read.

Theorem C24_roundtrip : forall l bs, Forall (in_range I16) l ->
  ser_deltas l = Ok bs -> reads_back (de_deltas (length l)) bs l.
Proof. exact (fun l bs Hl H => PPacked.deltas_read l bs (PPacked.deltas_written l bs Hl H)). Qed.
Print Assumptions C24_roundtrip.

Theorem C24_written_iff : forall l,
  ((exists bs, ser_deltas l = Ok bs) <-> ~ zeros_256 l) /\ (ser_deltas l = Panic <-> zeros_256 l).
Proof. exact (fun l => conj (PPacked.deltas_written_iff l) (PPacked.deltas_aborts_iff l)). Qed.
Print Assumptions C24_written_iff.

Example C24_example :
  ser_deltas [10; -300; 0; 0; 0; 5; 0; 7] = Ok [0; 10; 64; 254; 212; 130; 2; 5; 0; 7] /\
  from_bytes (de_deltas 8) [0; 10; 64; 254; 212; 130; 2; 5; 0; 7] = Ok [10; -300; 0; 0; 0; 5; 0; 7].
Proof. split; vm_compute; reflexivity. Qed.
Example C24_example_aborts : ser_deltas (repeat 0 255) <> Panic /\ ser_deltas (1 :: repeat 0 256) = Panic.
Proof. split; vm_compute; [discriminate|reflexivity]. Qed.

(** ** C25: packed point numbers *)

Theorem C25_all_points : exists bs, ser_points None = Ok bs /\ reads_back de_points bs None.
Proof. exact PVarStore.all_points_roundtrip. Qed.
Print Assumptions C25_all_points.

Theorem C25_roundtrip : forall pts, points_ok pts -> Forall (in_range U16) pts ->
  exists bs, ser_points (Some pts) = Ok bs /\ reads_back de_points bs (Some pts).
Proof. exact PVarStore.points_back. Qed.
Print Assumptions C25_roundtrip.

Theorem C25_every_encoding_read : forall pts bs, (1 <= length pts <= 127)%nat -> Forall (in_range U16) pts ->
  point_runs (gaps 0 pts) bs -> reads_back de_points (Z.of_nat (length pts) :: bs) (Some pts).
Proof. exact PVarStore.points_read_back. Qed.
Print Assumptions C25_every_encoding_read.

Theorem C25_written_iff : forall pts, Forall (in_range U16) pts ->
  ((exists bs, ser_points (Some pts) = Ok bs) <-> Forall (fun g => 0 <= g) (gaps 0 pts)) /\
  ((exists bs, ser_points (Some pts) = Ok bs) \/ ser_points (Some pts) = Panic).
Proof. exact PPoints.points_written_iff. Qed.
Print Assumptions C25_written_iff.

(** Point numbers more than 255 apart are written but cannot be read. *)
Theorem C25_word_gap_unreadable : forall pts bs, (length pts <= 63)%nat ->
  Exists (fun g => 255 < g) (gaps 0 pts) -> ser_points (Some pts) = Ok bs -> from_bytes de_points bs = Err.
Proof. exact PPoints.word_gap_unreadable. Qed.
Print Assumptions C25_word_gap_unreadable.

(** 128 or more point numbers are written but never read back. *)
Theorem C25_many_points_lost : forall pts bs, 128 <= Z.of_nat (length pts) < 32768 ->
  ser_points (Some pts) = Ok bs -> from_bytes de_points bs <> Ok (Some pts).
Proof. exact PPoints.many_points_lost. Qed.
Print Assumptions C25_many_points_lost.

Example C25_example : points_ok [3; 4; 200; 455] /\
  ser_points (Some [3; 4; 200; 455]) = Ok [4; 3; 3; 1; 196; 255].
Proof. split; [split; [cbn; lia|repeat constructor; lia]|vm_compute; reflexivity]. Qed.
Example C25_example_word : ser_points (Some [3; 700]) = Ok [2; 0; 3; 129; 2; 185] /\
  from_bytes de_points [2; 0; 3; 129; 2; 185] = Err /\
  from_bytes de_points [2; 0; 3; 128; 2; 185] = Ok (Some [3; 700]).
Proof. repeat split; vm_compute; reflexivity. Qed.

(** ** C26: tuple variation stores *)

Theorem C26_roundtrip : forall axes gvar points s,
  Z.of_nat points <= 65535 -> (length s < Z.to_nat 4096)%nat -> Forall (variation_ok axes gvar points) s ->
  (forall bs, ser_tvs s = Ok bs ->
     exists s', Forall2 variation_same s s' /\ reads_back (de_tvs axes gvar points) bs s') /\
  (Z.of_nat (length s) * (4 + 6 * Z.of_nat axes) <= 65531 -> exists bs, ser_tvs s = Ok bs).
Proof. exact PVarStore.store_roundtrip. Qed.
Print Assumptions C26_roundtrip.

(** Sizes and offsets recorded in the store, which this reader ignores and others use. *)
Theorem C26_laid_out : forall s bs, (length s < Z.to_nat 4096)%nat -> ser_tvs s = Ok bs ->
  exists headers blocks, length headers = length s /\ length blocks = length s /\
    bs = word (0x8000 + Z.of_nat (length s)) ++ word (4 + Z.of_nat (length (concat headers)) mod 65536) ++
         concat headers ++ [0] ++ concat blocks /\
    Forall2 (fun h b => firstn 2 h = word (Z.of_nat (length b) mod 65536)) headers blocks.
Proof. exact PVarStore.store_laid_out. Qed.
Print Assumptions C26_laid_out.

Definition C26_header := PVarStore.ex_header.
Definition C26_store := PVarStore.ex_store.
Example C26_example : Forall (variation_ok 1 true 3) C26_store /\
  match ser_tvs C26_store with
  | Ok bs => match from_bytes (de_tvs 1 true 3) bs with
             | Ok s => map tv_deltas s = map tv_deltas C26_store
             | _ => False end
  | _ => False end.
Proof. exact PVarStore.store_example. Qed.

(** A variation without any delta is written, but the file read back is rejected. *)
Theorem C26_no_deltas_refuted : exists v, Forall (fun d => d = None) (tv_deltas v) /\ length (tv_deltas v) = 2%nat /\
  match ser_tvs [v] with Ok bs => from_bytes (de_tvs 1 true 2) bs = Err | _ => False end.
Proof. exact PVarStore.no_deltas. Qed.
Print Assumptions C26_no_deltas_refuted.

(** The bit "has its own point numbers", once set by reading, is not cleared
    when every point has a delta: the deltas read back are other ones. *)
Theorem C26_stale_flag_refuted : exists v, header_ok 1 (set_flags (tv_header v) 0x8000) /\
  tv_flags (tv_header v) = 0xA000 /\
  match ser_tvs [v] with
  | Ok bs => match from_bytes (de_tvs 1 false 2) bs with Ok [v'] => tv_deltas v' <> tv_deltas v | Ok _ => False | Err => True | Panic => False end
  | _ => False end.
Proof. exact PVarStore.stale_flag. Qed.
Print Assumptions C26_stale_flag_refuted.

(** ** C55: item variation data *)

Theorem C55_roundtrip_iff : forall v, ivd_ok v ->
  ((exists bs, ser_ivd v = Ok bs /\ from_bytes de_ivd bs = Ok v) <-> rectangular v).
Proof. exact PVarStore.ivd_iff. Qed.
Print Assumptions C55_roundtrip_iff.

Theorem C55_written_follows_format : forall v, ivd_ok v -> rectangular v ->
  ser_ivd v = Ok (ivd_encoding (length (iv_regions v)) v).
Proof. exact PVarStore.ivd_written. Qed.
Print Assumptions C55_written_follows_format.

Theorem C55_every_encoding_read : forall short v, (short <= length (iv_regions v))%nat ->
  ivd_ok v -> rectangular v -> Forall (fun row => Forall (in_range I8) (skipn short row)) (iv_deltas v) ->
  reads_back de_ivd (ivd_encoding short v) v.
Proof. exact PVarStore.ivd_reads_back. Qed.
Print Assumptions C55_every_encoding_read.

Theorem C55_regions : forall l, region_list_ok l ->
  exists bs, ser_region_list l = Ok bs /\ reads_back de_region_list bs l.
Proof. exact PVarStore.region_list_roundtrip. Qed.
Print Assumptions C55_regions.

Example C55_example : let v := mk_ivd [0; 2] [[100; -1000]; [3; 4]] in
  ivd_ok v /\ rectangular v /\
  ser_ivd v = Ok [0; 2; 0; 2; 0; 2; 0; 0; 0; 2; 0; 100; 252; 24; 0; 3; 0; 4] /\
  from_bytes de_ivd [0; 2; 0; 1; 0; 2; 0; 0; 0; 2; 252; 24; 100; 0; 3; 4] = Ok (mk_ivd [0; 2] [[-1000; 100]; [3; 4]]).
Proof. exact PVarStore.ivd_example. Qed.

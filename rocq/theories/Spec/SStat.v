(** The OpenType format of the style attributes table, written down independently
    of the code. *)
From Coq Require Import List ZArith.
Import ListNotations.
From Verif.Model Require Import MBase MFixed MStat.
From Verif.Spec Require Import SBase SGlyph SLayout SContext SGsub SScript SCmap STables.
Open Scope Z_scope.

(** the bytes from position [pos] on begin with [bs] *)
Definition found (buf : list Z) (pos : Z) (bs : list Z) : Prop := firstn (length bs) (skipn (Z.to_nat pos) buf) = bs.

(** ** The file format *)
(** a 16.16 number; what is seen of it is the binary32 number nearest to it *)
Definition fixed32 (x : dyadic) (bs : list Z) : Prop := exists p, in_range I32 p /\ x = fixed_from_packed p /\ bs = dword p.
Definition axis_bytes (a : design_axis) : list Z := da_tag a ++ word (da_name a) ++ word (da_ordering a).
Definition axis_ok (a : design_axis) : Prop := is_tag (da_tag a) /\ is_u16 (da_name a) /\ is_u16 (da_ordering a).
(** only two of the flag bits have a meaning *)
Definition seen (flags : Z) : Z := flags mod 4.
Definition location_bytes (kv : Z * dyadic) (bs : list Z) : Prop := is_u16 (fst kv) /\ exists b, fixed32 (snd kv) b /\ bs = word (fst kv) ++ b.
Inductive value_bytes : axis_value -> list Z -> Prop :=
| value1 ax fl nm v b : is_u16 ax -> is_u16 fl -> is_u16 nm -> fixed32 v b ->
    value_bytes (mk_av (Some ax) (seen fl) nm (Some v) None None None) (word 1 ++ word ax ++ word fl ++ word nm ++ b)
| value2 ax fl nm v b lo blo hi bhi : is_u16 ax -> is_u16 fl -> is_u16 nm -> fixed32 v b -> fixed32 lo blo -> fixed32 hi bhi ->
    value_bytes (mk_av (Some ax) (seen fl) nm (Some v) (Some (lo, hi)) None None) (word 2 ++ word ax ++ word fl ++ word nm ++ b ++ blo ++ bhi)
| value3 ax fl nm v b l bl : is_u16 ax -> is_u16 fl -> is_u16 nm -> fixed32 v b -> fixed32 l bl ->
    value_bytes (mk_av (Some ax) (seen fl) nm (Some v) None (Some l) None) (word 3 ++ word ax ++ word fl ++ word nm ++ b ++ bl)
| value4 fl nm l bs m : is_u16 fl -> is_u16 nm -> countable l -> Forall2 location_bytes l bs ->
    increasing (map fst m) -> (forall k v, In (k, v) m <-> last_entry l k v) ->
    value_bytes (mk_av None (seen fl) nm None None None (Some m)) (word 4 ++ word (Z.of_nat (length l)) ++ word fl ++ word nm ++ concat bs).

(** The header says where the axes are, and where the offsets of the values are,
    which are relative to the place of the first of them. *)
Inductive stat_file (buf : list Z) : stat -> Prop :=
| stat_file1 major minor size axes axes_at values offs values_at elided :
    is_u16 major -> is_u16 minor -> is_u16 size -> in_range U32 axes_at -> in_range U32 values_at ->
    countable axes -> countable values ->
    found buf 0 (word major ++ word minor ++ word size ++ word (Z.of_nat (length axes)) ++ dword axes_at ++ word (Z.of_nat (length values)) ++ dword values_at) ->
    match elided with Some e => 1 <= minor /\ is_u16 e /\ found buf 18 (word e) | None => minor = 0 end ->
    Forall axis_ok axes -> found buf axes_at (concat (map axis_bytes axes)) ->
    Forall is_u16 offs -> found buf values_at (words offs) ->
    Forall2 (fun v off => exists bs, value_bytes v bs /\ found buf (values_at + off) bs) values offs ->
    stat_file buf (mk_stat elided axes values).

(** ** What can be written, and what it is read back as *)
(** a number that storable into the table *)
Definition nearest (x : dyadic) : dyadic := fixed_from_packed (fixed_as_packed x).
(** the format of a value: a combination of axes if there is one, else a linked
    value if there is one, else a range if there is one; a missing number is 0 *)
Definition settled (v : axis_value) : axis_value :=
  let number := Some (match av_nominal v with Some x => nearest x | None => fixed_from_packed 0 end) in
  match av_locations v, av_linked v, av_range v with
  | Some m, _, _ => mk_av None (av_flags v) (av_name v) None None None (Some (map (fun kv => (fst kv, nearest (snd kv))) m))
  | None, Some l, _ => mk_av (av_axis v) (av_flags v) (av_name v) number None (Some (nearest l)) None
  | None, None, Some (lo, hi) => mk_av (av_axis v) (av_flags v) (av_name v) number (Some (nearest lo, nearest hi)) None None
  | None, None, None => mk_av (av_axis v) (av_flags v) (av_name v) number None None None
  end.
Definition reloaded (t : stat) : stat :=
  mk_stat (Some (match st_elided t with Some e => e | None => 17 end)) (st_axes t) (map settled (st_values t)).
Definition bytes_of (v : axis_value) : Z :=
  match av_locations v, av_linked v, av_range v with
  | Some m, _, _ => 8 + 6 * Z.of_nat (length m)
  | None, Some _, _ => 16
  | None, None, Some _ => 20
  | None, None, None => 12
  end.
Definition value_ok (v : axis_value) : Prop :=
  match av_axis v with Some ax => is_u16 ax | None => True end /\ 0 <= av_flags v <= 3 /\ is_u16 (av_name v) /\
  match av_locations v with Some m => increasing (map fst m) /\ Forall (fun kv => is_u16 (fst kv)) m | None => True end /\
  bytes_of v < 65536.
Definition stat_ok (t : stat) : Prop :=
  match st_elided t with Some e => is_u16 e | None => True end /\ countable (st_axes t) /\ Forall axis_ok (st_axes t) /\
  countable (st_values t) /\ Forall value_ok (st_values t).
(** a value says which axis or axes it is about *)
Definition placed (v : axis_value) : Prop := av_axis v <> None \/ av_locations v <> None.
Definition sum_of (l : list Z) : Z := fold_right Z.add 0 l.
(** a value that has exactly the parts of one of the formats, and numbers that fit *)
Definition storable (x : dyadic) : Prop := nearest x = x.
Inductive proper : axis_value -> Prop :=
| proper1 ax fl nm x : storable x -> proper (mk_av (Some ax) fl nm (Some x) None None None)
| proper2 ax fl nm x lo hi : storable x -> storable lo -> storable hi -> proper (mk_av (Some ax) fl nm (Some x) (Some (lo, hi)) None None)
| proper3 ax fl nm x l : storable x -> storable l -> proper (mk_av (Some ax) fl nm (Some x) None (Some l) None)
| proper4 fl nm m : Forall (fun kv => storable (snd kv)) m -> proper (mk_av None fl nm None None None (Some m)).

(** Independent vocabulary for the command line tools. *)
From Coq Require Import String.
From Verif.Model Require Import MBase MTag MMap MFont MFixed MTables MMetrics MGlyph MGlyf MStore MPost MCmap MCli.
From Verif.Model Require MGvar.
From Verif.Spec Require Import SBase SFont SCmapTable.
Open Scope Z_scope.

(** The tables of a file and their bytes, as the table directory gives them
    (C08, C10, C12). *)
Definition holds (file : list Z) (v : Z) (m : list (list Z * list Z)) : Prop :=
  from_bytes font_read_raw file = Ok (v, m).
Definition bytes_of (m : list (list Z * list Z)) (tag : list Z) : option (list Z) := bm_get lex_ltb tag m.

(** [out] is [file] with the bytes of each table changed by [f]: the same
    flavour; table [t] holds [f t o] where [o] is what [file] had; only in head
    the checksum adjustment may differ as well. *)
Definition rewrites (f : list Z -> option (list Z) -> option (list Z)) (file out : list Z) : Prop :=
  exists v m m' w, holds file v m /\ holds out v m' /\ length w = 4%nat /\
    forall t, bytes_of m' t = option_map (fun d => snd (adjusted w (t, d))) (f t (bytes_of m t)).
(** Nothing changes. *)
Definition nothing_new (t : list Z) (o : option (list Z)) : option (list Z) := o.
(** Table [t] is added unless there is one; is replaced. *)
Definition added (t d : list Z) (t' : list Z) (o : option (list Z)) : option (list Z) :=
  if list_eq_dec Z.eq_dec t' t then match o with Some d0 => Some d0 | None => Some d end else o.
Definition replaced (t d : list Z) (t' : list Z) (o : option (list Z)) : option (list Z) :=
  if list_eq_dec Z.eq_dec t' t then Some d else o.

(** The values of tables in a file. *)
Definition head_is (m : list (list Z * list Z)) (h : head_tbl) : Prop :=
  exists d, bytes_of m TAG_head = Some d /\ from_bytes de_head_tbl d = Ok h.
Definition maxp_is (m : list (list Z * list Z)) (x : maxp) : Prop :=
  exists d, bytes_of m TAG_maxp = Some d /\ from_bytes de_maxp d = Ok x.
Definition loca_is (m : list (list Z * list Z)) (l : list (option Z)) : Prop :=
  exists h d, head_is m h /\ bytes_of m TAG_loca = Some d /\
    from_bytes (de_loca (hd_indexToLocFormat h =? 1)) d = Ok l.
Definition glyf_is (m : list (list Z * list Z)) (gs : list glyph) : Prop :=
  exists l d, loca_is m l /\ bytes_of m TAG_glyf = Some d /\ de_glyf d l = Ok gs.
Definition gvar_is (m : list (list Z * list Z)) (gv : MGvar.gvar) : Prop :=
  exists gs ces d, glyf_is m gs /\ rmapM gvar_coords_and_ends gs = Ok ces /\
    bytes_of m TAG_gvar = Some d /\ from_bytes (MGvar.gvar_de ces) d = Ok gv.
Definition post_is (m : list (list Z * list Z)) (p : post) : Prop :=
  exists d, bytes_of m TAG_post = Some d /\ from_bytes post_de d = Ok p.
Definition hhea_is (m : list (list Z * list Z)) (x : hhea) : Prop :=
  exists d, bytes_of m TAG_hhea = Some d /\ from_bytes de_hhea d = Ok x.
Definition hmtx_is (m : list (list Z * list Z)) (ms : list metric) : Prop :=
  exists hh d, hhea_is m hh /\ bytes_of m TAG_hmtx = Some d /\ from_bytes (de_hmtx (hh_numberOfHMetrics hh)) d = Ok ms.
(** Of a font without cmap: no subtables. *)
Definition cmap_is (m : list (list Z * list Z)) (sts : list subtable) : Prop :=
  match bytes_of m TAG_cmap with
  | Some d => from_bytes cmap_de d = Ok sts
  | None => sts = []
  end.

(** What a tool needs of a file: maxp can be read, and so can head; there is
    no head only if there is no loca. *)
Definition usable (m : list (list Z * list Z)) : Prop :=
  (exists x, maxp_is m x) /\
  ((exists h, head_is m h) \/ (bytes_of m TAG_head = None /\ bytes_of m TAG_loca = None)).

(** ** Glyph names *)
(** Upper-case hexadecimal digits. *)
Definition hex (b v : Z) : Prop := (48 <= b <= 57 /\ v = b - 48) \/ (65 <= b <= 70 /\ v = b - 55).
(** [ds] is the number [n] in upper-case hexadecimal, with at least four
    digits and no more zeros in front than needed for that. *)
Definition spells (ds : list Z) (n : Z) : Prop :=
  exists vs, Forall2 hex ds vs /\ fold_left (fun a v => 16 * a + v) vs 0 = n /\
    (length ds = 4%nat \/ ((4 < length ds)%nat /\ hd 0 vs <> 0)).
(** The production name of a character: space; uniXXXX; uXXXXX. *)
Definition production (c : Z) (name : list Z) : Prop :=
  (c = 32 /\ name = ascii_bytes "space") \/
  (c <> 32 /\ c <= 0xFFFF /\ exists ds, name = ascii_bytes "uni" ++ ds /\ spells ds c) \/
  (0xFFFF < c /\ exists ds, name = ascii_bytes "u" ++ ds /\ spells ds c).
(** The new name of glyph [g]: the production name of its least character if
    it has one, else the old name. *)
Definition renamed (sts : list subtable) (g : Z) (old new : list Z) : Prop :=
  (exists c, reaches sts c g /\ (forall c', reaches sts c' g -> c <= c') /\ production c new) \/
  ((forall c, ~ reaches sts c g) /\ new = old).

(** How many of the tables [ts] are missing. *)
Definition lacking (m : list (list Z * list Z)) (ts : list (list Z)) : Z :=
  Z.of_nat (length (filter (fun t => match bytes_of m t with None => true | Some _ => false end) ts)).

(** Independent vocabulary for the table set. *)
From Verif.Model Require Import MBase MTag MMap MFont MTables MMetrics MGlyph MGlyf MStore.
From Verif.Spec Require Import SBase SFont.

(** What a table holds as far as saving is concerned: bytes that it came
    from, or an edited value. *)
Inductive content (T : Type) := Raw (bytes : list Z) | Typed (value : loaded T).
Arguments Raw {T}. Arguments Typed {T}.

Definition content_of {T} (i : item T) : content T :=
  match i with
  | Unloaded d => Raw d
  | Loaded t => match tb_raw t with Some d => Raw d | None => Typed (tb_loaded t) end
  end.
(** The plain map a table set stands for. *)
Definition contents {T} (s : store T) (tag : list Z) : option (content T) :=
  option_map content_of (bm_get lex_ltb tag s).

(** Tables whose parser looks at other tables. *)
Definition dependent_tags := [TAG_GPOS; TAG_GSUB; TAG_hmtx; TAG_loca; TAG_glyf; TAG_gvar].
Definition self_contained (tag : list Z) : Prop := ~ In tag dependent_tags.

(** The type system: the value stored under a tag is of that tag's type. *)
Definition right_kind {T} (tag : list Z) (l : loaded T) : Prop :=
  match l with
  | LHead _ => tag = TAG_head | LHhea _ => tag = TAG_hhea | LMaxp _ => tag = TAG_maxp
  | LHmtx _ => tag = TAG_hmtx | LLoca _ => tag = TAG_loca | LGlyf _ => tag = TAG_glyf
  | LOther t _ => t = tag /\ In tag (TAG_GPOS :: TAG_GSUB :: TAG_gvar :: plain_tags)
  | LUnknown _ => ~ In tag (TAG_head :: TAG_hhea :: TAG_maxp :: dependent_tags ++ plain_tags)
  end.
(** Table values a program can have: made from a typed value (no bytes), or
    obtained by looking a table up (then the value is what the bytes parse to). *)
Definition genuine {T} (K : codecs T) (tag : list Z) (t : table T) : Prop :=
  right_kind tag (tb_loaded t) /\
  forall d, tb_raw t = Some d -> self_contained tag -> des0 K tag d = Ok (tb_loaded t).

(** ** Histories *)
Inductive op (T : Type) :=
| OInsert (tag : list Z) (t : table T)
| OInsertRaw (tag d : list Z)
| ORemove (tag : list Z)
| OLookup (tag : list Z)
| OLoadAll
| OContains (tag : list Z)
| OKeys
| OBytes (tag : list Z).
Arguments OInsert {T}. Arguments OInsertRaw {T}. Arguments ORemove {T}. Arguments OLookup {T}.
Arguments OLoadAll {T}. Arguments OContains {T}. Arguments OKeys {T}. Arguments OBytes {T}.

Inductive obs (T : Type) :=
| VNothing
| VValue (r : res (option (loaded T)))
| VBool (b : bool)
| VTags (l : list (list Z))
| VBytes (r : res (list Z)).
Arguments VNothing {T}. Arguments VValue {T}. Arguments VBool {T}. Arguments VTags {T}. Arguments VBytes {T}.

(** Running an operation on the table set. *)
Definition step {T} (K : codecs T) (o : op T) (s : store T) : obs T * store T :=
  match o with
  | OInsert tag t => (VNothing, ts_insert tag t s)
  | OInsertRaw tag d => (VNothing, ts_insert_raw tag d s)
  | ORemove tag => (VNothing, snd (ts_remove tag s))
  | OLookup tag => let '(r, s') := ts_get K tag s in (VValue (rmap (option_map tb_loaded) r), s')
  | OLoadAll => (VNothing, snd (fully_deserialize K s))
  | OContains tag => (VBool (ts_contains tag s), s)
  | OKeys => (VTags (ts_keys s), s)
  | OBytes tag => (VBytes (write_table K tag s), s)
  end.
Fixpoint run {T} (K : codecs T) (ops : list (op T)) (s : store T) : list (obs T) * store T :=
  match ops with
  | [] => ([], s)
  | o :: ops' => let '(v, s1) := step K o s in let '(vs, s2) := run K ops' s1 in (v :: vs, s2)
  end.

(** The same on a plain map: only insertions and removals change it. *)
Definition map_t (T : Type) := list Z -> option (content T).
Definition upd {T} (m : map_t T) (tag : list Z) (c : option (content T)) : map_t T :=
  fun t => if list_eq_dec Z.eq_dec t tag then c else m t.
Definition spec_step {T} (o : op T) (m : map_t T) : map_t T :=
  match o with
  | OInsert tag t => upd m tag (Some (match tb_raw t with Some d => Raw d | None => Typed (tb_loaded t) end))
  | OInsertRaw tag d => upd m tag (Some (Raw d))
  | ORemove tag => upd m tag None
  | _ => m
  end.
(** What a plain map shows. *)
Definition shows {T} (K : codecs T) (m : map_t T) (o : op T) (v : obs T) : Prop :=
  match o with
  | OLookup tag => self_contained tag -> exists r, v = VValue r /\
      r = match m tag with
          | None => Ok None
          | Some (Typed l) => Ok (Some l)
          | Some (Raw d) => rmap Some (des0 K tag d)
          end
  | OContains tag => exists b, v = VBool b /\ (b = true <-> m tag <> None)
  | OKeys => exists l, v = VTags l /\ tags_increasing l /\ forall t, In t l <-> m t <> None
  | OBytes tag => v = VBytes match m tag with
                             | None => Ok []
                             | Some (Raw d) => Ok d
                             | Some (Typed l) => ser_loaded K l
                             end
  | _ => v = VNothing
  end.
Fixpoint spec_run {T} (K : codecs T) (ops : list (op T)) (m : map_t T) (vs : list (obs T)) : Prop :=
  match ops, vs with
  | [], [] => True
  | o :: ops', v :: vs' => shows K m o v /\ spec_run K ops' (spec_step o m) vs'
  | _, _ => False
  end.

(** Tags are printable; inserted tables are genuine. *)
Definition op_ok {T} (K : codecs T) (o : op T) : Prop :=
  match o with
  | OInsert tag t => printable_tag tag /\ genuine K tag t
  | OInsertRaw tag d => printable_tag tag
  | _ => True
  end.

(** Operations that only look. *)
Definition lookup_only {T} (o : op T) : Prop :=
  match o with OInsert _ _ | OInsertRaw _ _ | ORemove _ => False | _ => True end.

(** ** Saving *)
(** glyf, loca, head (and hhea) are rebuilt: there is a glyf table, and one of
    glyf, loca, maxp holds an edited value. *)
Definition rebuilds {T} (s : store T) : Prop :=
  contents s TAG_glyf <> None /\
  exists tag l, In tag [TAG_glyf; TAG_loca; TAG_maxp] /\ contents s tag = Some (Typed l).
Definition rebuilt_tag {T} (s : store T) (tag : list Z) : Prop :=
  rebuilds s /\ (In tag [TAG_glyf; TAG_loca; TAG_head] \/
                 tag = TAG_hhea /\ contents s TAG_hmtx <> None).
(** A table set as programs have it: tags in order and printable, values of
    the right kind. *)
Definition good_store {T} (K : codecs T) (s : store T) : Prop :=
  tags_increasing (map fst s) /\
  Forall (fun ti => printable_tag (fst ti) /\
            match snd ti with Unloaded _ => True | Loaded t => genuine K (fst ti) t end) s.
(** The bytes of a table in a saved file. *)
Definition saved_as (file tag d : list Z) : Prop :=
  exists v m w, from_bytes font_read_raw file = Ok (v, m) /\ length w = 4%nat /\
    bm_get lex_ltb tag m = Some (snd (adjusted w (tag, d))).

(** The value a table without dependencies has, if it can be had. *)
Definition has_value {T} (K : codecs T) (s : store T) (tag : list Z) (l : loaded T) : Prop :=
  contents s tag = Some (Typed l) \/ exists d, contents s tag = Some (Raw d) /\ des0 K tag d = Ok l.
(** The bytes written for a table. *)
Definition written {T} (K : codecs T) (c : content T) : res (list Z) :=
  match c with Raw d => Ok d | Typed l => ser_loaded K l end.

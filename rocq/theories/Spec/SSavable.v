(** Which edits can be saved: the exact conditions. *)
From Verif.Model Require Import MBase MTag MMap MFont MTables MMetrics MGlyph MGlyf MStore.
From Verif.Spec Require Import SBase SFont SStore.

(** The bytes a table gets when the font has [n] glyphs: a layout table is
    written knowing the number of glyphs, all others on their own. *)
Definition bytes_for {T} (K : codecs T) (n : Z) (tag : list Z) (c : content T) (d : list Z) : Prop :=
  match c with
  | Raw d' => d = d'
  | Typed l => if tag_in tag [TAG_GPOS; TAG_GSUB]
               then exists x, l = LOther tag x /\ ser_layout K tag x n = Ok d
               else ser_loaded K l = Ok d
  end.
(** Every table with a tag satisfying [P] can be written; head has room for
    the checksum adjustment. *)
Definition all_written {T} (K : codecs T) (n : Z) (s : store T) (P : list Z -> Prop) : Prop :=
  forall tag c, P tag -> contents s tag = Some c ->
    exists d, bytes_for K n tag c d /\ (tag = TAG_head -> (12 <= length d)%nat).
(** Horizontal metrics do not stand in the way of rebuilding: there are none,
    or they can be looked up, the count stored in hhea fits, and hhea is
    absent or can be read. *)
Definition metrics_countable {T} (K : codecs T) (s : store T) : Prop :=
  contents s TAG_hmtx = None \/
  exists t ms n, fst (ts_get K TAG_hmtx s) = Ok (Some t) /\ tb_loaded t = LHmtx ms /\
    number_of_hmetrics ms = Ok n /\
    (contents s TAG_hhea = None \/ exists hh, has_value K s TAG_hhea (LHhea hh)).
(** Rebuilding adds a loca table where there is none. *)
Definition gains_loca {T} (s : store T) : Z := match contents s TAG_loca with None => 1 | Some _ => 0 end.

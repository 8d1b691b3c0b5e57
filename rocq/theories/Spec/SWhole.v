(** Which edited tables survive saving and loading, and as what. *)
From Coq Require Import String QArith.
From Verif.Model Require Import MBase MTag MMap MFont MFixed MTables MMetrics MGlyph MGlyf MStore MPost MCmap MCli MWhole.
From Verif.Model Require MAvar MGdef MMath MName MStat MLookup MGsub MGpos.
From Verif.Spec Require Import SBase SFont STables SGlyf SStore.
From Verif.Spec Require SFloat SAvar SCmapTable SGdef SName SPost SStat SGsubTable SGposTable SContext SLayout.
Open Scope Z_scope.

Section Survive.
Context {P : Type} (other : MName.charset -> MName.coder) (hash : cmapping -> Z).

(** The conditions under which the value of a table is kept (C16, C37, C39 to
    C42, C61, C62, C65, C66).  Edited hmtx, gvar and MATH tables cannot be saved
    (C59); loca is always rebuilt. *)
Definition keepable (l : loaded (known (further P))) : Prop :=
  match l with
  | LHead x => head_tbl_ok x
  | LHhea x => hhea_ok x
  | LMaxp x => maxp_ok x
  | LHmtx _ | LLoca _ => False
  | LGlyf gs => Forall glyph_fine gs
  | LUnknown _ => True
  | LOther tag (KCmap sts) => tag = TAG_cmap /\
      SCmapTable.no_collision hash sts /\
      Forall (fun st => SLayout.is_u16 (st_platform st) /\ SLayout.is_u16 (st_encoding st)) sts /\
      Z.of_nat (length sts) <= 65535 /\
      (forall r b, SCmapTable.first_same sts r r -> subtable_write r = Ok b -> SCmapTable.readable r b)
  | LOther tag (KPost p) => tag = TAG_post /\ SPost.post_fields_ok p /\
      match po_glyphnames p with
      | Some names => Forall SPost.text names /\ po_version p = 2 * 65536 /\ SPost.names_fit names
      | None => po_version p <> 2 * 65536
      end
  | LOther tag (KGasp g) => tag = TAG_gasp /\ gasp_ok g
  | LOther tag (KGvar _) => False
  | LOther tag (KRest x) =>
      match x with
      | FAvar maps => tag = TAG_avar /\ Forall SAvar.from_font maps /\ SAvar.counts_fit maps
      | FCvt v => tag = TAG_cvt /\ Forall (in_range I16) v
      | FFpgm v => tag = TAG_fpgm /\ Forall is_byte v
      | FPrep v => tag = TAG_prep /\ Forall is_byte v
      | FFvar f => tag = TAG_fvar /\ Forall axis_record_ok (fv_axes f) /\
          (exists ps, Forall (instance_ok (length (fv_axes f)) ps) (fv_instances f)) /\
          Z.of_nat (length (fv_axes f)) <= 16382 /\ Z.of_nat (length (fv_instances f)) <= 65535
      | FGdef g => tag = TAG_GDEF /\ SGdef.gdef_ok g
      | FName rs => tag = TAG_name /\ Forall SName.fields_ok rs /\ Forall (SName.expressible other) rs /\ SName.fits other rs
      | FOs2 o => tag = TAG_OS2 /\ os2_ok o
      | FStat t => tag = TAG_STAT /\ SStat.stat_ok t
      | FMath _ => False
      | FGsub g => tag = TAG_GSUB /\ SGsubTable.gsub_ok g /\ exists out, MGsub.gsub_write g = Ok out
      | FGpos g => tag = TAG_GPOS /\ SGposTable.gpos_ok g /\ SGposTable.gpos_readable g /\ exists out, MGpos.gpos_write g = Ok out
      end
  end.

(** The same head table with another checksum adjustment. *)
Definition readjusted (x y : head_tbl) : Prop :=
  y = mk_head_tbl (hd_majorVersion x) (hd_minorVersion x) (hd_fontRevision x) (hd_checksumAdjustment y)
        (hd_magicNumber x) (hd_flags x) (hd_unitsPerEm x) (hd_created x) (hd_modified x)
        (hd_xMin x) (hd_yMin x) (hd_xMax x) (hd_yMax x) (hd_macStyle x) (hd_lowestRecPPEM x)
        (hd_fontDirectionHint x) (hd_indexToLocFormat x) (hd_glyphDataFormat x).

(** [comes_back l l']: what was set as [l] is found as [l'] in the file.  The
    value is the same up to: the checksum adjustment of head; subtables of cmap
    with the same mapping, which are one in the file; instance flags of fvar,
    which are not kept; numbers of avar, up to how they are represented; and
    what C62, C65 and C66 say about GPOS, GDEF and STAT and C61 about chained
    contexts of GSUB. *)
Definition comes_back (l l' : loaded (known (further P))) : Prop :=
  match l with
  | LHead x => exists y, l' = LHead y /\ readjusted x y
  | LGlyf gs => exists gs', l' = LGlyf gs' /\ Forall2 glyph_same gs gs'
  | LOther tag (KCmap sts) => exists sts', l' = LOther tag (KCmap sts') /\
      Forall2 (fun st st' => exists r, SCmapTable.first_same sts st r /\ st' = SCmapTable.shown_as r st) sts sts'
  | LOther tag (KRest x) => exists x', l' = LOther tag (KRest x') /\
      match x with
      | FAvar maps => exists maps', x' = FAvar maps' /\
          Forall2 (Forall2 (fun a b => SFloat.val (fst a) == SFloat.val (fst b) /\ SFloat.val (snd a) == SFloat.val (snd b))%Q) maps maps'
      | FFvar f => x' = FFvar (mk_fvar (fv_axes f)
           (map (fun i => mk_instance (in_subfamilyNameID i) 0 (in_coordinates i) (in_postscriptNameID i)) (fv_instances f)))
      | FGdef g => exists g', x' = FGdef g' /\ SGdef.gdef_reread g g'
      | FStat t => x' = FStat (SStat.reloaded t)
      | FGsub g => x' = FGsub (SGsubTable.gsub_normal g)
      | FGpos g => exists g', x' = FGpos g' /\ SGposTable.gpos_same g g'
      | FCvt _ | FFpgm _ | FPrep _ | FName _ | FOs2 _ | FMath _ => x' = x
      end
  | _ => l' = l
  end.
End Survive.

(** What looking a table up gives. *)
Definition finds {T} (K : codecs T) (s : store T) (tag : list Z) (l : loaded T) : Prop :=
  exists t s', ts_get K tag s = (Ok (Some t), s') /\ tb_loaded t = l.

(** ** Which name goes with which table *)
Definition named (tag : list Z) (name : string) : Prop := tag = ascii_bytes name.
Definition one_of (tag : list Z) (names : list string) : Prop := exists n, In n names /\ named tag n.
Definition table_names : list string :=
  ["avar"; "cmap"; "cvt "; "fpgm"; "fvar"; "gasp"; "GDEF"; "glyf"; "GPOS"; "GSUB"; "gvar"; "head"; "hhea"; "hmtx";
   "loca"; "MATH"; "maxp"; "name"; "OS/2"; "post"; "prep"; "STAT"]%string.
(** A table set does not look into the tables of the last but one kind. *)
Definition kind_named {T} (tag : list Z) (l : loaded T) : Prop :=
  match l with
  | LHead _ => named tag "head" | LHhea _ => named tag "hhea" | LMaxp _ => named tag "maxp"
  | LHmtx _ => named tag "hmtx" | LLoca _ => named tag "loca" | LGlyf _ => named tag "glyf"
  | LOther t _ => t = tag /\ one_of tag ["avar"; "cmap"; "cvt "; "fpgm"; "fvar"; "gasp"; "GDEF"; "GPOS"; "GSUB"; "gvar";
                                        "MATH"; "name"; "OS/2"; "post"; "prep"; "STAT"]%string
  | LUnknown _ => ~ one_of tag table_names
  end.
(** With the tables of the library. *)
Definition type_named {P} (tag : list Z) (l : loaded (known (further P))) : Prop :=
  kind_named tag l /\
  match l with
  | LOther _ x => named tag
      match x with
      | KCmap _ => "cmap" | KPost _ => "post" | KGasp _ => "gasp" | KGvar _ => "gvar"
      | KRest (FAvar _) => "avar" | KRest (FCvt _) => "cvt " | KRest (FFpgm _) => "fpgm" | KRest (FFvar _) => "fvar"
      | KRest (FGdef _) => "GDEF" | KRest (FMath _) => "MATH" | KRest (FName _) => "name" | KRest (FOs2 _) => "OS/2"
      | KRest (FPrep _) => "prep" | KRest (FStat _) => "STAT" | KRest (FGsub _) => "GSUB" | KRest (FGpos _) => "GPOS"
      end
  | _ => True
  end.

(** Property theorems: the table set and whole-font saving
    (C11-C17, C59).  [K] stands for the codecs of the tables that the table
    set does not look into; the theorems hold for any codecs. *)
From Verif.Model Require Import MBase MTag MMap MFont MTables MMetrics MGlyph MGlyf MStore MCow.
From Verif.Spec Require Import SBase SReader SFont SStore SSavable SCow.
From Verif.Proofs Require PStore PSave PLoad PStoreEx PSavable PCow.

(** ** C13 *)

(** Any history on a table set shows what a plain map shows. *)
Theorem C13_map : forall T (K : codecs T) ops s, good_store K s -> Forall (op_ok K) ops ->
  spec_run K ops (contents s) (fst (run K ops s)).
Proof. exact (fun T K ops s G => PStore.run_spec K ops s (PSave.good_inv K s G)). Qed.
Print Assumptions C13_map.

(** ... and leaves the map that insertions and removals alone give. *)
Theorem C13_map_afterwards : forall T (K : codecs T) ops s, good_store K s -> Forall (op_ok K) ops ->
  good_store K (snd (run K ops s)) /\
  forall t, contents (snd (run K ops s)) t = fold_left (fun m o => spec_step o m) ops (contents s) t.
Proof. exact (fun T => PSave.run_good (T:=T)). Qed.
Print Assumptions C13_map_afterwards.

(** For tables parsed with the help of another table an earlier lookup does matter. *)
Theorem C13_lookup_neutral_refuted : forall T (K : codecs T), exists s (o : op T) tag v0 v1 v2,
  good_store K s /\ op_ok K o /\
  fst (run K [OLookup tag; o; OLookup tag] s) = [v0; VNothing; v1] /\
  fst (run K [o; OLookup tag] s) = [VNothing; v2] /\ v1 <> v2.
Proof. exact (fun T => PStoreEx.lookup_matters (T:=T)). Qed.
Print Assumptions C13_lookup_neutral_refuted.

(** [remove] returns the table only if it had been looked up before. *)
Theorem C13_remove_returns_refuted : forall T (K : codecs T), exists (s : store T) tag t,
  good_store K s /\ contents s tag <> None /\
  fst (ts_remove tag s) = None /\ fst (ts_remove tag (snd (ts_get K tag s))) = Some t.
Proof. exact (fun T => PStoreEx.remove_matters (T:=T)). Qed.
Print Assumptions C13_remove_returns_refuted.

Example C13_ex : forall T (K : codecs T), good_store K PStoreEx.s0 /\
  Forall (op_ok K) [OLookup TAG_glyf; OInsertRaw TAG_maxp [1]; ORemove TAG_loca; OKeys] /\
  fst (run K [OInsertRaw TAG_maxp [1]; ORemove TAG_loca; OKeys] PStoreEx.s0)
  = [VNothing; VNothing; VTags [TAG_glyf; TAG_head; TAG_maxp]].
Proof.
  intros T K. split; [apply PStoreEx.s0_good|]. split; [|vm_compute; reflexivity].
  repeat constructor; cbn; discriminate.
Qed.

(** ** C14 *)

(** After any history, a table that still holds bytes is saved as these bytes
    (head: up to the checksum adjustment), unless it is one of the tables
    rebuilt because glyf, loca or maxp was edited. *)
Theorem C14_unmodified_saved : forall T (K : codecs T) s ops v file s',
  good_store K s -> Forall (op_ok K) ops -> v = 0x00010000 \/ v = 0x4F54544F ->
  font_write K v (snd (run K ops s)) = (Ok file, s') ->
  Z.of_nat (length file) < 2 ^ 32 -> Forall is_byte file ->
  forall tag d, fold_left (fun m o => spec_step o m) ops (contents s) tag = Some (Raw d) ->
    ~ rebuilt_tag (snd (run K ops s)) tag -> saved_as file tag d.
Proof.
  exact (fun T K s ops v file s' G O Hv E Hs Hb tag d Hd Hn =>
    PSave.unmodified_saved K v _ file s' Hv (proj1 (PSave.run_good K ops s G O)) E Hs Hb tag d
      (eq_trans (proj2 (PSave.run_good K ops s G O) tag) Hd) Hn).
Qed.
Print Assumptions C14_unmodified_saved.

(** Editing maxp alone rewrites glyf. *)
Theorem C14_only_edited_tables_change_refuted : forall T (K : codecs T), exists (s : store T) file s',
  good_store K s /\ contents s TAG_glyf = Some (Raw PStoreEx.glyf_bytes) /\
  font_write K 0x00010000 s = (Ok file, s') /\ Forall is_byte file /\
  saved_as file TAG_glyf [0] /\ ~ saved_as file TAG_glyf PStoreEx.glyf_bytes.
Proof. exact (fun T => PStoreEx.maxp_edit_rewrites_glyf (T:=T)). Qed.
Print Assumptions C14_only_edited_tables_change_refuted.

(** ** C11, C12 for the whole of loading *)

(** A saved font (edited or not), loaded, looked at in any way and saved again
    gives the same file. *)
Theorem C11_reload_save : forall T (K : codecs T) v s0 s0' file v' s ops x,
  v = 0x00010000 \/ v = 0x4F54544F -> good_store K s0 ->
  font_write K v s0 = (Ok file, s0') -> Z.of_nat (length file) < 2 ^ 32 -> Forall is_byte file ->
  font_load K file = Ok (v', s) -> has_value K s TAG_maxp (LMaxp x) -> Forall lookup_only ops ->
  exists s', font_write K v' (snd (run K ops s)) = (Ok file, s').
Proof. exact (fun T => PLoad.reload_save (T:=T)). Qed.
Print Assumptions C11_reload_save.

(** Once the directory is read, loading fails exactly if head cannot be
    parsed, or loca is there without head; it aborts exactly if parsing head
    does; otherwise it holds exactly the tables of the directory. *)
Theorem C12_load_tables : forall T (K : codecs T) file v m, Forall is_byte file ->
  from_bytes font_read_raw file = Ok (v, m) ->
  (font_load K file = Err <->
     (exists d, bm_get lex_ltb TAG_head m = Some d /\ from_bytes de_head_tbl d = Err) \/
     (bm_get lex_ltb TAG_head m = None /\ bm_get lex_ltb TAG_loca m <> None)) /\
  (font_load K file = Panic <->
     exists d, bm_get lex_ltb TAG_head m = Some d /\ from_bytes de_head_tbl d = Panic) /\
  (forall v' s, font_load K file = Ok (v', s) -> v' = v /\ good_store K s /\
     forall t, contents s t = option_map Raw (bm_get lex_ltb t m)).
Proof. exact (fun T => PLoad.load_outcome (T:=T)). Qed.
Print Assumptions C12_load_tables.

Example C11_ex : forall T (K : codecs T), exists s v' s' x,
  font_write K 0x00010000 PStoreEx.s_maxp = (Ok PStoreEx.file_maxp, s) /\
  font_load K PStoreEx.file_maxp = Ok (v', s') /\ has_value K s' TAG_maxp (LMaxp x).
Proof.
  intros T K. eexists. eexists. eexists. eexists. split; [vm_compute; reflexivity|].
  split; [vm_compute; reflexivity|]. right. exists [0; 0; 0x50; 0; 0; 1].
  split; [vm_compute; reflexivity|]. vm_compute. reflexivity.
Qed.

(** ** C16: what is in the file when glyf was edited *)
Theorem C16_saved : forall T (K : codecs T) v s file s' gs,
  v = 0x00010000 \/ v = 0x4F54544F -> good_store K s ->
  font_write K v s = (Ok file, s') -> Z.of_nat (length file) < 2 ^ 32 -> Forall is_byte file ->
  contents s TAG_glyf = Some (Typed (LGlyf gs)) ->
  exists out loca is32 h, compile_glyf gs = Ok (out, loca, is32) /\ has_value K s TAG_head (LHead h) /\
    saved_as file TAG_glyf out /\ saved_as file TAG_loca loca /\
    saved_as file TAG_head (ser_head_tbl (set_loc_format h (if is32 : bool then 1 else 0))).
Proof. exact (fun T => PSave.glyf_saved (T:=T)). Qed.
Print Assumptions C16_saved.

(** ** C17 *)

(** maxp is saved exactly as it stands, whatever else was edited. *)
Theorem C17_maxp_saved_as_is : forall T (K : codecs T) v s file s',
  v = 0x00010000 \/ v = 0x4F54544F -> good_store K s ->
  font_write K v s = (Ok file, s') -> Z.of_nat (length file) < 2 ^ 32 -> Forall is_byte file ->
  exists c d, contents s TAG_maxp = Some c /\ written K c = Ok d /\ saved_as file TAG_maxp d.
Proof. exact (fun T => PSave.maxp_saved (T:=T)). Qed.
Print Assumptions C17_maxp_saved_as_is.

(** So the number of glyphs in the file can be wrong. *)
Theorem C17_count_in_step_refuted : forall T (K : codecs T), exists (s : store T) gs file s' d m,
  good_store K s /\ contents s TAG_glyf = Some (Typed (LGlyf gs)) /\
  font_write K 0x00010000 s = (Ok file, s') /\ Forall is_byte file /\
  saved_as file TAG_maxp d /\ from_bytes de_maxp d = Ok m /\ length gs = 3%nat /\ num_glyphs m = 1.
Proof. exact (fun T => PStoreEx.stale_maxp (T:=T)). Qed.
Print Assumptions C17_count_in_step_refuted.

(** ** C59: which edits can be saved *)

(** Without maxp nothing can be saved. *)
Theorem C59_maxp_required : forall T (K : codecs T) v s, good_store K s -> contents s TAG_maxp = None ->
  forall file s', font_write K v s <> (Ok file, s').
Proof. exact (fun T => PSave.no_maxp (T:=T)). Qed.
Print Assumptions C59_maxp_required.

(** Edited hmtx, gvar and MATH tables, and a loca table without glyf, cannot be saved. *)
Theorem C59_unsavable : forall T (K : codecs T) v s tag l, good_store K s ->
  contents s tag = Some (Typed l) ->
  In tag [TAG_hmtx; TAG_gvar; TAG_MATH] \/ tag = TAG_loca /\ contents s TAG_glyf = None ->
  forall file s', font_write K v s <> (Ok file, s').
Proof. exact (fun T => PSave.unsavable (T:=T)). Qed.
Print Assumptions C59_unsavable.

(** Fonts without edits of glyf, loca, maxp, GSUB and GPOS can be saved when
    maxp can be parsed, there are fewer than 4096 tables, every edited table
    can be written and head has its 12 bytes. *)
Theorem C59_savable : forall T (K : codecs T) v s m, good_store K s -> ~ rebuilds s ->
  (forall t l, contents s t = Some (Typed l) -> ~ In t [TAG_GPOS; TAG_GSUB]) ->
  (forall t c, contents s t = Some c -> exists d, written K c = Ok d /\ (t = TAG_head -> (12 <= length d)%nat)) ->
  has_value K s TAG_maxp (LMaxp m) -> Z.of_nat (length s) < 4096 ->
  exists file s', font_write K v s = (Ok file, s').
Proof. exact (fun T => PSave.savable (T:=T)). Qed.
Print Assumptions C59_savable.

(** When nothing has to be rebuilt, saving succeeds exactly if maxp can be
    read, every table can be written (GSUB and GPOS knowing the number of
    glyphs), head has its 12 bytes and there are fewer than 4096 tables. *)
Theorem C59_savable_exactly : forall T (K : codecs T) v s, good_store K s -> ~ rebuilds s ->
  (exists file s', font_write K v s = (Ok file, s')) <->
  exists m, has_value K s TAG_maxp (LMaxp m) /\ all_written K (num_glyphs m) s (fun _ => True) /\
    Z.of_nat (length s) < 4096.
Proof. exact (fun T => PSavable.savable_iff (T:=T)). Qed.
Print Assumptions C59_savable_exactly.

(** With an edited glyf table: maxp and head can be read, the glyphs can be
    written and number fewer than 65536, the metrics can be counted, all
    tables that are not rebuilt can be written, and there are fewer than 4096
    tables, counting loca even if it was missing. *)
Theorem C59_savable_glyf_exactly : forall T (K : codecs T) v s gs, good_store K s ->
  contents s TAG_glyf = Some (Typed (LGlyf gs)) ->
  (exists file s', font_write K v s = (Ok file, s')) <->
  exists m h out loca is32, has_value K s TAG_maxp (LMaxp m) /\ has_value K s TAG_head (LHead h) /\
    compile_glyf gs = Ok (out, loca, is32) /\ Z.of_nat (length gs) < 65536 /\ metrics_countable K s /\
    all_written K (num_glyphs m) s (fun t => ~ In t [TAG_glyf; TAG_loca; TAG_head]) /\
    Z.of_nat (length s) + gains_loca s < 4096.
Proof. exact (fun T => PSavable.savable_glyf_iff (T:=T)). Qed.
Print Assumptions C59_savable_glyf_exactly.

Example C59_exactly_ex : forall T (K : codecs T), exists (s : store T) gs file s', good_store K s /\
  contents s TAG_glyf = Some (Typed (LGlyf gs)) /\ font_write K 0x00010000 s = (Ok file, s').
Proof.
  intros T K. destruct (PStoreEx.stale_maxp K) as (s & gs & file & s' & d & m & H1 & H2 & H3 & _).
  exists s, gs, file, s'. auto.
Qed.

Example C59_ex : forall T (K : codecs T), good_store K PStoreEx.s_hmtx /\
  contents (PStoreEx.s_hmtx (T:=T)) TAG_hmtx = Some (Typed (LHmtx [mk_metric 500 0])).
Proof. intros T K. split; [apply PStoreEx.s_hmtx_good|reflexivity]. Qed.

(** ** C15 *)

(** Handles, clones and the font behave as if each held its own copy. No
    history ever touches a freed table, and none leaks. *)
Theorem C15_value_semantics : forall V (ops : list (cop V)), exists m',
  crun ops mem0 = Ok (vrun ops (fun _ => None), m') /\
  forall a v c, nth_error (m_heap m') a = Some (Some (v, c)) -> exists p, ref_get p (m_refs m') = Some a.
Proof. exact (fun V => PCow.value_semantics (V:=V)). Qed.
Print Assumptions C15_value_semantics.

Example C15_ex : vrun [CNew 1 0; CInsert 0 7; CGet 7 0; CClone 0 1; CModify 0 (Z.add 10); CRead (InVar 0);
                       CRead (InVar 1); CRead (InFont 7); CInsert 0 7; CRead (InFont 7); CRead (InVar 0); CIntoOwned 1]
                      (fun _ => None)
  = [None; None; None; None; None; Some 11; Some 1; Some 1; None; Some 11; None; Some 1].
Proof. reflexivity. Qed.

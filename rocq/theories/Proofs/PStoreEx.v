(** Concrete table sets: witnesses and counterexamples. *)
From Verif.Model Require Import MBase MTag MMap MFont MTables MMetrics MGlyph MGlyf MStore.
From Verif.Spec Require Import SBase SReader SFont SStore.
From Verif.Proofs Require Import PBase PMap PFont PMetrics PTables PStore PSave PLoad.

Section Ex.
Context {T : Type} (K : codecs T).

Definition ex_head (fmt : Z) : head_tbl := set_loc_format (head0 (mk_date 3600000000 0)) fmt.
Definition head_bytes : list Z := Eval vm_compute in ser_head_tbl (ex_head 0).
Definition maxp_bytes (n : Z) : list Z := [0; 0; 0x50; 0; 0; n].

(** head (16-bit offsets), loca with one empty glyph, glyf with four unused bytes, maxp with one glyph *)
Definition loca_bytes : list Z := [0; 0; 0; 0].
Definition glyf_bytes : list Z := [1; 2; 3; 4].
Definition s0 : store T :=
  [(TAG_glyf, Unloaded glyf_bytes); (TAG_head, Unloaded head_bytes); (TAG_loca, Unloaded loca_bytes);
   (TAG_maxp, Unloaded (maxp_bytes 1))].
(** ... with an edited maxp *)
Definition s_maxp : store T :=
  [(TAG_glyf, Unloaded glyf_bytes); (TAG_head, Unloaded head_bytes); (TAG_loca, Unloaded loca_bytes);
   (TAG_maxp, Loaded (mk_table None (LMaxp (mk_maxp 0x8000 (Maxp05 1)))))].
(** ... with an edited glyf of three glyphs *)
Definition s_glyf : store T :=
  [(TAG_glyf, Loaded (mk_table None (LGlyf [empty_glyph; empty_glyph; empty_glyph])));
   (TAG_head, Unloaded head_bytes); (TAG_loca, Unloaded loca_bytes);
   (TAG_maxp, Unloaded (maxp_bytes 1))].
Definition s_hmtx : store T :=
  [(TAG_head, Unloaded head_bytes); (TAG_hmtx, Loaded (mk_table None (LHmtx [mk_metric 500 0])));
   (TAG_maxp, Unloaded (maxp_bytes 1))].

Lemma inc_check l : forallb (fun p => lex_ltb (fst p) (snd p)) (combine l (skipn 1 l)) = true -> tags_increasing l.
Proof.
  intros H. apply sorted_increasing. induction l as [|a [|b l] IH]; [constructor|constructor; constructor|].
  cbn [skipn combine forallb fst snd] in H. apply andb_true_iff in H as [H1 H2].
  assert (S: sorted_keys lex_ltb (b :: l)) by (apply IH; exact H2).
  constructor; [exact S|]. inversion S as [|? ? _ F]; subst. constructor; [exact H1|].
  eapply Forall_impl; [|exact F]. intros x Hx. eapply (st_trans _ lex_strict); [exact H1|exact Hx].
Qed.
Lemma pt t : length t = 4%nat -> forallb (fun b => (32 <=? b) && (b <=? 126)) t = true -> printable_tag t.
Proof.
  intros Hl H. split; [exact Hl|]. rewrite forallb_forall in H. apply Forall_forall. intros b Hb. apply H in Hb.
  apply andb_true_iff in Hb as [A B]. split; now apply Z.leb_le.
Qed.
Ltac good := split; [apply inc_check; reflexivity|];
  repeat (constructor; [split; [apply pt; reflexivity|first [exact I|split; [reflexivity|cbn; discriminate]]]|]); constructor.

Lemma s0_good : good_store K s0. Proof. good. Qed.
Lemma s_maxp_good : good_store K s_maxp. Proof. good. Qed.
Lemma s_glyf_good : good_store K s_glyf. Proof. good. Qed.
Lemma s_hmtx_good : good_store K s_hmtx. Proof. good. Qed.

Lemma bytes_check l : forallb (fun b => (0 <=? b) && (b <=? 255)) l = true -> Forall is_byte l.
Proof.
  intros H. rewrite forallb_forall in H. apply Forall_forall. intros b Hb. apply H in Hb. unfold is_byte.
  apply andb_true_iff in Hb as [A B]. apply Z.leb_le in A, B. lia.
Qed.

(** A lookup changes what a later lookup shows. *)
Lemma lookup_matters : exists s (o : op T) tag v0 v1 v2, good_store K s /\ op_ok K o /\
  fst (run K [OLookup tag; o; OLookup tag] s) = [v0; VNothing; v1] /\
  fst (run K [o; OLookup tag] s) = [VNothing; v2] /\ v1 <> v2.
Proof.
  exists s0, (OInsert TAG_head (mk_table None (LHead (ex_head 1)))), TAG_loca.
  exists (VValue (Ok (Some (LLoca [None])))), (VValue (Ok (Some (LLoca [None])))), (VValue (Ok (Some (LLoca [])))).
  split; [apply s0_good|]. split; [split; [apply pt; reflexivity|split; [reflexivity|discriminate]]|].
  split; [vm_compute; reflexivity|]. split; [vm_compute; reflexivity|]. discriminate.
Qed.
Lemma remove_matters : exists (s : store T) tag t, good_store K s /\ contents s tag <> None /\
  fst (ts_remove tag s) = None /\ fst (ts_remove tag (snd (ts_get K tag s))) = Some t.
Proof.
  exists s0, TAG_maxp, (mk_table (Some (maxp_bytes 1)) (LMaxp (mk_maxp 0x8000 (Maxp05 1)))). split; [apply s0_good|].
  split; [discriminate|]. split; [vm_compute; reflexivity|]. vm_compute. reflexivity.
Qed.
Definition file_maxp : list Z :=
  Eval vm_compute in match fst (font_write (mk_codecs unit (fun _ _ => Err) (fun _ _ _ => Err) (fun _ _ => Err) (fun _ _ => Err) (fun _ _ _ => Ok [])) 0x00010000
    [(TAG_glyf, Unloaded glyf_bytes); (TAG_head, Unloaded head_bytes); (TAG_loca, Unloaded loca_bytes);
     (TAG_maxp, Loaded (mk_table None (LMaxp (mk_maxp 0x8000 (Maxp05 1)))))]) with Ok f => f | _ => [] end.
Lemma maxp_edit_rewrites_glyf : exists (s : store T) file s', good_store K s /\
  contents s TAG_glyf = Some (Raw glyf_bytes) /\
  font_write K 0x00010000 s = (Ok file, s') /\ Forall is_byte file /\
  saved_as file TAG_glyf [0] /\ ~ saved_as file TAG_glyf glyf_bytes.
Proof.
  exists s_maxp, file_maxp. eexists. split; [apply s_maxp_good|]. split; [reflexivity|]. split; [vm_compute; reflexivity|].
  split; [apply bytes_check; vm_compute; reflexivity|].
  destruct (from_bytes font_read_raw file_maxp) as [[v m]| |] eqn:Hf; [|vm_compute in Hf; discriminate..].
  assert (Hm: bm_get lex_ltb TAG_glyf m = Some [0]) by (vm_compute in Hf; injection Hf as _ <-; reflexivity).
  split.
  - exists v, m, [0; 0; 0; 0]. auto.
  - intros (v' & m' & w & H & _ & G). rewrite Hf in H. injection H as _ <-. rewrite Hm in G. discriminate.
Qed.
Definition file_glyf : list Z :=
  Eval vm_compute in match fst (font_write (mk_codecs unit (fun _ _ => Err) (fun _ _ _ => Err) (fun _ _ => Err) (fun _ _ => Err) (fun _ _ _ => Ok [])) 0x00010000
  [(TAG_glyf, Loaded (mk_table None (LGlyf [empty_glyph; empty_glyph; empty_glyph])));
   (TAG_head, Unloaded head_bytes); (TAG_loca, Unloaded loca_bytes);
   (TAG_maxp, Unloaded (maxp_bytes 1))]) with Ok f => f | _ => [] end.
Lemma stale_maxp : exists (s : store T) gs file s' d m, good_store K s /\
  contents s TAG_glyf = Some (Typed (LGlyf gs)) /\ font_write K 0x00010000 s = (Ok file, s') /\ Forall is_byte file /\
  saved_as file TAG_maxp d /\ from_bytes de_maxp d = Ok m /\ length gs = 3%nat /\ num_glyphs m = 1.
Proof.
  exists s_glyf. eexists. exists file_glyf. eexists. exists (maxp_bytes 1). eexists. split; [apply s_glyf_good|]. split; [reflexivity|].
  split; [vm_compute; reflexivity|]. split; [apply bytes_check; vm_compute; reflexivity|].
  split; [|split; [vm_compute; reflexivity|split; reflexivity]].
  destruct (from_bytes font_read_raw file_glyf) as [[v m]| |] eqn:Hf; [|vm_compute in Hf; discriminate..].
  exists v, m, [0; 0; 0; 0]. split; [exact Hf|]. split; [reflexivity|]. vm_compute in Hf. injection Hf as _ <-. reflexivity.
Qed.
End Ex.

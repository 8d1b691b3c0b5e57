(** Loading a font into the table set. *)
From Verif.Model Require Import MBase MTag MMap MFont MTables MMetrics MGlyph MGlyf MStore.
From Verif.Spec Require Import SBase SReader SFont SStore.
From Verif.Proofs Require Import PBase PMap PFont PMetrics PStore PSave.

Section Load.
Context {T : Type} (K : codecs T).
Implicit Types (s : store T).
Local Notation get := (bm_get lex_ltb).

Lemma load_records_sorted file trs : forall m m', load_records file trs m = Ok m' -> sorted_map lex_ltb m -> sorted_map lex_ltb m'.
Proof.
  induction trs as [|tr trs IH]; intros m m'; cbn [load_records]; [now intros [= ->]|].
  destruct (_ <? _); [discriminate|]. intros E Hs. eapply IH; [exact E|]. apply insert_sorted; [apply lex_strict|exact Hs].
Qed.
Lemma read_sorted file v m : from_bytes font_read_raw file = Ok (v, m) -> sorted_map lex_ltb m.
Proof.
  unfold from_bytes, font_read_raw, pbind.
  destruct (de_u32 _) as [[sv r1]| |]; try discriminate.
  destruct (de_u16 _) as [[? r2]| |]; try discriminate.
  destruct (de_u16 _) as [[? r3]| |]; try discriminate.
  destruct (de_u16 _) as [[? r4]| |]; try discriminate.
  destruct (de_u16 _) as [[? r5]| |]; try discriminate.
  destruct (sfnt_version_of sv); [|discriminate].
  destruct (de_counted _ _ _) as [[trs r6]| |]; try discriminate.
  unfold plift, pret. destruct (load_records _ _ _) as [m'| |] eqn:E; try discriminate.
  intros [= _ <-]. eapply load_records_sorted; [exact E|]. constructor.
Qed.

Lemma contents_loader (m : list (list Z * list Z)) t : contents (loader_add (T:=T) m) t = option_map Raw (get t m).
Proof.
  unfold contents, loader_add. induction m as [|[k d] m IH]; [reflexivity|]. cbn [map bm_get fst snd].
  destruct (lex_ltb t k || lex_ltb k t); [exact IH|reflexivity].
Qed.
Lemma get_loader (m : list (list Z * list Z)) t : st_get t (loader_add (T:=T) m) = option_map Unloaded (get t m).
Proof.
  unfold st_get, loader_add. induction m as [|[k d] m IH]; [reflexivity|]. cbn [map bm_get fst snd].
  destruct (lex_ltb t k || lex_ltb k t); [exact IH|reflexivity].
Qed.
Lemma loader_good file v m : Forall is_byte file -> from_bytes font_read_raw file = Ok (v, m) ->
  good_store K (loader_add m).
Proof.
  intros HB E. pose proof (read_sorted _ _ _ E) as Hs. destruct (load_ok_inv file v m HB E) as (trs & Hd & _ & _ & Hin).
  split.
  - unfold loader_add. rewrite map_map. cbn [fst]. apply sorted_increasing. exact Hs.
  - apply Forall_forall. intros [t i] Hi. unfold loader_add in Hi. apply in_map_iff in Hi as ([t' d] & [= -> <-] & Hi).
    cbn [fst snd]. split; [|exact I]. apply (In_get lex_ltb lex_strict) in Hi; [|exact Hs].
    destruct (Hin _ _ Hi) as (tr & Htr & <- & _). apply In_nth_error in Htr as [n Hn].
    destruct Hd as (_ & _ & _ & _ & Hr). apply (Hr n tr Hn).
Qed.

Lemma load_here tag s : load_if_needed K tag s =
  match st_get tag s with
  | Some (Unloaded data) =>
      match des3 K tag data s with
      | (Ok t, s') => (Ok tt, st_set tag (Loaded (mk_table (Some data) t)) s')
      | (Err, s') => (Err, s') | (Panic, s') => (Panic, s')
      end
  | _ => (Ok tt, s)
  end.
Proof. unfold load_if_needed, load_by. destruct (st_get tag s) as [[?|?]|]; reflexivity. Qed.

Lemma des3_loca data s : des3 K TAG_loca data s = 
  sbind (typed_by (des0s K) TAG_head sel_head) (fun o => sbind (need o) (fun h =>
      slift (rmap LLoca (from_bytes (de_loca (hd_indexToLocFormat h =? 1)) data)))) s.
Proof. reflexivity. Qed.

Lemma finish_spec m : 
  let s := loader_add m in
  match get TAG_head m with
  | Some d => match from_bytes de_head_tbl d with
              | Ok _ => exists s', loader_finish K s = (Ok tt, s')
              | Err => fst (loader_finish K s) = Err
              | Panic => fst (loader_finish K s) = Panic
              end
  | None => match get TAG_loca m with
            | None => exists s', loader_finish K s = (Ok tt, s')
            | Some _ => fst (loader_finish K s) = Err
            end
  end.
Proof.
  intros s. unfold loader_finish, sbind. rewrite (load_here TAG_head). unfold s. rewrite get_loader.
  destruct (get TAG_head m) as [d|] eqn:Eh; cbn [option_map].
  - rewrite des3_self by apply head_self.
    change (des0 K TAG_head d) with (rmap (@LHead T) (from_bytes de_head_tbl d)).
    destruct (from_bytes de_head_tbl d) as [h| |]; cbn [rmap rbind fst]; try reflexivity.
    rewrite load_here. rewrite st_get_set. cbn [bytes_eqb].
    destruct (list_eq_dec Z.eq_dec TAG_loca TAG_head); [discriminate|].
    rewrite get_loader. destruct (get TAG_loca m) as [l|] eqn:El; cbn [option_map]; [|eauto].
    rewrite des3_loca. unfold typed_by, sbind, get_by, load_by. rewrite st_get_set.
    destruct (list_eq_dec Z.eq_dec TAG_head TAG_head) as [_|]; [|congruence]. rewrite st_get_set.
    destruct (list_eq_dec Z.eq_dec TAG_head TAG_head) as [_|]; [|congruence].
    cbn [tb_loaded sel_head]. unfold need, slift.
    destruct (loca_spec (hd_indexToLocFormat h =? 1) l) as (idx & -> & _). cbn [rmap rbind]. eauto.
  - rewrite load_here. rewrite get_loader.
    destruct (get TAG_loca m) as [l|] eqn:El; cbn [option_map]; [|eauto].
    rewrite des3_loca. unfold typed_by, sbind, get_by, load_by. rewrite !get_loader, Eh. cbn [option_map]. rewrite !get_loader, Eh. reflexivity.
Qed.

Lemma quiet_finish : quiet K (loader_finish K).
Proof. apply quiet_bind; [apply quiet_load_if|]. intros _. apply quiet_load_if. Qed.

(** The outcome of loading, given the tables read from the container. *)
Lemma load_outcome file v m : Forall is_byte file -> from_bytes font_read_raw file = Ok (v, m) ->
  (font_load K file = Err <->
     (exists d, get TAG_head m = Some d /\ from_bytes de_head_tbl d = Err) \/
     (get TAG_head m = None /\ get TAG_loca m <> None)) /\
  (font_load K file = Panic <-> exists d, get TAG_head m = Some d /\ from_bytes de_head_tbl d = Panic) /\
  (forall v' s, font_load K file = Ok (v', s) -> v' = v /\ good_store K s /\
     forall t, contents s t = option_map Raw (get t m)).
Proof.
  intros HB E. pose proof (finish_spec m) as F. cbv zeta in F. pose proof (loader_good _ _ _ HB E) as G.
  pose proof (quiet_finish _ (good_inv K _ G)) as [I1 S1].
  assert (Good: good_store K (snd (loader_finish K (loader_add m)))).
  { apply inv_good; [exact I1|]. intros t Ht. rewrite <- (S1 t) in Ht. now apply (good_printable K _ G). }
  unfold font_load. rewrite E. cbn [rbind].
  destruct (loader_finish K (loader_add m)) as [r s'] eqn:Er. cbn [fst snd] in *.
  assert (X: forall t, contents s' t = option_map Raw (get t m)) by (intros t; rewrite <- (S1 t); apply contents_loader).
  destruct (get TAG_head m) as [d|] eqn:Eh.
  - destruct (from_bytes de_head_tbl d) as [h| |] eqn:Ed.
    + destruct F as [s2 F]; injection F as -> <-. split; [|split].
      * split; [discriminate|]. intros [(d' & [= <-] & H)|[H _]]; congruence.
      * split; [discriminate|]. intros (d' & [= <-] & H); congruence.
      * intros v' s0 [= <- <-]. auto.
    + subst r. split; [|split].
      * split; [|reflexivity]. intros _. left. eauto.
      * split; [discriminate|]. intros (d' & [= <-] & H); congruence.
      * discriminate.
    + subst r. split; [|split].
      * split; [discriminate|]. intros [(d' & [= <-] & H)|[H _]]; congruence.
      * split; [|reflexivity]. eauto.
      * discriminate.
  - destruct (get TAG_loca m) as [l|] eqn:El.
    + subst r. split; [|split].
      * split; [|reflexivity]. intros _. right. split; [reflexivity|discriminate].
      * split; [discriminate|]. intros (d' & H & _); congruence.
      * discriminate.
    + destruct F as [s2 F]; injection F as -> <-. split; [|split].
      * split; [discriminate|]. intros [(d' & H & _)|[_ H]]; congruence.
      * split; [discriminate|]. intros (d' & H & _); congruence.
      * intros v' s0 [= <- <-]. auto.
Qed.

(** Loading and saving a file again without touching it. *)
Lemma load_write file v m s : Forall is_byte file -> from_bytes font_read_raw file = Ok (v, m) ->
  font_load K file = Ok (v, s) ->
  (exists d x, get TAG_maxp m = Some d /\ from_bytes de_maxp d = Ok x) ->
  exists s', font_write K v s = (font_to_bytes v (map (fun td => (fst td, Ok (snd td))) m), s').
Proof.
  intros HB E L (d & x & Hd & Hx). destruct (load_outcome _ _ _ HB E) as (_ & _ & H). destruct (H _ _ L) as (_ & G & C).
  apply (write_raw K v s m x G); [now apply read_sorted in E|exact C|].
  right. exists d. split; [now rewrite C, Hd|]. change (rmap (@LMaxp T) (from_bytes de_maxp d) = Ok (LMaxp x)). now rewrite Hx.
Qed.

(** ... after any history of lookups. *)
Lemma lookups_same ops s : good_store K s -> Forall lookup_only ops ->
  good_store K (snd (run K ops s)) /\ forall t, contents (snd (run K ops s)) t = contents s t.
Proof.
  intros G Hl.
  assert (Ho: Forall (op_ok K) ops) by (eapply Forall_impl; [|exact Hl]; intros []; cbn; tauto).
  destruct (run_good K ops s G Ho) as [G1 E1]. split; [exact G1|]. intros t. rewrite E1. clear - Hl. generalize (contents s).
  induction Hl as [|o ops H Hl IH]; intros m; [reflexivity|]. cbn [fold_left]. rewrite IH. destruct o; try reflexivity; destruct H.
Qed.
Lemma reload_save v s0 s0' file v' s ops x : (v = SFNT_TRUETYPE \/ v = SFNT_OPENTYPE) -> good_store K s0 ->
  font_write K v s0 = (Ok file, s0') -> Z.of_nat (length file) < 2 ^ 32 -> Forall is_byte file ->
  font_load K file = Ok (v', s) -> has_value K s TAG_maxp (LMaxp x) -> Forall lookup_only ops ->
  exists s', font_write K v' (snd (run K ops s)) = (Ok file, s').
Proof.
  intros Hv G0 W Hsz HB L Hx Hl. destruct (write_tabs K _ _ _ _ G0 W) as (tabs & PT & HT & Hf).
  destruct (from_bytes font_read_raw file) as [[v1 m]| |] eqn:Er; [|unfold font_load in L; rewrite Er in L; discriminate..].
  pose proof (save_load_save_bytes v tabs file v1 m Hv PT HT Hf Hsz HB Er) as F.
  destruct (load_outcome _ _ _ HB Er) as (_ & _ & H). destruct (H _ _ L) as (-> & G & C).
  destruct (lookups_same ops s G Hl) as [G1 C1].
  destruct (write_raw K v1 (snd (run K ops s)) m x G1) as [s' E].
  - now apply read_sorted in Er.
  - intros t. now rewrite C1.
  - destruct Hx as [Hx|(d & Hx & Hd)]; [left; now rewrite C1|right; exists d; now rewrite C1].
  - exists s'. rewrite E. f_equal. exact F.
Qed.
End Load.

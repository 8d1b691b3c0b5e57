(** C91: which files, once opened, contain a table that aborts the program. *)
From Coq Require Import String List ZArith Bool Lia.
Import ListNotations.
From Verif.Model Require Import MBase MTag MMap MFont MTables MMetrics MGlyph MGlyf MStore MCmap MCli MWhole MGvar MIup.
From Verif.Model Require MName MPost.
From Verif.Spec Require Import SBase SReader SFont SStore SWhole SCalm SStop SOutline SGvarStop SOpen SOrder SAll.
From Verif.Proofs Require Import PBase PFont PMap PStore PSave PLoad POpen POrder PAll.
From Verif.Proofs Require PStoreEx.
From Verif.Props Require Import TOrder.
Open Scope Z_scope.

Lemma gives_ext {T} (K : codecs T) s s' n l : ext K s s' -> (gives K s' n l <-> gives K s n l).
Proof.
  intros E. unfold gives. split; intros (t & tb & N & H); exists t, tb; (split; [exact N|]); [rewrite <- (ext_lookup K s s' t E)|rewrite (ext_lookup K s s' t E)]; exact H.
Qed.
Lemma bad_imp {T} (K : codecs T) s s' t d : (forall n l, gives K s n l -> gives K s' n l) -> table_bad K s t d -> table_bad K s' t d.
Proof.
  intros G. unfold table_bad. intros [H|[H|[H|[H|[H|[(N & h & A & H)|[(N & l & i & o & g & A & H)|(N & g & A & H)]]]]]]];
    [tauto|tauto|tauto|tauto|tauto|do 5 right; left|do 6 right; left|do 7 right]; (split; [exact N|]); apply G in A.
  - exists h. auto.
  - exists l, i, o, g. auto.
  - exists g. auto.
Qed.
Lemma bad_ext {T} (K : codecs T) s s' t d : ext K s s' -> (table_bad K s' t d <-> table_bad K s t d).
Proof. intros E. split; apply bad_imp; intros n l; apply (gives_ext K s s' n l E). Qed.

Section Files.
Context {P : Type} (other : MName.charset -> MName.coder) (fragment : list Z -> further P -> list Z) (hash : cmapping -> Z).
Notation L := (library other fragment hash).

(** However many tables were looked up before, looking up some table (other than
    GDEF, MATH, GSUB and GPOS) aborts exactly if the file has a table with bad
    bytes. *)
Theorem C91_lookups_abort : forall file v s trs ops, Forall is_byte file -> font_load L file = Ok (v, s) -> directory file v trs ->
  Forall lookup_only ops ->
  ((exists tag, ~ one_of tag not_described /\ lookup L (snd (run L ops s)) tag = Panic) <->
   exists tag d, table_bytes file trs tag d /\ table_bad L s tag d).
Proof.
  intros file v s trs ops B H D O. destruct (from_bytes font_read_raw file) as [[v' m]| |] eqn:E;
    [|unfold font_load in H; rewrite E in H; discriminate H|unfold font_load in H; rewrite E in H; discriminate H].
  destruct (read_contents file v' m B E) as (trs' & D' & F & Ct). destruct (directory_unique _ _ _ _ _ B D D') as [<- <-].
  pose proof (loader_good L _ _ _ B E) as G.
  assert (X: ext L (loader_add m) s).
  { unfold font_load in H. rewrite E in H. cbn [rbind] in H. destruct (loader_finish L (loader_add m)) as [[[]| |] s1] eqn:Ef; try discriminate.
    injection H as <-. now apply opened. }
  assert (R: forall t d, st_get t (loader_add (T := known (further P)) m) = Some (Unloaded d) <-> table_bytes file trs t d).
  { intros t d. rewrite <- (proj1 (Ct t) d), get_loader. destruct (bm_get lex_ltb t m); cbn; split; congruence. }
  pose proof (all_iff other fragment hash (loader_add m) (good_inv L _ G)) as A. unfold some_bad in A.
  assert (A': (exists t, ~ one_of t not_described /\ lookup L (loader_add m) t = Panic) <->
    exists t d, st_get t (loader_add (T := known (further P)) m) = Some (Unloaded d) /\ table_bad L (loader_add m) t d).
  { apply A.
    - intros t d Hg. apply R in Hg as (i & tr & _ & Hs). apply PFont.slice_eq in Hs as [_ ->]. apply Forall_forall. intros x Hx.
      rewrite Forall_forall in B. apply B. rewrite <- (firstn_skipn (Z.to_nat (tr_offset tr)) file). apply in_or_app. right.
      rewrite <- (firstn_skipn (Z.to_nat (tr_length tr)) (skipn _ file)). apply in_or_app. now left.
    - intros t tb Hg. rewrite get_loader in Hg. destruct (bm_get lex_ltb t m); discriminate. }
  split.
  - intros (t & N & Ht). rewrite C88_lookups, (ext_lookup L _ _ t X) in Ht by exact O.
    destruct (proj1 A' (ex_intro _ t (conj N Ht))) as (u & d & Hu & Hb). exists u, d. split; [now apply R|]. now apply (bad_ext L _ _ u d X).
  - intros (u & d & Hu & Hb). apply (bad_ext L _ _ u d X) in Hb. apply R in Hu. destruct (proj2 A' (ex_intro _ u (ex_intro _ d (conj Hu Hb)))) as (t & N & Ht).
    exists t. split; [exact N|]. now rewrite C88_lookups, (ext_lookup L _ _ t X) by exact O.
Qed.

(** A font without those four tables is loaded as a whole exactly if the tables
    that are insisted on are read, and no table has bad bytes. *)
Theorem C91_loads : forall file v s trs, Forall is_byte file -> font_load L file = Ok (v, s) -> directory file v trs ->
  (forall tag, one_of tag not_described -> no_entry trs tag) ->
  (fst (fully_deserialize L s) = Ok tt <->
   Forall (readable L s) (insisted s) /\ ~ exists tag d, table_bytes file trs tag d /\ table_bad L s tag d).
Proof.
  intros file v s trs B H D N. rewrite C88_all_ok, <- (C91_lookups_abort file v s trs [] B H D (Forall_nil _)). cbn [run snd].
  split; intros [R Q]; (split; [exact R|]).
  - intros (t & _ & X). exact (Q t X).
  - intros t X. apply Q. exists t. split; [|exact X]. intros U. apply N in U.
    destruct (from_bytes font_read_raw file) as [[v' m]| |] eqn:E;
      [|unfold font_load in H; rewrite E in H; discriminate H|unfold font_load in H; rewrite E in H; discriminate H].
    destruct (load_outcome L _ _ _ B E) as (_ & _ & LO). destruct (LO _ _ H) as (-> & _ & C).
    destruct (read_contents file v' m B E) as (trs' & D' & _ & Ct). destruct (directory_unique _ _ _ _ _ B D D') as [_ <-].
    apply Ct in U. specialize (C t). rewrite U in C. unfold contents in C. rewrite lookup_cases in X. change (bm_get lex_ltb t s) with (st_get t s) in C.
    destruct (st_get t s) as [[d|tb]|]; discriminate.
Qed.
End Files.
Print Assumptions C91_lookups_abort.
Print Assumptions C91_loads.

(** ** Cases *)
(** A font with hhea, which says that there are [n] metrics, and hmtx with one. *)
Definition with_metrics (n : Z) : list Z := Eval vm_compute in
  match font_to_bytes 0x00010000 [(TAG_hhea, Ok (repeat 0 35 ++ [7])); (TAG_hmtx, Ok [1; 2; 3; 4])] with
  | Ok f => map (fun b => if b =? 7 then n else b) f
  | _ => []
  end.
Example C91_case : forall P (other : MName.charset -> MName.coder) (fragment : list Z -> further P -> list Z) (hash : cmapping -> Z),
  (exists v s trs tag d, font_load (library other fragment hash) (with_metrics 0) = Ok (v, s) /\ directory (with_metrics 0) v trs /\
     table_bytes (with_metrics 0) trs tag d /\ table_bad (library other fragment hash) s tag d) /\
  (exists v s, font_load (library other fragment hash) (with_metrics 1) = Ok (v, s) /\ fst (fully_deserialize (library other fragment hash) s) = Ok tt).
Proof.
  intros P other fragment hash. split.
  - assert (B: Forall is_byte (with_metrics 0)) by (apply PStoreEx.bytes_check; vm_compute; reflexivity).
    assert (H: exists v s, font_load (library other fragment hash) (with_metrics 0) = Ok (v, s) /\ lookup (library other fragment hash) s TAG_hmtx = Panic) by (eexists; eexists; split; [vm_compute; reflexivity|vm_compute; reflexivity]).
    assert (E: exists v m, from_bytes font_read_raw (with_metrics 0) = Ok (v, m)) by (eexists; eexists; vm_compute; reflexivity).
    assert (N: ~ one_of TAG_hmtx not_described).
    { intros (n & Hn & En). unfold not_described in Hn. cbn [In] in Hn. repeat (destruct Hn as [<-|Hn]; [vm_compute in En; discriminate En|]). exact Hn. }
    revert B H E N. generalize (with_metrics 0). intros file B (v & s & H & X) (v' & m & E) N.
    destruct (load_outcome (library other fragment hash) _ _ _ B E) as (_ & _ & LO). destruct (LO _ _ H) as (-> & _ & _).
    destruct (read_contents _ v' m B E) as (trs & D & _ & _).
    destruct (proj1 (C91_lookups_abort other fragment hash _ v' s trs [] B H D (Forall_nil _)) (ex_intro _ TAG_hmtx (conj N X))) as (tag & d & Y & Z).
    exists v', s, trs, tag, d. exact (conj H (conj D (conj Y Z))).
  - eexists. eexists. split; [vm_compute; reflexivity|]. vm_compute. reflexivity.
Qed.

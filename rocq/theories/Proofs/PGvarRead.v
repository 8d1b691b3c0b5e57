(** The glyph variations table, read. *)
From Coq Require Import Lia.
From Verif.Model Require Import MBase MFixed MFloat MGlyph MGlyf MPacked MIup MGvar.
From Verif.Spec Require Import SBase SGlyph SCmap SOffset SPacked SIup SGvar.
From Verif.Proofs Require PCmap4 POffset PPart PName.
From Verif.Proofs Require Import PBase PFixed PCodec PCmap12 PGlyphFmt PGvar.

Lemma step_reads {A B} (p : parser A) (f : A -> parser B) bs v buf pos stk : reads p bs v -> at_pos buf pos bs ->
  pbind p f (mkrd buf pos stk) = f v (mkrd buf (pos + length bs) stk).
Proof. intros H Ha. unfold pbind. now rewrite (PPart.at_pos_reads p bs v buf pos stk H Ha). Qed.

Lemma nth_starts chunks : forall pos i, (i <= length chunks)%nat ->
  nth_error (starts pos chunks) i = Some (pos + Z.of_nat (length (concat (firstn i chunks)))).
Proof.
  induction chunks as [|c chunks IH]; intros pos i H; cbn [length] in H.
  - assert (i = 0%nat) as -> by lia. cbn. f_equal. lia.
  - destruct i as [|i]; cbn [starts nth_error firstn concat length]; [f_equal; lia|]. rewrite IH by lia. f_equal. rewrite app_length. lia.
Qed.
Lemma nth_chunk chunks : forall i c, nth_error chunks i = Some c ->
  at_pos (concat chunks) (length (concat (firstn i chunks))) c /\
  length (concat (firstn (S i) chunks)) = (length (concat (firstn i chunks)) + length c)%nat.
Proof.
  induction chunks as [|d chunks IH]; intros [|i] c H; try discriminate; cbn [nth_error] in H.
  - injection H as <-. cbn [firstn concat length]. rewrite app_nil_r. split; [|reflexivity]. now exists [], (concat chunks).
  - destruct (IH i c H) as ((pre & post & E & L) & M). cbn [firstn concat]. rewrite !app_length. cbn [firstn concat] in M. split; [|rewrite M; lia].
    exists (d ++ pre), post. rewrite E, app_length, L. split; [now rewrite <- app_assoc|reflexivity].
Qed.

Lemma any_i16 a b : exists x, reads de_i16 [a; b] x.
Proof.
  eexists. intros r post H. unfold de_i16, de_prim. cbn [prim_width].
  change 2%nat with (length [a; b]). rewrite (reads_consume r [a; b] post) by (easy || exact H). reflexivity.
Qed.
Lemma any_counted n : forall bs, length bs = (2 * n)%nat -> exists l, length l = n /\ reads (de_counted de_i16 n) bs l.
Proof.
  induction n as [|n IH]; intros bs L; cbn [de_counted].
  - destruct bs; [|discriminate]. exists []. split; [reflexivity|apply reads_pret].
  - destruct bs as [|a [|b bs]]; try (cbn in L; lia). destruct (any_i16 a b) as (x & X). destruct (IH bs) as (l & Ll & R); [cbn in L; lia|].
    exists (x :: l). split; [cbn; lia|]. apply (reads_bind' _ _ (a :: b :: bs) [a; b] bs x (x :: l) eq_refl X).
    eapply (reads_bind' _ _ bs bs []); [now rewrite app_nil_r|exact R|apply reads_pret].
Qed.
Lemma any_tuple n bs : length bs = (2 * n)%nat -> exists t, reads (de_tuple n) bs t.
Proof.
  intros L. destruct (any_counted n bs L) as (l & _ & R). eexists. unfold de_tuple.
  eapply (reads_bind' _ _ bs bs []); [now rewrite app_nil_r|exact R|apply reads_pret].
Qed.
Lemma words_read t : Forall (in_range I16) t -> reads (de_tuple (length t)) (concat (map word t)) (map f2dot14_from_packed t).
Proof.
  intros H. unfold de_tuple. eapply (reads_bind' _ _ _ _ []); [now rewrite app_nil_r| |apply reads_pret].
  apply reads_counted. rewrite Forall_forall in *. intros x I. rewrite word_i16. apply reads_i16. specialize (H x I). unfold in_range in H. lia.
Qed.

Lemma positive_mant x : MGvar.positive x = (0 <? mant x).
Proof.
  unfold MGvar.positive, dy_ltb, dy_compare. cbv zeta. set (e := Z.min _ _). assert (He: e <= expo x) by (unfold e; cbn; lia).
  assert (He0: e <= 0) by (unfold e; cbn; lia). unfold dy_at. cbn [mant expo]. rewrite Z.mul_0_l.
  assert (Hp: 0 < 2 ^ (expo x - e)) by (apply Z.pow_pos_nonneg; lia).
  destruct (Z.compare_spec 0 (mant x * 2 ^ (expo x - e))) as [H|H|H]; symmetry; [apply Z.ltb_ge|apply Z.ltb_lt|apply Z.ltb_ge]; nia.
Qed.
Lemma read_set_ok tuples extra ce v d : stands_for tuples ce v d ->
  read_set (map (map f2dot14_from_packed) tuples ++ [extra]) (fst ce) (snd ce) v = Ok d.
Proof.
  intros (A & B & C & D & E). unfold read_set. rewrite A. cbn [rbind]. rewrite app_length, map_length. cbn [length].
  replace (tv_index (tv_header v) >? Z.of_nat (length tuples + 1)) with false by lia.
  set (sh := map (map f2dot14_from_packed) tuples ++ [extra]) in *.
  assert (EP: match tv_peak (tv_header v) with Some p => Ok p | None => at_ sh (Z.to_nat (tv_index (tv_header v))) end = Ok (ds_peak d)).
  { destruct (tv_peak (tv_header v)) as [p|]; [now rewrite C|]. destruct C as (t & N & C).
    assert (Hl: (Z.to_nat (tv_index (tv_header v)) < length tuples)%nat) by (apply nth_error_Some; congruence).
    unfold at_, sh. rewrite nth_error_app1 by (now rewrite map_length). rewrite nth_error_map, N. cbn. now rewrite C. }
  rewrite EP. cbn [rbind]. f_equal. destruct d as [p s e ds]. cbn [ds_peak ds_start ds_end ds_deltas] in *. f_equal.
  - rewrite D. destruct (tv_start (tv_header v)); [reflexivity|]. unfold implied_start. apply map_ext. intros x. now rewrite positive_mant.
  - rewrite E. destruct (tv_end (tv_header v)); [reflexivity|]. unfold implied_end. apply map_ext. intros x. now rewrite positive_mant.
Qed.

Lemma lift_bind {A B} (a : A) (f : A -> parser B) r : pbind (plift (Ok a)) f r = f a r.
Proof. reflexivity. Qed.
Lemma at_nth {A} (l : list A) i x : nth_error l i = Some x -> at_ l i = Ok x.
Proof. unfold at_. now intros ->. Qed.

Section Loop.
Variables (axes : nat) (tuples chunks : list (list Z)) (ces : outlines) (v : gvar) (extra : list dyadic) (buf : list Z) (data : Z).
Let shared := map (map f2dot14_from_packed) tuples ++ [extra].
Hypothesis Hold : chunks_hold axes tuples ces chunks v.
Hypothesis Hdata : at_pos buf (Z.to_nat data) (concat chunks).
Hypothesis Hd : 0 <= data /\ data + Z.of_nat (length (concat chunks)) < 2 ^ 32.

Lemma read_sets_ok ce vs sets : Forall2 (stands_for tuples ce) vs sets -> rmapM (read_set shared (fst ce) (snd ce)) vs = Ok sets.
Proof. induction 1 as [|x d vs sets H _ IH]; [reflexivity|]. cbn [rmapM]. unfold shared. rewrite (read_set_ok _ _ _ _ _ H). cbn [rbind]. fold shared. now rewrite IH. Qed.

Lemma glyphs_read n : forall i pos stk, (i + n = length v)%nat ->
  exists r, read_glyphs ces axes shared (starts 0 chunks) data i n (mkrd buf pos (0%nat :: stk)) = Ok (skipn i v, r).
Proof.
  destruct Hold as (L1 & L2 & H). induction n as [|n IH]; intros i pos stk E.
  - rewrite Nat.add_0_r in E. subst i. rewrite skipn_all. cbn. eexists. reflexivity.
  - destruct (nth_error v i) as [s|] eqn:Es; [|apply nth_error_None in Es; lia].
    destruct (nth_error ces i) as [ce|] eqn:Ec; [|apply nth_error_None in Ec; lia].
    destruct (nth_error chunks i) as [c|] eqn:Ek; [|apply nth_error_None in Ek; lia].
    specialize (H i ce c s Ec Ek Es). destruct (nth_chunk chunks i c Ek) as (At & Ln).
    assert (B: (length (concat (firstn i chunks)) + length c <= length (concat chunks))%nat) by (apply POffset.at_pos_len in At; lia).
    assert (Sk: skipn i v = s :: skipn (S i) v).
    { clear - Es. revert i Es. induction v as [|x l IHl]; intros [|i] Es; try discriminate; [now injection Es as ->|]. cbn [skipn]. now apply IHl. }
    rewrite Sk. cbn [read_glyphs].
    unfold at_ at 1 2. rewrite !nth_starts by lia. rewrite Ln. cbn [unwrap].
    rewrite lift_bind, PCmap4.chk_u_ok, lift_bind, lift_bind, PCmap4.chk_u_ok, lift_bind, PCmap4.chk_u_ok, lift_bind by lia.
    set (len := _ - _). assert (Elen: len = Z.of_nat (length c)) by (unfold len; lia). clearbody len. subst len.
    enough (One: exists pos', (if Z.of_nat (length c) =? 0 then pret None
       else _ <-- move_to (0 + Z.of_nat (length (concat (firstn i chunks))) + data) ;;
            ce <-- plift (at_ ces i) ;;
            vs <-- de_tvs axes true (Z.to_nat (u16 (Z.of_nat (length (fst ce))))) ;;
            sets <-- plift (rmapM (read_set shared (fst ce) (snd ce)) vs) ;;
            pret (Some sets)) (mkrd buf pos (0%nat :: stk)) = Ok (s, mkrd buf pos' (0%nat :: stk))).
    { destruct One as (pos' & One). unfold pbind at 1. rewrite One. unfold pbind at 1.
      destruct (IH (S i) pos' stk ltac:(lia)) as (r & ->). unfold pret. eauto. }
    destruct s as [sets|].
    + destruct H as (NE & Hn & bs & pad & vs & Eb & Rb & F2). destruct c as [|c0 c']; [easy|].
      replace (Z.of_nat (length (c0 :: c')) =? 0) with false by (cbn [length]; lia). rewrite Eb in At. clear NE.
      assert (NEb: at_pos buf (Z.to_nat (0 + Z.of_nat (length (concat (firstn i chunks))) + data)) bs).
      { destruct Hdata as (pre & post & -> & Lp). destruct At as (pre' & post' & -> & L). apply (f_equal Z.of_nat) in L.
        exists (pre ++ pre'), (pad ++ post' ++ post). rewrite <- !app_assoc. split; [reflexivity|]. rewrite app_length, Lp. lia. }
      destruct NEb as (pre & post & Ebuf & Lpre).
      unfold pbind at 1. unfold move_to. cbn [top_of_table rd_stack rd_input].
      rewrite (at_nth ces i ce Ec), lift_bind. unfold pbind at 1.
      rewrite u16_id, Nat2Z.id by lia. rewrite Nat.add_0_l, <- Lpre.
      assert (Rb': de_tvs axes true (length (fst ce)) (mkrd buf (length pre) (0%nat :: stk)) = Ok (vs, mkrd buf (length pre + length bs) (0%nat :: stk)))
        by (rewrite Ebuf; apply Rb).
      rewrite Rb', (read_sets_ok ce vs sets F2), lift_bind. unfold pret. eauto.
    + cbn [chunk_holds] in H. subst c. exists pos. reflexivity.
Qed.
End Loop.

Lemma offsets_read chunks : Z.of_nat (length (concat chunks)) < 2 ^ 32 ->
  reads (de_counted de_u32 (S (length chunks))) (offset_bytes true chunks) (starts 0 chunks).
Proof.
  intros H. rewrite <- (starts_length chunks 0). unfold offset_bytes. apply reads_counted. apply Forall_forall. intros x I.
  apply starts_bound in I. apply reads_dword. lia.
Qed.
Lemma halves_read chunks : Z.of_nat (length (concat chunks)) < 131072 ->
  reads (de_counted de_u16 (S (length chunks))) (offset_bytes false chunks) (map (fun o => o / 2) (starts 0 chunks)).
Proof.
  intros H. rewrite <- (starts_length chunks 0), <- (map_length (fun o => o / 2)). unfold offset_bytes.
  rewrite <- (map_map (fun o => o / 2) word). apply reads_counted. apply Forall_map, Forall_forall. intros x I.
  apply starts_bound in I. rewrite word_u16. apply reads_u16. lia.
Qed.
Lemma starts_even chunks : Forall (fun c => (length c mod 2 = 0)%nat) chunks -> forall pos, pos mod 2 = 0 -> Forall (fun x => x mod 2 = 0) (starts pos chunks).
Proof.
  induction 1 as [|c chunks H _ IH]; intros pos Hp; cbn [starts]; [now constructor|]. constructor; [exact Hp|]. apply IH. lia.
Qed.
Lemma doubled l : Forall (fun x => x mod 2 = 0 /\ 0 <= x < 65536) l -> rmapM (fun x => chk_u 16 (x * 2)) (map (fun o => o / 2) l) = Ok l.
Proof.
  induction 1 as [|x l (E & B) _ IH]; [reflexivity|]. cbn [map rmapM]. rewrite PCmap4.chk_u_ok by (cbn; lia). cbn [rbind]. rewrite IH. cbn [rbind].
  do 2 f_equal. lia.
Qed.
Lemma too_far l : Forall (fun x => 0 <= x) l -> Exists (fun x => x mod 2 = 0 /\ 65536 <= x) l -> rmapM (fun x => chk_u 16 (x * 2)) (map (fun o => o / 2) l) = Panic.
Proof.
  intros P H. revert P. induction H as [x l (E & B)|x l H IH]; intros P; cbn [map rmapM].
  - rewrite PName.chk_u_bad by (cbn; lia). reflexivity.
  - inversion P; subst. unfold chk_u at 1. destruct (_ && _); [|reflexivity]. cbn [rbind]. rewrite IH by assumption. reflexivity.
Qed.
Lemma starts_last chunks : forall pos, In (pos + Z.of_nat (length (concat chunks))) (starts pos chunks).
Proof.
  induction chunks as [|c chunks IH]; intros pos; cbn [starts concat length]; [left; lia|]. right. rewrite app_length.
  replace (pos + Z.of_nat (length c + length (concat chunks))) with (pos + Z.of_nat (length c) + Z.of_nat (length (concat chunks))) by lia. apply IH.
Qed.
Lemma short_i16s buf stk n : forall pos, (length buf < pos + 2 * n)%nat -> (pos <= length buf)%nat -> de_counted de_i16 n (mkrd buf pos stk) = Err.
Proof.
  induction n as [|n IH]; intros pos H Hp; [lia|]. cbn [de_counted]. unfold pbind at 1. unfold de_i16, de_prim, consume, consume_or_peek. cbn [prim_width rd_input rd_ptr rd_stack].
  destruct (length buf <? pos + 2)%nat eqn:E; [reflexivity|]. cbv iota. unfold pbind. unfold de_i16, de_prim, consume, consume_or_peek in IH.
  rewrite IH by lia. reflexivity.
Qed.
Lemma counted_then_err {A} (p : parser A) buf stk l bs : Forall2 (fun a b => reads p b a) l bs -> forall pos, at_pos buf pos (concat bs) ->
  p (mkrd buf (pos + length (concat bs)) stk) = Err -> de_counted p (length l + 1) (mkrd buf pos stk) = Err.
Proof.
  induction 1 as [|a b l bs R _ IH]; intros pos Ha He; cbn [length Nat.add concat] in *.
  - rewrite Nat.add_0_r in He. cbn [de_counted]. unfold pbind. now rewrite He.
  - cbn [de_counted]. apply POffset.at_pos_app in Ha as [Ha1 Ha2]. rewrite (step_reads p _ b a buf pos stk R Ha1). unfold pbind. rewrite IH; [reflexivity|exact Ha2|].
    rewrite app_length in He. now rewrite <- Nat.add_assoc.
Qed.
Lemma at_pos_whole buf post : at_pos (buf ++ post) 0 buf.
Proof. now exists [], post. Qed.

Section Read.
Variables (long : bool) (axes : nat) (tuples chunks : list (list Z)) (ces : outlines) (post : list Z).
Hypothesis Ha : Z.of_nat axes <= 65535.
Hypothesis Ht : tuples_ok axes tuples.
Hypothesis Hc : chunks_ok long axes tuples chunks.
Let buf := gvar_file long axes tuples chunks ++ post.
Let tuple_pos := 20 + Z.of_nat (length (offset_bytes long chunks)).
Let data_pos := tuple_pos + 2 * Z.of_nat axes * Z.of_nat (length tuples).

Lemma offset_bytes_length : Z.of_nat (length (offset_bytes long chunks)) = (if long then 4 else 2) * (Z.of_nat (length chunks) + 1).
Proof.
  unfold offset_bytes. rewrite (concat_const _ (if long then 4 else 2)%nat), map_length, starts_length; [destruct long; lia|].
  apply Forall_map, Forall_forall. intros x _. destruct long; reflexivity.
Qed.
Lemma tuple_bytes_length : length (concat (map (fun t => concat (map word t)) tuples)) = (2 * axes * length tuples)%nat.
Proof.
  rewrite <- (map_length (fun t => concat (map word t)) tuples). apply concat_const. rewrite Forall_map. destruct Ht as (_ & W). eapply Forall_impl; [|exact W].
  intros t (L & _). cbn beta. rewrite (concat_const _ 2), map_length by (apply Forall_map, Forall_forall; reflexivity). lia.
Qed.
Let head := word 1 ++ word 0 ++ word (Z.of_nat axes) ++ word (Z.of_nat (length tuples)) ++ dword tuple_pos ++
  word (Z.of_nat (length chunks)) ++ word (if long then 1 else 0) ++ dword data_pos.
Lemma head_length : length head = 20%nat.
Proof. reflexivity. Qed.
Lemma buf_split : buf = head ++ offset_bytes long chunks ++ concat (map (fun t => concat (map word t)) tuples) ++ concat chunks ++ post.
Proof. unfold buf, gvar_file. cbv zeta. fold tuple_pos data_pos. unfold head. rewrite <- !app_assoc. reflexivity. Qed.
Lemma head_pos : at_pos buf 0 head.
Proof. rewrite buf_split. now eexists [], _. Qed.
Lemma file_parts : at_pos buf 20 (offset_bytes long chunks) /\
  at_pos buf (Z.to_nat tuple_pos) (concat (map (fun t => concat (map word t)) tuples)) /\
  at_pos buf (Z.to_nat data_pos) (concat chunks ++ post) /\
  data_pos + Z.of_nat (length (concat chunks)) < 2 ^ 32 /\
  length buf = (Z.to_nat data_pos + length (concat chunks ++ post))%nat.
Proof.
  destruct Hc as (_ & Hl & _). pose proof (f_equal (@length Z) buf_split) as Hb. unfold buf at 1 in Hb. rewrite !app_length, head_length, tuple_bytes_length in Hb.
  assert (Ep: Z.to_nat tuple_pos = (20 + length (offset_bytes long chunks))%nat) by (unfold tuple_pos; lia).
  assert (Ed: Z.to_nat data_pos = (20 + length (offset_bytes long chunks) + 2 * axes * length tuples)%nat) by (unfold data_pos, tuple_pos; nia).
  rewrite Ed, Ep. rewrite buf_split. set (o := offset_bytes long chunks) in *. pose proof tuple_bytes_length as Tl. set (t := concat (map _ tuples)) in *.
  split; [|split; [|split; [|split]]].
  - exists head, (t ++ concat chunks ++ post). split; [reflexivity|reflexivity].
  - exists (head ++ o), (concat chunks ++ post). rewrite <- !app_assoc. split; [reflexivity|]. now rewrite app_length, head_length.
  - exists (head ++ o ++ t), []. rewrite app_nil_r, <- !app_assoc. split; [reflexivity|]. rewrite !app_length, head_length, Tl. lia.
  - unfold data_pos, tuple_pos. fold o. nia.
  - rewrite !app_length, head_length, Tl. lia.
Qed.

Lemma tuples_read : Forall2 (fun a b => reads (de_tuple axes) b a) (map (map f2dot14_from_packed) tuples) (map (fun t => concat (map word t)) tuples).
Proof.
  destruct Ht as (_ & W). clear - W. induction W as [|t l (L & F) _ IH]; [constructor|]. cbn [map]. constructor; [|exact IH]. subst axes. now apply words_read.
Qed.

Let finish (offsets : list Z) : parser gvar :=
   _ <-- move_to tuple_pos ;;
   n <-- plift (chk_u 16 (Z.of_nat (length tuples) + 1)) ;;
   shared <-- de_counted (de_tuple (Z.to_nat (Z.of_nat axes))) (Z.to_nat n) ;;
   read_glyphs ces (Z.to_nat (Z.of_nat axes)) shared offsets data_pos 0 (Z.to_nat (Z.of_nat (length chunks))).
Let offsets_parser : parser (list Z) :=
  if long then de_counted de_u32 (S (length chunks))
  else l <-- de_counted de_u16 (S (length chunks)) ;; plift (rmapM (fun x => chk_u 16 (x * 2)) l).

Lemma head_read : gvar_de ces (rd_new buf) = pbind offsets_parser finish (mkrd buf 20 [0%nat; 0%nat]).
Proof.
  destruct Ht as (T1 & _). destruct Hc as (C1 & C2 & _). destruct file_parts as (_ & _ & _ & B & _).
  pose proof head_pos as H. unfold gvar_de, rd_new, rd_push. cbn [rd_input rd_ptr rd_stack]. unfold head in H.
  assert (0 <= tuple_pos <= data_pos) by (unfold data_pos, tuple_pos; nia).
  do 7 (apply POffset.at_pos_app in H as [? H]).
  do 8 (erewrite step_reads; [| |eassumption]; [|first [rewrite word_u16; apply reads_u16; destruct long; lia | apply reads_dword; lia]]).
  rewrite PCmap4.chk_u_ok, lift_bind by (cbn; lia). unfold finish, offsets_parser.
  replace (Z.to_nat (Z.of_nat (length chunks) + 1)) with (S (length chunks)) by lia.
  destruct long; reflexivity.
Qed.

Hypothesis Hs : long = false -> Z.of_nat (length (concat chunks)) < 65536.
Lemma offsets_parsed : offsets_parser (mkrd buf 20 [0%nat; 0%nat]) = Ok (starts 0 chunks, mkrd buf (20 + length (offset_bytes long chunks)) [0%nat; 0%nat]).
Proof.
  destruct file_parts as (A & _ & _ & B & _). assert (0 <= data_pos) by (unfold data_pos, tuple_pos; nia). unfold offsets_parser. destruct long eqn:El.
  - apply PPart.at_pos_reads; [|exact A]. apply offsets_read. lia.
  - specialize (Hs eq_refl). erewrite step_reads; [|apply halves_read; lia|exact A]. rewrite doubled; [reflexivity|].
    apply Forall_forall. intros x I. split; [|apply starts_bound in I; lia]. revert x I. apply Forall_forall, starts_even; [|reflexivity].
    destruct Hc as (_ & _ & E). now apply E.
Qed.
Lemma gvar_read v : chunks_hold axes tuples ces chunks v ->
  ((2 * axes <= length (concat chunks ++ post))%nat -> from_bytes (gvar_de ces) buf = Ok v) /\
  ((length (concat chunks ++ post) < 2 * axes)%nat -> from_bytes (gvar_de ces) buf = Err).
Proof.
  intros Hold. unfold from_bytes. rewrite head_read. unfold pbind. rewrite offsets_parsed.
  destruct file_parts as (_ & At & Ad & B & Lb). destruct Ht as (T1 & _).
  assert (En: finish (starts 0 chunks) (mkrd buf (20 + length (offset_bytes long chunks)) [0%nat; 0%nat]) =
    (shared <-- de_counted (de_tuple axes) (length tuples + 1) ;; read_glyphs ces axes shared (starts 0 chunks) data_pos 0 (length chunks))
      (mkrd buf (Z.to_nat tuple_pos) [0%nat; 0%nat])).
  { unfold finish. rewrite !Nat2Z.id. unfold pbind at 1. unfold move_to. cbn [top_of_table rd_stack rd_input].
    rewrite PCmap4.chk_u_ok, lift_bind by (cbn; lia). now replace (Z.to_nat (Z.of_nat (length tuples) + 1)) with (length tuples + 1)%nat by lia. }
  rewrite En. clear En. assert (Hd0: 0 <= tuple_pos <= data_pos) by (unfold data_pos, tuple_pos; nia).
  assert (Et: (Z.to_nat tuple_pos + length (concat (map (fun t => concat (map word t)) tuples)))%nat = Z.to_nat data_pos)
    by (rewrite tuple_bytes_length; unfold data_pos, tuple_pos in *; nia).
  split; intros L.
  - destruct Ad as (pre & post' & Eb & Lp).
    assert (Ex: exists t, reads (de_tuple axes) (firstn (2 * axes) (concat chunks ++ post)) t).
    { apply any_tuple. rewrite firstn_length. lia. }
    destruct Ex as (extra & Rx).
    assert (Rs: reads (de_counted (de_tuple axes) (length tuples + 1))
       (concat (map (fun t => concat (map word t)) tuples ++ [firstn (2 * axes) (concat chunks ++ post)])) (map (map f2dot14_from_packed) tuples ++ [extra])).
    { rewrite <- (map_length (map f2dot14_from_packed) tuples). change 1%nat with (length [extra]). rewrite <- app_length. apply reads_counted2.
      apply Forall2_app; [exact tuples_read|]. now repeat constructor. }
    rewrite (step_reads _ _ _ _ buf (Z.to_nat tuple_pos) _ Rs).
    + destruct Hold as (L1 & H2). pose proof (conj L1 H2 : chunks_hold axes tuples ces chunks v) as Hold. rewrite L1.
      destruct (glyphs_read axes tuples chunks ces v extra buf data_pos Hold) with (n := length v) (i := 0%nat) 
        (pos := (Z.to_nat tuple_pos + length (concat (map (fun t => concat (map word t)) tuples ++ [firstn (2 * axes) (concat chunks ++ post)])))%nat) (stk := [0%nat]) as (r & Er).
      * exists pre, (post ++ post'). rewrite Eb. rewrite <- app_assoc. now split.
      * lia.
      * reflexivity.
      * rewrite Er. reflexivity.
    + rewrite concat_app. cbn [concat]. rewrite app_nil_r.
      destruct At as (pre0 & post0 & Eb0 & Lp0). exists pre0, (skipn (2 * axes) (concat chunks ++ post) ++ post'). split; [|exact Lp0].
      rewrite <- !app_assoc. rewrite (app_assoc (firstn _ _)), firstn_skipn. rewrite Eb0. f_equal. f_equal.
      apply (f_equal (skipn (Z.to_nat data_pos))) in Eb0. rewrite Eb in Eb0 at 1. rewrite <- Lp in Eb0 at 1. rewrite skipn_app_exact in Eb0.
      rewrite Eb0. rewrite <- Et, <- Lp0, <- app_length, app_assoc. now rewrite skipn_app_exact.
  - unfold pbind. rewrite <- (map_length (map f2dot14_from_packed) tuples).
    rewrite (counted_then_err _ buf [0%nat; 0%nat] _ _ tuples_read (Z.to_nat tuple_pos) At); [reflexivity|].
    rewrite Et. unfold de_tuple, pbind. rewrite short_i16s; [reflexivity|lia|lia].
Qed.
End Read.
Lemma gvar_read_far axes tuples chunks ces post : Z.of_nat axes <= 65535 -> tuples_ok axes tuples -> chunks_ok false axes tuples chunks ->
  65536 <= Z.of_nat (length (concat chunks)) < 131072 ->
  from_bytes (gvar_de ces) (gvar_file false axes tuples chunks ++ post) = Panic.
Proof.
  intros Ha Ht Hc Hd. unfold from_bytes. rewrite (head_read false axes tuples chunks ces post Ha Ht Hc).
  destruct (file_parts false axes tuples chunks post Ht Hc) as (A & _). unfold pbind at 1. erewrite step_reads; [|apply halves_read; lia|exact A].
  rewrite too_far; [reflexivity| |].
  - apply Forall_forall. intros x I. apply starts_bound in I. lia.
  - apply Exists_exists. exists (0 + Z.of_nat (length (concat chunks))). split; [apply starts_last|]. split; [|lia].
    pose proof (starts_last chunks 0) as I. revert I. destruct Hc as (_ & _ & E). pose proof (starts_even chunks (E eq_refl) 0 eq_refl) as F. rewrite Forall_forall in F. apply F.
Qed.

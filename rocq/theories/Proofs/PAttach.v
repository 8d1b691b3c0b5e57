(** Positioning subtables: cursive and mark attachment. *)
From Coq Require Import List ZArith Lia Bool Permutation Sorted.
Import ListNotations.
From Verif.Model Require Import MBase MMap MTag MGlyph MOffset MLayout MLow MContext MLookup MValue MGsub MGpos.
From Verif.Spec Require Import SBase SGlyph SOffset SLayout SContext SValue SGsub SGpos.
From Verif.Proofs Require Import PBase PCodec PMap PTag PGlyph PGlyphFmt PPoints POffset PPart PCover PClassdef PDevice PValue PLow PContext PGsub PGpos PPair.
Open Scope Z_scope.

(** ** Anchors *)
Lemma anchor_ser_bytes a : anchor_ser a = anchor_bytes a.
Proof. unfold anchor_ser, anchor_bytes. destruct (an_point a); rewrite <- ?word_u16, <- ?word_i16, ?app_nil_r; reflexivity. Qed.
Lemma anchor_reads a : anchor_ok a -> reads anchor_de (anchor_bytes a) a.
Proof.
  intros (Hx & Hy & Hp). unfold anchor_de, anchor_bytes. destruct a as [x y [p|]]; cbn [an_x an_y an_point] in *; unfold is_i16, is_u16 in *.
  - eapply reads_bind; [rewrite word_u16; apply reads_u16; lia|]. eapply reads_bind; [rewrite word_i16; apply reads_i16; lia|]. eapply reads_bind; [rewrite word_i16; apply reads_i16; lia|].
    change (2 =? 1) with false. change (2 =? 2) with true. cbn iota. apply (reads_map de_u16 (fun p => mk_anchor x y (Some p))). rewrite word_u16. apply reads_u16. lia.
  - eapply reads_bind; [rewrite word_u16; apply reads_u16; lia|]. eapply reads_bind; [rewrite word_i16; apply reads_i16; lia|].
    eapply reads_bind'; [symmetry; apply app_nil_r|rewrite word_i16; apply reads_i16; lia|]. change (1 =? 1) with true. cbn iota. apply reads_pret.
Qed.
Lemma anchor_part a : opt_anchor_ok a -> part (de_off16 anchor_de) [anchor_link a] a.
Proof.
  destruct a as [a|]; intros H; [|apply part_off16_null]. apply part_off16. apply decodes_reads. now apply anchor_reads.
Qed.
Lemma anchor_link_enc a : link_enc anchor_enc a = Ok (anchor_link a).
Proof. destruct a as [a|]; [|reflexivity]. cbn [link_enc anchor_enc rbind]. now rewrite anchor_ser_bytes. Qed.

Lemma concat_singles {A B} (f : A -> B) l : concat (map (fun x => [f x]) l) = map f l.
Proof. induction l as [|a l IH]; [reflexivity|]. cbn. now rewrite IH. Qed.
Lemma part_singles {A} (p : parser A) (f : A -> item) vs : Forall (fun v => part p [f v] v) vs -> part (de_counted p (length vs)) (map f vs) vs.
Proof. intros H. rewrite <- concat_singles. now apply part_counted. Qed.
Lemma part_items {A B} (p : parser B) (f : A -> item) (g : A -> B) vs : Forall (fun v => part p [f v] (g v)) vs -> part (de_counted p (length vs)) (map f vs) (map g vs).
Proof.
  intros H. rewrite <- concat_singles. rewrite <- (map_length g). apply part_counted2. induction H; cbn [map]; constructor; auto.
Qed.

(** ** Cursive attachment *)
Lemma entry_exit_part r : entry_exit_ok r -> part entry_exit_de [IGroup [anchor_link (fst r); anchor_link (snd r)]] r.
Proof.
  intros [H1 H2]. apply part_group. change [anchor_link (fst r); anchor_link (snd r)] with ([anchor_link (fst r)] ++ [anchor_link (snd r)]).
  destruct r as [a b]. cbn [fst snd] in *. unfold entry_exit_de. eapply part_bind; [now apply anchor_part|]. apply (part_map _ (fun b => (a, b))). now apply anchor_part.
Qed.
Lemma curs_low m o : curs_file m o -> exists s, decodes p3_de o s /\ curs_from_low s = Ok m.
Proof.
  destruct 1 as [m c Hi Hc Hn Ha]. exists (P31 1 (Some (map fst m)) (map snd m)). split.
  - unfold curs_obj. apply decodes_part. eapply part_bind; [apply part_word; unfold is_u16; lia|]. eapply part_bind; [apply part_cov; exact Hc|].
    apply (part_map _ (fun rs => P31 1 (Some (map fst m)) rs)). unfold de_counted16. eapply part_bind; [apply part_word; unfold countable, is_u16 in *; rewrite map_length; lia|].
    rewrite Nat2Z.id. apply part_group. apply part_singles. eapply Forall_impl; [|exact Ha]. intros r Hr. now apply entry_exit_part.
  - cbn [curs_from_low cov_or_nah]. rewrite combine_fst_snd. f_equal. now apply of_list_increasing.
Qed.
Lemma curs_every m o : curs_file m o -> decodes curs_read o m.
Proof.
  intros H. destruct (curs_low m o H) as (s & D & E). unfold curs_read, gpos_de. change (3 =? 9) with false. cbn iota. exact (decodes_lift p3_de curs_from_low o s m D E).
Qed.
Lemma curs_written m : glyph_map entry_exit_ok m -> exists o, curs_write m = Ok o /\ curs_file m o.
Proof.
  intros Hm. destruct (cov_link (map fst m) (proj1 Hm) (glyph_map_keys _ _ Hm)) as (c & Ec & C). pose proof (glyph_map_count _ _ Hm) as Hn.
  assert (Hn': countable (map snd m)) by (unfold countable in *; now rewrite map_length).
  exists (curs_obj c (map snd m)). split; [|constructor; auto; [apply Hm|now apply glyph_map_vals]].
  unfold curs_write, curs_to_low. cbn [gpos_enc]. rewrite Ec. cbn [rbind].
  rewrite (rmapM_Ok _ (fun r : option anchor * option anchor => IGroup [anchor_link (fst r); anchor_link (snd r)])) by (intros r _; unfold entry_exit_enc; now rewrite !anchor_link_enc).
  cbn [rbind]. rewrite len_word by exact Hn'. rewrite <- word_u16. reflexivity.
Qed.

(** ** Marks *)
Lemma mark_part m : mark_ok m -> part mark_de [IGroup (raw (word (fst m)) ++ [anchor_link (Some (snd m))])] (fst m, Some (snd m)).
Proof.
  intros [H1 H2]. apply part_group. unfold mark_de. eapply part_bind; [now apply part_word|]. apply (part_map _ (fun a => (fst m, a))). now apply anchor_part.
Qed.
Lemma mark_array_decodes ms : countable ms -> Forall mark_ok ms -> decodes mark_array_de (mark_array_obj ms) (map (fun m => (fst m, Some (snd m))) ms).
Proof.
  intros Hc H. unfold mark_array_obj. apply decodes_part. unfold de_counted16. eapply part_bind; [apply part_word; unfold countable, is_u16 in *; lia|]. rewrite Nat2Z.id.
  apply part_group. apply (part_items mark_de (fun m => IGroup (raw (word (fst m)) ++ [anchor_link (Some (snd m))])) (fun m => (fst m, Some (snd m)))).
  eapply Forall_impl; [|exact H]. intros. now apply mark_part.
Qed.
Lemma rows_decodes n rows : countable rows -> Forall (fun r => Z.of_nat (length r) = n /\ Forall opt_anchor_ok r) rows -> decodes (rows_de n) (rows_obj rows) rows.
Proof.
  intros Hc H. unfold rows_obj, rows_de. apply decodes_part. unfold de_counted16. eapply part_bind; [apply part_word; unfold countable, is_u16 in *; lia|]. rewrite Nat2Z.id.
  apply part_group. apply (part_singles _ (fun r => IGroup (map anchor_link r))). eapply Forall_impl; [|exact H]. intros r [<- Hr]. rewrite Nat2Z.id.
  apply part_group. apply part_singles. eapply Forall_impl; [|exact Hr]. intros. now apply anchor_part.
Qed.
Lemma map_In_ext {K V} (ltb : K -> K -> bool) (m1 m2 : list (K * V)) : strict_total ltb -> sorted_map ltb m1 -> sorted_map ltb m2 ->
  (forall k v, In (k, v) m1 <-> In (k, v) m2) -> m1 = m2.
Proof.
  intros St S1 S2 E. apply (sorted_map_ext ltb St); auto. intros k. destruct (bm_get ltb k m1) as [v|] eqn:G.
  - apply (get_In ltb St) in G. apply E in G. symmetry. now apply (In_get ltb St).
  - symmetry. apply (get_not_in ltb St). intros v X. apply E in X. apply (In_get ltb St) in X; [|exact S1]. congruence.
Qed.
Lemma row_from_spec n m r : is_u16 n -> row_shows n m r -> row_from_low r = m.
Proof.
  intros Hn (L & Hi & Ha & H).
  set (l := concat (map (fun ia : Z * option anchor => match snd ia with Some a => [(u16 (fst ia), a)] | None => [] end) (enumerate 0 r))).
  assert (E: row_from_low r = bm_of_list Z.ltb l).
  { unfold row_from_low, bm_of_list, l. clear.
    match goal with |- fold_left ?f ?e [] = fold_left ?g ?l [] => cut (forall acc, fold_left f e acc = fold_left g l acc); [intros X; apply X|] end. induction (enumerate 0 r) as [|[i [a|]] e IH]; intros acc; cbn [map concat fold_left fst snd app]; [reflexivity|apply IH|apply IH]. }
  rewrite E. clear E. assert (I: forall k a, In (k, a) l <-> 0 <= k /\ nth_error r (Z.to_nat k) = Some (Some a)).
  { intros k a. unfold l. rewrite in_concat. split.
    - intros (x & Hx & Hk). apply in_map_iff in Hx as ([i [b|]] & <- & Hx); cbn [fst snd] in Hk; [|destruct Hk]. destruct Hk as [E|[]]. apply enumerate_In in Hx as [B N]. rewrite Z.sub_0_r in N.
      assert (Y: nth_error r (Z.to_nat i) <> None) by congruence. apply nth_error_Some in Y. unfold is_u16 in Hn. rewrite u16_id in E by lia. injection E as <- <-. auto.
    - intros [B N]. assert (Y: nth_error r (Z.to_nat k) <> None) by congruence. apply nth_error_Some in Y. unfold is_u16 in Hn. eexists. split.
      + apply in_map_iff. exists (k, Some a). split; [reflexivity|]. apply enumerate_In. rewrite Z.sub_0_r. auto.
      + cbn [fst snd]. rewrite u16_id by lia. now left. }
  apply (map_In_ext Z.ltb); [exact Z_strict|apply of_list_sorted; exact Z_strict|now apply increasing_sorted_map|]. intros k a.
  rewrite (of_list_In Z.ltb l k a Z_strict), I, H; [reflexivity|]. intros k' v v' H1 H2. apply I in H1 as [_ H1]. apply I in H2 as [_ H2]. congruence.
Qed.
Lemma rows_from n ms rows : is_u16 n -> Forall2 (row_shows n) ms rows -> map row_from_low rows = ms.
Proof. intros Hn. induction 1 as [|m r ms rows H F IH]; [reflexivity|]. cbn [map]. now rewrite (row_from_spec n m r Hn H), IH. Qed.
Lemma rows_shown n ms rows : Forall2 (row_shows n) ms rows -> Forall (fun r => Z.of_nat (length r) = n /\ Forall opt_anchor_ok r) rows.
Proof. induction 1 as [|m r ms rows (H1 & _ & H2 & _) F IH]; constructor; auto. Qed.
Lemma marks_from m c ms : marks_file m c -> ms = map (fun m => (fst m, Some (snd m))) (map snd m) -> marks_from_low (Some (map fst m)) (Some ms) = m.
Proof.
  intros (H1 & _) ->. unfold marks_from_low. cbn [cov_or_nah or_nil]. rewrite map_map. cbn [fst snd or_anchor].
  replace (map (fun x : Z * anchor => (fst x, snd x)) (map snd m)) with (map snd m) by (rewrite <- (map_id (map snd m)) at 1; apply map_ext; now intros []).
  rewrite combine_fst_snd. now apply of_list_increasing.
Qed.

(** following the last offset *)
Lemma stored_bound lim buf base pos l : stored lim buf base pos l -> (pos <= length buf)%nat.
Proof.
  assert (P: forall pos bs, at_pos buf pos bs -> (pos <= length buf)%nat) by (intros p bs (pre & post & -> & <-); rewrite !app_length; lia).
  induction 1; eauto.
Qed.
Lemma stored_link buf base pos o : stored 65536 buf base pos [link o] ->
  exists v, is_u16 v /\ at_pos buf pos (word v) /\ stored 65536 buf (base + Z.to_nat v) (base + Z.to_nat v) o.
Proof.
  intros H. destruct (stored_links buf base pos [o] H) as (vs & A & U & F). inversion F as [|v ? vs' ? Hv F']; subst. inversion F'; subst. inversion U; subst.
  exists v. split; [assumption|]. split; [|exact Hv]. unfold words in A. cbn [map concat] in A. now rewrite app_nil_r in A.
Qed.
Lemma reads_word16 v : is_u16 v -> reads de_u16 (word v) v.
Proof. intros H. rewrite word_u16. apply reads_u16. unfold is_u16 in H. lia. Qed.
Lemma ends_goto {A B} (p : parser A) (f : A -> B) o a : finds p o a -> ends (off <-- de_u16 ;; _ <-- goto off ;; x <-- p ;; pret (f x)) [link o] (f a).
Proof.
  intros H buf base pos stk S. destruct (stored_link _ _ _ _ S) as (v & U & At & St). unfold pbind. rewrite (at_pos_reads _ _ _ _ _ (base :: stk) (reads_word16 v U) At).
  unfold goto. cbn [top_of_table rd_stack rd_input]. destruct (H _ _ (base :: stk) St) as [q E]. rewrite E. exists q. reflexivity.
Qed.
Lemma ends_follow {A} (p : parser A) o a : finds p o a -> ends (off <-- de_u16 ;; _ <-- follow off ;; p) [link o] a.
Proof.
  intros H buf base pos stk S. destruct (stored_link _ _ _ _ S) as (v & U & At & St). unfold pbind. rewrite (at_pos_reads _ _ _ _ _ (base :: stk) (reads_word16 v U) At).
  unfold follow, follow_offset. cbn [top_of_table rd_stack rd_input rbind]. pose proof (stored_bound _ _ _ _ _ St) as B.
  replace (length buf <? base + Z.to_nat v)%nat with false by (symmetry; apply Nat.ltb_ge; exact B). exact (H _ _ (base :: stk) St).
Qed.
Lemma attach_head {A} (f : Z -> option (list Z) -> option (list Z) -> Z -> option (list mark_record) -> parser A) gs c gb b n (ms : list (Z * anchor)) target v :
  cov_obj gs c -> cov_obj gb b -> is_u16 n -> countable ms -> Forall mark_ok ms ->
  ends (f 1 (Some gs) (Some gb) n (Some (map (fun m => (fst m, Some (snd m))) ms))) [link target] v ->
  ends (x <-- de_u16 ;; m <-- de_cov ;; b <-- de_cov ;; n <-- de_u16 ;; ma <-- de_off16 mark_array_de ;; f x m b n ma) (attach_obj c b n ms target) v.
Proof.
  intros Hc Hb Hn Hl Hm H. unfold attach_obj. eapply ends_bind; [apply part_word; unfold is_u16; lia|]. change ([link c; link b] ++ ?l) with ([link c] ++ [link b] ++ l).
  eapply ends_bind; [apply part_cov; exact Hc|]. eapply ends_bind; [apply part_cov; exact Hb|]. eapply ends_bind; [now apply part_word|].
  eapply (ends_bind' _ _ _ [link (mark_array_obj ms)] [link target]); [reflexivity|apply part_off16; now apply mark_array_decodes|]. exact H.
Qed.
Lemma attach_low k ms bs c b n rows : marks_file ms c -> cov_obj (map fst bs) b -> countable bs -> is_u16 n -> Forall2 (row_shows n) (map snd bs) rows ->
  finds (attach_de k) (attach_obj c b n (map snd ms) (rows_obj rows)) (k 1 (Some (map fst ms)) (Some (map fst bs)) n (Some (map (fun m => (fst m, Some (snd m))) (map snd ms))) rows).
Proof.
  intros (M1 & M2 & M3 & M4) Hb Hl Hn Hr. unfold attach_de. apply ends_finds.
  apply (attach_head (fun f m b n ma => off <-- de_u16 ;; _ <-- goto off ;; ba <-- rows_de n ;; pret (k f m b n ma ba)) (map fst ms) c (map fst bs)); auto.
  { unfold countable in *. now rewrite map_length. }
  apply (ends_goto (rows_de n) (fun ba => k 1 (Some (map fst ms)) (Some (map fst bs)) n _ ba)). apply decodes_finds. apply rows_decodes; [|eapply rows_shown; exact Hr].
  unfold countable in *. rewrite <- (F2_len _ _ _ Hr), map_length. exact Hl.
Qed.
Lemma mbase_low m o : mbase_file m o -> exists s, finds (attach_de P41) o s /\ mbase_from_low s = Ok m.
Proof.
  destruct 1 as [ms bs c b n rows Hm Hi Hb Hl Hn Hr]. eexists. split; [eapply attach_low; eauto|]. cbn [mbase_from_low]. f_equal. unfold mb_from. f_equal; [eapply marks_from; eauto|].
  cbn [cov_or_nah]. rewrite (rows_from n _ _ Hn Hr), combine_fst_snd. now apply of_list_increasing.
Qed.
Lemma mmark_low m o : mbase_file m o -> exists s, finds (attach_de P61) o s /\ mmark_from_low s = Ok m.
Proof.
  destruct 1 as [ms bs c b n rows Hm Hi Hb Hl Hn Hr]. eexists. split; [eapply attach_low; eauto|]. cbn [mmark_from_low]. f_equal. unfold mb_from. f_equal; [eapply marks_from; eauto|].
  cbn [cov_or_nah]. rewrite (rows_from n _ _ Hn Hr), combine_fst_snd. now apply of_list_increasing.
Qed.
Lemma mbase_every m o : mbase_file m o -> finds mbase_read o m.
Proof.
  intros H. destruct (mbase_low m o H) as (s & D & E). unfold mbase_read, gpos_de. change (4 =? 9) with false. cbn iota. exact (finds_lift (attach_de P41) mbase_from_low o s m D E).
Qed.
Lemma mmark_every m o : mbase_file m o -> finds mmark_read o m.
Proof.
  intros H. destruct (mmark_low m o H) as (s & D & E). unfold mmark_read, gpos_de. change (6 =? 9) with false. cbn iota. exact (finds_lift (attach_de P61) mmark_from_low o s m D E).
Qed.
Lemma ligs_find n ligs : (length ligs <= 1)%nat -> Forall (fun rows => countable rows /\ Forall (fun r => Z.of_nat (length r) = n /\ Forall opt_anchor_ok r) rows) ligs ->
  finds (with_base (de_counted16 (lig_attach_de n))) (links (map rows_obj ligs)) ligs.
Proof.
  intros L H. apply ends_finds. unfold links, de_counted16. rewrite map_length. eapply ends_bind; [apply part_word; unfold is_u16; lia|]. rewrite Nat2Z.id.
  destruct ligs as [|rows [|? ?]]; [..|cbn in L; lia].
  - cbn [length de_counted map]. apply part_ends. apply part_group. apply part_pret.
  - inversion H as [|? ? [Hc Hr] _]; subst. cbn [length de_counted map].
    intros buf base pos stk S. inversion S; subst. rewrite app_nil_r in *. 
    destruct (ends_follow (rows_de n) (rows_obj rows) rows (decodes_finds _ _ _ (rows_decodes n rows Hc Hr)) buf base pos stk ltac:(assumption)) as [q E].
    fold (lig_attach_de n) in E. unfold pbind at 1. rewrite E. exists q. reflexivity.
Qed.
Lemma mlig_low m o : (length (ml_ligs m) <= 1)%nat -> mlig_file m o -> exists s, finds p5_de o s /\ mlig_from_low s = Ok m.
Proof.
  intros L. destruct 1 as [ms ls c b n ligs Hm Hi Hb Hl Hn Hr]. cbn [ml_ligs] in L.
  exists (P51 1 (Some (map fst ms)) (Some (map fst ls)) n (Some (map (fun m => (fst m, Some (snd m))) (map snd ms))) ligs). split.
  - unfold p5_de. apply ends_finds. destruct Hm as (M1 & M2 & M3 & M4).
    apply (attach_head (fun f m b n ma => off <-- de_u16 ;; _ <-- follow off ;; la <-- with_base (de_counted16 (lig_attach_de n)) ;; pret (P51 f m b n ma la)) (map fst ms) c (map fst ls)); auto.
    { unfold countable in *. now rewrite map_length. }
    apply (ends_follow (la <-- with_base (de_counted16 (lig_attach_de n)) ;; pret (P51 1 (Some (map fst ms)) (Some (map fst ls)) n (Some (map (fun m => (fst m, Some (snd m))) (map snd ms))) la))).
    intros buf pos stk S. destruct (ligs_find n ligs) with (buf := buf) (pos := pos) (stk := stk) as [q E]; auto.
    + rewrite <- (F2_len _ _ _ Hr), map_length. exact L.
    + clear - Hr. revert Hr. generalize (map snd ls). intros l Hr. induction Hr as [|comps rows l' ligs' [H1 H2] F IH]; constructor; auto. split; [eapply Forall2_countable; eauto|eapply rows_shown; eauto].
    + exists q. unfold pbind. now rewrite E.
  - cbn [mlig_from_low]. f_equal. f_equal; [eapply marks_from; eauto|]. cbn [cov_or_nah].
    replace (map (map row_from_low) ligs) with (map snd ls); [rewrite combine_fst_snd; now apply of_list_increasing|].
    clear - Hr Hn. revert Hr. generalize (map snd ls). intros l Hr. induction Hr as [|comps rows l' ligs' [H1 H2] F IH]; [reflexivity|]. cbn [map]. now rewrite (rows_from n _ _ Hn H2), IH.
Qed.
Lemma mlig_every m o : (length (ml_ligs m) <= 1)%nat -> mlig_file m o -> finds mlig_read o m.
Proof.
  intros L H. destruct (mlig_low m o L H) as (s & D & E). unfold mlig_read, gpos_de. change (5 =? 9) with false. cbn iota. exact (finds_lift p5_de mlig_from_low o s m D E).
Qed.

(** ** Writing *)
Lemma class_count_ok l n0 : Forall (fun k => 0 <= k <= 65534) l -> 0 <= n0 <= 65535 ->
  exists n, class_count l n0 = Ok n /\ 0 <= n <= 65535 /\ forall k, k < n <-> k < n0 \/ exists k', In k' l /\ k <= k'.
Proof.
  revert n0. induction l as [|k l IH]; intros n0 H Hn.
  - exists n0. split; [reflexivity|]. split; [exact Hn|]. intros k. split; [auto|]. intros [?|(k' & [] & _)]. assumption.
  - inversion H; subst. cbn [class_count]. unfold chk_u. replace ((0 <=? k + 1) && (k + 1 <? 2 ^ 16)) with true by (change (2 ^ 16) with 65536; lia). cbn [rbind].
    destruct (IH (if n0 <? k + 1 then k + 1 else n0) ltac:(assumption) ltac:(destruct (n0 <? k + 1); lia)) as (n & E & B & S). exists n. split; [exact E|]. split; [exact B|].
    intros x. rewrite S. split.
    + intros [X|(k' & Hi & X)]; [|right; exists k'; split; [now right|exact X]]. destruct (Z.ltb_spec n0 (k + 1)); [right; exists k; split; [now left|lia]|now left].
    + intros [X|(k' & [->|Hi] & X)]; [left; destruct (Z.ltb_spec n0 (k + 1)); lia|left; destruct (Z.ltb_spec n0 (k' + 1)); lia|right; eauto].
Qed.
Lemma class_count_panic l n0 : Forall is_u16 l -> In 65535 l -> class_count l n0 = Panic.
Proof.
  revert n0. induction l as [|k l IH]; intros n0 H Hi; [destruct Hi|]. inversion H; subst. cbn [class_count]. unfold chk_u.
  destruct ((0 <=? k + 1) && (k + 1 <? 2 ^ 16)) eqn:E; cbn [rbind]; [|reflexivity]. apply IH; [assumption|]. destruct Hi as [->|Hi]; [discriminate|exact Hi].
Qed.
Lemma reached_spec ms k : reached ms k = true <-> exists k', In k' (map (fun kv : Z * (Z * anchor) => fst (snd kv)) ms) /\ k <= k'.
Proof.
  unfold reached. rewrite existsb_exists. split.
  - intros (m & Hm & H). exists (fst (snd m)). split; [exact (in_map (fun kv : Z * (Z * anchor) => fst (snd kv)) _ _ Hm)|lia].
  - intros (k' & Hk & H). apply in_map_iff in Hk as (m & <- & Hm). exists m. split; [exact Hm|lia].
Qed.
Lemma nth_zrange n k : 0 <= k -> nth_error (zrange 0 n) (Z.to_nat k) = if k <? n then Some k else None.
Proof.
  intros H. unfold zrange. destruct (Z.ltb_spec k n).
  - rewrite nth_error_map. rewrite (nth_error_nth' _ 0%nat) by (rewrite seq_length; lia). rewrite seq_nth by lia. cbn [option_map]. f_equal. lia.
  - apply nth_error_None. rewrite map_length, seq_length. lia.
Qed.
Lemma increasing_filter {V} f (m : list (Z * V)) : increasing (map fst m) -> increasing (map fst (filter f m)).
Proof.
  intros H. apply SS_increasing. apply increasing_SS in H. induction m as [|a m IH]; [constructor|]. cbn [map] in H. inversion H as [|? ? H1 H2]; subst. cbn [filter].
  destruct (f a); [|auto]. cbn [map]. constructor; [auto|]. apply Forall_forall. intros x Hx. apply in_map_iff in Hx as (y & <- & Hy). apply filter_In in Hy as [Hy _].
  rewrite Forall_forall in H2. apply H2. now apply in_map.
Qed.
Lemma row_to_shows ms n m : anchors_ok m -> is_u16 n -> (forall k, 0 <= k -> (k < n <-> reached ms k = true)) -> row_shows n (kept_anchors ms m) (row_to_low n m).
Proof.
  intros [Hi Hf] Hn Hr. unfold is_u16 in Hn. assert (Sm: sorted_map Z.ltb m) by now apply increasing_sorted_map. rewrite Forall_forall in Hf. unfold row_to_low. split; [|split; [|split]].
  - rewrite map_length. unfold zrange. rewrite map_length, seq_length. lia.
  - now apply increasing_filter.
  - apply Forall_map. apply Forall_forall. intros k _. destruct (bm_get Z.ltb k m) as [a|] eqn:G; [|exact I]. apply (get_In Z.ltb Z_strict) in G. exact (proj2 (Hf _ G)).
  - intros k a. unfold kept_anchors. rewrite filter_In. cbn [fst]. split.
    + intros [H1 H2]. assert (K: 0 <= k) by (pose proof (proj1 (Hf _ H1)) as U; unfold is_u16 in U; cbn in U; lia). split; [exact K|]. apply Hr in H2; [|exact K].
      rewrite nth_error_map, nth_zrange by exact K. replace (k <? n) with true by lia. cbn [option_map]. f_equal. now apply (In_get Z.ltb Z_strict).
    + intros [K H]. rewrite nth_error_map, nth_zrange in H by exact K. destruct (Z.ltb_spec k n) as [L|L]; [|discriminate]. cbn [option_map] in H. injection H as H.
      apply (get_In Z.ltb Z_strict) in H. split; [exact H|]. now apply Hr.
Qed.
Lemma marks_array_enc ms : countable ms -> link_enc mark_array_enc (Some (marks_to_low ms)) = Ok (link (mark_array_obj (map snd ms))).
Proof.
  intros Hc. cbn [link_enc]. unfold mark_array_enc, marks_to_low.
  rewrite (rmapM_Ok _ (fun r : mark_record => IGroup (raw (word (fst r)) ++ [anchor_link (snd r)]))) by (intros r _; unfold mark_enc; rewrite anchor_link_enc; cbn [rbind]; now rewrite word_u16).
  cbn [rbind]. rewrite len_word by (unfold countable in *; now rewrite map_length). unfold link, mark_array_obj. rewrite !map_length, !map_map. reflexivity.
Qed.
Lemma rows_enc_ok rows : countable rows -> rows_enc rows = Ok (rows_obj rows).
Proof.
  intros Hc. unfold rows_enc. rewrite (rmapM_Ok _ (fun r => IGroup (map anchor_link r))).
  - cbn [rbind]. now rewrite len_word.
  - intros r _. unfold row_enc. rewrite (rmapM_Ok _ anchor_link) by (intros; apply anchor_link_enc). reflexivity.
Qed.
Lemma marks_ok_file ms : marks_ok ms -> exists c, link_enc cov_enc (Some (map fst ms)) = Ok (link c) /\ marks_file ms c.
Proof.
  intros Hm. destruct (cov_link (map fst ms) (proj1 Hm) (glyph_map_keys _ _ Hm)) as (c & Ec & C). exists c. split; [exact Ec|].
  split; [apply Hm|]. split; [exact C|]. split; [now apply glyph_map_count in Hm|]. eapply Forall_impl; [|exact (glyph_map_vals _ _ Hm)].
  intros ka [H1 H2]. split; [unfold is_u16; lia|exact H2].
Qed.
Lemma marks_classes ms : marks_ok ms -> exists n, class_count (map (fun kv : Z * (Z * anchor) => fst (snd kv)) ms) 0 = Ok n /\ is_u16 n /\
  forall k, 0 <= k -> (k < n <-> reached ms k = true).
Proof.
  intros Hm. destruct (class_count_ok (map (fun kv : Z * (Z * anchor) => fst (snd kv)) ms) 0) as (n & E & B & S); [|lia|].
  - apply Forall_map. eapply Forall_impl; [|exact (proj2 Hm)]. intros kv [_ [H _]]. exact H.
  - exists n. split; [exact E|]. split; [exact B|]. intros k Hk. rewrite S, reached_spec. split; [intros [X|X]; [lia|exact X]|auto].
Qed.
Lemma mb_written k m : (forall f c b n ma ba, gpos_enc (k f c b n ma ba) = gpos_enc (P41 f c b n ma ba)) -> mbase_ok m ->
  exists o, (s <- mb_to k m ;; gpos_enc s) = Ok o /\ mbase_file (mbase_kept m) o.
Proof.
  intros Hk [Hm Hb]. destruct (marks_ok_file _ Hm) as (c & Ec & Mc). destruct (marks_classes _ Hm) as (n & En & Hn & Hr).
  destruct (cov_link (map fst (mb_bases m)) (proj1 Hb) (glyph_map_keys _ _ Hb)) as (b & Eb & B).
  pose proof (glyph_map_count _ _ Hb) as Cb. pose proof (glyph_map_count _ _ Hm) as Cm.
  set (rows := map (fun kv : Z * anchor_map => row_to_low n (snd kv)) (mb_bases m)).
  exists (attach_obj c b n (map snd (mb_marks m)) (rows_obj rows)). split.
  - unfold mb_to. rewrite En. cbn [rbind]. rewrite Hk. cbn [gpos_enc]. rewrite Ec, Eb. cbn [rbind]. rewrite marks_array_enc by exact Cm. cbn [rbind link_enc].
    rewrite rows_enc_ok by (unfold countable, rows in *; now rewrite map_length). cbn [rbind]. rewrite <- !word_u16. reflexivity.
  - unfold mbase_kept. apply mbase1; auto.
    + rewrite map_map. cbn [fst]. apply Hb.
    + rewrite map_map. cbn [fst]. exact B.
    + unfold countable in *. now rewrite map_length.
    + rewrite map_map. cbn [snd]. unfold rows. pose proof (proj2 Hb) as F. clear - F Hn Hr. induction F as [|[g a] l [_ H] F IH]; cbn [map snd]; constructor; [|exact IH]. now apply row_to_shows.
Qed.
Lemma mbase_written m : mbase_ok m -> exists o, mbase_write m = Ok o /\ mbase_file (mbase_kept m) o.
Proof. apply (mb_written P41). reflexivity. Qed.
Lemma mmark_written m : mbase_ok m -> exists o, mmark_write m = Ok o /\ mbase_file (mbase_kept m) o.
Proof. apply (mb_written P61). reflexivity. Qed.
Lemma mlig_written m : mlig_ok m -> exists o, mlig_write m = Ok o /\ mlig_file (mlig_kept m) o.
Proof.
  intros [Hm Hb]. destruct (marks_ok_file _ Hm) as (c & Ec & Mc). destruct (marks_classes _ Hm) as (n & En & Hn & Hr).
  destruct (cov_link (map fst (ml_ligs m)) (proj1 Hb) (glyph_map_keys _ _ Hb)) as (b & Eb & B).
  pose proof (glyph_map_count _ _ Hb) as Cb. pose proof (glyph_map_count _ _ Hm) as Cm.
  set (ligs := map (fun kv : Z * list anchor_map => map (row_to_low n) (snd kv)) (ml_ligs m)).
  exists (attach_obj c b n (map snd (ml_marks m)) (links (map rows_obj ligs))). split.
  - unfold mlig_write, mlig_to_low. rewrite En. cbn [rbind]. cbn [gpos_enc]. rewrite Ec, Eb. cbn [rbind]. rewrite marks_array_enc by exact Cm. cbn [rbind]. fold ligs. unfold link_enc at 1.
    destruct (vec_enc_ok rows_enc (fun r o => o = rows_obj r) ligs) as (os & Eo & Fo).
    + unfold countable, ligs in *. now rewrite map_length.
    + unfold ligs. apply Forall_map. eapply Forall_impl; [|exact (proj2 Hb)]. intros kv [_ [Hc _]]. eexists. split; [apply rows_enc_ok|reflexivity]. unfold countable in *. now rewrite map_length.
    + rewrite Eo. cbn [rbind]. assert (Eos: os = map rows_obj ligs) by (revert Fo; clear; generalize ligs; intros l Fo; induction Fo; cbn [map]; [reflexivity|subst; f_equal; assumption]).
      rewrite Eos, <- !word_u16. reflexivity.
  - unfold mlig_kept. apply mlig1; auto.
    + rewrite map_map. cbn [fst]. apply Hb.
    + rewrite map_map. cbn [fst]. exact B.
    + unfold countable in *. now rewrite map_length.
    + rewrite map_map. cbn [snd]. unfold ligs. pose proof (proj2 Hb) as F. clear - F Hn Hr. induction F as [|[g comps] l [_ [H1 H2]] F IH]; cbn [map snd]; constructor; [|exact IH].
      split; [unfold countable in *; now rewrite map_length|]. cbn [snd] in *. clear - H2 Hn Hr. induction H2 as [|a l H F IH]; cbn [map]; constructor; [|exact IH]. now apply row_to_shows.
Qed.
(** class 65535 *)
Lemma mb_panic k m : Forall (fun kv => is_u16 (fst (snd kv))) (mb_marks m) -> (exists g a, In (g, (65535, a)) (mb_marks m)) -> (s <- mb_to k m ;; gpos_enc s) = Panic.
Proof.
  intros H (g & a & Hi). unfold mb_to. rewrite class_count_panic; [reflexivity|now apply Forall_map|]. exact (in_map (fun kv : Z * (Z * anchor) => fst (snd kv)) _ _ Hi).
Qed.
Lemma mlig_panic m : Forall (fun kv => is_u16 (fst (snd kv))) (ml_marks m) -> (exists g a, In (g, (65535, a)) (ml_marks m)) -> mlig_write m = Panic.
Proof.
  intros H (g & a & Hi). unfold mlig_write, mlig_to_low. rewrite class_count_panic; [reflexivity|now apply Forall_map|]. exact (in_map (fun kv : Z * (Z * anchor) => fst (snd kv)) _ _ Hi).
Qed.
(** what is kept *)
Lemma kept_In ms a k x : In (k, x) (kept_anchors ms a) <-> In (k, x) a /\ reached ms k = true.
Proof. apply filter_In. Qed.
Lemma filter_shorter {A} (f : A -> bool) l : (length (filter f l) <= length l)%nat.
Proof. induction l as [|a l IH]; cbn [filter]; [auto|]. destruct (f a); cbn [length]; lia. Qed.
Lemma kept_all ms a : kept_anchors ms a = a <-> Forall (fun ka => reached ms (fst ka) = true) a.
Proof.
  unfold kept_anchors. induction a as [|ka a IH]; cbn [filter]; [split; auto|]. destruct (reached ms (fst ka)) eqn:E; rewrite Forall_cons_iff, <- IH.
  - split; [intros [= H]; auto|intros [_ ->]; reflexivity].
  - split; [|intros [X _]; congruence]. intros H. pose proof (filter_shorter (fun ka => reached ms (fst ka)) a) as L. rewrite H in L. cbn in L. lia.
Qed.
Lemma kept_attaches m g b x y : attaches (mbase_kept m) g b x y <-> attaches m g b x y.
Proof.
  unfold attaches, mbase_kept. cbn [mb_marks mb_bases]. split.
  - intros (k & a & H1 & H2 & H3). apply in_map_iff in H2 as ([b' a'] & [= <- <-] & H2). apply kept_In in H3 as [H3 _]. eauto.
  - intros (k & a & H1 & H2 & H3). exists k, (kept_anchors (mb_marks m) a). split; [exact H1|]. split; [apply in_map_iff; exists (b, a); auto|]. apply kept_In. split; [exact H3|].
    apply reached_spec. exists k. split; [exact (in_map (fun kv : Z * (Z * anchor) => fst (snd kv)) _ _ H1)|lia].
Qed.
Lemma kept_lig_attaches m g b i x y : lig_attaches (mlig_kept m) g b i x y <-> lig_attaches m g b i x y.
Proof.
  unfold lig_attaches, mlig_kept. cbn [ml_marks ml_ligs]. split.
  - intros (k & cs & a & H1 & H2 & N & H3). apply in_map_iff in H2 as ([b' cs'] & [= <- <-] & H2). cbn [snd] in N. rewrite nth_error_map in N.
    destruct (nth_error cs' i) as [a'|] eqn:N'; [|discriminate]. cbn in N. injection N as <-. apply kept_In in H3 as [H3 _]. exists k, cs', a'. auto.
  - intros (k & cs & a & H1 & H2 & N & H3). exists k, (map (kept_anchors (ml_marks m)) cs), (kept_anchors (ml_marks m) a). split; [exact H1|]. split; [apply in_map_iff; exists (b, cs); auto|].
    split; [rewrite nth_error_map, N; reflexivity|]. apply kept_In. split; [exact H3|]. apply reached_spec. exists k. split; [exact (in_map (fun kv : Z * (Z * anchor) => fst (snd kv)) _ _ H1)|lia].
Qed.

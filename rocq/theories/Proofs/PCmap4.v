(** Format 4 character maps *)
From Coq Require Import Lia Sorting.Sorted.
From Verif.Model Require Import MBase MMap MFont MLayout MOffset MCmap.
From Verif.Spec Require Import SBase SGlyph SLayout SCmap.
From Verif.Proofs Require Import PBase PMap PGlyphFmt PCover PClassdef PFont PLow PPoints PGsub.

(** ** Splitting a run of codes *)

(** consecutive glyphs over a range of codes *)
Definition run (m : cmapping) (b e : Z) : Prop := forall c, b <= c < e -> gid_of m (c + 1) = gid_of m c + 1.

Fixpoint subs_ok (m : cmapping) (low hi : Z) (l : list (option Z * Z)) : Prop :=
  match l with
  | [] => True
  | (ob, e) :: l' => exists b, ob = Some b /\ low <= b < e /\ e <= hi /\ run m b e /\ subs_ok m (e + 1) hi l'
  end.
Lemma subs_ok_app m low hi l b e : subs_ok m low hi l ->
  (match rev l with (_, e') :: _ => e' < b | [] => low <= b end) -> b < e -> e <= hi -> run m b e ->
  subs_ok m low hi (l ++ [(Some b, e)]).
Proof.
  revert low; induction l as [|[ob e'] l IH]; cbn [subs_ok app rev]; intros low H L B E R.
  - exists b. repeat split; try lia; auto.
  - destruct H as (b' & -> & H1 & H2 & H3 & H4). exists b'. repeat split; try lia; auto.
    apply IH; auto. destruct (rev l) as [|[? ?] ?]; cbn [app] in L; [lia|exact L].
Qed.
Lemma subs_ok_hi m low hi hi' l : subs_ok m low hi l -> hi <= hi' -> subs_ok m low hi' l.
Proof.
  revert low; induction l as [|[ob e'] l IH]; cbn [subs_ok]; auto.
  intros low (b & ? & ? & ? & ? & ?) L. exists b. repeat split; try lia; auto.
Qed.
Definition below (low : Z) (l : list (option Z * Z)) (b : Z) : Prop :=
  match rev l with (_, e') :: _ => e' < b | [] => low <= b end.

Definition sr_inv (m : cmapping) (start : Z) (st : sr_state) : Prop :=
  sr_id st = gid_of m (sr_code st)
  /\ subs_ok m start (sr_code st) (sr_subs st)
  /\ start <= sr_code st
  /\ match sr_order st with
     | Some 1 => exists b, sr_begin st = Some b /\ below start (sr_subs st) b /\ b < sr_code st /\ run m b (sr_code st)
     | _ => below start (sr_subs st) (sr_code st)
     end.
Lemma sr_step_inv m start st : sr_inv m start st -> sr_inv m start (sr_step m st (sr_code st + 1)).
Proof.
  intros (I1 & I2 & I3 & I4). unfold sr_step. rewrite I1.
  destruct (andb _ _) eqn:E.
  - apply andb_true_iff in E as [E1 E2].
    assert (R : gid_of m (sr_code st + 1) = gid_of m (sr_code st) + 1) by lia.
    assert (N : forall o, o <> Some 1 -> match o with Some 1 => sr_order st | _ => Some 1 end = Some 1).
    { intros o Ho. destruct o as [[|[| |]|]|]; auto; congruence. }
    assert (B : match sr_order st with
                | Some 1 => True | _ => below start (sr_subs st) (sr_code st) end)
      by (destruct (sr_order st) as [[|[| |]|]|]; auto).
    destruct (sr_order st) as [[|[| |]|]|] eqn:O; unfold sr_inv; cbn [sr_id sr_code sr_subs sr_order sr_begin];
      (repeat split; [eapply subs_ok_hi; [exact I2|lia]|lia|]).
    all: try (eexists; repeat split; [exact B|lia|]; intros c Hc;
              replace c with (sr_code st) by lia; exact R).
    destruct I4 as (b & -> & ? & ? & R'). exists b. repeat split; auto; [lia|].
    intros c Hc. destruct (Z.eq_dec c (sr_code st)) as [->|]; [exact R|]. apply R'. lia.
  - assert (NB : below start (sr_subs st) (sr_code st) -> below start (sr_subs st) (sr_code st + 1)).
    { unfold below. destruct (rev _) as [|[? ?] ?]; lia. }
    destruct (sr_order st) as [[|[| |]|]|] eqn:O; unfold sr_inv; cbn [sr_id sr_code sr_subs sr_order sr_begin];
      (repeat split; [|lia|]).
    all: try (eapply subs_ok_hi; [exact I2|lia]).
    all: try (apply NB; exact I4).
    + destruct I4 as (b & Eb & BL & ? & R'). rewrite Eb.
      eapply subs_ok_app; [eapply subs_ok_hi; [exact I2|lia]|exact BL|lia|lia|exact R'].
    + destruct I4 as (b & Eb & BL & ? & R'). unfold below. rewrite rev_app_distr. cbn [rev app]. lia.
Qed.

Lemma zrange_nil s e : e <= s -> zrange s e = [].
Proof. intros H. unfold zrange. now replace (Z.to_nat (e - s)) with 0%nat by lia. Qed.
Lemma zrange_cons s e : s < e -> zrange s e = s :: zrange (s + 1) e.
Proof.
  intros H. unfold zrange. replace (Z.to_nat (e - s)) with (S (Z.to_nat (e - (s + 1)))) by lia.
  cbn [seq map]. rewrite Z.add_0_r. f_equal. rewrite <- seq_shift, map_map.
  apply map_ext. intros i. lia.
Qed.
Lemma zrange_In s e c : In c (zrange s e) <-> s <= c < e.
Proof.
  unfold zrange. rewrite in_map_iff. split.
  - intros (i & <- & Hi). apply in_seq in Hi. lia.
  - intros H. exists (Z.to_nat (c - s)). split; [lia|]. apply in_seq. lia.
Qed.
Lemma zrange_length s e : length (zrange s e) = Z.to_nat (e - s).
Proof. unfold zrange. now rewrite map_length, seq_length. Qed.
Lemma zrange_nth s e k d : (k < Z.to_nat (e - s))%nat -> nth k (zrange s e) d = s + Z.of_nat k.
Proof.
  intros H. unfold zrange. rewrite nth_indep with (d' := s + Z.of_nat 0) by (rewrite map_length, seq_length; lia).
  rewrite (map_nth (fun i => s + Z.of_nat i)). rewrite seq_nth by lia. lia.
Qed.

Lemma sr_loop_inv m start st fin : sr_inv m start st -> sr_code st <= fin ->
  sr_inv m start (fold_left (sr_step m) (zrange (sr_code st + 1) (fin + 1)) st)
  /\ sr_code (fold_left (sr_step m) (zrange (sr_code st + 1) (fin + 1)) st) = fin.
Proof.
  remember (Z.to_nat (fin - sr_code st)) as k eqn:K. revert st K.
  induction k as [|k IH]; intros st K I L.
  - rewrite zrange_nil by lia. cbn [fold_left]. split; [auto|lia].
  - rewrite zrange_cons by lia. cbn [fold_left].
    assert (C : sr_code (sr_step m st (sr_code st + 1)) = sr_code st + 1).
    { unfold sr_step. destruct (_ && _); destruct (sr_order st) as [[|[| |]|]|]; reflexivity. }
    specialize (IH (sr_step m st (sr_code st + 1))). rewrite C in IH.
    apply IH; [lia|now apply sr_step_inv|lia].
Qed.

Lemma chk_u_ok bits z : 0 <= z < 2 ^ bits -> chk_u bits z = Ok z.
Proof. intros H. unfold chk_u. replace ((0 <=? z) && (z <? 2 ^ bits)) with true by lia. reflexivity. Qed.
Lemma chk_u_inv bits z v : chk_u bits z = Ok v -> v = z /\ 0 <= z < 2 ^ bits.
Proof.
  unfold chk_u. destruct (_ && _) eqn:E; [|discriminate]. intros [= <-].
  apply andb_true_iff in E as [? ?]. split; [auto|lia].
Qed.

Ltac ck := rewrite chk_u_ok by lia; cbn [rbind].

(** kept ranges, as they are used afterwards *)
Fixpoint kept_ok (m : cmapping) (start fin low : Z) (l : list (Z * Z)) : Prop :=
  match l with
  | [] => True
  | (b, e) :: l' =>
      low <= b < e /\ e <= fin /\ run m b e
      /\ (b = start /\ e = fin -> False)
      /\ (if (b =? start) || (e =? fin) then 4 else 8) < e - b + 1
      /\ kept_ok m start fin (e + 1) l'
  end.
Lemma kept_low m start fin low low' l : kept_ok m start fin low l -> low' <= low -> kept_ok m start fin low' l.
Proof. destruct l as [|[b e] l]; cbn [kept_ok]; auto. intuition lia. Qed.
Lemma sr_keep_ok m start fin low l : 0 <= start <= low -> fin <= 65534 -> subs_ok m low fin l ->
  exists k, sr_keep start fin l = Ok k /\ kept_ok m start fin low k.
Proof.
  revert low; induction l as [|[ob e] l IH]; intros low HL HF H.
  - now exists [].
  - destruct H as (b & -> & H1 & H2 & H3 & H4). cbn [sr_keep unwrap rbind].
    destruct ((b =? start) && (e =? fin)) eqn:BE.
    { now exists []. }
    ck. ck.
    destruct (IH (e + 1)) as (k & Ek & Hk); [lia|lia|exact H4|].
    rewrite Ek; cbn [rbind]. destruct (_ >? _) eqn:T.
    + eexists; split; [reflexivity|]. cbn [kept_ok]. repeat split; try lia; auto.
    + eexists; split; [reflexivity|]. eapply kept_low; [exact Hk|lia].
Qed.

(** ranges that cover all codes of an interval *)
Inductive tiles : Z -> Z -> list (Z * Z) -> Prop :=
| tiles_one a b : a <= b -> tiles a b [(a, b)]
| tiles_cons a b c l : a <= b -> tiles (b + 1) c l -> tiles a c ((a, b) :: l).

(** what a range costs in bytes, at most *)
Definition costs (m : cmapping) (r : Z * Z) (k : Z) : Prop :=
  (run m (fst r) (snd r) /\ k = 8) \/ k = 8 + 2 * (snd r - fst r + 1).
Inductive total_cost (m : cmapping) : list (Z * Z) -> Z -> Prop :=
| total_nil : total_cost m [] 0
| total_cons r k l n : costs m r k -> total_cost m l n -> total_cost m (r :: l) (k + n).

Inductive plan (m : cmapping) (fin : Z) : Z -> list (Z * Z) -> Prop :=
| plan_done : plan m fin fin []
| plan_filler p : p < fin -> plan m fin p [(p + 1, fin)]
| plan_kept p b e l : p < b -> 8 < e - b + 1 -> e < fin -> run m b e -> plan m fin e l -> plan m fin p ((b, e) :: l)
| plan_last p b : p < b -> 4 < fin - b + 1 -> run m b fin -> plan m fin p [(b, fin)].

Lemma fill_ok m fin p l : plan m fin p l -> 0 <= p -> fin <= 65534 ->
  exists l' n, sr_fill p l = Ok l' /\ p <= fin /\ (p < fin -> tiles (p + 1) fin l') /\ (p = fin -> l' = [])
    /\ total_cost m l' n /\ n <= 2 * (fin - p) + 8.
Proof.
  intros H P F. revert P. induction H; intros P.
  - exists [], 0. cbn [sr_fill]. repeat split; auto; try lia. constructor.
  - exists [(p + 1, fin)], (8 + 2 * (fin - (p + 1) + 1) + 0). cbn [sr_fill].
    ck. rewrite Z.eqb_refl. repeat split; auto; try lia.
    + intros _. constructor. lia.
    + constructor; [|constructor]. right. reflexivity.
  - destruct IHplan as (l' & n & E & LE & T & N & C & B); [lia|].
    cbn [sr_fill]. ck. rewrite E; cbn [rbind].
    specialize (T H1).
    destruct (p + 1 =? b) eqn:PB.
    + eexists _, _. split; [reflexivity|]. split; [lia|].
      split; [intros _; replace (p + 1) with b by lia; constructor; [lia|exact T]|].
      split; [lia|].
      split; [constructor; [left; split; [exact H2|reflexivity]|exact C]|lia].
    + ck.
      eexists _, _. split; [reflexivity|]. split; [lia|].
      split; [intros _; constructor; [lia|]; replace (b - 1 + 1) with b by lia; constructor; [lia|exact T]|].
      split; [lia|].
      split; [constructor; [right; reflexivity|];
              constructor; [left; split; [exact H2|reflexivity]|exact C]|].
      cbn [fst snd]. lia.
  - cbn [sr_fill]. ck.
    destruct (p + 1 =? b) eqn:PB.
    + eexists _, _. split; [reflexivity|]. split; [lia|].
      split; [intros _; replace (p + 1) with b by lia; constructor; lia|].
      split; [lia|].
      split; [constructor; [left; split; [exact H1|reflexivity]|constructor]|lia].
    + ck.
      eexists _, _. split; [reflexivity|]. split; [lia|].
      split; [intros _; constructor; [lia|]; replace (b - 1 + 1) with b by lia; constructor; lia|].
      split; [lia|].
      split; [constructor; [right; reflexivity|];
              constructor; [left; split; [exact H1|reflexivity]|constructor]|].
      cbn [fst snd]. lia.
Qed.

(** the kept ranges followed by the closing range *)
Definition closed (fin : Z) (l : list (Z * Z)) : list (Z * Z) :=
  let le := snd (last l (0, 0)) in if le =? fin then l else l ++ [(le + 1, fin)].
Lemma kept_plan m start fin p l : start <= p -> l <> [] -> kept_ok m start fin (p + 1) l ->
  plan m fin p (closed fin l).
Proof.
  revert p; induction l as [|[b e] l IH]; intros p SP N H; [congruence|].
  cbn [kept_ok] in H. destruct H as (H1 & H2 & H3 & H4 & H5 & H6).
  destruct l as [|x l].
  - unfold closed. cbn [last snd app].
    destruct (e =? fin) eqn:EF.
    + assert (e = fin) by lia. subst e. apply plan_last; [lia|destruct (b =? start); cbn [orb] in H5; lia|auto].
    + replace (b =? start) with false in H5 by lia. cbn [orb] in H5.
      apply plan_kept; try lia; auto. apply plan_filler. lia.
  - assert (e < fin). { destruct x. cbn [kept_ok] in H6. lia. }
    replace ((b =? start) || (e =? fin)) with false in H5 by lia.
    assert (EQ : closed fin ((b, e) :: x :: l) = (b, e) :: closed fin (x :: l)).
    { unfold closed. change (last ((b, e) :: x :: l) (0, 0)) with (last (x :: l) (0, 0)).
      destruct (_ =? _); reflexivity. }
    rewrite EQ. apply plan_kept; try lia; auto. apply IH; [lia|discriminate|exact H6].
Qed.

Lemma kept_last m start fin low l : l <> [] -> kept_ok m start fin low l ->
  low < snd (last l (0, 0)) <= fin.
Proof.
  revert low; induction l as [|[b e] l IH]; intros low N H; [congruence|].
  cbn [kept_ok] in H. destruct H as (H1 & H2 & H3 & H4 & H5 & H6).
  destruct l as [|x l]; [cbn [last snd]; lia|].
  change (last ((b, e) :: x :: l) (0, 0)) with (last (x :: l) (0, 0)).
  specialize (IH (e + 1) ltac:(discriminate) H6). lia.
Qed.

Lemma tiles_bounds a b l : tiles a b l -> a <= b /\ Forall (fun r => a <= fst r <= snd r /\ snd r <= b) l.
Proof.
  induction 1 as [a b H|a b c l H T [IH1 IH2]].
  - split; [lia|]. constructor; [cbn [fst snd]; lia|constructor].
  - split; [lia|]. constructor; [cbn [fst snd]; lia|].
    eapply Forall_impl; [|exact IH2]. cbv beta. intros; lia.
Qed.
Lemma u16_ranges l a b : tiles a b l -> 0 <= a -> b <= 65535 ->
  map (fun r => u16 (fst r)) l = map fst l /\ map (fun r => u16 (snd r)) l = map snd l.
Proof.
  intros T A B. apply tiles_bounds in T as [_ T].
  rewrite Forall_forall in T.
  split; apply map_ext_in; intros r Hr; specialize (T r Hr); apply u16_id; lia.
Qed.

Lemma split_range_ok m start fin : 0 <= start <= fin -> fin <= 65534 -> bm_get Z.ltb start m <> None ->
  exists s e l n, split_range start fin m = Ok (s, e)
    /\ start :: s = map fst l /\ e = map snd l /\ tiles start fin l
    /\ total_cost m l n /\ n <= 2 * (fin - start + 1) + 8.
Proof.
  intros H F G. unfold split_range.
  assert (ONE : exists s e l n, @Ok (list Z * list Z) ([], [fin]) = Ok (s, e)
    /\ start :: s = map fst l /\ e = map snd l /\ tiles start fin l
    /\ total_cost m l n /\ n <= 2 * (fin - start + 1) + 8).
  { exists [], [fin], [(start, fin)], (8 + 2 * (fin - start + 1) + 0).
    repeat split; auto; [constructor; lia|constructor; [right; reflexivity|constructor]|lia]. }
  destruct (start =? fin) eqn:SF; [exact ONE|].
  destruct (bm_get Z.ltb start m) as [id0|] eqn:G0; [|congruence]. cbn [unwrap rbind].
  do 2 ck. cbv zeta.
  pose (st0 := mkSR id0 start None None []).
  assert (I0 : sr_inv m start st0).
  { unfold sr_inv, st0. cbn [sr_id sr_code sr_subs sr_order]. repeat split; try lia.
    - unfold gid_of. now rewrite G0.
    - unfold below. cbn [rev]. lia. }
  destruct (sr_loop_inv m start st0 fin I0) as [I E]; [cbn [sr_code st0]; lia|].
  change (sr_code st0) with start in I, E. fold st0.
  set (st := fold_left (sr_step m) (zrange (start + 1) (fin + 1)) st0) in *.
  rewrite E, Z.eqb_refl. cbn [negb].
  set (subs := match sr_order st with Some 1 => _ | _ => _ end).
  assert (S : subs_ok m start fin subs).
  { destruct I as (_ & I2 & _ & I4). unfold subs. rewrite E in I2, I4.
    destruct (sr_order st) as [[|[| |]|]|]; auto.
    destruct I4 as (b & -> & BL & ? & R). eapply subs_ok_app; auto; lia. }
  destruct (sr_keep_ok m start fin start subs ltac:(lia) ltac:(lia) S) as (k & -> & K); cbn [rbind].
  destruct k as [|[b0 e0] k']; [exact ONE|].
  set (k := (b0, e0) :: k') in *.
  assert (NK : k <> []) by discriminate.
  pose proof (kept_last _ _ _ _ _ NK K) as KL.
  cbn [sr_edges]. unfold k at 1. cbn [sr_edges].
  fold k.
  pose proof K as K0. unfold k in K0. cbn [kept_ok] in K0. destruct K0 as (B1 & B2 & B3 & B4 & B5 & B6).
  destruct (b0 =? start) eqn:BS.
  - (* the first kept range begins the run *)
    cbn [rbind]. cbv zeta.
    assert (EC : (if snd (last k (0, 0)) =? fin then Ok k
       else le1 <- chk_u 32 (snd (last k (0, 0)) + 1);; Ok (k ++ [(le1, fin)])) = Ok (closed fin k)).
    { unfold closed. destruct (snd (last k (0, 0)) =? fin); auto. ck. reflexivity. }
    rewrite EC; cbn [rbind]. clear EC.
    assert (b0 = start) by lia. subst b0.
    assert (EQ : exists l, closed fin k = (start, e0) :: l /\ plan m fin e0 l).
    { destruct k' as [|x k'].
      - unfold closed, k. cbn [last snd app]. destruct (e0 =? fin) eqn:EF.
        + exfalso. apply B4. lia.
        + eexists; split; [reflexivity|]. apply plan_filler. lia.
      - exists (closed fin (x :: k')). split.
        + unfold closed, k. change (last ((start, e0) :: x :: k') (0, 0)) with (last (x :: k') (0, 0)).
          destruct (snd (last (x :: k') (0, 0)) =? fin); reflexivity.
        + eapply kept_plan; [|discriminate|exact B6]. lia. }
    destruct EQ as (l & -> & PL).
    destruct (fill_ok m fin e0 l PL ltac:(lia) F) as (l' & n & EF & LE & T & N & C & NB).
    rewrite EF; cbn [rbind]. replace (start =? start) with true in B5 by lia. cbn [orb] in B5.
    assert (E0 : e0 <> fin) by (intros ->; apply B4; auto).
    assert (T' : tiles start fin ((start, e0) :: l')) by (constructor; [lia|apply T; lia]).
    destruct (u16_ranges _ _ _ T' ltac:(lia) ltac:(lia)) as [U1 U2]. cbn [map fst snd] in U1, U2.
    eexists _, _, ((start, e0) :: l'), (8 + n). split; [reflexivity|].
    assert (U0 : u16 e0 = e0) by (apply u16_id; lia).
    injection U1 as _ U1. injection U2 as _ U2. cbn [map fst snd].
    rewrite U0, U1, U2. repeat split; auto.
    + constructor; [left; split; [exact B3|reflexivity]|exact C].
    + lia.
  - ck. cbv zeta.
    assert (LK : last ((start, b0 - 1) :: k) (0, 0) = last k (0, 0)) by reflexivity.
    rewrite LK. clear LK.
    assert (EC : (if snd (last k (0, 0)) =? fin then Ok ((start, b0 - 1) :: k)
       else le1 <- chk_u 32 (snd (last k (0, 0)) + 1);; Ok (((start, b0 - 1) :: k) ++ [(le1, fin)]))
       = Ok ((start, b0 - 1) :: closed fin k)).
    { unfold closed. destruct (snd (last k (0, 0)) =? fin); auto. ck. reflexivity. }
    rewrite EC; cbn [rbind]. clear EC.
    assert (EQ : exists l, closed fin k = (b0, e0) :: l /\ plan m fin e0 l).
    { destruct k' as [|x k'].
      - unfold closed, k. cbn [last snd app]. destruct (e0 =? fin) eqn:EF.
        + eexists; split; [reflexivity|]. replace e0 with fin by lia. constructor.
        + eexists; split; [reflexivity|]. apply plan_filler. lia.
      - exists (closed fin (x :: k')). split.
        + unfold closed, k. change (last ((b0, e0) :: x :: k') (0, 0)) with (last (x :: k') (0, 0)).
          destruct (snd (last (x :: k') (0, 0)) =? fin); reflexivity.
        + eapply kept_plan; [|discriminate|exact B6]. lia. }
    destruct EQ as (l & -> & PL).
    destruct (fill_ok m fin e0 l PL ltac:(lia) F) as (l' & n & EF & LE & T & N & C & NB).
    cbn [sr_fill]. rewrite EF; cbn [rbind]. ck.
    replace (b0 - 1 + 1 =? b0) with true by lia.
    assert (T' : tiles start fin ((start, b0 - 1) :: (b0, e0) :: l')).
    { constructor; [lia|]. replace (b0 - 1 + 1) with b0 by lia.
      destruct (Z.eq_dec e0 fin) as [->|].
      - rewrite N by auto. constructor. lia.
      - constructor; [lia|apply T; lia]. }
    destruct (u16_ranges _ _ _ T' ltac:(lia) ltac:(lia)) as [U1 U2].
    eexists _, _, ((start, b0 - 1) :: (b0, e0) :: l'), (8 + 2 * (b0 - 1 - start + 1) + (8 + n)).
    split; [reflexivity|].
    cbn [map fst snd] in U1, U2 |- *. injection U1 as _ U1 U1'. injection U2 as U2 U2' U2''.
    rewrite U1, U1', U2, U2', U2''. repeat split; auto.
    + constructor; [right; reflexivity|]. constructor; [left; split; [exact B3|reflexivity]|exact C].
    + replace (b0 =? start) with false in B5 by lia. cbn [orb] in B5.
      destruct (e0 =? fin) eqn:EF0.
      * rewrite N in C by lia. assert (n = 0) by now inversion C. lia.
      * lia.
Qed.

(** ** All segments *)

Fixpoint ordered_ranges (low : Z) (l : list (Z * Z)) : Prop :=
  match l with
  | [] => True
  | (s, e) :: l' => low <= s <= e /\ e <= 65534 /\ ordered_ranges (e + 1) l'
  end.
Definition covered (l : list (Z * Z)) (c : Z) : Prop := Exists (fun r => fst r <= c <= snd r) l.

Lemma ordered_low low low' l : ordered_ranges low l -> low' <= low -> ordered_ranges low' l.
Proof. destruct l as [|[s e] l]; cbn [ordered_ranges]; auto. intuition lia. Qed.
Lemma tiles_ordered a b l R : tiles a b l -> b <= 65534 -> ordered_ranges (b + 1) R -> ordered_ranges a (l ++ R).
Proof.
  induction 1 as [a b H|a b c l H T IH]; intros B O; cbn [app ordered_ranges].
  - repeat split; auto; lia.
  - pose proof (tiles_bounds _ _ _ T). repeat split; auto; lia.
Qed.
Lemma tiles_covered a b l c : tiles a b l -> (covered l c <-> a <= c <= b).
Proof.
  unfold covered.
  induction 1 as [a b H|a b d l H T IH].
  - rewrite Exists_cons. cbn [fst snd]. split; [intros [?|X]; [auto|inversion X]|tauto].
  - rewrite Exists_cons, IH. cbn [fst snd]. pose proof (tiles_bounds _ _ _ T). lia.
Qed.
Lemma covered_app l1 l2 c : covered (l1 ++ l2) c <-> covered l1 c \/ covered l2 c.
Proof. unfold covered. apply Exists_app. Qed.
Lemma total_app m l1 n1 l2 n2 : total_cost m l1 n1 -> total_cost m l2 n2 -> total_cost m (l1 ++ l2) (n1 + n2).
Proof.
  induction 1; intros T; cbn [app]; [now replace (0 + n2) with n2 by lia|].
  rewrite <- Z.add_assoc. constructor; auto.
Qed.

Definition has (m : cmapping) (c : Z) : Prop := bm_get Z.ltb c m <> None.

Lemma try_u_ok bits z : 0 <= z < 2 ^ bits -> try_u bits z = Some z.
Proof. intros H. unfold try_u. replace ((0 <=? z) && (z <? 2 ^ bits)) with true by lia. reflexivity. Qed.
Lemma try_u_inv bits z v : try_u bits z = Some v -> v = z /\ 0 <= z < 2 ^ bits.
Proof.
  unfold try_u. destruct (_ && _) eqn:E; [|discriminate]. intros [= <-].
  apply andb_true_iff in E as [? ?]. split; [auto|lia].
Qed.

Lemma segments_ok m codes : forall cur last, 0 <= cur <= last -> increasing (last :: codes) ->
  Forall (fun c => c <= 65534) (last :: codes) -> Forall (has m) codes -> has m cur ->
  exists s e R n, segments m cur last codes = Ok (s, e)
    /\ cur :: s = map fst R ++ [65535] /\ e = map snd R ++ [65535]
    /\ ordered_ranges cur R /\ (forall c, covered R c <-> cur <= c <= last \/ In c codes)
    /\ total_cost m R n
    /\ n <= 2 * (last - cur + 1) + 2 * Z.of_nat (length codes) + 8 * (1 + Z.of_nat (runs_after last codes)).
Proof.
  induction codes as [|c codes IH]; intros cur lst L I F H G.
  - inversion F as [|? ? F1 _]; subst. cbn [segments]. rewrite try_u_ok by lia. cbn [unwrap rbind].
    destruct (split_range_ok m cur lst L F1 G) as (s & e & l & n & -> & E1 & E2 & T & C & N). cbn [rbind].
    exists (s ++ [65535]), (e ++ [65535]), l, n. split; [reflexivity|].
    rewrite <- E1, <- E2. split; [reflexivity|]. split; [reflexivity|].
    split; [rewrite <- (app_nil_r l); eapply tiles_ordered; eauto; exact Logic.I|].
    split; [intros c; rewrite (tiles_covered _ _ _ c T); cbn [In]; tauto|].
    split; [exact C|]. cbn [length runs_after]. lia.
  - inversion F as [|? ? F1 F2]; subst. inversion H as [|? ? H1 H2]; subst.
    pose proof (increasing_lt _ _ I) as LT. inversion LT as [|? ? LT1 _]; subst.
    apply increasing_tail in I as I'. inversion F2 as [|? ? F3 _]; subst.
    cbn [segments runs_after length].
    destruct (c =? lst + 1) eqn:EC.
    + destruct (IH cur c ltac:(lia) I' F2 H2 G) as (s & e & R & n & -> & E1 & E2 & O & CV & C & N).
      exists s, e, R, n. repeat (split; [auto; fail|]). split; [|split; [exact C|lia]].
      intros x. rewrite CV. cbn [In]. split; [intros [?|?]; [|tauto]|intros [?|[?|?]]; [|lia|tauto]].
      * destruct (Z.eq_dec x c); [right; left; lia|left; lia].
      * left; lia.
    + rewrite try_u_ok by lia. cbn [unwrap rbind].
      destruct (split_range_ok m cur lst L F1 G) as (s & e & l & n & -> & E1 & E2 & T & C & N). cbn [rbind].
      rewrite try_u_ok by lia. cbn [unwrap rbind].
      destruct (IH c c ltac:(lia) I' F2 H2 H1) as (s' & e' & R & n' & -> & E1' & E2' & O & CV & C' & N'). cbn [rbind].
      exists (s ++ c :: s'), (e ++ e'), (l ++ R), (n + n'). split; [reflexivity|].
      split; [rewrite map_app, app_comm_cons, E1, E1', <- app_assoc; reflexivity|].
      split; [rewrite map_app, E2, E2', <- app_assoc; reflexivity|].
      split; [eapply tiles_ordered; eauto; eapply ordered_low; [exact O|lia]|].
      split; [|split; [now apply total_app|lia]].
      intros x. rewrite covered_app, CV, (tiles_covered _ _ _ x T). cbn [In].
      split; [intros [?|[?|?]]|intros [?|[?|?]]]; try tauto; try lia.
Qed.

(** ** The arrays *)

Inductive arrays (m : cmapping) (n : Z) : Z -> Z -> list (Z * Z) -> list Z -> list Z -> list Z -> Prop :=
| ar_nil i a : arrays m n i a [] [] [] []
| ar_run i a s e R d o x : run m s e -> arrays m n (i + 1) a R d o x ->
    arrays m n i a ((s, e) :: R) (i16 (gid_of m s - s) :: d) (0 :: o) x
| ar_list i a s e R d o x : s < e -> 2 * u16 (n + a - i) < 65536 ->
    arrays m n (i + 1) (a + (e - s + 1)) R d o x ->
    arrays m n i a ((s, e) :: R) (0 :: d) (2 * u16 (n + a - i) :: o) (map (gid_of m) (zrange s (e + 1)) ++ x).

Lemma contiguous_run m s e : s <= e -> contiguous (map (gid_of m) (zrange s (e + 1))) = Ok true -> run m s e.
Proof.
  intros H. remember (Z.to_nat (e - s)) as k eqn:K. revert s H K.
  induction k as [|k IH]; intros s H K C c Hc; [lia|].
  assert (Z1 : zrange (s + 1) (e + 1) = s + 1 :: zrange (s + 1 + 1) (e + 1)) by (apply zrange_cons; lia).
  rewrite zrange_cons, Z1 in C by lia. cbn [map contiguous] in C.
  destruct (chk_u 16 (gid_of m s + 1)) as [v| |] eqn:E; cbn [rbind] in C; try discriminate.
  apply chk_u_inv in E as [-> _]. destruct (_ =? _) eqn:E; [|discriminate].
  destruct (Z.eq_dec c s) as [->|]; [lia|]. apply (IH (s + 1)); [lia|lia|rewrite Z1; exact C|lia].
Qed.
Lemma contiguous_total m s e : s <= e -> (forall c, 0 <= gid_of m c <= 65534) ->
  contiguous (map (gid_of m) (zrange s (e + 1))) = Ok true
  \/ contiguous (map (gid_of m) (zrange s (e + 1))) = Ok false /\ ~ run m s e.
Proof.
  intros H G. remember (Z.to_nat (e - s)) as k eqn:K. revert s H K.
  induction k as [|k IH]; intros s H K.
  - rewrite zrange_cons, zrange_nil by lia. now left.
  - rewrite zrange_cons, (zrange_cons (s + 1)) by lia. cbn [map contiguous].
    rewrite chk_u_ok by (specialize (G s); lia). cbn [rbind].
    destruct (_ =? _) eqn:E.
    + destruct (IH (s + 1)) as [X|[X Y]]; [lia|lia| |].
      * rewrite zrange_cons in X by lia. now left.
      * rewrite zrange_cons in X by lia. right. split; [exact X|]. intros R. apply Y. intros c Hc. apply R. lia.
    + right. split; [reflexivity|]. intros R. specialize (R s ltac:(lia)). lia.
Qed.

Lemma arrays_of m n R : forall i a low d o x, ordered_ranges low R -> seg_arrays m n i a R = Ok (d, o, x) ->
  arrays m n i a R d o x.
Proof.
  induction R as [|[s e] R IH]; intros i a low d o x O; cbn [seg_arrays].
  - intros [= <- <- <-]. constructor.
  - cbn [ordered_ranges] in O. destruct O as (O1 & O2 & O3).
    destruct (chk_u 16 (e + 1)) as [e1| |] eqn:E; cbn [rbind]; try discriminate.
    apply chk_u_inv in E as [-> _].
    destruct (contiguous _) as [[|]| |] eqn:C; cbn [rbind]; try discriminate.
    + apply contiguous_run in C; [|lia]. rewrite zrange_cons by lia. cbn [map hd_error unwrap rbind].
      destruct (seg_arrays m n (i + 1) a R) as [[[d' o'] x']| |] eqn:S; cbn [rbind]; try discriminate.
      intros [= <- <- <-]. constructor; [exact C|]. eapply IH; [exact O3|exact S].
    + destruct (chk_u 16 _) as [off| |] eqn:E; cbn [rbind]; try discriminate.
      apply chk_u_inv in E as [-> B].
      rewrite map_length, zrange_length in *.
      replace (a + Z.of_nat (Z.to_nat (e + 1 - s))) with (a + (e - s + 1)) by lia.
      destruct (seg_arrays m n (i + 1) _ R) as [[[d' o'] x']| |] eqn:S; cbn [rbind]; try discriminate.
      intros [= <- <- <-]. constructor; [|lia|eapply IH; [exact O3|exact S]].
      destruct (Z.eq_dec s e) as [->|]; [|lia]. rewrite zrange_cons, zrange_nil in C by lia. discriminate.
Qed.

Lemma cost_nonneg m R k : total_cost m R k -> forall low, ordered_ranges low R -> 8 * Z.of_nat (length R) <= k.
Proof.
  induction 1 as [|r k l n C T IH]; intros low O; [cbn; lia|].
  destruct r as [s e]. cbn [ordered_ranges] in O. destruct O as (O1 & O2 & O3). specialize (IH _ O3).
  cbn [length]. destruct C as [[_ ->]| ->]; cbn [fst snd]; lia.
Qed.
Lemma seg_arrays_ok m n R k : total_cost m R k -> (forall c, 0 <= gid_of m c <= 65534) ->
  forall i a low, ordered_ranges low R -> 0 <= low -> 0 <= i -> 0 <= a -> n - i = Z.of_nat (length R) + 1 ->
  2 * (Z.of_nat (length R) + 1 + a) + (k - 8 * Z.of_nat (length R)) <= 65535 ->
  exists d o x, seg_arrays m n i a R = Ok (d, o, x) /\ 8 * Z.of_nat (length R) + 2 * Z.of_nat (length x) <= k.
Proof.
  intros T G. induction T as [|[s e] k l k' C T IH]; intros i a low O LO I A N B.
  - exists [], [], []. split; [reflexivity|]. cbn; lia.
  - pose proof O as O0. cbn [ordered_ranges] in O. destruct O as (O1 & O2 & O3).
    pose proof (cost_nonneg _ _ _ T _ O3) as CN.
    cbn [length] in N, B |- *. cbn [seg_arrays].
    assert (K8 : 8 <= k) by (destruct C as [[_ ->]| ->]; cbn [fst snd]; lia).
    ck. destruct (contiguous_total m s e ltac:(lia) G) as [X|[X NR]]; rewrite X; cbn [rbind].
    + rewrite zrange_cons by lia. cbn [map hd_error unwrap rbind].
      destruct (IH (i + 1) a (e + 1)) as (d & o & x & -> & BX); try lia; auto.
      cbn [rbind]. eexists _, _, _. split; [reflexivity|]. lia.
    + assert (k = 8 + 2 * (e - s + 1)) by (destruct C as [[R _]| ->]; [now apply NR in R|reflexivity]).
      rewrite u16_id by lia. ck. rewrite map_length, zrange_length.
      destruct (IH (i + 1) (a + Z.of_nat (Z.to_nat (e + 1 - s))) (e + 1)) as (d & o & x & -> & BX); try lia; auto.
      cbn [rbind]. eexists _, _, _. split; [reflexivity|].
      rewrite app_length, map_length, zrange_length. lia.
Qed.

(** ** Reading *)

Lemma seg_order_ends segs : forall low i g, seg_order low segs -> nth_error segs i = Some g ->
  low <= sg_start g <= sg_end g /\ sg_end g <= 65535 /\ ((S i < length segs)%nat -> sg_end g < 65535).
Proof.
  induction segs as [|h segs IH]; intros low i g O N; [destruct i; discriminate|].
  destruct segs as [|h2 segs].
  - destruct i as [|[|i]]; cbn [nth_error] in N; try discriminate. injection N as ->.
    cbn [seg_order] in O. cbn [length]. lia.
  - cbn [seg_order] in O. destruct O as [O1 O2].
    destruct i as [|i]; cbn [nth_error] in N.
    + injection N as ->. destruct (IH _ 0%nat h2 O2 eq_refl) as (A & B & _). repeat split; try lia.
    + destruct (IH _ i g O2 N) as (A & B & C). repeat split; try lia. intros L. apply C. cbn [length] in *. lia.
Qed.
Lemma seg_for_nth segs c : forall low k j g, seg_order low segs -> nth_error segs j = Some g ->
  sg_start g <= c <= sg_end g -> seg_for k segs c = Some (k + Z.of_nat j, g).
Proof.
  induction segs as [|h segs IH]; intros low k j g O N H; [destruct j; discriminate|].
  cbn [seg_for]. destruct j as [|j]; cbn [nth_error] in N.
  - injection N as ->. replace (c <=? sg_end g) with true by lia. do 2 f_equal. lia.
  - assert (O2 : seg_order (sg_end h + 1) segs).
    { destruct segs; [destruct j; discriminate|]. cbn [seg_order] in O. tauto. }
    pose proof (seg_order_ends _ _ _ _ O2 N). replace (c <=? sg_end h) with false by lia.
    rewrite (IH _ (k + 1) j g O2 N H). do 2 f_equal. lia.
Qed.
Lemma seg_for_some segs c : forall k i g, seg_for k segs c = Some (i, g) ->
  c <= sg_end g /\ exists j, nth_error segs j = Some g /\ i = k + Z.of_nat j.
Proof.
  induction segs as [|h segs IH]; intros k i g; cbn [seg_for]; [discriminate|].
  destruct (_ <=? _) eqn:E.
  - intros [= <- <-]. split; [lia|]. exists 0%nat. split; [reflexivity|lia].
  - intros H. apply IH in H as (A & j & B & C). split; [exact A|]. exists (S j). split; [exact B|lia].
Qed.

Definition entry (segs : list seg4) (arr : list Z) (c : Z) : Z * Z := (c, lookup4 segs arr c).

Lemma i16_signed16 v : is_u16 v -> i16 v = signed16 v.
Proof. intros H. rewrite i16_signed by exact H. reflexivity. Qed.

Lemma chk_i_ok z : -32768 <= z <= 32767 -> chk_i 16 z = Ok z.
Proof. intros H. unfold chk_i. replace ((- 2 ^ (16 - 1) <=? z) && (z <? 2 ^ (16 - 1))) with true by lia. reflexivity. Qed.

Lemma seg_codes_ok segs arr d o p : forall codes m0,
  increasing codes -> (forall c k, In c codes -> In k (map fst m0) -> k < c) ->
  (forall c, In c codes ->
     (o = 0 /\ lookup4 segs arr c = (c + d) mod 65536)
     \/ (o <> 0 /\ 0 <= c + p < Z.of_nat (length arr) /\
         let v := nth (Z.to_nat (c + p)) arr 0 in
         is_u16 v /\ (v = 0 -> lookup4 segs arr c = 0)
         /\ (v <> 0 -> -32768 <= signed16 v + d <= 32767 /\ lookup4 segs arr c = (v + d) mod 65536))) ->
  seg_codes arr d o p m0 codes = Ok (m0 ++ map (entry segs arr) codes).
Proof.
  induction codes as [|c codes IH]; intros m0 I K H; cbn [seg_codes map].
  - now rewrite app_nil_r.
  - assert (INS : forall v, bm_insert Z.ltb c v m0 = m0 ++ [(c, v)]).
    { intros v. apply (insert_last Z.ltb Z_strict). apply Forall_forall. intros k Hk. specialize (K c k (or_introl eq_refl) Hk). lia. }
    assert (STEP : forall v, v = lookup4 segs arr c ->
      seg_codes arr d o p (bm_insert Z.ltb c v m0) codes = Ok (m0 ++ entry segs arr c :: map (entry segs arr) codes)).
    { intros v ->. rewrite INS, IH.
      - now rewrite <- app_assoc.
      - now apply increasing_tail in I.
      - intros c' k Hc Hk. rewrite map_app in Hk. apply in_app_iff in Hk as [Hk|[<-|[]]].
        + apply K; [now right|exact Hk].
        + apply increasing_lt in I. rewrite Forall_forall in I. cbn [fst]. apply I. exact Hc.
      - intros c' Hc. apply H. now right. }
    destruct (H c (or_introl eq_refl)) as [[O L]|(O & B & V & Z0 & Z1)].
    + replace (o =? 0) with true by lia. apply STEP. rewrite L. reflexivity.
    + replace (o =? 0) with false by lia. cbv zeta.
      replace ((c + p <? 0) || (Z.of_nat (length arr) <=? c + p)) with false by lia.
      destruct (_ =? 0) eqn:E.
      * apply STEP. symmetry. apply Z0. lia.
      * destruct (Z1 ltac:(lia)) as [R L]. rewrite i16_signed16 by exact V.
        rewrite chk_i_ok by exact R. cbn [rbind]. apply STEP. rewrite L.
        unfold u16, wrap_u. change (2 ^ 16) with 65536.
        unfold signed16 in *. destruct (_ <? _); lia.
Qed.

Lemma increasing_zrange s e : increasing (zrange s e).
Proof.
  remember (Z.to_nat (e - s)) as k eqn:K. revert s K. induction k as [|k IH]; intros s K.
  - rewrite zrange_nil by lia. exact I.
  - rewrite zrange_cons by lia. specialize (IH (s + 1) ltac:(lia)).
    destruct (Z.lt_ge_cases (s + 1) e).
    + rewrite (zrange_cons (s + 1)) in * by lia. split; [lia|exact IH].
    + rewrite zrange_nil by lia. exact I.
Qed.

Definition seg_entries (segs : list seg4) (arr : list Z) (l : list seg4) : list (Z * Z) :=
  concat (map (fun g => map (entry segs arr) (zrange (sg_start g) (sg_end g + 1))) l).

Lemma addressed_array segs arr i g c : Z.of_nat (length segs) <= i + sg_offset g / 2 + (c - sg_start g) ->
  addressed segs arr i g c = nth_error arr (Z.to_nat (c + (sg_offset g / 2 - sg_start g + i - Z.of_nat (length segs)))).
Proof.
  intros H. unfold addressed. rewrite nth_error_app2 by (rewrite map_length; lia).
  rewrite map_length. f_equal. lia.
Qed.

Lemma lookup4_seg segs arr low j g c : seg_order low segs -> nth_error segs j = Some g ->
  sg_start g <= c <= sg_end g ->
  lookup4 segs arr c = if sg_offset g =? 0 then (c + sg_delta g) mod 65536
                       else match addressed segs arr (Z.of_nat j) g c with
                            | None | Some 0 => 0 | Some w => (w + sg_delta g) mod 65536 end.
Proof.
  intros O N H. unfold lookup4. rewrite (seg_for_nth _ c _ 0 j g O N H).
  replace (0 + Z.of_nat j) with (Z.of_nat j) by lia.
  replace (c <? sg_start g) with false by lia. reflexivity.
Qed.

Lemma seg_maps_cons arr n i m s e d o g2 suf :
  seg_maps arr n i m ((s, e, d, o) :: g2 :: suf)
  = if e =? 0xffff then Ok m
    else m1 <- seg_codes arr d o (o / 2 - s + i - n) m (zrange s (1 + e)) ;; seg_maps arr n (i + 1) m1 (g2 :: suf).
Proof. reflexivity. Qed.
Lemma seg_maps_ok segs arr low : Forall seg_fields segs -> Forall is_u16 arr -> seg_order low segs -> in_array segs arr ->
  short_sums segs arr ->
  forall suf pre m0 low', segs = pre ++ suf -> seg_order low' suf -> (forall k, In k (map fst m0) -> k < low') ->
  seg_maps arr (Z.of_nat (length segs)) (Z.of_nat (length pre)) m0 suf = Ok (m0 ++ seg_entries segs arr (removelast suf)).
Proof.
  intros FF FA SO IA SS. induction suf as [|g suf IH]; intros pre m0 low' E O K; [destruct O|].
  destruct suf as [|g2 suf].
  - cbn [seg_maps removelast]. destruct g as [[[s e] d] o]. unfold seg_entries. cbn [map concat]. now rewrite app_nil_r.
  - assert (IN : inner_seg segs (length pre) g).
    { split.
      - rewrite E, nth_error_app2 by lia. now rewrite Nat.sub_diag.
      - rewrite E, app_length. cbn [length]. lia. }
    change (removelast (g :: g2 :: suf)) with (g :: removelast (g2 :: suf)).
    destruct g as [[[s e] d] o] eqn:EG. rewrite <- EG in *.
    assert (ES : sg_start g = s /\ sg_end g = e /\ sg_delta g = d /\ sg_offset g = o) by (subst g; auto).
    destruct ES as (E1 & E2 & E3 & E4).
    rewrite EG at 1. rewrite seg_maps_cons.
    pose proof (seg_order_ends _ _ _ _ SO (proj1 IN)) as (B1 & B2 & B3). specialize (B3 (proj2 IN)).
    replace (e =? 65535) with false by lia.
    cbn [seg_order] in O. destruct O as [O1 O2].
    rewrite (seg_codes_ok segs arr).
    + cbn [rbind]. replace (Z.of_nat (length pre) + 1) with (Z.of_nat (length (pre ++ [g]))) by (rewrite app_length; cbn [length]; lia).
      rewrite (IH (pre ++ [g]) _ (e + 1)).
      * unfold seg_entries. cbn [map concat]. rewrite E1, E2, <- app_assoc. now replace (1 + e) with (e + 1) by lia.
      * rewrite <- app_assoc. exact E.
      * rewrite <- E2. exact O2.
      * intros k Hk. rewrite map_app, in_app_iff, map_map in Hk. cbn [entry fst] in Hk. rewrite map_id in Hk.
        destruct Hk as [Hk|Hk]; [specialize (K k Hk); lia|]. apply zrange_In in Hk. lia.
    + apply increasing_zrange.
    + intros c k Hc Hk. apply zrange_In in Hc. specialize (K k Hk). lia.
    + intros c Hc. apply zrange_In in Hc.
      assert (HC : sg_start g <= c <= sg_end g) by lia.
      rewrite (lookup4_seg segs arr low _ g c SO (proj1 IN) HC). rewrite E3, E4.
      destruct (o =? 0) eqn:EO; [left; split; [lia|reflexivity]|right].
      destruct (IA _ _ c IN ltac:(lia) HC) as (_ & A1). rewrite E1, E4 in A1.
      pose proof (fun w => SS (length pre) g c w IN ltac:(lia) HC) as S.
      rewrite addressed_array in S by (rewrite ?E1, ?E4; lia).
      rewrite addressed_array by (rewrite ?E1, ?E4; lia). rewrite E1, E4 in *.
      set (p := o / 2 - s + Z.of_nat (length pre) - Z.of_nat (length segs)) in *.
      split; [lia|]. split; [lia|]. cbv zeta.
      assert (NE : nth_error arr (Z.to_nat (c + p)) = Some (nth (Z.to_nat (c + p)) arr 0)) by (apply nth_error_nth'; lia).
      rewrite NE. set (v := nth _ arr 0) in *.
      split; [apply nth_error_In in NE; rewrite Forall_forall in FA; now apply FA|].
      split; [now intros ->|]. intros NZ. rewrite E3 in S. split; [apply S; auto|].
      destruct v; [congruence|reflexivity|reflexivity].
Qed.

Lemma combine_segs (segs : list seg4) :
  combine (combine (combine (map sg_start segs) (map sg_end segs)) (map sg_delta segs)) (map sg_offset segs) = segs.
Proof. induction segs as [|[[[s e] d] o] segs IH]; cbn [map combine]; [reflexivity|]. now rewrite IH. Qed.

Lemma words_app a b : words (a ++ b) = words a ++ words b.
Proof. unfold words. now rewrite map_app, concat_app. Qed.
Lemma words_length l : length (words l) = (2 * length l)%nat.
Proof. unfold words. induction l as [|a l IH]; [reflexivity|]. cbn [map concat]. rewrite app_length, IH. cbn [length word]. lia. Qed.
Lemma words_cons a l : words (a :: l) = word a ++ words l.
Proof. reflexivity. Qed.
Lemma reads_u16s l n : n = length l -> Forall is_u16 l -> reads (de_counted de_u16 n) (words l) l.
Proof.
  intros -> Hl. unfold words. rewrite map_words_u. apply reads_counted. eapply Forall_impl; [|exact Hl].
  intros z Hz. apply reads_u16. unfold is_u16 in Hz. lia.
Qed.
Lemma reads_i16s l n : n = length l -> Forall (fun z => -32768 <= z <= 32767) l -> reads (de_counted de_i16 n) (words l) l.
Proof.
  intros -> Hl. unfold words. replace (map word l) with (map ser_i16 l) by (apply map_ext; intros; symmetry; apply word_i16).
  apply reads_counted. eapply Forall_impl; [|exact Hl]. intros z Hz. apply reads_i16. cbv beta in Hz. lia.
Qed.
Lemma reads_skip n bs : length bs = n -> reads (pskip n) bs tt.
Proof. intros <- r post H. reflexivity. Qed.
Lemma reads_default {A} (p : parser (list A)) bs v : reads p bs v -> reads (or_default p) bs v.
Proof. intros H r post Hr. unfold or_default. now rewrite (H r post Hr). Qed.

Lemma reads_word z : is_u16 z -> reads de_u16 (word z) z.
Proof. intros H. unfold is_u16 in H. rewrite word_u16. apply reads_u16. lia. Qed.
Lemma cmap4_de_reads lang search segs arr bs len :
  is_u16 lang -> Forall seg_fields segs -> Forall is_u16 arr -> Z.of_nat (length segs) <= 32767 -> is_u16 len ->
  (let '(sr, es, rs) := search in
   bs = words ([4; len; lang; 2 * Z.of_nat (length segs); sr; es; rs]
              ++ map sg_end segs ++ [0] ++ map sg_start segs ++ map sg_delta segs
              ++ map sg_offset segs ++ arr)) ->
  len = 16 + 8 * Z.of_nat (length segs) + 2 * Z.of_nat (length arr) ->
  reads cmap4_de bs (mkC4 len lang (0, 0, 0) (2 * Z.of_nat (length segs)) (map sg_end segs) (map sg_start segs)
                          (map sg_delta segs) (map sg_offset segs) arr).
Proof.
  destruct search as [[sr es] rs]. intros HL HF HA HN HLen -> EL.
  assert (N2 : Z.to_nat (2 * Z.of_nat (length segs) / 2) = length segs) by lia.
  rewrite !words_app. unfold cmap4_de.
  rewrite !words_cons. rewrite <- !app_assoc.
  change (words []) with (@nil Z). rewrite ?app_nil_l, ?app_nil_r.
  eapply reads_bind; [apply (reads_word 4); unfold is_u16; lia|cbv beta].
  eapply reads_bind; [apply reads_word; exact HLen|cbv beta].
  eapply reads_bind; [apply reads_word; exact HL|cbv beta].
  eapply reads_bind; [apply reads_word; unfold is_u16; lia|cbv beta].
  cbv zeta. rewrite N2.
  eapply (reads_bind' _ _ _ (word sr ++ word es ++ word rs)); [rewrite <- !app_assoc; reflexivity|now apply reads_skip|cbv beta].
  assert (P : forall A (P Q : A -> Prop) l, Forall P l -> (forall a, P a -> Q a) -> Forall Q l)
    by (intros A P0 Q0 l X Y; eapply Forall_impl; [exact Y|exact X]).
  eapply reads_bind; [apply reads_u16s; [now rewrite map_length|apply Forall_map; eapply P; [exact HF|now intros ? (?&?&?&?)]]|cbv beta].
  eapply reads_bind; [now apply reads_skip|cbv beta].
  eapply reads_bind; [apply reads_u16s; [now rewrite map_length|apply Forall_map; eapply P; [exact HF|now intros ? (?&?&?&?)]]|cbv beta].
  eapply reads_bind; [apply reads_i16s; [now rewrite map_length|apply Forall_map; eapply P; [exact HF|now intros ? (?&?&?&?)]]|cbv beta].
  eapply reads_bind; [apply reads_u16s; [now rewrite map_length|apply Forall_map; eapply P; [exact HF|now intros ? (?&?&?&?)]]|cbv beta].
  eapply (reads_bind' _ _ _ []); [reflexivity|apply reads_plift; apply chk_u_ok|cbv beta].
  { unfold is_u16 in *. change (2 ^ 64) with 18446744073709551616. lia. }
  eapply (reads_bind' _ _ _ (words arr) []); [now rewrite app_nil_r|apply reads_default, reads_u16s; [lia|exact HA]|].
  apply reads_pret.
Qed.

Lemma cmap4_bytes_length lang search segs arr bs : cmap4_bytes lang search segs arr bs ->
  Z.of_nat (length bs) = 16 + 8 * Z.of_nat (length segs) + 2 * Z.of_nat (length arr).
Proof.
  destruct search as [[sr es] rs]. cbn [cmap4_bytes]. intros H.
  apply (f_equal (@length Z)) in H. rewrite words_length in H. rewrite H.
  rewrite !app_length, !map_length. cbn [length]. lia.
Qed.

Lemma cmap4_every_read lang search segs arr bs :
  cmap4_bytes lang search segs arr bs -> is_u16 lang -> well_formed4 segs arr -> short_sums segs arr ->
  Z.of_nat (length bs) <= 65535 ->
  reads cmap4_read bs (lang, seg_entries segs arr (removelast segs)).
Proof.
  intros HB HL (W1 & W2 & W3 & W4) SS LE. pose proof (cmap4_bytes_length _ _ _ _ _ HB) as LB.
  unfold cmap4_read. eapply (reads_bind' _ _ _ bs []); [now rewrite app_nil_r| |].
  - eapply (cmap4_de_reads lang search segs arr bs (Z.of_nat (length bs))); auto; unfold is_u16; lia.
  - cbv beta. eapply (reads_bind' _ _ _ [] []); [reflexivity|apply reads_plift|cbv beta; apply reads_pret].
    unfold cmap4_mapping, c4_segments. cbn [c4_start c4_end c4_delta c4_offset c4_array].
    rewrite combine_segs, map_length.
    assert (N : segs <> []) by (intros ->; destruct W3).
    destruct (map sg_start segs) eqn:E; [destruct segs; [congruence|discriminate]|].
    change 0 with (Z.of_nat (@length seg4 [])) at 1.
    rewrite (seg_maps_ok segs arr 0 W1 W2 W3 W4 SS segs [] [] 0 eq_refl W3); [reflexivity|intros k []].
Qed.

(** entries in terms of membership *)
Lemma seg_entries_In segs arr l c g : In (c, g) (seg_entries segs arr l) <-> in_segments l c /\ g = lookup4 segs arr c.
Proof.
  unfold seg_entries, in_segments. rewrite in_concat. rewrite Exists_exists. split.
  - intros (x & Hx & Hc). apply in_map_iff in Hx as (h & <- & Hh). apply in_map_iff in Hc as (c' & [= <- <-] & Hc).
    apply zrange_In in Hc. split; [|reflexivity]. exists h. split; [exact Hh|lia].
  - intros [(h & Hh & Hc) ->]. eexists. split; [apply in_map; exact Hh|]. apply (in_map (entry segs arr)). apply zrange_In. lia.
Qed.
Lemma increasing_app l1 l2 : increasing l1 -> increasing l2 -> (forall a b, In a l1 -> In b l2 -> a < b) -> increasing (l1 ++ l2).
Proof.
  induction l1 as [|a l1 IH]; intros I1 I2 H; [exact I2|].
  assert (X : increasing (l1 ++ l2)).
  { apply IH; [now apply increasing_tail in I1|exact I2|]. intros; apply H; [now right|assumption]. }
  cbn [app]. destruct (l1 ++ l2) as [|b l] eqn:E; [exact I|]. cbn [increasing]. split; [|exact X].
  destruct l1 as [|b' l1].
  - cbn [app] in E. subst. apply H; now left.
  - cbn [app] in E. injection E as -> _. apply increasing_lt in I1. now inversion I1.
Qed.
Lemma seg_entries_keys segs arr l : map fst (seg_entries segs arr l) = concat (map (fun g => zrange (sg_start g) (sg_end g + 1)) l).
Proof.
  unfold seg_entries. induction l as [|h l IH]; [reflexivity|]. cbn [map concat]. rewrite map_app, IH, map_map.
  cbn [entry fst]. now rewrite map_id.
Qed.
Lemma seg_entries_increasing segs arr l : forall low, seg_order low l ->
  increasing (map fst (seg_entries segs arr (removelast l)))
  /\ Forall (fun c => low <= c <= 65534) (map fst (seg_entries segs arr (removelast l))).
Proof.
  rewrite seg_entries_keys.
  induction l as [|g l IH]; intros low O; [destruct O|].
  destruct l as [|g2 l]; [split; [exact I|constructor]|].
  change (removelast (g :: g2 :: l)) with (g :: removelast (g2 :: l)). cbn [map concat].
  pose proof (seg_order_ends _ _ 0%nat g O eq_refl) as (B1 & B2 & B3). specialize (B3 ltac:(cbn [length]; lia)).
  cbn [seg_order] in O. destruct O as [O1 O2]. destruct (IH _ O2) as [IH1 IH2].
  split.
  - apply increasing_app; [apply increasing_zrange|exact IH1|].
    intros a b Ha Hb. apply zrange_In in Ha. rewrite Forall_forall in IH2. specialize (IH2 b Hb). cbv beta in IH2. lia.
  - apply Forall_app. split.
    + apply Forall_forall. intros c Hc. apply zrange_In in Hc. lia.
    + eapply Forall_impl; [|exact IH2]. cbv beta. intros; lia.
Qed.
Lemma lookup4_u16 segs arr c : Forall is_u16 arr -> is_u16 (lookup4 segs arr c).
Proof.
  intros _. assert (B : forall x, is_u16 (x mod 65536)) by (intros; unfold is_u16; lia).
  assert (Z0 : is_u16 0) by (unfold is_u16; lia).
  unfold lookup4. destruct (seg_for _ _ _) as [[i g]|]; auto.
  destruct (_ <? _); auto. destruct (_ =? _); auto. destruct (addressed _ _ _ _ _) as [[| |]|]; auto.
Qed.
Lemma seg_entries_map segs arr : well_formed4 segs arr -> char_map (seg_entries segs arr (removelast segs)).
Proof.
  intros (W1 & W2 & W3 & W4). destruct (seg_entries_increasing segs arr segs 0 W3) as [A B].
  split; [exact A|]. rewrite Forall_forall in *. intros [c g] H. specialize (B c (in_map fst _ _ H)).
  cbv beta in B. cbn [fst snd]. split; [lia|]. apply seg_entries_In in H as [_ ->]. apply lookup4_u16. now apply Forall_forall.
Qed.

(** ** Writing *)

Lemma split_len a b m s e : split_range a b m = Ok (s, e) -> length e = S (length s).
Proof.
  unfold split_range. destruct (a =? b); [now intros [= <- <-]|].
  destruct (bm_get _ _ _); cbn [unwrap rbind]; [|discriminate].
  destruct (chk_u 16 (a + 1)); cbn [rbind]; try discriminate.
  destruct (chk_u 16 (b + 1)); cbn [rbind]; try discriminate. cbv zeta.
  destruct (negb _); [discriminate|].
  destruct (sr_keep _ _ _) as [k| |]; cbn [rbind]; try discriminate.
  destruct k; [now intros [= <- <-]|].
  destruct (sr_edges _ _ _) as [l| |]; cbn [rbind]; try discriminate.
  destruct l as [|[x y] l]; [discriminate|].
  destruct (sr_fill _ _) as [l'| |]; cbn [rbind]; try discriminate.
  intros [= <- <-]. cbn [length]. now rewrite !map_length.
Qed.
Lemma split_end a m s e : split_range a 65535 m = Ok (s, e) -> s = [] /\ e = [65535].
Proof.
  unfold split_range. destruct (a =? 65535) eqn:E; [now intros [= <- <-]|].
  destruct (bm_get _ _ _); cbn [unwrap rbind]; [|discriminate].
  destruct (chk_u 16 (a + 1)); cbn [rbind]; discriminate.
Qed.
Lemma segments_inv m codes : forall cur lst s e, segments m cur lst codes = Ok (s, e) -> 0 <= lst ->
  increasing (lst :: codes) ->
  length e = S (length s) /\ last codes lst <= 65535
  /\ (last codes lst = 65535 -> exists p, e = p ++ [65535; 65535]).
Proof.
  induction codes as [|c codes IH]; intros cur lst s e H P I; cbn [segments] in H.
  - destruct (try_u 16 lst) as [l16|] eqn:T; cbn [unwrap rbind] in H; [|discriminate].
    apply try_u_inv in T as [-> B].
    destruct (split_range cur lst m) as [[s' e']| |] eqn:S; cbn [rbind] in H; try discriminate.
    injection H as <- <-. pose proof (split_len _ _ _ _ _ S). rewrite !app_length. cbn [length last].
    split; [lia|]. split; [lia|]. intros ->. apply split_end in S as [_ ->]. now exists [].
  - pose proof (increasing_lt _ _ I) as LT. inversion LT as [|? ? L1 _]; subst. apply increasing_tail in I.
    assert (EL : last (c :: codes) lst = last codes c).
    { destruct codes as [|c2 codes]; [reflexivity|]. change (last (c :: c2 :: codes) lst) with (last (c2 :: codes) lst).
      clear. revert c2. induction codes as [|x codes IH]; intros c2; [reflexivity|]. exact (IH x). }
    rewrite EL. destruct (c =? lst + 1) eqn:E.
    + apply IH in H; [exact H|lia|exact I].
    + destruct (try_u 16 lst) as [l16|] eqn:T; cbn [unwrap rbind] in H; [|discriminate].
      destruct (split_range cur l16 m) as [[s' e']| |] eqn:S; cbn [rbind] in H; try discriminate.
      destruct (try_u 16 c) as [c16|] eqn:T2; cbn [unwrap rbind] in H; [|discriminate].
      apply try_u_inv in T2 as [-> _].
      destruct (segments m c c codes) as [[s2 e2]| |] eqn:S2; cbn [rbind] in H; try discriminate.
      injection H as <- <-. apply IH in S2 as (A & B & C); [|lia|exact I].
      pose proof (split_len _ _ _ _ _ S). rewrite !app_length. cbn [length].
      split; [lia|]. split; [exact B|]. intros D. destruct (C D) as (p & ->).
      exists (e' ++ p). now rewrite <- app_assoc.
Qed.
Lemma seg_arrays_bound m n R : forall i a v, seg_arrays m n i a R = Ok v -> Forall (fun r => snd r <= 65534) R.
Proof.
  induction R as [|[s e] R IH]; intros i a v; cbn [seg_arrays]; [constructor|].
  destruct (chk_u 16 (e + 1)) as [e1| |] eqn:E; cbn [rbind]; try discriminate. apply chk_u_inv in E as [-> B].
  destruct (contiguous _) as [[|]| |]; cbn [rbind]; try discriminate.
  - destruct (hd_error _); cbn [unwrap rbind]; [|discriminate].
    destruct (seg_arrays m n (i + 1) a R) as [[[d o] x]| |] eqn:S; cbn [rbind]; try discriminate.
    intros _. constructor; [cbn [snd]; lia|eapply IH; exact S].
  - destruct (chk_u 16 _); cbn [rbind]; try discriminate.
    destruct (seg_arrays m n (i + 1) _ R) as [[[d o] x]| |] eqn:S; cbn [rbind]; try discriminate.
    intros _. constructor; [cbn [snd]; lia|eapply IH; exact S].
Qed.

Lemma last_max l d : increasing (d :: l) -> Forall (fun c => c <= last l d) (d :: l).
Proof.
  revert d; induction l as [|a l IH]; intros d I.
  - constructor; [cbn; lia|constructor].
  - pose proof (increasing_lt _ _ I) as L. inversion L as [|? ? L1 _]; subst. apply increasing_tail in I.
    specialize (IH a I).
    assert (EL : last (a :: l) d = last l a).
    { destruct l as [|c2 l]; [reflexivity|]. change (last (a :: c2 :: l) d) with (last (c2 :: l) d).
      clear. revert c2. induction l as [|x l IH]; intros c2; [reflexivity|]. exact (IH x). }
    rewrite EL. inversion IH; subst. constructor; [lia|exact IH].
Qed.

Lemma get_has m c : char_map m -> (has m c <-> In c (map fst m)).
Proof.
  intros [I F]. unfold has. split.
  - destruct (bm_get Z.ltb c m) as [g|] eqn:E; [|congruence]. intros _.
    apply (get_In _ Z_strict) in E. exact (in_map fst _ _ E).
  - intros H. apply in_map_iff in H as ([c' g] & <- & H). cbn [fst].
    rewrite (In_get _ Z_strict _ _ _ (increasing_sorted_map _ I) H). discriminate.
Qed.
Lemma gid_glyph_for m c : gid_of m c = glyph_for m c.
Proof.
  unfold gid_of, glyph_for. induction m as [|[k v] m IH]; [reflexivity|]. cbn [bm_get find fst].
  destruct (k =? c) eqn:E.
  - replace ((c <? k) || (k <? c)) with false by lia. reflexivity.
  - replace ((c <? k) || (k <? c)) with true by lia. exact IH.
Qed.
Lemma glyph_for_in m c g : char_map m -> In (c, g) m -> glyph_for m c = g.
Proof.
  intros [I F] H. rewrite <- gid_glyph_for. unfold gid_of.
  now rewrite (In_get _ Z_strict _ _ _ (increasing_sorted_map _ I) H).
Qed.
Lemma gid_range m c : char_map m -> 0 <= gid_of m c <= 65535.
Proof.
  intros [I F]. unfold gid_of. destruct (bm_get Z.ltb c m) as [g|] eqn:E; [|lia].
  apply (get_In _ Z_strict) in E. rewrite Forall_forall in F. apply F in E. cbn [snd] in E. unfold is_u16 in E. lia.
Qed.
Lemma gid_none m c : ~ has m c -> gid_of m c = 0.
Proof. unfold has, gid_of. destruct (bm_get Z.ltb c m); [|auto]. intros H. exfalso. apply H. discriminate. Qed.

Definition zip4 (R : list (Z * Z)) (d o : list Z) : list seg4 := combine (combine R d) o.
Definition sentinel : seg4 := (65535, 65535, 1, 0).

Lemma arrays_len m n i a R d o x : arrays m n i a R d o x -> length d = length R /\ length o = length R.
Proof. induction 1; cbn [length]; lia. Qed.
Lemma zip4_maps R d o : length d = length R -> length o = length R ->
  map sg_start (zip4 R d o) = map fst R /\ map sg_end (zip4 R d o) = map snd R
  /\ map sg_delta (zip4 R d o) = d /\ map sg_offset (zip4 R d o) = o /\ length (zip4 R d o) = length R.
Proof.
  revert d o; induction R as [|[s e] R IH]; intros [|d1 d] [|o1 o] L1 L2; try discriminate; [repeat split|].
  cbn [length] in *. destruct (IH d o) as (A & B & C & D & E); [lia|lia|].
  unfold zip4 in *. cbn [combine map length]. rewrite A, B, C, D, E. repeat split.
Qed.

Lemma runs_bound l : forall d, increasing (d :: l) -> 2 * Z.of_nat (runs_after d l) <= last l d - d.
Proof.
  induction l as [|a l IH]; intros d I; [cbn; lia|].
  pose proof (increasing_lt _ _ I) as L. inversion L as [|? ? L1 _]; subst. apply increasing_tail in I.
  specialize (IH a I).
  assert (EL : last (a :: l) d = last l a).
  { destruct l as [|c2 l]; [reflexivity|]. change (last (a :: c2 :: l) d) with (last (c2 :: l) d).
    clear. revert c2. induction l as [|x l IH]; intros c2; [reflexivity|]. exact (IH x). }
  rewrite EL. cbn [runs_after]. destruct (a =? d + 1) eqn:E; lia.
Qed.

(** the first half of cmap4::from_mapping *)
Lemma cmap4_of_inv lang m t : char_map m -> cmap4_of lang m = Ok t ->
  Forall (fun c => c <= 65534) (map fst m) /\ exists R d o x sr,
    ordered_ranges 0 R /\ (forall c, covered R c <-> In c (map fst m))
    /\ arrays m (Z.of_nat (length R) + 1) 0 0 R d o x
    /\ Z.of_nat (length R) + 1 <= 32767
    /\ get_search_range (Z.of_nat (length R) + 1) 2 = Ok sr
    /\ t = mkC4 (u16 (16 + 8 * (Z.of_nat (length R) + 1) + 2 * Z.of_nat (length x))) lang sr
             (2 * (Z.of_nat (length R) + 1)) (map snd R ++ [65535]) (map fst R ++ [65535])
             (d ++ [1]) (o ++ [0]) x.
Proof.
  intros CM. pose proof CM as [I F]. unfold cmap4_of.
  destruct (map fst m) as [|c0 codes] eqn:EM; [discriminate|].
  assert (C0 : 0 <= c0).
  { destruct m as [|[c g] m]; [discriminate|]. cbn [map fst] in EM. injection EM as -> _.
    inversion F as [|? ? F1 _]; subst. cbn [fst] in F1. lia. }
  destruct (try_u 16 c0) as [s0|] eqn:T; cbn [unwrap rbind]; [|discriminate]. apply try_u_inv in T as [-> B0].
  destruct (segments m c0 c0 codes) as [[s e]| |] eqn:S; cbn [rbind]; try discriminate. cbv zeta.
  destruct (seg_arrays m _ 0 0 _) as [[[d o] x]| |] eqn:A; cbn [rbind]; try discriminate.
  intros H.
  pose proof (segments_inv _ _ _ _ _ _ S C0 I) as (L1 & L2 & L3).
  assert (LE : last codes c0 <= 65534).
  { destruct (Z.eq_dec (last codes c0) 65535) as [X|]; [|lia]. destruct (L3 X) as (p & ->).
    apply seg_arrays_bound in A. rewrite app_length in A, L1. cbn [length] in A, L1.
    replace (length p + 2 - 1)%nat with (length (p ++ [65535])) in A by (rewrite app_length; cbn [length]; lia).
    assert (Y : In 65535 (map snd (firstn (length (p ++ [65535])) (combine (c0 :: s) (p ++ [65535; 65535]))))).
    { rewrite <- firstn_map.
      assert (map snd (combine (c0 :: s) (p ++ [65535; 65535])) = p ++ [65535; 65535]) as ->.
      { assert (G : forall (a b : list Z), length a = length b -> map snd (combine a b) = b).
        { induction a as [|? a IHa]; intros [|? b] G; try discriminate; [reflexivity|]. cbn [combine map snd]. f_equal. apply IHa. now injection G. }
        apply G. rewrite app_length. cbn [length]. lia. }
      replace (p ++ [65535; 65535]) with ((p ++ [65535]) ++ [65535]) by (rewrite <- app_assoc; reflexivity).
      rewrite firstn_app_exact. apply in_app_iff. right. now left. }
    apply in_map_iff in Y as ([a b] & Y1 & Y2). cbn [snd] in Y1. subst b.
    rewrite Forall_forall in A. specialize (A _ Y2). cbn [snd] in A. lia. }
  assert (FB : Forall (fun c => c <= 65534) (c0 :: codes)).
  { eapply Forall_impl; [|exact (last_max _ _ I)]. cbv beta. intros; lia. }
  split; [exact FB|].
  assert (HC : Forall (has m) (c0 :: codes)).
  { apply Forall_forall. intros c Hc. apply get_has; [exact CM|]. now rewrite EM. }
  inversion HC as [|? ? HC0 HC1]; subst.
  destruct (segments_ok m codes c0 c0 ltac:(lia) I FB HC1 HC0) as (s' & e' & R & k & S' & E1 & E2 & O & CV & TC & K).
  rewrite S in S'. injection S' as <- <-.
  rewrite E1 in *. subst e. rewrite !app_length, !map_length in *. cbn [length] in *.
  replace (length R + 1 - 1)%nat with (length R) in A by lia.
  assert (EC : firstn (length R) (combine (map fst R ++ [65535]) (map snd R ++ [65535])) = R).
  { clear. induction R as [|[s e] R IH]; [reflexivity|]. cbn [length map app combine firstn fst snd]. now rewrite IH. }
  rewrite EC in A.
  replace (Z.of_nat (length R + 1)) with (Z.of_nat (length R) + 1) in * by lia.
  assert (NB : Z.of_nat (length R) <= 60000).
  { pose proof (cost_nonneg _ _ _ TC _ O). pose proof (runs_bound _ _ I).
    assert (FB2 : Forall (fun c => c0 <= c <= 65534) (c0 :: codes)).
    { pose proof (increasing_lt _ _ I) as LT. rewrite Forall_forall in FB, LT |- *. intros c [<-|Hc].
      - specialize (FB c0 (or_introl eq_refl)). cbv beta in FB. lia.
      - specialize (FB c (or_intror Hc)). specialize (LT c Hc). cbv beta in FB. lia. }
    pose proof (increasing_length (c0 :: codes) c0 65534 I FB2) as LC.
    inversion FB2; subst. cbn [length] in LC. lia. }
  destruct (get_search_range (u16 (Z.of_nat (length R) + 1)) 2) as [sr| |] eqn:SR; cbn [rbind] in H; try discriminate.
  destruct (chk_u 16 (u16 (Z.of_nat (length R) + 1) * 2)) as [x2| |] eqn:X2; cbn [rbind] in H; try discriminate.
  apply chk_u_inv in X2 as [-> X2].
  apply Ok_inj in H. subst t.
  rewrite u16_id in * by lia.
  assert (N : Z.of_nat (length R) + 1 <= 32767) by lia.
  exists R, d, o, x, sr.
  split; [eapply ordered_low; [exact O|lia]|].
  split; [intros c; rewrite CV; cbn [In]; split; [intros [?|?]; [left; lia|tauto]|intros [?|?]; [left; lia|tauto]]|].
  split; [eapply arrays_of; [exact O|exact A]|].
  split; [exact N|]. split; [exact SR|].
  rewrite !(u16_id (Z.of_nat (length R) + 1)) by lia. f_equal; [f_equal; lia|lia].
Qed.

Lemma arrays_nth m n i a R d o x : arrays m n i a R d o x -> forall low, ordered_ranges low R ->
  forall j g, nth_error (zip4 R d o) j = Some g ->
  nth_error R j = Some (sg_start g, sg_end g) /\
  ((sg_offset g = 0 /\ run m (sg_start g) (sg_end g) /\ sg_delta g = i16 (gid_of m (sg_start g) - sg_start g))
   \/ (sg_delta g = 0 /\ exists a', a <= a' /\ a' + (sg_end g - sg_start g + 1) <= a + Z.of_nat (length x)
       /\ sg_offset g = 2 * u16 (n + a' - (i + Z.of_nat j)) /\ sg_offset g < 65536
       /\ forall c, sg_start g <= c <= sg_end g -> nth_error x (Z.to_nat (a' - a + (c - sg_start g))) = Some (gid_of m c))).
Proof.
  induction 1 as [|i a s e R d o x R1 A IH|i a s e R d o x SE B A IH]; intros low O j g N.
  - destruct j; discriminate.
  - cbn [ordered_ranges] in O. destruct O as (O1 & O2 & O3).
    destruct j as [|j]; cbn [zip4 combine nth_error] in N.
    + injection N as <-. unfold sg_start, sg_end, sg_delta, sg_offset. cbn [fst snd nth_error]. split; [reflexivity|]. left. auto.
    + destruct (IH _ O3 j g N) as [N1 [C|(C1 & a' & C2 & C3 & C4 & C5 & C6)]]; (split; [exact N1|]); [now left|right].
      split; [exact C1|]. exists a'. replace (i + Z.of_nat (S j)) with (i + 1 + Z.of_nat j) by lia. auto.
  - cbn [ordered_ranges] in O. destruct O as (O1 & O2 & O3).
    assert (LX : length (map (gid_of m) (zrange s (e + 1))) = Z.to_nat (e - s + 1)).
    { rewrite map_length, zrange_length. f_equal. lia. }
    destruct j as [|j]; cbn [zip4 combine nth_error] in N.
    + injection N as <-. unfold sg_start, sg_end, sg_delta, sg_offset. cbn [fst snd nth_error]. split; [reflexivity|]. right.
      split; [reflexivity|]. exists a. replace (i + Z.of_nat 0) with i by lia.
      split; [lia|]. split; [rewrite app_length, LX; lia|]. split; [reflexivity|]. split; [lia|].
      intros c Hc. rewrite nth_error_app1 by lia. rewrite nth_error_map.
      rewrite (nth_error_nth' _ 0) by (rewrite zrange_length; lia).
      rewrite zrange_nth by lia. cbn [option_map]. do 2 f_equal. lia.
    + destruct (IH _ O3 j g N) as [N1 [C|(C1 & a' & C2 & C3 & C4 & C5 & C6)]]; (split; [exact N1|]); [now left|right].
      split; [exact C1|]. exists a'. replace (i + Z.of_nat (S j)) with (i + 1 + Z.of_nat j) by lia.
      split; [lia|]. split; [rewrite app_length, LX; lia|]. split; [exact C4|]. split; [exact C5|].
      intros c Hc. rewrite <- (C6 c Hc). rewrite nth_error_app2 by lia. f_equal. rewrite LX. lia.
Qed.

Lemma arrays_fields m n i a R d o x : char_map m -> arrays m n i a R d o x -> forall low, ordered_ranges low R -> 0 <= low ->
  Forall seg_fields (zip4 R d o) /\ Forall is_u16 x.
Proof.
  intros CM. induction 1 as [|i a s e R d o x R1 A IH|i a s e R d o x SE B A IH]; intros low O L.
  - split; constructor.
  - cbn [ordered_ranges] in O. destruct O as (O1 & O2 & O3). destruct (IH _ O3) as [F1 F2]; [lia|].
    split; [|exact F2]. cbn [zip4 combine]. constructor; [|exact F1].
    unfold seg_fields, is_u16, sg_start, sg_end, sg_delta, sg_offset. cbn [fst snd].
    pose proof (i16_range (gid_of m s - s)). lia.
  - cbn [ordered_ranges] in O. destruct O as (O1 & O2 & O3). destruct (IH _ O3) as [F1 F2]; [lia|].
    split.
    + cbn [zip4 combine]. constructor; [|exact F1].
      unfold seg_fields, is_u16, sg_start, sg_end, sg_delta, sg_offset. cbn [fst snd].
      unfold u16, wrap_u in *. change (2 ^ 16) with 65536 in *. lia.
    + apply Forall_app. split; [|exact F2]. apply Forall_map. apply Forall_forall. intros c _. exact (gid_range m c CM).
Qed.

Lemma seg_order_cons low g l : low <= sg_start g <= sg_end g -> seg_order (sg_end g + 1) l -> seg_order low (g :: l).
Proof. intros H O. destruct l; [destruct O|]. cbn [seg_order]. auto. Qed.
Lemma zip4_order R : forall d o low, length d = length R -> length o = length R -> ordered_ranges low R -> low <= 65535 ->
  seg_order low (zip4 R d o ++ [sentinel]).
Proof.
  induction R as [|[s e] R IH]; intros [|d1 d] [|o1 o] low L1 L2 O LO; try discriminate.
  - cbn [zip4 combine app seg_order]. unfold sentinel, sg_start, sg_end. cbn [fst snd]. lia.
  - cbn [ordered_ranges] in O. destruct O as (O1 & O2 & O3). cbn [length] in L1, L2.
    specialize (IH d o (e + 1) ltac:(lia) ltac:(lia) O3 ltac:(lia)).
    change (zip4 ((s, e) :: R) (d1 :: d) (o1 :: o) ++ [sentinel]) with ((s, e, d1, o1) :: (zip4 R d o ++ [sentinel])).
    apply seg_order_cons; [unfold sg_start, sg_end; cbn [fst snd]; lia|exact IH].
Qed.

Lemma run_gid m s e c : run m s e -> s <= c <= e -> gid_of m c = gid_of m s + (c - s).
Proof.
  intros R H. remember (Z.to_nat (c - s)) as k eqn:K. revert c H K.
  induction k as [|k IH]; intros c H K; [replace c with s by lia; lia|].
  replace c with (c - 1 + 1) by lia. rewrite (R (c - 1)) by lia. rewrite IH by lia. lia.
Qed.

Lemma inner_zip R d o j g : inner_seg (zip4 R d o ++ [sentinel]) j g -> nth_error (zip4 R d o) j = Some g.
Proof.
  intros [N L]. rewrite app_length in L. cbn [length] in L. now rewrite nth_error_app1 in N by lia.
Qed.

Lemma zip4_in R c : forall d o, length d = length R -> length o = length R ->
  (in_segments (zip4 R d o) c <-> covered R c).
Proof.
  unfold in_segments, covered.
  induction R as [|[s e] R' IH]; intros [|d1 d'] [|o1 o'] L1 L2; try discriminate.
  - split; intros X; inversion X.
  - cbn [length] in *. specialize (IH d' o' ltac:(lia) ltac:(lia)). unfold zip4 in *. cbn [combine].
    rewrite !Exists_cons, IH. reflexivity.
Qed.

Lemma ordered_end R : forall low s e, ordered_ranges low R -> In (s, e) R -> e <= 65534.
Proof.
  induction R as [|[s' e'] R IH]; intros low s e O H; [destruct H|]. cbn [ordered_ranges] in O.
  destruct H as [[= -> ->]|H]; [lia|]. eapply IH; [apply O|exact H].
Qed.
Lemma seg_for_sentinel c : c <= 65535 -> forall l k, seg_for k (l ++ [sentinel]) c <> None.
Proof.
  intros LC. induction l as [|g l IH]; intros k; cbn [app seg_for].
  - change (sg_end sentinel) with 65535. replace (c <=? 65535) with true by lia. discriminate.
  - destruct (_ <=? _); [discriminate|apply IH].
Qed.

Section Written.
  Context (m : cmapping) (R : list (Z * Z)) (d o x : list Z).
  Context (CM : char_map m) (O : ordered_ranges 0 R) (CV : forall c, covered R c <-> In c (map fst m)).
  Let n := Z.of_nat (length R) + 1.
  Context (A : arrays m n 0 0 R d o x).
  Let segs := zip4 R d o ++ [sentinel].

  Lemma w_len : length segs = (length R + 1)%nat.
  Proof using All.
    destruct (arrays_len _ _ _ _ _ _ _ _ A). unfold segs. rewrite app_length.
    destruct (zip4_maps R d o) as (_ & _ & _ & _ & ->); auto.
  Qed.
  Lemma w_order : seg_order 0 segs.
  Proof using All. destruct (arrays_len _ _ _ _ _ _ _ _ A). apply zip4_order; auto; lia. Qed.
  Lemma w_fields : Forall seg_fields segs /\ Forall is_u16 x.
  Proof using All.
    destruct (arrays_fields _ _ _ _ _ _ _ _ CM A 0 O) as [F1 F2]; [lia|]. split; [|exact F2].
    apply Forall_app. split; [exact F1|]. constructor; [|constructor]. unfold seg_fields, is_u16, sentinel, sg_start, sg_end, sg_delta, sg_offset.
    cbn [fst snd]. lia.
  Qed.

  Lemma w_in c : in_segments (zip4 R d o) c <-> In c (map fst m).
  Proof using All.
    rewrite <- CV. destruct (arrays_len _ _ _ _ _ _ _ _ A) as [L1 L2]. now apply zip4_in.
  Qed.

  Context (SHORT : n + Z.of_nat (length x) <= 65535).

  Lemma w_seg j g c : inner_seg segs j g -> sg_start g <= c <= sg_end g ->
    (sg_offset g = 0 /\ (c + sg_delta g) mod 65536 = gid_of m c)
    \/ (sg_offset g <> 0 /\ sg_offset g mod 2 = 0 /\ sg_delta g = 0 /\
        n <= Z.of_nat j + sg_offset g / 2 + (c - sg_start g) < n + Z.of_nat (length x)
        /\ addressed segs x (Z.of_nat j) g c = Some (gid_of m c)).
  Proof using All.
    intros IN HC. pose proof (proj2 IN) as LJ. rewrite w_len in LJ. apply inner_zip in IN.
    destruct (arrays_nth _ _ _ _ _ _ _ _ A 0 O j g IN) as [_ [(C1 & C2 & C3)|(C1 & a' & C2 & C3 & C4 & C5 & C6)]].
    - left. split; [exact C1|]. rewrite C3. rewrite <- Z.add_mod_idemp_r by lia. rewrite i16_mod.
      rewrite Z.add_mod_idemp_r by lia. rewrite (run_gid m _ _ c C2 HC).
      pose proof (gid_range m c CM) as G. rewrite (run_gid m _ _ c C2 HC) in G.
      rewrite Z.mod_small by lia. lia.
    - right. rewrite u16_id in C4 by (unfold n in *; lia).
      assert (N : addressed segs x (Z.of_nat j) g c = Some (gid_of m c)).
      { rewrite addressed_array.
        - rewrite <- (C6 c HC). f_equal. rewrite w_len. unfold n in *. lia.
        - rewrite w_len. unfold n in *. lia. }
      split; [unfold n in *; lia|]. split; [lia|]. split; [exact C1|]. split; [unfold n in *; lia|exact N].
  Qed.
  Lemma w_wf : well_formed4 segs x.
  Proof using All.
    destruct w_fields as [F1 F2]. split; [exact F1|]. split; [exact F2|]. split; [exact w_order|].
    intros j g c IN NZ HC. destruct (w_seg j g c IN HC) as [[? _]|(_ & E & _ & B & _)]; [congruence|].
    split; [exact E|]. rewrite w_len. unfold n in B. lia.
  Qed.
  Lemma w_sums : short_sums segs x.
  Proof using All.
    intros j g c w IN NZ HC AD N0. destruct (w_seg j g c IN HC) as [[? _]|(_ & _ & -> & _ & E)]; [congruence|].
    rewrite AD in E. injection E as ->. pose proof (gid_range m c CM). unfold signed16. destruct (_ <? _) eqn:X; lia.
  Qed.
  Lemma w_lookup c : c <= 65535 -> lookup4 segs x c = glyph_for m c.
  Proof using All.
    intros LC. rewrite <- gid_glyph_for.
    destruct (seg_for 0 segs c) as [[i g]|] eqn:SF.
    - destruct (seg_for_some _ _ _ _ _ SF) as (LE & j & N & ->).
      destruct (Z.lt_ge_cases c (sg_start g)) as [LT|GE].
      + unfold lookup4. rewrite SF. replace (c <? sg_start g) with true by lia.
        symmetry. apply gid_none. rewrite (get_has m c CM). rewrite <- w_in. intros X.
        apply Exists_exists in X as (h & Hh & HC). apply In_nth_error in Hh as (k & Hk).
        assert (Nk : nth_error segs k = Some h).
        { unfold segs. rewrite nth_error_app1; [exact Hk|]. apply nth_error_Some. now rewrite Hk. }
        pose proof (seg_for_nth segs c 0 0 k h w_order Nk HC) as SF2. rewrite SF in SF2. injection SF2 as _ ->. lia.
      + assert (HC : sg_start g <= c <= sg_end g) by lia.
        rewrite (lookup4_seg segs x 0 j g c w_order N HC).
        destruct (Nat.lt_ge_cases (S j) (length segs)) as [LJ|GJ].
        * destruct (w_seg j g c (conj N LJ) HC) as [[E1 E2]|(E1 & _ & E2 & _ & E3)].
          -- rewrite E1. cbn [Z.eqb]. exact E2.
          -- replace (sg_offset g =? 0) with false by lia. rewrite E3, E2.
             pose proof (gid_range m c CM). destruct (gid_of m c) eqn:G; [reflexivity| |]; rewrite Z.add_0_r; apply Z.mod_small; lia.
        * assert (j = length (zip4 R d o)).
          { assert (j < length segs)%nat by (apply nth_error_Some; now rewrite N).
            unfold segs in *. rewrite app_length in *. cbn [length] in *. lia. }
          subst j. unfold segs in N. rewrite nth_error_app2, Nat.sub_diag in N by lia. injection N as <-.
          unfold sentinel, sg_start, sg_end in HC. cbn [fst snd] in HC. assert (c = 65535) by lia. subst c.
          change (sg_offset sentinel =? 0) with true. cbv iota.
          change ((65535 + sg_delta sentinel) mod 65536) with 0. symmetry. apply gid_none. rewrite (get_has m _ CM), <- CV.
          intros X. apply Exists_exists in X as ([s e] & Hh & HX). cbn [fst snd] in HX.
          pose proof (ordered_end R 0 s e O Hh). lia.
    - exfalso. exact (seg_for_sentinel c LC _ _ SF).
  Qed.
  Lemma w_entries : seg_entries segs x (removelast segs) = m.
  Proof using All.
    pose proof (seg_entries_map segs x w_wf) as [I1 F1].
    assert (RL : removelast segs = zip4 R d o) by (unfold segs; apply removelast_last).
    rewrite RL in *. destruct CM as [I2 F2].
    apply (sorted_map_ext _ Z_strict); [now apply increasing_sorted_map|now apply increasing_sorted_map|].
    intros c. destruct (bm_get Z.ltb c m) as [g|] eqn:G.
    - apply (get_In _ Z_strict) in G. apply (In_get _ Z_strict); [now apply increasing_sorted_map|].
      apply seg_entries_In. split; [apply w_in; exact (in_map fst _ _ G)|].
      rewrite w_lookup; [symmetry; now apply glyph_for_in|].
      assert (X : covered R c) by (apply CV; exact (in_map fst _ _ G)).
      apply Exists_exists in X as ([s e] & Hh & HX). cbn [fst snd] in HX.
      pose proof (ordered_end R 0 s e O Hh). lia.
    - apply (get_not_in _ Z_strict). intros v H. apply seg_entries_In in H as [H _]. apply w_in in H.
      apply (get_has m c CM) in H. now apply H.
  Qed.
End Written.

(** ** Too long for the 16-bit length *)

Lemma ordered_count R : forall low, ordered_ranges low R -> R <> [] -> low + Z.of_nat (length R) <= 65535.
Proof.
  induction R as [|[s e] R IH]; intros low O N; [congruence|].
  cbn [ordered_ranges] in O. destruct O as (O1 & O2 & O3). cbn [length].
  destruct R as [|r R]; [cbn [length]; lia|]. specialize (IH _ O3 ltac:(discriminate)). lia.
Qed.
(** the last segment with glyphs in the array *)
Lemma arrays_last m n i a R d o x : arrays m n i a R d o x -> forall low, ordered_ranges low R -> x <> [] ->
  n - i = Z.of_nat (length R) + 1 -> 0 <= a <= low ->
  exists j g, nth_error (zip4 R d o) j = Some g /\ sg_start g <= sg_end g /\ sg_offset g <> 0
    /\ sg_end g + (sg_offset g / 2 - sg_start g + (i + Z.of_nat j) - n) = a + Z.of_nat (length x) - 1.
Proof.
  induction 1 as [|i a s e R d o x R1 A IH|i a s e R d o x SE B A IH]; intros low O NX N AL.
  - congruence.
  - cbn [ordered_ranges] in O. destruct O as (O1 & O2 & O3). cbn [length] in N.
    destruct (IH _ O3 NX) as (j & g & G1 & G2 & G3 & G4); [lia|lia|].
    exists (S j), g. split; [exact G1|]. split; [exact G2|]. split; [exact G3|]. lia.
  - pose proof O as O0. cbn [ordered_ranges] in O. destruct O as (O1 & O2 & O3). cbn [length] in N.
    assert (LX : length (map (gid_of m) (zrange s (e + 1))) = Z.to_nat (e - s + 1)).
    { rewrite map_length, zrange_length. f_equal. lia. }
    rewrite app_length, LX.
    destruct x as [|x1 x].
    + exists 0%nat, (s, e, 0, 2 * u16 (n + a - i)). split; [reflexivity|].
      unfold sg_start, sg_end, sg_offset. cbn [fst snd length].
      assert (n + a - i <= 65535).
      { destruct R as [|r R]; [cbn [length] in N; lia|].
        pose proof (ordered_count _ _ O3 ltac:(discriminate)). lia. }
      rewrite u16_id in * by lia. lia.
    + destruct (IH _ O3 ltac:(discriminate)) as (j & g & G1 & G2 & G3 & G4); [lia|lia|].
      exists (S j), g. split; [exact G1|]. split; [exact G2|]. split; [exact G3|]. lia.
Qed.

Lemma seg_codes_sound arr d o p codes : forall m0 m', seg_codes arr d o p m0 codes = Ok m' ->
  forall c, has m' c -> has m0 c \/ (In c codes /\ (o = 0 \/ 0 <= c + p < Z.of_nat (length arr))).
Proof.
  induction codes as [|k codes IH]; intros m0 m' H c Hc; cbn [seg_codes] in H.
  - injection H as <-. now left.
  - assert (STEP : forall v, (o = 0 \/ 0 <= k + p < Z.of_nat (length arr)) ->
      seg_codes arr d o p (bm_insert Z.ltb k v m0) codes = Ok m' ->
      has m0 c \/ (In c (k :: codes) /\ (o = 0 \/ 0 <= c + p < Z.of_nat (length arr)))).
    { intros v B E. destruct (IH _ _ E c Hc) as [X|[X Y]].
      - destruct (Z.eq_dec k c) as [->|NE]; [right; split; [now left|exact B]|].
        left. unfold has in *. now rewrite (get_insert_other _ Z_strict) in X.
      - right. split; [now right|exact Y]. }
    destruct (o =? 0) eqn:EO; [eapply STEP; [left; lia|exact H]|].
    cbv zeta in H. destruct (_ || _) eqn:B; [injection H as <-; now left|].
    destruct (nth _ arr 0 =? 0); [eapply STEP; [right; lia|exact H]|].
    destruct (chk_i 16 _) as [g| |]; cbn [rbind] in H; try discriminate.
    eapply STEP; [right; lia|exact H].
Qed.
Lemma seg_maps_sound arr n l : forall i m0 m', seg_maps arr n i m0 l = Ok m' ->
  forall c, has m' c -> has m0 c \/ exists j g, nth_error l j = Some g /\ (S j < length l)%nat
    /\ sg_start g <= c <= sg_end g
    /\ (sg_offset g = 0 \/ 0 <= c + (sg_offset g / 2 - sg_start g + (i + Z.of_nat j) - n) < Z.of_nat (length arr)).
Proof.
  induction l as [|[[[s e] d] o] l IH]; intros i m0 m' H c Hc.
  - injection H as <-. now left.
  - destruct l as [|g2 l]; [injection H as <-; now left|].
    rewrite seg_maps_cons in H. destruct (e =? 65535); [injection H as <-; now left|].
    destruct (seg_codes arr d o _ m0 _) as [m1| |] eqn:ES; cbn [rbind] in H; try discriminate.
    destruct (IH _ _ _ H c Hc) as [X|(j & g & J1 & J2 & J3 & J4)].
    + destruct (seg_codes_sound _ _ _ _ _ _ _ ES c X) as [Y|[Y B]]; [now left|right].
      apply zrange_In in Y. exists 0%nat, (s, e, d, o). split; [reflexivity|]. split; [cbn [length]; lia|].
      unfold sg_start, sg_end, sg_offset. cbn [fst snd]. split; [lia|]. destruct B as [B|B]; [now left|right; lia].
    + right. exists (S j), g. split; [exact J1|]. split; [cbn [length] in *; lia|]. split; [exact J3|].
      destruct J4 as [B|B]; [now left|right; lia].
Qed.

Lemma cmap4_ser_words t sr es rs : c4_search t = (sr, es, rs) ->
  cmap4_ser t = words ([4; c4_length t; c4_language t; c4_segx2 t; sr; es; rs]
    ++ c4_end t ++ [0] ++ c4_start t ++ c4_delta t ++ c4_offset t ++ c4_array t).
Proof.
  intros E. unfold cmap4_ser. rewrite E. unfold ser_u16s, ser_i16s. rewrite !words_app, !words_cons.
  change (words []) with (@nil Z). rewrite <- !app_assoc. cbn [app]. rewrite !words_ser.
  replace (concat (map ser_i16 (c4_delta t))) with (words (c4_delta t)).
  - rewrite <- !word_u16. reflexivity.
  - unfold words. f_equal. apply map_ext. intros z. apply word_i16.
Qed.

Lemma cmap4_write_inv lang m bs : char_map m -> cmap4_write lang m = Ok bs ->
  Forall (fun c => c <= 65534) (map fst m) /\ exists R d o x sr es rs,
    ordered_ranges 0 R /\ (forall c, covered R c <-> In c (map fst m))
    /\ arrays m (Z.of_nat (length R) + 1) 0 0 R d o x
    /\ Z.of_nat (length R) + 1 <= 32767
    /\ get_search_range (Z.of_nat (length R) + 1) 2 = Ok (sr, es, rs)
    /\ Z.of_nat (length bs) = 16 + 8 * (Z.of_nat (length R) + 1) + 2 * Z.of_nat (length x)
    /\ let segs := zip4 R d o ++ [sentinel] in
       bs = words ([4; u16 (Z.of_nat (length bs)); lang; 2 * Z.of_nat (length segs); sr; es; rs]
              ++ map sg_end segs ++ [0] ++ map sg_start segs ++ map sg_delta segs
              ++ map sg_offset segs ++ x).
Proof.
  intros CM H. unfold cmap4_write in H. destruct (cmap4_of lang m) as [t| |] eqn:E; cbn [rbind] in H; try discriminate.
  apply Ok_inj in H. destruct (cmap4_of_inv _ _ _ CM E) as (F & R & d & o & x & [[sr es] rs] & O & CV & A & N & SR & ->).
  split; [exact F|]. exists R, d, o, x, sr, es, rs.
  rewrite (cmap4_ser_words _ sr es rs) in H by reflexivity. cbn [c4_length c4_language c4_segx2 c4_end c4_start c4_delta c4_offset c4_array] in H.
  destruct (arrays_len _ _ _ _ _ _ _ _ A) as [L1 L2].
  destruct (zip4_maps R d o L1 L2) as (Z1 & Z2 & Z3 & Z4 & Z5).
  assert (LB : Z.of_nat (length bs) = 16 + 8 * (Z.of_nat (length R) + 1) + 2 * Z.of_nat (length x)).
  { rewrite <- H, words_length, !app_length, !map_length. cbn [length]. lia. }
  repeat (split; [assumption|]). cbv zeta. rewrite !map_app, Z1, Z2, Z3, Z4, app_length, Z5, LB.
  rewrite <- H. cbn [length map]. replace (Z.of_nat (length R + 1)) with (Z.of_nat (length R) + 1) by lia. reflexivity.
Qed.

Lemma cmap4_written lang m bs : char_map m -> is_u16 lang -> cmap4_write lang m = Ok bs -> Z.of_nat (length bs) <= 65535 ->
  exists search segs arr, cmap4_bytes lang search segs arr bs
    /\ get_search_range (Z.of_nat (length segs)) 2 = Ok search
    /\ well_formed4 segs arr /\ short_sums segs arr
    /\ (forall c, c <= 65535 -> lookup4 segs arr c = glyph_for m c)
    /\ seg_entries segs arr (removelast segs) = m.
Proof.
  intros CM HL H LB. destruct (cmap4_write_inv _ _ _ CM H) as (F & R & d & o & x & sr & es & rs & O & CV & A & N & SR & LE & W).
  cbv zeta in W. rewrite u16_id in W by lia.
  assert (SH : Z.of_nat (length R) + 1 + Z.of_nat (length x) <= 65535) by lia.
  exists (sr, es, rs), (zip4 R d o ++ [sentinel]), x.
  split; [exact W|].
  split; [rewrite (w_len m R d o x CM O CV A); now replace (Z.of_nat (length R + 1)) with (Z.of_nat (length R) + 1) by lia|].
  split; [now apply (w_wf m R d o x CM O CV A)|].
  split; [now apply (w_sums m R d o x CM O CV A)|].
  split; [intros c Hc; now apply (w_lookup m R d o x CM O CV A)|now apply (w_entries m R d o x CM O CV A)].
Qed.

Lemma cmap4_roundtrip lang m bs : char_map m -> is_u16 lang -> cmap4_write lang m = Ok bs -> Z.of_nat (length bs) <= 65535 ->
  reads cmap4_read bs (lang, m).
Proof.
  intros CM HL H LB. destruct (cmap4_written _ _ _ CM HL H LB) as (search & segs & arr & W1 & _ & W2 & W3 & _ & <-).
  now apply (cmap4_every_read lang search).
Qed.

Ltac pstep Hr R := erewrite (reads_step _ _ _ _ _ _ R Hr);
  let Hn := fresh in
  match type of Hr with rest ?r = ?a ++ ?b =>
    assert (Hn : rest (adv r (length a)) = b) by (rewrite rest_adv, Hr; apply skipn_app_exact)
  end; clear Hr; rename Hn into Hr; cbv beta.

Lemma cmap4_de_panics lang search segs arr len :
  is_u16 lang -> Forall seg_fields segs -> Z.of_nat (length segs) <= 32767 -> is_u16 len ->
  len < 16 + 8 * Z.of_nat (length segs) ->
  let '(sr, es, rs) := search in
  from_bytes cmap4_read (words ([4; len; lang; 2 * Z.of_nat (length segs); sr; es; rs]
              ++ map sg_end segs ++ [0] ++ map sg_start segs ++ map sg_delta segs
              ++ map sg_offset segs ++ arr)) = Panic.
Proof.
  destruct search as [[sr es] rs]. intros HL HF HN HLen EL.
  assert (N2 : Z.to_nat (2 * Z.of_nat (length segs) / 2) = length segs) by lia.
  unfold from_bytes. set (bs := words _). set (r := rd_new bs).
  assert (Hr : rest r = bs) by reflexivity. unfold bs in Hr. clearbody r. clear bs.
  rewrite !words_app in Hr. rewrite !words_cons in Hr. rewrite <- !app_assoc in Hr.
  change (words []) with (@nil Z) in Hr. rewrite ?app_nil_l, ?app_nil_r in Hr.
  unfold cmap4_read. unfold pbind at 1. unfold cmap4_de.
  assert (P : forall A (P Q : A -> Prop) l, Forall P l -> (forall a, P a -> Q a) -> Forall Q l)
    by (intros A P0 Q0 l X Y; eapply Forall_impl; [exact Y|exact X]).
  pstep Hr (reads_word 4 ltac:(unfold is_u16; lia)).
  pstep Hr (reads_word _ HLen).
  pstep Hr (reads_word _ HL).
  assert (X2 : is_u16 (2 * Z.of_nat (length segs))) by (unfold is_u16; lia).
  pstep Hr (reads_word _ X2).
  cbv zeta. rewrite N2.
  replace (word sr ++ word es ++ word rs ++ words (map sg_end segs) ++ word 0 ++ words (map sg_start segs) ++ words (map sg_delta segs) ++ words (map sg_offset segs) ++ words arr)
    with ((word sr ++ word es ++ word rs) ++ words (map sg_end segs) ++ word 0 ++ words (map sg_start segs) ++ words (map sg_delta segs) ++ words (map sg_offset segs) ++ words arr) in Hr
    by (rewrite <- !app_assoc; reflexivity).
  pstep Hr (reads_skip 6 (word sr ++ word es ++ word rs) eq_refl).
  assert (R1 : reads (de_counted de_u16 (length segs)) (words (map sg_end segs)) (map sg_end segs))
    by (apply reads_u16s; [now rewrite map_length|apply Forall_map; eapply P; [exact HF|now intros ? (?&?&?&?)]]).
  pstep Hr R1. pstep Hr (reads_skip 2 (word 0) eq_refl).
  assert (R2 : reads (de_counted de_u16 (length segs)) (words (map sg_start segs)) (map sg_start segs))
    by (apply reads_u16s; [now rewrite map_length|apply Forall_map; eapply P; [exact HF|now intros ? (?&?&?&?)]]).
  pstep Hr R2.
  assert (R3 : reads (de_counted de_i16 (length segs)) (words (map sg_delta segs)) (map sg_delta segs))
    by (apply reads_i16s; [now rewrite map_length|apply Forall_map; eapply P; [exact HF|now intros ? (?&?&?&?)]]).
  pstep Hr R3.
  assert (R4 : reads (de_counted de_u16 (length segs)) (words (map sg_offset segs)) (map sg_offset segs))
    by (apply reads_u16s; [now rewrite map_length|apply Forall_map; eapply P; [exact HF|now intros ? (?&?&?&?)]]).
  pstep Hr R4.
  unfold pbind at 1. unfold chk_u. replace (0 <=? len - (16 + Z.of_nat (length segs) * 8)) with false by lia.
  reflexivity.
Qed.

Lemma cmap4_too_long lang m bs : char_map m -> is_u16 lang -> cmap4_write lang m = Ok bs -> 65535 < Z.of_nat (length bs) ->
  from_bytes cmap4_read bs <> Ok (lang, m).
Proof.
  intros CM HL H LB. destruct (cmap4_write_inv _ _ _ CM H) as (F & R & d & o & x & sr & es & rs & O & CV & A & N & SR & LE & W).
  cbv zeta in W. pose proof (w_len m R d o x CM O CV A) as LS.
  set (segs := zip4 R d o ++ [sentinel]) in *.
  destruct (w_fields m R d o x CM O CV A) as [FF FX]. fold segs in FF.
  assert (UL : is_u16 (u16 (Z.of_nat (length bs)))) by (unfold is_u16, u16, wrap_u; change (2 ^ 16) with 65536; lia).
  set (len := u16 (Z.of_nat (length bs))) in *.
  destruct (Z.lt_ge_cases len (16 + 8 * Z.of_nat (length segs))) as [LT|GE].
  - rewrite W. pose proof (cmap4_de_panics lang (sr, es, rs) segs x len HL FF ltac:(lia) UL LT) as P. cbv zeta beta in P.
    rewrite P. discriminate.
  - assert (Q : exists q, Z.of_nat (length bs) = len + 65536 * q /\ 1 <= q).
    { exists (Z.of_nat (length bs) / 65536). unfold len, u16, wrap_u. change (2 ^ 16) with 65536. lia. }
    destruct Q as (q & Q1 & Q2).
    set (k := Z.to_nat ((len - (16 + 8 * Z.of_nat (length segs))) / 2)).
    assert (K : Z.of_nat k = Z.of_nat (length x) - 32768 * q) by (unfold k; lia).
    assert (LK : length (firstn k x) = k) by (apply firstn_length_le; lia).
    set (pre := words ([4; len; lang; 2 * Z.of_nat (length segs); sr; es; rs]
              ++ map sg_end segs ++ [0] ++ map sg_start segs ++ map sg_delta segs
              ++ map sg_offset segs ++ firstn k x)).
    assert (W' : bs = pre ++ words (skipn k x)).
    { rewrite W. unfold pre. rewrite <- words_app. f_equal. rewrite <- !app_assoc, firstn_skipn. reflexivity. }
    assert (FK : Forall is_u16 (firstn k x)).
    { rewrite <- (firstn_skipn k x) in FX. apply Forall_app in FX. tauto. }
    pose proof (cmap4_de_reads lang (sr, es, rs) segs (firstn k x) pre len HL FF FK ltac:(lia) UL eq_refl ltac:(unfold k in *; lia)) as HR.
    clearbody pre. intros C. rewrite W' in C. unfold from_bytes, cmap4_read in C.
    rewrite (reads_step _ _ _ _ (rd_new (pre ++ words (skipn k x))) (words (skipn k x)) HR eq_refl) in C.
    cbv beta in C. cbn [c4_language] in C.
    set (r' := adv _ _) in C. unfold pbind, plift, pret in C.
    destruct (cmap4_mapping _) as [m'| |] eqn:M in C; try discriminate. injection C as ->.
    unfold cmap4_mapping, c4_segments in M. cbn [c4_start c4_end c4_delta c4_offset c4_array] in M.
    rewrite combine_segs, map_length in M.
    assert (M2 : seg_maps (firstn k x) (Z.of_nat (length segs)) 0 [] segs = Ok m).
    { destruct (map sg_start segs); [discriminate|exact M]. }
    clear M. assert (NX : x <> []) by (intros ->; cbn [length] in *; lia).
    destruct (arrays_last _ _ _ _ _ _ _ _ A 0 O NX ltac:(lia) ltac:(lia)) as (j & g & G1 & G2 & G3 & G4).
    assert (HI : has m (sg_end g)).
    { apply (get_has m _ CM). apply (w_in m R d o x CM O CV A). apply Exists_exists. exists g.
      split; [now apply nth_error_In in G1|lia]. }
    destruct (seg_maps_sound _ _ _ _ _ _ M2 _ HI) as [X|(j' & g' & J1 & J2 & J3 & J4)]; [now apply X|].
    assert (GN : nth_error segs j = Some g).
    { unfold segs. rewrite nth_error_app1; [exact G1|]. apply nth_error_Some. now rewrite G1. }
    pose proof (seg_for_nth segs (sg_end g) 0 0 j g (w_order m R d o x CM O CV A) GN ltac:(lia)) as S1.
    pose proof (seg_for_nth segs (sg_end g) 0 0 j' g' (w_order m R d o x CM O CV A) J1 J3) as S2.
    rewrite S1 in S2. injection S2 as E1 <-. assert (j' = j) by lia. subst j'.
    destruct J4 as [J4|J4]; [congruence|]. rewrite LK in J4.
    replace (Z.of_nat (length segs)) with (Z.of_nat (length R) + 1) in J4 by lia. lia.
Qed.

(** ** When a map can be written *)
Lemma runs_le l : forall d, (runs_after d l <= length l)%nat.
Proof. induction l as [|a l IH]; intros d; cbn [runs_after length]; [lia|]. specialize (IH a). destruct (_ =? _); lia. Qed.

Lemma cmap4_writes lang m : char_map m -> m <> [] -> Forall (fun cg => fst cg <= 65534 /\ snd cg <= 65534) m ->
  24 + 8 * Z.of_nat (runs (map fst m)) + 2 * Z.of_nat (length m) <= 65535 ->
  exists bs, cmap4_write lang m = Ok bs
    /\ Z.of_nat (length bs) <= 24 + 8 * Z.of_nat (runs (map fst m)) + 2 * Z.of_nat (length m).
Proof.
  intros CM NE FB SZ. pose proof CM as [I F].
  assert (G : forall c, 0 <= gid_of m c <= 65534).
  { intros c. unfold gid_of. destruct (bm_get Z.ltb c m) as [g|] eqn:E; [|lia].
    apply (get_In _ Z_strict) in E. rewrite Forall_forall in F, FB. apply F in E as E1. apply FB in E as E2.
    cbn [fst snd] in *. unfold is_u16 in *. lia. }
  assert (LM : length m = length (map fst m)) by now rewrite map_length.
  assert (FC : Forall (fun c => c <= 65534) (map fst m)).
  { apply Forall_map. eapply Forall_impl; [|exact FB]. cbv beta. tauto. }
  assert (FN : Forall (fun c => 0 <= c) (map fst m)).
  { apply Forall_map. eapply Forall_impl; [|exact F]. cbv beta. lia. }
  assert (HC : Forall (has m) (map fst m)).
  { apply Forall_forall. intros c Hc. now apply get_has. }
  rewrite LM in *. unfold cmap4_write.
  assert (X : exists t, cmap4_of lang m = Ok t
    /\ 16 + 8 * Z.of_nat (length (c4_end t)) + 2 * Z.of_nat (length (c4_array t)) <= 24 + 8 * Z.of_nat (runs (map fst m)) + 2 * Z.of_nat (length (map fst m))).
  { unfold cmap4_of. clear LM. destruct (map fst m) as [|c0 codes] eqn:EM; [destruct m; [congruence|discriminate]|].
    inversion FC as [|? ? FC0 _]; inversion FN as [|? ? FN0 _]; inversion HC as [|? ? HC0 HC1]; subst.
    rewrite try_u_ok by lia. cbn [unwrap rbind].
    destruct (segments_ok m codes c0 c0 ltac:(lia) I FC HC1 HC0) as (s & e & R & k & -> & E1 & E2 & O & CV & TC & K).
    cbn [rbind]. cbv zeta. rewrite E1. subst e. rewrite !app_length, !map_length. cbn [length runs] in *.
    replace (length R + 1 - 1)%nat with (length R) by lia.
    assert (EC : firstn (length R) (combine (map fst R ++ [65535]) (map snd R ++ [65535])) = R).
    { clear. induction R as [|[s e] R IH]; [reflexivity|]. cbn [length map app combine firstn fst snd]. now rewrite IH. }
    rewrite EC. pose proof (cost_nonneg _ _ _ TC _ O).
    destruct (seg_arrays_ok m (Z.of_nat (length R + 1)) R k TC G 0 0 c0 O) as (d & o & x & -> & BX); try lia.
    cbn [rbind]. rewrite u16_id by lia. rewrite search_range_ok by lia. cbn [rbind]. ck.
    eexists. split; [reflexivity|]. cbn [c4_end c4_array]. rewrite app_length, map_length. cbn [length]. lia. }
  destruct X as (t & E & B). rewrite E. cbn [rbind]. eexists. split; [reflexivity|].
  destruct (cmap4_of_inv _ _ _ CM E) as (_ & R & d & o & x & [[sr es] rs] & O & CV & A & N & SR & ->).
  destruct (arrays_len _ _ _ _ _ _ _ _ A) as [L1 L2].
  rewrite (cmap4_ser_words _ sr es rs) by reflexivity. cbn [c4_length c4_language c4_segx2 c4_end c4_start c4_delta c4_offset c4_array] in *.
  rewrite words_length. rewrite !app_length, !map_length in *. cbn [length] in *. lia.
Qed.

(** Unicode and code page ranges. *)
From Coq Require Import List ZArith Lia Bool.
Import ListNotations.
From Verif.Model Require Import MBase MUtils MRanges.
From Verif.Spec Require Import SRanges.
From Verif.Proofs Require Import PBase PUtils.
Open Scope Z_scope.
Ltac Zify.zify_post_hook ::= idtac.

(** *** Sets *)
Lemma set_insert_in x s y : In y (set_insert x s) <-> y = x \/ In y s.
Proof.
  unfold set_insert. destruct (existsb (Z.eqb x) s) eqn:E; [|cbn [In]; intuition].
  apply existsb_exists in E. destruct E as (z & I & Z). apply Z.eqb_eq in Z. subst z. intuition. now subst y.
Qed.
Lemma set_insert_nodup x s : NoDup s -> NoDup (set_insert x s).
Proof.
  intros N. unfold set_insert. destruct (existsb (Z.eqb x) s) eqn:E; [exact N|]. constructor; [|exact N].
  intros I. assert (existsb (Z.eqb x) s = true) by (apply existsb_exists; exists x; split; [exact I|apply Z.eqb_refl]). congruence.
Qed.

Lemma words_of s hi : NoDup s -> exists w, filtered_bitset_to_num s (32 * Z.of_nat hi) (32 * Z.of_nat hi + 31) = Ok w /\
  forall n, 32 * Z.of_nat hi <= n < 32 * Z.of_nat hi + 32 -> (Z.testbit w (n - 32 * Z.of_nat hi) = true <-> In n s).
Proof.
  intros N. destruct (filtered_bitset_spec (32 * Z.of_nat hi) (32 * Z.of_nat hi + 31) s) as (w & E & _ & B); [lia|lia|exact N|].
  exists w. split; [exact E|]. intros n H. rewrite B by lia. replace (32 * Z.of_nat hi + (n - 32 * Z.of_nat hi)) with n by lia.
  split; [now intros [A _]|]. intros A. split; [exact A|lia].
Qed.

(** *** Looking up a block *)
Definition points (l : list (Z * Z * Z)) : list Z := flat_map (fun e => let '(_, lo, hi) := e in [lo; hi + 1]) l.
Definition all_points : list Z := 0 :: points os2_unicode_ranges.
Lemma points_in l n lo hi : In (n, lo, hi) l -> In lo (points l) /\ In (hi + 1) (points l).
Proof. intros I. split; apply in_flat_map; exists (n, lo, hi); (split; [exact I|]); cbn; auto. Qed.

(** The last point not beyond a character. *)
Lemma last_point (l : list Z) c : In 0 l -> 0 <= c -> exists b, In b l /\ b <= c /\ forall x, In x l -> x <= c -> x <= b.
Proof.
  intros I H. assert (G: forall l', exists b, (b = 0 \/ In b l') /\ b <= c /\ forall x, In x l' -> x <= c -> x <= b).
  { induction l' as [|x l' (b & B1 & B2 & B3)]; [exists 0; split; [now left|]; split; [exact H|intros x []]|].
    destruct (Z.le_gt_cases x c) as [L|L].
    - destruct (Z.le_gt_cases b x).
      + exists x. split; [right; now left|]. split; [exact L|]. intros y [->|J] K; [lia|]. pose proof (B3 y J K). lia.
      + exists b. split; [destruct B1; [now left|right; now right]|]. split; [exact B2|]. intros y [->|J] K; [lia|]. now apply B3.
    - exists b. split; [destruct B1; [now left|right; now right]|]. split; [exact B2|]. intros y [->|J] K; [lia|]. now apply B3. }
  destruct (G l) as (b & B1 & B2 & B3). exists b. split; [destruct B1 as [->|B1]; auto|]. auto.
Qed.

Lemma halving_ext fuel cmp cmp' : (forall i, cmp i = cmp' i) -> forall l r s, halving_loop fuel cmp l r s = halving_loop fuel cmp' l r s.
Proof. intros E. induction fuel as [|fuel IH]; intros l r s; [reflexivity|]. cbn [halving_loop]. rewrite E, !IH. reflexivity. Qed.
Lemma branchless_ext fuel cmp cmp' : (forall i, cmp i = cmp' i) -> forall b s, branchless_loop fuel cmp b s = branchless_loop fuel cmp' b s.
Proof. intros E. induction fuel as [|fuel IH]; intros b s; [reflexivity|]. cbn [branchless_loop]. rewrite E, !IH. reflexivity. Qed.
Definition extensional (bs : search) : Prop := forall cmp cmp' n, (forall i, cmp i = cmp' i) -> bs cmp n = bs cmp' n.
Lemma halving_extensional : extensional search_halving.
Proof. intros cmp cmp' n E. unfold search_halving. now apply halving_ext. Qed.
Lemma branchless_extensional : extensional search_branchless.
Proof.
  intros cmp cmp' n E. unfold search_branchless. rewrite (branchless_ext _ cmp cmp' E).
  destruct (n =? 0)%nat; [reflexivity|]. destruct (branchless_loop _ _ _ _); cbn [rbind]; [now rewrite E|reflexivity|reflexivity].
Qed.

Lemma entry_in i : In (nth i os2_unicode_ranges (0, 0x0, 0x7F)) os2_unicode_ranges.
Proof.
  destruct (Nat.lt_ge_cases i (length os2_unicode_ranges)) as [H|H]; [now apply nth_In|].
  rewrite nth_overflow by exact H. left. reflexivity.
Qed.
Lemma same_cmp c b : b <= c -> (forall x, In x all_points -> x <= c -> x <= b) -> forall i, range_cmp c i = range_cmp b i.
Proof.
  intros L H i. unfold range_cmp. pose proof (entry_in i) as I. destruct (nth i os2_unicode_ranges (0, 0x0, 0x7F)) as [[n lo] hi].
  destruct (points_in _ _ _ _ I) as [P1 P2].
  assert (A: lo <= c -> lo <= b) by (apply H; now right). assert (B: hi + 1 <= c -> hi + 1 <= b) by (apply H; now right).
  destruct (Z.ltb_spec c lo), (Z.ltb_spec b lo); try reflexivity; try lia.
  destruct (Z.ltb_spec hi c), (Z.ltb_spec hi b); try reflexivity; lia.
Qed.

(** The bit of the first of the given blocks with a character, 0 otherwise. *)
Fixpoint bit_of (blocks : list (Z * Z * Z)) (c : Z) : Z :=
  match blocks with
  | [] => 0
  | (n, lo, hi) :: blocks' => if (lo <=? c) && (c <=? hi) then n else bit_of blocks' c
  end.
Lemma bit_of_same blocks c b : b <= c -> (forall x, In x all_points -> x <= c -> x <= b) -> incl (points blocks) all_points ->
  bit_of blocks c = bit_of blocks b.
Proof.
  intros L H. induction blocks as [|[[n lo] hi] blocks IH]; intros I; [reflexivity|]. cbn [bit_of].
  assert (A: lo <= c -> lo <= b) by (apply H, I; now left). assert (B: hi + 1 <= c -> hi + 1 <= b) by (apply H, I; right; now left).
  rewrite IH by (intros x J; apply I; right; now right).
  replace ((lo <=? c) && (c <=? hi)) with ((lo <=? b) && (b <=? hi)); [reflexivity|].
  destruct (Z.leb_spec lo b), (Z.leb_spec lo c), (Z.leb_spec b hi), (Z.leb_spec c hi); cbn [andb]; try reflexivity; lia.
Qed.

Definition res_is (r : res Z) (z : Z) : bool := match r with Ok x => x =? z | _ => false end.
Definition includes (l m : list Z) : bool := forallb (fun x => existsb (Z.eqb x) m) l.
Lemma includes_incl l m : includes l m = true -> incl l m.
Proof.
  unfold includes. rewrite forallb_forall. intros H x I. apply H in I. apply existsb_exists in I.
  destruct I as (y & J & E). apply Z.eqb_eq in E. now subst y.
Qed.

Lemma range_from_points bs blocks : extensional bs -> includes (points blocks) all_points = true ->
  forallb (fun b => res_is (glyph_unicode_range bs b) (bit_of blocks b)) all_points = true ->
  forall c, 0 <= c -> glyph_unicode_range bs c = Ok (bit_of blocks c).
Proof.
  intros X I F c H. destruct (last_point all_points c (or_introl eq_refl) H) as (b & B1 & B2 & B3).
  apply includes_incl in I. rewrite (bit_of_same blocks c b B2 B3 I).
  replace (glyph_unicode_range bs c) with (glyph_unicode_range bs b).
  - rewrite forallb_forall in F. apply F in B1. unfold res_is in B1. destruct (glyph_unicode_range bs b); try discriminate.
    apply Z.eqb_eq in B1. now subst.
  - unfold glyph_unicode_range. now rewrite (X (range_cmp b) (range_cmp c) _ (fun i => eq_sym (same_cmp c b B2 B3 i))).
Qed.
Lemma range_halving c : 0 <= c -> glyph_unicode_range search_halving c = Ok (bit_of recognized_halving c).
Proof. apply range_from_points; [apply halving_extensional|vm_compute; reflexivity|vm_compute; reflexivity]. Qed.
Lemma range_branchless c : 0 <= c -> glyph_unicode_range search_branchless c = Ok (bit_of recognized_branchless c).
Proof. apply range_from_points; [apply branchless_extensional|vm_compute; reflexivity|vm_compute; reflexivity]. Qed.

(** Blocks that do not overlap: at most one bit. *)
Definition apart (e f : Z * Z * Z) : bool :=
  let '(_, lo, hi) := e in let '(_, lo', hi') := f in (hi <? lo') || (hi' <? lo).
Fixpoint disjoint (l : list (Z * Z * Z)) : bool :=
  match l with [] => true | e :: l' => forallb (apart e) l' && disjoint l' end.
Lemma bit_of_iff blocks c n : disjoint blocks = true ->
  bit_of blocks c = n <-> in_block blocks n c \/ (n = 0 /\ forall m, ~ in_block blocks m c).
Proof.
  induction blocks as [|[[k lo] hi] blocks IH]; intros D.
  - cbn [bit_of]. split; [intros <-; right; split; [reflexivity|intros m (a & b & [] & _)]|]. intros [(a & b & [] & _)|[-> _]]. reflexivity.
  - cbn [disjoint] in D. apply andb_true_iff in D. destruct D as [D1 D2]. rewrite forallb_forall in D1. cbn [bit_of].
    destruct ((lo <=? c) && (c <=? hi)) eqn:E.
    + apply andb_true_iff in E. rewrite !Z.leb_le in E. split.
      * intros <-. left. exists lo, hi. split; [now left|exact E].
      * intros [(a & b & [J|J] & H)|[-> H]]; [now injection J|exfalso|exfalso].
        -- apply D1 in J. cbn [apart] in J. apply orb_true_iff in J. rewrite !Z.ltb_lt in J. lia.
        -- apply (H k). exists lo, hi. split; [now left|exact E].
    + assert (N: ~ (lo <= c <= hi)) by (apply andb_false_iff in E; rewrite !Z.leb_gt in E; lia).
      rewrite (IH D2).
      assert (Q: forall m, in_block ((k, lo, hi) :: blocks) m c <-> in_block blocks m c).
      { intros m. split; intros (a & b & J & H); exists a, b; (split; [|exact H]); [|now right]. destruct J as [J|J]; [|exact J].
        injection J as -> -> ->. contradiction. }
      rewrite Q. setoid_rewrite Q. reflexivity.
Qed.

Definition small_bits (blocks : list (Z * Z * Z)) : bool := forallb (fun e => (0 <=? fst (fst e)) && (fst (fst e) <? 128)) blocks.
Lemma bit_of_small blocks c : small_bits blocks = true -> 0 <= bit_of blocks c < 128.
Proof.
  induction blocks as [|[[k lo] hi] blocks IH]; cbn [small_bits forallb bit_of fst]; intros H; [lia|].
  apply andb_true_iff in H. destruct H as [H1 H2]. apply andb_true_iff in H1. rewrite Z.leb_le, Z.ltb_lt in H1.
  destruct ((lo <=? c) && (c <=? hi)); [lia|]. now apply IH.
Qed.

Lemma ranges_of_spec bs blocks : (forall c, 0 <= c -> glyph_unicode_range bs c = Ok (bit_of blocks c)) -> small_bits blocks = true ->
  forall keys s, Forall (fun c => 0 <= c) keys -> NoDup s ->
  exists s', ranges_of bs keys s = Ok s' /\ NoDup s' /\ forall n, In n s' <-> In n s \/ exists c, In c keys /\ bit_of blocks c = n.
Proof.
  intros G B. induction keys as [|u keys IH]; intros s P N.
  - exists s. split; [reflexivity|]. split; [exact N|]. intros n. split; [now left|]. intros [A|(c & [] & _)]. exact A.
  - inversion P as [|? ? P1 P2]; subst. cbn [ranges_of]. rewrite (G u P1). cbn [rbind].
    assert (U: u8 (bit_of blocks u) = bit_of blocks u) by (pose proof (bit_of_small blocks u B); apply Z.mod_small; change (2 ^ 8) with 256; lia).
    rewrite U. destruct (IH (set_insert (bit_of blocks u) s) P2 (set_insert_nodup _ _ N)) as (s' & E & N' & I).
    exists s'. split; [exact E|]. split; [exact N'|]. intros n. rewrite I, set_insert_in. split.
    + intros [[->|A]|(c & J & <-)]; [right; exists u; split; [now left|reflexivity]|now left|right; exists c; split; [now right|reflexivity]].
    + intros [A|(c & [->|J] & <-)]; [left; now right|left; now left|right; exists c; auto].
Qed.

Lemma calc_spec bs blocks keys : (forall c, 0 <= c -> glyph_unicode_range bs c = Ok (bit_of blocks c)) -> small_bits blocks = true ->
  Forall (fun c => 0 <= c) keys ->
  exists w1 w2 w3 w4, calc_unicode_ranges bs keys = Ok (w1, w2, w3, w4) /\
    forall n, bit_set [w1; w2; w3; w4] n <-> exists c, In c keys /\ bit_of blocks c = n.
Proof.
  intros G B P. destruct (ranges_of_spec bs blocks G B keys [] P (NoDup_nil _)) as (s & E & N & I).
  destruct (words_of s 0 N) as (w1 & E1 & W1). destruct (words_of s 1 N) as (w2 & E2 & W2).
  destruct (words_of s 2 N) as (w3 & E3 & W3). destruct (words_of s 3 N) as (w4 & E4 & W4).
  change (32 * Z.of_nat 0) with 0 in *. change (32 * Z.of_nat 1) with 32 in *. change (32 * Z.of_nat 2) with 64 in *. change (32 * Z.of_nat 3) with 96 in *.
  exists w1, w2, w3, w4. split.
  { unfold calc_unicode_ranges. rewrite E. cbn [rbind]. change (0 + 31) with 31 in E1. change (32 + 31) with 63 in E2.
    change (64 + 31) with 95 in E3. change (96 + 31) with 127 in E4. rewrite E1. cbn [rbind]. rewrite E2. cbn [rbind]. rewrite E3. cbn [rbind]. rewrite E4. reflexivity. }
  intros n. assert (J: In n s <-> exists c, In c keys /\ bit_of blocks c = n). { rewrite I. split; [intros [[]|A]; exact A|now right]. }
  rewrite <- J. split.
  - intros (k & w & K & H & T). destruct k as [|[|[|[|k]]]]; cbn [nth_error] in K; try (injection K as <-).
    + change (32 * Z.of_nat 0) with 0 in *. now apply W1.
    + change (32 * Z.of_nat 1) with 32 in *. now apply W2.
    + change (32 * Z.of_nat 2) with 64 in *. now apply W3.
    + change (32 * Z.of_nat 3) with 96 in *. now apply W4.
    + destruct k; discriminate.
  - intros A. assert (R: 0 <= n < 128). { apply J in A. destruct A as (c & _ & <-). now apply bit_of_small. }
    assert (C: 0 <= n < 0 + 32 \/ 32 <= n < 32 + 32 \/ 64 <= n < 64 + 32 \/ 96 <= n < 96 + 32) by lia.
    destruct C as [C|[C|[C|C]]]; [exists 0%nat, w1|exists 1%nat, w2|exists 2%nat, w3|exists 3%nat, w4]; (split; [reflexivity|]).
    + change (32 * Z.of_nat 0) with 0. split; [exact C|now apply W1].
    + change (32 * Z.of_nat 1) with 32. split; [exact C|now apply W2].
    + change (32 * Z.of_nat 2) with 64. split; [exact C|now apply W3].
    + change (32 * Z.of_nat 3) with 96. split; [exact C|now apply W4].
Qed.

(** Any search that only claims matches. *)
Lemma sound_range bs c r : (forall cmp n i, bs cmp n = Ok (Some i) -> cmp i = Eq) ->
  glyph_unicode_range bs c = Ok r -> r = 0 \/ in_block os2_unicode_ranges r c.
Proof.
  intros H. unfold glyph_unicode_range. destruct (bs (range_cmp c) (length os2_unicode_ranges)) as [[i|]| |] eqn:E; cbn [rbind]; try discriminate; intros Q; apply Ok_inj in Q; subst r.
  - right. apply H in E. unfold range_cmp in E. pose proof (entry_in i) as I. destruct (nth i os2_unicode_ranges (0, 0x0, 0x7F)) as [[n lo] hi].
    destruct (Z.ltb_spec c lo); [discriminate|]. destruct (Z.ltb_spec hi c); [discriminate|]. cbn [fst]. exists lo, hi. split; [exact I|lia].
  - now left.
Qed.

(** *** Code pages *)
Lemma has_iff keys c : has keys c = true <-> In c keys.
Proof.
  unfold has. rewrite existsb_exists. split; [intros (x & I & E); apply Z.eqb_eq in E; now subst|].
  intros I. exists c. split; [exact I|apply Z.eqb_refl].
Qed.
Lemma ascii_iff keys : has_ascii keys = true <-> forall c, 0x20 <= c < 0x7E -> In c keys.
Proof.
  unfold has_ascii. rewrite forallb_forall. split.
  - intros H c R. apply has_iff. replace c with (32 + Z.of_nat (Z.to_nat (c - 32))) by lia. apply H. apply in_seq. lia.
  - intros H k I. apply in_seq in I. apply has_iff. apply H. lia.
Qed.
Definition holds (keys : list Z) (r : Z * bool * list Z) : bool :=
  let '(_, a, cs) := r in (if a then has_ascii keys else true) && forallb (has keys) cs.
Lemma holds_iff keys n a cs : holds keys (n, a, cs) = true <-> if a then ascii_and cs keys else all_of cs keys.
Proof.
  unfold holds, ascii_and, all_of. rewrite andb_true_iff, forallb_forall.
  assert (F: (forall x, In x cs -> has keys x = true) <-> Forall (fun c => In c keys) cs).
  { rewrite Forall_forall. split; intros H x I; specialize (H x I); now apply has_iff. }
  rewrite F. destruct a; [rewrite ascii_iff; reflexivity|intuition].
Qed.

Definition adds (f : list Z -> list Z) (l : list (Z * bool)) : Prop :=
  forall s, (NoDup s -> NoDup (f s)) /\ forall n, In n (f s) <-> In n s \/ In (n, true) l.
Lemma adds_insert k : adds (set_insert k) [(k, true)].
Proof.
  intros s. split; [apply set_insert_nodup|]. intros n. rewrite set_insert_in. cbn [In]. split.
  - intros [->|A]; [right; now left|now left].
  - intros [A|[A|[]]]; [now right|injection A as ->; now left].
Qed.
Lemma adds_run fs ls : Forall2 adds fs ls -> adds (run fs) (concat ls).
Proof.
  induction 1 as [|f l fs ls A F IH]; intros s; [split; [auto|intros n; cbn; intuition]|].
  unfold run. cbn [fold_left concat]. fold (run fs (f s)). destruct (A s) as [A1 A2]. destruct (IH (f s)) as [B1 B2].
  split; [auto|]. intros n. rewrite B2, A2, in_app_iff. intuition.
Qed.
Lemma adds_if b fs ls : Forall2 adds fs ls -> adds (if_ b fs) (map (fun x => (fst x, b && snd x)) (concat ls)).
Proof.
  intros F s. unfold if_. destruct (adds_run fs ls F s) as [A B]. destruct b.
  - split; [exact A|]. intros n. rewrite B. replace (map (fun x => (fst x, true && snd x)) (concat ls)) with (concat ls); [reflexivity|].
    rewrite <- (map_id (concat ls)) at 1. apply map_ext. now intros [].
  - split; [auto|]. intros n. split; [now left|]. intros [C|C]; [exact C|]. apply in_map_iff in C. destruct C as (x & E & _). discriminate.
Qed.
Lemma steps_add h a la : exists l, adds (run (code_page_steps h a la)) l /\
  l = [(0, h 0xDE && a); (1, h 0x13D && a); (2, h 0x411); (57, h 0x411 && (h 0x405 && la)); (49, h 0x411 && (h 0x255C && la));
   (3, h 0x386); (48, h 0x386 && (h 0xBD && la)); (60, h 0x386 && (h 0x221A && la)); (4, h 0x130 && a); (56, h 0x130 && a && la);
   (5, h 0x5D0); (53, h 0x5D0 && (la && h 0x221A)); (6, h 0x631); (51, h 0x631 && h 0x221A); (61, h 0x631 && la);
   (7, h 0x157 && a); (59, h 0x157 && a && la); (8, h 0x20AB && a); (16, h 0xE45); (17, h 0x30A8); (18, h 0x3105); (19, h 0x3131);
   (20, h 0x592E); (21, h 0xACF4); (30, h 0x2665 && a); (54, h 0xFE && a && la); (62, h 0x255A && a); (63, h 0x255A && a);
   (50, a && la && h 0x221A && h 0xC5); (52, a && la && h 0x221A && h 0xE9); (55, a && la && h 0x221A && h 0xF5);
   (29, a && h 0x2030 && h 0x2211)].
Proof.
  eexists. split.
  - apply adds_run. unfold code_page_steps. repeat (apply adds_if || apply adds_insert || apply Forall2_cons || apply Forall2_nil).
  - cbn [concat map app fst snd]. rewrite !andb_true_r. reflexivity.
Qed.

Lemma pages_spec keys : NoDup (code_pages keys) /\ forall n, In n (code_pages keys) <-> supports keys n \/ (n = 0 /\ forall m, ~ supports keys m).
Proof.
  destruct (steps_add (has keys) (has_ascii keys) (has keys 0x2524)) as (l & A & E).
  destruct (A []) as [A1 A2]. specialize (A1 (NoDup_nil _)).
  set (s := run (code_page_steps (has keys) (has_ascii keys) (has keys 0x2524)) []) in *.
  assert (S0: forall n, supports keys n <-> In n s).
  { intros n. rewrite A2. assert (L: l = map (fun r => (fst (fst r), holds keys r)) code_page_rules).
    { rewrite E. unfold code_page_rules, holds, lineart, root. cbn [map fst snd forallb]. clear.
      repeat (apply f_equal2; [apply f_equal; destruct (has_ascii keys); repeat match goal with |- context [has keys ?c] => destruct (has keys c) end; reflexivity|]). reflexivity. }
    rewrite L, in_map_iff. split.
    - intros (a & cs & I & H). right. exists (n, a, cs). split; [|exact I]. cbn [fst]. apply (holds_iff keys n a cs) in H. now rewrite H.
    - intros [[]|([[n' a] cs] & Q & I)]. cbn [fst] in Q. injection Q as -> Q. exists a, cs. split; [exact I|now apply (holds_iff keys n a cs)]. }
  unfold code_pages. fold s. destruct s as [|x s'].
  - split; [repeat constructor; intros []|]. intros n. change (In n (set_insert 0 [])) with (In n [0]). split.
    + intros [<-|[]]. right. split; [reflexivity|]. intros m M. apply S0 in M. destruct M.
    + intros [A0|[-> _]]; [apply S0 in A0; destruct A0|now left].
  - split; [exact A1|]. intros n. rewrite <- S0. split; [now left|]. intros [A0|[-> A0]]; [exact A0|]. exfalso. apply (A0 x). apply S0. now left.
Qed.
Lemma pages_small keys n : In n (code_pages keys) -> 0 <= n < 64.
Proof.
  intros H. apply pages_spec in H. destruct H as [(a & cs & I & _)|[-> _]]; [|lia].
  assert (F: forallb (fun r : Z * bool * list Z => (0 <=? fst (fst r)) && (fst (fst r) <? 64)) code_page_rules = true) by reflexivity.
  rewrite forallb_forall in F. apply F in I. cbn [fst] in I. lia.
Qed.
Lemma code_page_words keys : exists w1 w2, calc_code_page_ranges keys = Ok (w1, w2) /\
  forall n, bit_set [w1; w2] n <-> In n (code_pages keys).
Proof.
  destruct (pages_spec keys) as [N _]. set (s := code_pages keys) in *.
  destruct (words_of s 0 N) as (w1 & E1 & W1). destruct (words_of s 1 N) as (w2 & E2 & W2).
  change (32 * Z.of_nat 0) with 0 in *. change (32 * Z.of_nat 1) with 32 in *. change (0 + 31) with 31 in E1. change (32 + 31) with 63 in E2.
  exists w1, w2. split; [unfold calc_code_page_ranges; fold s; rewrite E1; cbn [rbind]; rewrite E2; reflexivity|].
  intros n. split.
  - intros (k & w & K & H & T). destruct k as [|[|k]]; cbn [nth_error] in K; try (injection K as <-).
    + change (32 * Z.of_nat 0) with 0 in *. now apply W1.
    + change (32 * Z.of_nat 1) with 32 in *. now apply W2.
    + destruct k; discriminate.
  - intros A. assert (R: 0 <= n < 64) by (now apply (pages_small keys)).
    assert (C: 0 <= n < 0 + 32 \/ 32 <= n < 32 + 32) by lia.
    destruct C as [C|C]; [exists 0%nat, w1|exists 1%nat, w2]; (split; [reflexivity|]).
    + change (32 * Z.of_nat 0) with 0. split; [exact C|now apply W1].
    + change (32 * Z.of_nat 1) with 32. split; [exact C|now apply W2].
Qed.

Lemma ranges_of_sound bs : (forall cmp n i, bs cmp n = Ok (Some i) -> cmp i = Eq) -> forall keys s s', ranges_of bs keys s = Ok s' ->
  NoDup s -> NoDup s' /\ forall n, In n s' -> In n s \/ n = 0 \/ exists c, In c keys /\ in_block os2_unicode_ranges n c.
Proof.
  intros H. assert (F: forallb (fun e : Z * Z * Z => (0 <=? fst (fst e)) && (fst (fst e) <? 128)) os2_unicode_ranges = true) by reflexivity.
  rewrite forallb_forall in F.
  induction keys as [|u keys IH]; intros s s' E N; cbn [ranges_of] in E.
  - apply Ok_inj in E. subst s'. split; [exact N|]. now left.
  - destruct (glyph_unicode_range bs u) as [r| |] eqn:G; try discriminate. cbn [rbind] in E.
    apply (sound_range bs u r H) in G.
    assert (U: u8 r = r). { destruct G as [->|(lo & hi & I & _)]; [reflexivity|]. apply F in I. cbn [fst] in I. apply Z.mod_small. change (2 ^ 8) with 256. lia. }
    rewrite U in E. apply IH in E; [|now apply set_insert_nodup]. destruct E as [E1 E2]. split; [exact E1|].
    intros n I. apply E2 in I. destruct I as [I|[I|(c & J & B)]].
    + apply set_insert_in in I. destruct I as [->|I]; [|now left]. right. destruct G as [->|G]; [now left|]. right. exists u. split; [now left|exact G].
    + right. now left.
    + right. right. exists c. split; [now right|exact B].
Qed.
Lemma calc_sound bs keys w1 w2 w3 w4 n : (forall cmp n i, bs cmp n = Ok (Some i) -> cmp i = Eq) ->
  calc_unicode_ranges bs keys = Ok (w1, w2, w3, w4) -> bit_set [w1; w2; w3; w4] n -> n = 0 \/ exists c, In c keys /\ in_block os2_unicode_ranges n c.
Proof.
  intros H. unfold calc_unicode_ranges. destruct (ranges_of bs keys []) as [s| |] eqn:E; try discriminate. cbn [rbind].
  destruct (ranges_of_sound bs H keys [] s E (NoDup_nil _)) as [N I].
  destruct (words_of s 0 N) as (v1 & E1 & W1). destruct (words_of s 1 N) as (v2 & E2 & W2).
  destruct (words_of s 2 N) as (v3 & E3 & W3). destruct (words_of s 3 N) as (v4 & E4 & W4).
  change (32 * Z.of_nat 0) with 0 in *. change (32 * Z.of_nat 1) with 32 in *. change (32 * Z.of_nat 2) with 64 in *. change (32 * Z.of_nat 3) with 96 in *.
  change (0 + 31) with 31 in E1. change (32 + 31) with 63 in E2.
  change (64 + 31) with 95 in E3. change (96 + 31) with 127 in E4. rewrite E1. cbn [rbind]. rewrite E2. cbn [rbind]. rewrite E3. cbn [rbind]. rewrite E4. cbn [rbind].
  intros Q. apply Ok_inj in Q. injection Q as <- <- <- <-. intros (k & w & K & R & T).
  assert (J: In n s).
  { destruct k as [|[|[|[|k]]]]; cbn [nth_error] in K; try (injection K as <-).
    + change (32 * Z.of_nat 0) with 0 in *. now apply W1.
    + change (32 * Z.of_nat 1) with 32 in *. now apply W2.
    + change (32 * Z.of_nat 2) with 64 in *. now apply W3.
    + change (32 * Z.of_nat 3) with 96 in *. now apply W4.
    + destruct k; discriminate. }
  destruct (I n J) as [[]|A]. exact A.
Qed.
Lemma halving_claims cmp n i : search_halving cmp n = Ok (Some i) -> cmp i = Eq.
Proof.
  unfold search_halving.
  assert (G: forall fuel l r s, halving_loop fuel cmp l r s = Ok (Some i) -> cmp i = Eq); [|apply G].
  induction fuel as [|fuel IH]; intros l r s H; [discriminate|].
  cbn [halving_loop] in H. destruct (l <? r)%nat; [|discriminate]. destruct (cmp (l + s / 2)%nat) eqn:E; [now injection H as <-|now apply IH in H|now apply IH in H].
Qed.
Lemma branchless_claims cmp n i : search_branchless cmp n = Ok (Some i) -> cmp i = Eq.
Proof.
  unfold search_branchless. destruct (n =? 0)%nat; [discriminate|]. destruct (branchless_loop _ _ _ _) as [b| |]; cbn [rbind]; try discriminate.
  intros H. destruct (cmp b) eqn:E; [now injection H as <-|discriminate|discriminate].
Qed.

(** Glyph variations: optimizing small glyphs, counting. *)
From Coq Require Import Lia Sorted.
From Verif.Model Require Import MBase MFixed MFloat MGlyph MGlyf MPacked MIup MGvar.
From Verif.Spec Require Import SBase SGlyph SCmap SPacked SGvar.
From Verif.Spec Require SIup.
From Verif.Proofs Require PCmap4 PIupWhole PIupThm PName.
From Verif.Proofs Require Import PBase PCmap12 PGlyphFmt PGvar PGvarRead.

Lemma given_short {A} (o : list (option A)) : (length (given o) <= length o)%nat.
Proof. induction o as [|[d|] o IH]; cbn; lia. Qed.
Lemma short_no_256 l : (length l < 256)%nat -> ~ zeros_256 l.
Proof. intros H (a & b & ->). rewrite !app_length, repeat_length in H. lia. Qed.
Lemma touched_given (o : list (option delta)) : forall i, length (touched i o) = length (given o).
Proof. induction o as [|[d|] o IH]; intros i; cbn; now rewrite ?IH. Qed.
Lemma touched_gaps (o : list (option delta)) k : forall i last, last <= i -> i + Z.of_nat (length o) - last <= k ->
  Forall (fun g => 0 <= g <= k) (gaps last (touched i o)).
Proof.
  induction o as [|[d|] o IH]; intros i last H K; cbn [length] in K; cbn [touched gaps]; [constructor| |apply IH; lia].
  constructor; [lia|]. apply IH; lia.
Qed.
Lemma short_storable (o : list (option delta)) : (length o <= 127)%nat -> storable o.
Proof.
  intros H. pose proof (given_short o). split; [apply short_no_256; rewrite map_length; lia|]. split; [apply short_no_256; rewrite map_length; lia|].
  intros _ NE. split.
  - rewrite touched_given. destruct (given o); [easy|cbn [length] in *; lia].
  - apply touched_gaps; lia.
Qed.
Lemma full_is_given d : full_deltas d = SIup.given (map Some (ds_deltas d)).
Proof. unfold full_deltas, SIup.given. rewrite map_map. reflexivity. Qed.
Lemma small_optimizable g cs ends d : gvar_coords_and_ends g = Ok (cs, ends) -> (length cs <= 127)%nat -> Forall SIup.small_pair cs ->
  Forall (fun c => c <> []) (g_contours g) -> length (ds_deltas d) = length cs -> Forall SIup.small_pair (ds_deltas d) -> optimizable g d.
Proof.
  intros G L Sc Ne Ld Sd. rewrite <- Ld in L.
  assert (Lc: Forall (fun c => 1 <= Z.of_nat (length c) <= 8191) (g_contours g)).
  { unfold gvar_coords_and_ends in G. destruct (contour_ends 0 (g_contours g)) as [e0| |]; try discriminate. cbn [rbind] in G.
    cbv zeta in G. match type of G with (if ?b then _ else _) = _ => destruct b; [|discriminate] end.
    apply Ok_inj in G. apply (f_equal fst) in G. cbn [fst] in G. rewrite <- G, !app_length, map_length in Ld.
    rewrite Forall_forall in *. intros c I. specialize (Ne c I).
    assert (length c <= length (concat (g_contours g)))%nat.
    { clear - I. induction (g_contours g) as [|x l IH]; [easy|]. cbn [concat]. rewrite app_length. destruct I as [->|I]; [lia|]. specialize (IH I). lia. }
    destruct c; [easy|]. cbn [length] in *. lia. }
  destruct (PIupThm.optimize_glyph_runs g cs ends (ds_deltas d) G ltac:(lia) Ld Sd Sc Lc) as (o & E). exists o. rewrite full_is_given. split; [exact E|].
  assert (D: forall x, In (Some x) (map Some (ds_deltas d)) -> SIup.i16_pair x).
  { intros x I. apply in_map_iff in I as (y & [= ->] & I). rewrite Forall_forall in Sd. specialize (Sd x I). unfold SIup.small_pair, SIup.i16_pair in *. lia. }
  destruct (PIupWhole.optimize_deltas_lossless (map Some (ds_deltas d)) g o D) as (_ & _ & _ & _ & _ & Lo & _); [|exact E|].
  - intros cs' ends' E'. rewrite G in E'. apply Ok_inj in E'. apply (f_equal fst) in E'. cbn [fst] in E'. subst cs'. now rewrite map_length.
  - rewrite map_length in Lo. apply short_storable. lia.
Qed.

(** A counter. *)
Fixpoint insert_count (l : list (list Z)) (t : list Z) (m : list (list Z)) : list (list Z) :=
  match m with
  | [] => [t]
  | x :: m' => if (uses x l <=? uses t l)%nat then t :: m else x :: insert_count l t m'
  end.
Definition counted_list (l : list (list Z)) : list (list Z) :=
  fold_right (insert_count l) [] (nodup (list_eq_dec Z.eq_dec) l).
Lemma insert_in l t m x : In x (insert_count l t m) <-> x = t \/ In x m.
Proof.
  induction m as [|y m IH]; cbn [insert_count]; [cbn; intuition|]. destruct (_ <=? _)%nat; cbn [In] in *; [intuition|]. rewrite IH. intuition.
Qed.
Lemma insert_nodup l t m : ~ In t m -> NoDup m -> NoDup (insert_count l t m).
Proof.
  induction m as [|y m IH]; intros H N; cbn [insert_count]; [now constructor|]. destruct (_ <=? _)%nat; [now constructor|].
  inversion N; subst. constructor; [|apply IH; [|assumption]; intros I; apply H; now right]. rewrite insert_in. intros [->|I]; [apply H; now left|easy].
Qed.
Lemma insert_sorted l t m : StronglySorted (fun a b => (uses b l <= uses a l)%nat) m -> StronglySorted (fun a b => (uses b l <= uses a l)%nat) (insert_count l t m).
Proof.
  induction 1 as [|y m S IH F]; cbn [insert_count]; [repeat constructor|]. destruct (_ <=? _)%nat eqn:E; apply Nat.leb_le in E || apply Nat.leb_gt in E.
  - constructor; [now constructor|]. constructor; [exact E|]. eapply Forall_impl; [|exact F]. cbn beta. intros; lia.
  - constructor; [exact IH|]. apply Forall_forall. intros x I. apply insert_in in I as [->|I]; [lia|]. rewrite Forall_forall in F. now apply F.
Qed.
Lemma counted_first : most_common_first counted_list.
Proof.
  intros l. unfold counted_list. pose proof (NoDup_nodup (list_eq_dec Z.eq_dec) l) as N. pose proof (nodup_In (list_eq_dec Z.eq_dec) l) as I.
  set (d := nodup _ l) in *. clearbody d.
  assert (E: forall t, In t (fold_right (insert_count l) [] d) <-> In t d).
  { clear. intros t. induction d as [|x d IH]; [reflexivity|]. cbn [fold_right In]. rewrite insert_in, IH. intuition. }
  split; [|split].
  - clear I. induction d as [|x d IH]; [constructor|]. inversion N; subst. cbn [fold_right]. apply insert_nodup; [|apply IH; [assumption|]].
    + intros X. assert (In x d); [|easy]. revert X. clear. induction d as [|y d IH]; [easy|]. cbn [fold_right In]. rewrite insert_in. intuition.
    + clear. intros t. induction d as [|x d IH]; [reflexivity|]. cbn [fold_right In]. rewrite insert_in, IH. intuition.
  - intros t. rewrite E. apply I.
  - clear. induction d as [|x d IH]; [constructor|]. cbn [fold_right]. now apply insert_sorted.
Qed.

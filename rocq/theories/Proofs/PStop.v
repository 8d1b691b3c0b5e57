(** Exactly which bytes make the readers of parts of tables abort. *)
From Verif.Model Require Import MBase MMap MOffset MLayout MLow MGsub MContext MCmap.
From Verif.Model Require Import MStore MCli MWhole.
From Verif.Model Require MName.
From Verif.Spec Require Import SBase SReader SCalm SStop.
From Verif.Proofs Require Import PBase PCalm.

Definition item_at {A} (W : nat) (p : parser A) (R : nat -> A -> Prop) (d : list Z) st : Prop := forall k,
  (exists a, R k a /\ (k + W <= length d)%nat /\ p (mkrd d k st) = Ok (a, mkrd d (k + W) st)) \/
  ((length d < k + W)%nat /\ p (mkrd d k st) = Err).
Lemma items_at {A} W (p : parser A) R d st : item_at W p R d st -> forall n k,
  (exists l, length l = n /\ (forall i a, nth_error l i = Some a -> R (k + W * i)%nat a) /\
     (n = 0%nat \/ (k + W * n <= length d)%nat) /\ de_counted p n (mkrd d k st) = Ok (l, mkrd d (k + W * n) st)) \/
  ((0 < n)%nat /\ (length d < k + W * n)%nat /\ de_counted p n (mkrd d k st) = Err).
Proof.
  intros H. induction n as [|n IH]; intros k; cbn [de_counted].
  - left. exists []. repeat split; [intros [|i] a; discriminate|now left|]. unfold pret. do 2 f_equal. f_equal. lia.
  - destruct (H k) as [(a & Ra & L & E)|(L & E)].
    + rewrite (bind_at _ _ _ _ _ E). destruct (IH (k + W)%nat) as [(l & Hl & Hr & Hn & E2)|(Hn & L2 & E2)].
      * left. exists (a :: l). split; [cbn; lia|]. split; [|split].
        -- intros [|i] b; cbn [nth_error]; [intros [= <-]; now replace (k + W * 0)%nat with k by lia|].
           intros Hi. apply Hr in Hi. now replace (k + W * S i)%nat with (k + W + W * i)%nat by lia.
        -- right. destruct Hn; [subst n|]; lia.
        -- rewrite (bind_at _ _ _ _ _ E2). unfold pret. do 2 f_equal. f_equal. lia.
      * right. split; [lia|]. split; [lia|]. exact (bind_err _ _ _ E2).
    + right. split; [lia|]. split; [nia|]. exact (bind_err _ _ _ E).
Qed.
Lemma item_prim t d st : Forall is_byte d -> item_at (width t) (de_prim t) (number_at t d) d st.
Proof.
  intros B k. destruct (prim_at t d k st B) as [(v & N & E)|H]; [left|right; exact H].
  exists v. split; [exact N|]. split; [exact (number_fits _ _ _ _ N)|exact E].
Qed.
Lemma item_triple d st : Forall is_byte d ->
  item_at 6 de_triple (fun k x => u16_at d k (fst (fst x)) /\ u16_at d (k + 2) (snd (fst x)) /\ u16_at d (k + 4) (snd x)) d st.
Proof.
  intros B k. unfold de_triple. prims.
  destruct (prim_at U16 d k st B) as [(a & N1 & E)|(L & E)]; [rewrite (bind_at _ _ _ _ _ E)|right; cbn [width] in *; split; [lia|exact (bind_err _ _ _ E)]].
  cbn [width] in *.
  destruct (prim_at U16 d (k + 2) st B) as [(b & N2 & E2)|(L & E2)]; [rewrite (bind_at _ _ _ _ _ E2)|right; cbn [width] in *; split; [lia|exact (bind_err _ _ _ E2)]].
  cbn [width] in *.
  destruct (prim_at U16 d (k + 2 + 2) st B) as [(c & N3 & E3)|(L & E3)]; [rewrite (bind_at _ _ _ _ _ E3)|right; cbn [width] in *; split; [lia|exact (bind_err _ _ _ E3)]].
  cbn [width] in *. left. exists (a, b, c). cbn [fst snd]. replace (k + 4)%nat with (k + 2 + 2)%nat by lia.
  split; [auto|]. apply number_fits in N3. cbn [width] in N3. split; [lia|]. unfold pret. do 2 f_equal. f_equal. lia.
Qed.
Lemma item_group d st : Forall is_byte d ->
  item_at 12 group_de (fun k x => u32_at d k (fst (fst x)) /\ u32_at d (k + 4) (snd (fst x)) /\ u32_at d (k + 8) (snd x)) d st.
Proof.
  intros B k. unfold group_de. prims.
  destruct (prim_at U32 d k st B) as [(a & N1 & E)|(L & E)]; [rewrite (bind_at _ _ _ _ _ E)|right; cbn [width] in *; split; [lia|exact (bind_err _ _ _ E)]].
  cbn [width] in *.
  destruct (prim_at U32 d (k + 4) st B) as [(b & N2 & E2)|(L & E2)]; [rewrite (bind_at _ _ _ _ _ E2)|right; cbn [width] in *; split; [lia|exact (bind_err _ _ _ E2)]].
  cbn [width] in *.
  destruct (prim_at U32 d (k + 4 + 4) st B) as [(c & N3 & E3)|(L & E3)]; [rewrite (bind_at _ _ _ _ _ E3)|right; cbn [width] in *; split; [lia|exact (bind_err _ _ _ E3)]].
  cbn [width] in *. left. exists (a, b, c). cbn [fst snd]. replace (k + 8)%nat with (k + 4 + 4)%nat by lia.
  split; [auto|]. apply number_fits in N3. cbn [width] in N3. split; [lia|]. unfold pret. do 2 f_equal. f_equal. lia.
Qed.
Lemma u16_range d k v : u16_at d k v -> 0 <= v <= 65535.
Proof. intros (bs & _ & _ & R). exact R. Qed.
Lemma u32_range d k v : u32_at d k v -> 0 <= v <= 4294967295.
Proof. intros (bs & _ & _ & R). exact R. Qed.
Lemma i16_range d k v : number_at I16 d k v -> -32768 <= v <= 32767.
Proof. intros (bs & _ & _ & R). exact R. Qed.
Lemma chk_u_cases b x : (0 <= x < 2 ^ b /\ chk_u b x = Ok x) \/ (~ 0 <= x < 2 ^ b /\ chk_u b x = Panic).
Proof. unfold chk_u. destruct ((0 <=? x) && (x <? 2 ^ b)) eqn:E; [left|right]; (split; [lia|reflexivity]). Qed.
Lemma chk_i_cases x : (-32768 <= x <= 32767 /\ chk_i 16 x = Ok x) \/ (~ -32768 <= x <= 32767 /\ chk_i 16 x = Panic).
Proof. unfold chk_i. change (2 ^ (16 - 1)) with 32768. destruct ((- (32768) <=? x) && (x <? 32768)) eqn:E; [left|right]; (split; [lia|reflexivity]). Qed.

(** ** Ranges *)
Lemma expand_panic rs : (forall x, In x rs -> 0 <= snd (fst x) <= 65535) ->
  (cov_expand rs = Panic <-> exists x, In x rs /\ snd (fst x) = 65535) /\ cov_expand rs <> Err.
Proof.
  induction rs as [|[[s e] c] rs IH]; intros H; cbn [cov_expand].
  - split; [|discriminate]. split; [discriminate|]. intros (x & [] & _).
  - destruct IH as [IH IE]; [intros x Hx; apply H; now right|]. pose proof (H _ (or_introl eq_refl)) as He. cbn [fst snd] in He.
    destruct (chk_u_cases 16 (e + 1)) as [(R & E)|(R & E)]; rewrite E; cbn [rbind]; change (2 ^ 16) with 65536 in R.
    + split.
      * transitivity (cov_expand rs = Panic).
        { destruct (cov_expand rs); cbn [rbind]; split; congruence. }
        rewrite IH. split; [intros (x & Hx & Ex); exists x; split; [now right|exact Ex]|].
        intros (x & [<-|Hx] & Ex); [cbn in Ex; lia|eauto].
      * destruct (cov_expand rs); cbn [rbind]; congruence.
    + split; [|discriminate]. split; [|reflexivity]. intros _. exists (s, e, c). split; [now left|cbn; lia].
Qed.
Lemma read2_panic rs : (forall x, In x rs -> 0 <= snd (fst x) <= 65535) -> forall m,
  cd_read2 rs m = Panic <-> exists x, In x rs /\ snd (fst x) = 65535.
Proof.
  induction rs as [|[[s e] c] rs IH]; intros H m; cbn [cd_read2].
  - split; [discriminate|]. intros (x & [] & _).
  - pose proof (H _ (or_introl eq_refl)) as He. cbn [fst snd] in He.
    destruct (chk_u_cases 16 (e + 1)) as [(R & E)|(R & E)]; rewrite E; cbn [rbind]; change (2 ^ 16) with 65536 in R.
    + rewrite IH by (intros x Hx; apply H; now right). split; [intros (x & Hx & Ex); exists x; split; [now right|exact Ex]|].
      intros (x & [<-|Hx] & Ex); [cbn in Ex; lia|eauto].
    + split; [|reflexivity]. intros _. exists (s, e, c). split; [now left|cbn; lia].
Qed.
Lemma read1_panic start : 0 <= start -> forall cs ix m, 0 <= ix -> ix + Z.of_nat (length cs) <= 65535 ->
  cd_read1 start ix cs m = Panic <-> (cs <> [] /\ 65536 < start + ix + Z.of_nat (length cs)).
Proof.
  intros Hs. induction cs as [|c cs IH]; intros ix m Hi Hl; cbn [cd_read1].
  - split; [discriminate|]. intros [X _]. congruence.
  - cbn [List.length] in Hl |- *. assert (Eu: u16 ix = ix) by (apply Z.mod_small; lia). rewrite Eu.
    destruct (chk_u_cases 16 (start + ix)) as [(R & E)|(R & E)]; rewrite E; cbn [rbind]; change (2 ^ 16) with 65536 in R.
    + rewrite IH by lia. split.
      * intros [_ X]. split; [discriminate|lia].
      * intros [_ X]. split; [|lia]. intros ->. cbn in X. lia.
    + split; [|reflexivity]. intros _. split; [discriminate|lia].
Qed.

(** A reader of ranges, then something that aborts on a range to 65535. *)
Lemma ranges_stop {A} (f : list (Z * Z * Z) -> res A) d k st : Forall is_byte d ->
  (forall rs, (forall x, In x rs -> 0 <= snd (fst x) <= 65535) -> (f rs = Panic <-> exists x, In x rs /\ snd (fst x) = 65535)) ->
  (pbind (de_counted16 de_triple) (fun rs => plift (f rs)) (mkrd d k st) = Panic <-> range_to_the_end d k).
Proof.
  intros B Hf. unfold de_counted16, range_to_the_end. prims.
  destruct (prim_at U16 d k st B) as [(n & N & E)|(L & E)].
  - assert (E1: pbind (pbind (de_prim U16) (fun n => de_counted de_triple (Z.to_nat n))) (fun rs => plift (f rs)) (mkrd d k st) =
       pbind (de_counted de_triple (Z.to_nat n)) (fun rs => plift (f rs)) (mkrd d (k + 2) st)) by (unfold pbind; now rewrite E).
    rewrite E1. pose proof (number_fits _ _ _ _ N) as Lf. cbn [width] in Lf.
    destruct (items_at 6 _ _ d st (item_triple d st B) (Z.to_nat n) (k + 2)%nat) as [(l & Hl & Hr & Hn & E2)|(Hn & L2 & E2)].
    + rewrite (bind_at _ _ _ _ _ E2). unfold plift.
      assert (Hin: forall x, In x l -> 0 <= snd (fst x) <= 65535).
      { intros x Hx. apply In_nth_error in Hx as [i Hi]. apply Hr in Hi as (_ & X & _). eapply u16_range; eauto. }
      transitivity (f l = Panic); [destruct (f l); split; congruence|]. rewrite (Hf l Hin). split.
      * intros (x & Hx & Ex). apply In_nth_error in Hx as [i Hi]. exists n, i. split; [exact N|].
        assert (Hlt: (i < length l)%nat) by (apply nth_error_Some; congruence).
        split; [destruct Hn; lia|]. split; [lia|]. apply Hr in Hi as (_ & X & _). now rewrite Ex in X.
      * intros (n' & i & N' & _ & Hi & X). rewrite (number_unique _ _ _ _ _ N' N) in Hi.
        destruct (nth_error l i) as [x|] eqn:Ei; [|apply nth_error_None in Ei; lia].
        exists x. split; [eapply nth_error_In; eauto|]. apply Hr in Ei as (_ & Y & _). exact (number_unique _ _ _ _ _ Y X).
    + rewrite (bind_err _ _ _ E2). split; [discriminate|]. intros (n' & i & N' & X & _).
      rewrite (number_unique _ _ _ _ _ N' N) in X. lia.
  - unfold pbind. rewrite E. split; [discriminate|]. intros (n' & i & N' & _). apply number_fits in N'. lia.
Qed.

Lemma coverage_stops : stops cov_de coverage_bad.
Proof.
  intros d k st B. unfold cov_de, coverage_bad. prims.
  destruct (prim_at U16 d k st B) as [(v & N & E)|(L & E)].
  2: { rewrite (bind_err _ _ _ E). split; [discriminate|]. intros (f & X & _). apply number_fits in X. lia. }
  rewrite (bind_at _ _ _ _ _ E). cbn [width]. destruct (Z.eqb_spec v 1) as [->|Hv].
  - split.
    + intros X. exfalso.
      unfold de_counted16, pbind in X. prims. destruct (prim_at U16 d (k + 2) st B) as [(n & N2 & E2)|(L2 & E2)]; rewrite E2 in X; [|discriminate].
      destruct (items_at 2 _ _ d st (item_prim U16 d st B) (Z.to_nat n) (k + 2 + 2)%nat) as [(l & _ & _ & _ & E3)|(_ & _ & E3)];
        cbn [width] in X; rewrite E3 in X; discriminate.
    + intros (f & X & Y & _). destruct Y. exact (number_unique _ _ _ _ _ X N).
  - rewrite (ranges_stop cov_expand d (k + 2) st B) by (intros rs H; apply (proj1 (expand_panic rs H))).
    split; [intros H; exists v; auto|]. intros (f & _ & _ & H). exact H.
Qed.

(** ** Readers that never abort *)
Definition still {A} (p : parser A) : Prop := forall d k st, Forall is_byte d ->
  match p (mkrd d k st) with Ok (_, r) => exists k', r = mkrd d k' st | Err => True | Panic => False end.
Lemma still_prim t : still (de_prim t).
Proof. intros d k st B. destruct (prim_at t d k st B) as [(v & _ & ->)|(_ & ->)]; [eexists; reflexivity|exact I]. Qed.
Lemma still_ret {A} (a : A) : still (pret a).
Proof. intros d k st B. exists k. reflexivity. Qed.
Lemma still_bind {A B} (p : parser A) (f : A -> parser B) : still p -> (forall a, still (f a)) -> still (pbind p f).
Proof.
  intros Hp Hf d k st B1. unfold pbind. specialize (Hp d k st B1). destruct (p (mkrd d k st)) as [[a r]| |]; [|exact I|exact Hp].
  destruct Hp as [k' ->]. apply Hf. exact B1.
Qed.
Lemma still_counted {A} (p : parser A) : still p -> forall n, still (de_counted p n).
Proof. intros H. induction n; cbn [de_counted]; [apply still_ret|]. repeat (apply still_bind; [assumption|intros ?]). apply still_ret. Qed.
Lemma still_counted16 {A} (p : parser A) : still p -> still (de_counted16 p).
Proof. intros H. apply still_bind; [apply still_prim|intros n]. now apply still_counted. Qed.
Lemma still_not {A} (p : parser A) d k st : still p -> Forall is_byte d -> p (mkrd d k st) <> Panic.
Proof. intros H B E. specialize (H d k st B). now rewrite E in H. Qed.
Ltac stills := repeat first [apply still_prim | apply still_ret | apply still_counted16 | apply still_counted | apply still_bind; [|intros ?]].

Lemma class_stops : stops cd_de class_bad.
Proof.
  intros d k st B. unfold cd_de, class_bad. prims.
  destruct (prim_at U16 d k st B) as [(v & N & E)|(L & E)].
  2: { rewrite (bind_err _ _ _ E). split; [discriminate|]. intros (f & X & _). apply number_fits in X. lia. }
  rewrite (bind_at _ _ _ _ _ E). cbn [width]. clear E. destruct (Z.eqb_spec v 1) as [->|Hv].
  - destruct (prim_at U16 d (k + 2) st B) as [(s & N2 & E)|(L & E)].
    2: { rewrite (bind_err _ _ _ E). split; [discriminate|]. intros (f & _ & [(_ & s & n & X & _)|(X & n & i & Y & _)]); apply number_fits in X || apply number_fits in Y; cbn [width] in *; lia. }
    rewrite (bind_at _ _ _ _ _ E). clear E. cbn [width]. unfold de_counted16.
    destruct (prim_at U16 d (k + 2 + 2) st B) as [(n & N3 & E)|(L & E)].
    2: { unfold pbind. prims. rewrite E. split; [discriminate|]. replace (k + 4)%nat with (k + 2 + 2)%nat by lia.
         intros (f & F & [(_ & s' & n & _ & X & _)|(X & _)]); [apply number_fits in X; lia|]. destruct X. exact (number_unique _ _ _ _ _ F N). }
    prims.
    assert (E1: forall f : list Z -> parser classdef, pbind (pbind (de_prim U16) (fun n => de_counted (de_prim U16) (Z.to_nat n))) f (mkrd d (k + 2 + 2) st) =
       pbind (de_counted (de_prim U16) (Z.to_nat n)) f (mkrd d (k + 2 + 2 + 2) st)) by (intros f; unfold pbind; now rewrite E).
    rewrite E1. clear E E1. pose proof (number_fits _ _ _ _ N3) as Lf. cbn [width] in Lf.
    destruct (items_at 2 _ _ d st (item_prim U16 d st B) (Z.to_nat n) (k + 2 + 2 + 2)%nat) as [(l & Hl & Hr & Hn & E)|(Hn & L2 & E)].
    + rewrite (bind_at _ _ _ _ _ E). unfold plift. pose proof (u16_range _ _ _ N2) as R2. pose proof (u16_range _ _ _ N3) as R3.
      transitivity (cd_read1 s 0 l [] = Panic); [destruct (cd_read1 s 0 l []); split; congruence|].
      rewrite read1_panic by lia. rewrite Hl. split.
      * intros [X Y]. exists 1. split; [exact N|]. left. split; [reflexivity|]. exists s, n. replace (k + 4)%nat with (k + 2 + 2)%nat by lia.
        split; [exact N2|]. split; [exact N3|]. split; lia.
      * intros (f & F & [(_ & s' & n' & X & Y & Z1 & Z2)|(X & _)]).
        2: { destruct X. exact (number_unique _ _ _ _ _ F N). }
        replace (k + 4)%nat with (k + 2 + 2)%nat in Y by lia.
        rewrite (number_unique _ _ _ _ _ X N2), (number_unique _ _ _ _ _ Y N3) in Z2. split; [|lia].
        intros ->. cbn in Hl. lia.
    + rewrite (bind_err _ _ _ E). split; [discriminate|].
      intros (f & F & [(_ & s' & n' & X & Y & Z1 & Z2)|(X & _)]).
      2: { destruct X. exact (number_unique _ _ _ _ _ F N). }
      replace (k + 4)%nat with (k + 2 + 2)%nat in Y by lia. rewrite (number_unique _ _ _ _ _ Y N3) in Z1. lia.
  - rewrite (ranges_stop (fun rs => cd_read2 rs []) d (k + 2) st B) by (intros rs H; apply (read2_panic rs H)).
    split; [intros H; exists v; auto|]. intros (f & F & [(X & _)|(_ & H)]); [|exact H].
    destruct Hv. rewrite <- X. exact (number_unique _ _ _ _ _ N F).
Qed.

Lemma still_unpack nb : forall n tmp shift, still (dv_unpack nb tmp shift n).
Proof.
  induction n as [|n IH]; intros tmp shift; cbn [dv_unpack]; [apply still_ret|]. prims.
  apply still_bind; [destruct (shift =? 0); stills|]. intros [t s]. apply still_bind; [apply IH|intros ?; apply still_ret].
Qed.
Lemma device_stops : stops dv_de device_bad.
Proof.
  intros d k st B. unfold dv_de, device_bad. prims.
  destruct (prim_at U16 d k st B) as [(s & N1 & E)|(L & E)].
  2: { rewrite (bind_err _ _ _ E). split; [discriminate|]. intros (? & ? & ? & X & _). apply number_fits in X. lia. }
  rewrite (bind_at _ _ _ _ _ E). cbn [width]. clear E.
  destruct (prim_at U16 d (k + 2) st B) as [(e & N2 & E)|(L & E)].
  2: { rewrite (bind_err _ _ _ E). split; [discriminate|]. intros (? & ? & ? & _ & X & _). apply number_fits in X. lia. }
  rewrite (bind_at _ _ _ _ _ E). cbn [width]. clear E. replace (k + 4)%nat with (k + 2 + 2)%nat by lia.
  destruct (prim_at U16 d (k + 2 + 2) st B) as [(f & N3 & E)|(L & E)].
  2: { rewrite (bind_err _ _ _ E). split; [discriminate|]. intros (? & ? & ? & _ & _ & X & _). apply number_fits in X. lia. }
  rewrite (bind_at _ _ _ _ _ E). cbn [width]. clear E.
  transitivity (f <> 32768 /\ (e < s \/ (s = 0 /\ e = 65535) \/ 3 < f)).
  2: { split; [intros H; exists s, e, f; auto|]. intros (s' & e' & f' & X1 & X2 & X3 & H).
       now rewrite (number_unique _ _ _ _ _ X1 N1), (number_unique _ _ _ _ _ X2 N2), (number_unique _ _ _ _ _ X3 N3) in H. }
  pose proof (u16_range _ _ _ N1) as R1. pose proof (u16_range _ _ _ N2) as R2.
  destruct (Z.eqb_spec f 32768) as [->|Hf].
  - split; [discriminate|]. intros [X _]. congruence.
  - unfold plift, pbind at 1. destruct (chk_u_cases 16 (e - s)) as [(R & E)|(R & E)]; rewrite E; change (2 ^ 16) with 65536 in R.
    2: { split; [intros _|reflexivity]. split; [exact Hf|]. lia. }
    unfold pbind at 1. destruct (chk_u_cases 16 (e - s + 1)) as [(R' & E')|(R' & E')]; rewrite E'; change (2 ^ 16) with 65536 in R'.
    2: { split; [intros _|reflexivity]. split; [exact Hf|]. lia. }
    destruct (Z.ltb_spec 3 f) as [H3|H3].
    + split; [intros _|reflexivity]. auto.
    + split.
      * intros X. exfalso. revert X. apply still_not; [|exact B]. apply still_bind; [apply still_unpack|intros ?; apply still_ret].
      * intros [_ X]. lia.
Qed.

(** ** Rules *)
Lemma ligature_stops : stops lig_de ligature_bad.
Proof.
  intros d k st B. unfold lig_de, ligature_bad. prims.
  destruct (prim_at U16 d k st B) as [(s & N1 & E)|(L & E)].
  2: { rewrite (bind_err _ _ _ E). split; [discriminate|]. intros X. apply number_fits in X. cbn [width] in *. lia. }
  rewrite (bind_at _ _ _ _ _ E). cbn [width]. clear E.
  destruct (prim_at U16 d (k + 2) st B) as [(n & N2 & E)|(L & E)].
  2: { rewrite (bind_err _ _ _ E). split; [discriminate|]. intros X. apply number_fits in X. lia. }
  rewrite (bind_at _ _ _ _ _ E). cbn [width]. clear E. destruct (Z.eqb_spec n 0) as [->|Hn].
  - split; [intros _; exact N2|reflexivity].
  - split; [|intros X; destruct Hn; exact (number_unique _ _ _ _ _ N2 X)].
    intros X. exfalso. revert X. apply still_not; [|exact B]. stills.
Qed.
Lemma rule_stops : stops sr_de rule_bad.
Proof.
  intros d k st B. unfold sr_de, rule_bad, lr_de. prims.
  destruct (prim_at U16 d k st B) as [(n & N1 & E)|(L & E)].
  2: { rewrite (bind_err _ _ _ E). split; [discriminate|]. intros [X _]. apply number_fits in X. cbn [width] in *. lia. }
  rewrite (bind_at _ _ _ _ _ E). cbn [width]. clear E.
  destruct (prim_at U16 d (k + 2) st B) as [(m & N2 & E)|(L & E)].
  2: { rewrite (bind_err _ _ _ E). split; [discriminate|]. cbn [width] in L. intros [_ X]. lia. }
  rewrite (bind_at _ _ _ _ _ E). cbn [width]. clear E. destruct (Z.eqb_spec n 0) as [->|Hn].
  - apply number_fits in N2. cbn [width] in N2. split; [intros _; split; [exact N1|lia]|reflexivity].
  - split; [|intros [X _]; destruct Hn; exact (number_unique _ _ _ _ _ N1 X)].
    intros X. exfalso. revert X. apply still_not; [|exact B]. stills.
Qed.
Lemma chained_rule_stops : stops cr_de chained_rule_bad.
Proof.
  intros d k st B. unfold cr_de, chained_rule_bad, lr_de, de_words at 1, de_counted16 at 1. prims.
  destruct (prim_at U16 d k st B) as [(n & N1 & E)|(L & E)].
  2: { unfold pbind. rewrite E. split; [discriminate|]. intros (n & X & _). apply number_fits in X. cbn [width] in *. lia. }
  match goal with |- pbind (pbind _ _) ?f _ = _ <-> _ =>
    assert (E1: pbind (pbind (de_prim U16) (fun n => de_counted (de_prim U16) (Z.to_nat n))) f (mkrd d k st) =
       pbind (de_counted (de_prim U16) (Z.to_nat n)) f (mkrd d (k + 2) st)) by (unfold pbind; now rewrite E); rewrite E1 end.
  clear E E1.
  transitivity (u16_at d (k + 2 + 2 * Z.to_nat n) 0).
  2: { split; [intros H; eauto|]. intros (n' & X & H). now rewrite (number_unique _ _ _ _ _ X N1) in H. }
  destruct (items_at 2 _ _ d st (item_prim U16 d st B) (Z.to_nat n) (k + 2)%nat) as [(l & Hl & Hr & Hn & E)|(Hn & L2 & E)].
  2: { rewrite (bind_err _ _ _ E). split; [discriminate|]. intros X. apply number_fits in X. cbn [width] in X. lia. }
  rewrite (bind_at _ _ _ _ _ E). clear E.
  destruct (prim_at U16 d (k + 2 + 2 * Z.to_nat n) st B) as [(m & N2 & E)|(L & E)].
  2: { rewrite (bind_err _ _ _ E). split; [discriminate|]. intros X. apply number_fits in X. lia. }
  rewrite (bind_at _ _ _ _ _ E). cbn [width]. clear E. destruct (Z.eqb_spec m 0) as [->|Hm].
  - split; [intros _; exact N2|reflexivity].
  - split; [|intros X; destruct Hm; exact (number_unique _ _ _ _ _ N2 X)].
    intros X. exfalso. revert X. apply still_not; [|exact B]. unfold de_words. prims. stills.
Qed.

(** ** Character maps *)
Lemma cmap0_stops : stops cmap0_de cmap0_bad.
Proof.
  intros d k st B. unfold cmap0_de, cmap0_bad. prims.
  destruct (prim_at U16 d k st B) as [(s & N1 & E)|(L & E)].
  2: { rewrite (bind_err _ _ _ E). split; [discriminate|]. intros (n & X & _). apply number_fits in X. cbn [width] in *. lia. }
  rewrite (bind_at _ _ _ _ _ E). cbn [width]. clear E.
  destruct (prim_at U16 d (k + 2) st B) as [(n & N2 & E)|(L & E)].
  2: { rewrite (bind_err _ _ _ E). split; [discriminate|]. intros (n & X & _). apply number_fits in X. lia. }
  rewrite (bind_at _ _ _ _ _ E). cbn [width]. clear E.
  destruct (prim_at U16 d (k + 2 + 2) st B) as [(f & N3 & E)|(L & E)].
  2: { rewrite (bind_err _ _ _ E). split; [discriminate|]. cbn [width] in L. intros (n' & _ & X & _). lia. }
  rewrite (bind_at _ _ _ _ _ E). cbn [width]. clear E. apply number_fits in N3. cbn [width] in N3.
  unfold plift, pbind at 1. pose proof (u16_range _ _ _ N2) as R2.
  destruct (chk_u_cases 16 (n - 6)) as [(R & E)|(R & E)]; rewrite E; change (2 ^ 16) with 65536 in R.
  - split.
    + intros X. exfalso. revert X. apply still_not; [|exact B]. stills.
    + intros (n' & X & _ & Y). rewrite (number_unique _ _ _ _ _ X N2) in Y. lia.
  - split; [intros _|reflexivity]. exists n. split; [exact N2|]. lia.
Qed.
Lemma items_panic g : forall n m a, 0 <= a -> 0 <= fst (fst g) -> fst (fst g) + a + Z.of_nat n <= 4294967296 ->
  (group_items g m (zrange a (a + Z.of_nat n)) = Panic <-> exists i, a <= i < a + Z.of_nat n /\ 65535 < snd g mod 65536 + i mod 65536) /\
  group_items g m (zrange a (a + Z.of_nat n)) <> Err.
Proof.
  induction n as [|n IH]; intros m a Ha Hs Hb.
  - rewrite PCmap4.zrange_nil by lia. split; [|discriminate]. split; [discriminate|]. intros (i & X & _). lia.
  - rewrite PCmap4.zrange_cons by lia. cbn [group_items].
    replace (a + Z.of_nat (S n)) with (a + 1 + Z.of_nat n) by lia.
    destruct (chk_u_cases 32 (fst (fst g) + a)) as [(R & E)|(R & E)]; rewrite E; change (2 ^ 32) with 4294967296 in R; [|lia].
    cbn [rbind]. unfold u16. change (wrap_u 16 (snd g)) with (snd g mod 65536). change (wrap_u 16 a) with (a mod 65536).
    destruct (chk_u_cases 16 (snd g mod 65536 + a mod 65536)) as [(R' & E')|(R' & E')]; rewrite E'; change (2 ^ 16) with 65536 in R'; cbn [rbind].
    + destruct (IH (bm_insert Z.ltb (fst (fst g) + a) (snd g mod 65536 + a mod 65536) m) (a + 1)) as [I1 I2]; [lia|lia|lia|].
      split; [|exact I2]. rewrite I1. split; [intros (i & X & Y); exists i; split; [lia|exact Y]|].
      intros (i & X & Y). exists i. split; [|exact Y]. destruct (Z.eq_dec i a) as [->|]; lia.
    + split; [|discriminate]. split; [intros _|reflexivity]. exists a. split; [lia|].
      pose proof (Z.mod_pos_bound (snd g) 65536 ltac:(lia)). pose proof (Z.mod_pos_bound a 65536 ltac:(lia)). lia.
Qed.
Definition group_bad (g : group) : Prop :=
  let '(s, e, x) := g in e < s \/ (s = 0 /\ e = 4294967295) \/ 65535 < x mod 65536 + Z.min (e - s) 65535.
Lemma groups_panic : forall gs m, (forall s e x, In (s, e, x) gs -> 0 <= s <= 4294967295 /\ 0 <= e <= 4294967295) ->
  (groups_mapping m gs = Panic <-> exists g, In g gs /\ group_bad g) .
Proof.
  induction gs as [|[[s e] x] gs IH]; intros m H; cbn [groups_mapping fst snd].
  - split; [discriminate|]. intros (g & [] & _).
  - destruct (H s e x (or_introl eq_refl)) as [Hs He].
    destruct (chk_u_cases 32 (e - s)) as [(R & E)|(R & E)]; rewrite E; change (2 ^ 32) with 4294967296 in R; cbn [rbind].
    2: { split; [intros _|reflexivity]. exists (s, e, x). split; [now left|]. cbn. lia. }
    destruct (chk_u_cases 32 (1 + (e - s))) as [(R' & E')|(R' & E')]; rewrite E'; change (2 ^ 32) with 4294967296 in R'; cbn [rbind].
    2: { split; [intros _|reflexivity]. exists (s, e, x). split; [now left|]. cbn. lia. }
    destruct (items_panic (s, e, x) (Z.to_nat (1 + (e - s))) m 0) as [I1 I2]; cbn [fst snd] in *; [lia|lia|lia|].
    rewrite Z2Nat.id in I1, I2 by lia. change (0 + (1 + (e - s))) with (1 + (e - s)) in I1, I2.
    assert (Hg: (exists i, 0 <= i < 1 + (e - s) /\ 65535 < x mod 65536 + i mod 65536) <-> group_bad (s, e, x)).
    { cbn. pose proof (Z.mod_pos_bound x 65536 ltac:(lia)) as Rx. split.
      - intros (i & X & Y). right. right. destruct (Z.le_gt_cases (e - s) 65535).
        + rewrite Z.min_l by lia. rewrite (Z.mod_small i) in Y by lia. lia.
        + rewrite Z.min_r by lia. pose proof (Z.mod_pos_bound i 65536 ltac:(lia)). lia.
      - intros [X|[X|X]]; [lia|lia|]. exists (Z.min (e - s) 65535). split; [lia|]. rewrite (Z.mod_small (Z.min _ _)) by lia. exact X. }
    rewrite Hg in I1. destruct (group_items (s, e, x) m (zrange 0 (1 + (e - s)))) as [m1| |] eqn:Eg; cbn [rbind].
    + rewrite IH by (intros; eapply H; right; eassumption). split; [intros (g & X & Y); exists g; split; [now right|exact Y]|].
      intros (g & [<-|X] & Y); [|eauto]. apply I1 in Y. discriminate.
    + now destruct I2.
    + split; [intros _|reflexivity]. exists (s, e, x). split; [now left|]. apply I1. reflexivity.
Qed.
Lemma cmap12_stops : stops cmap12_read cmap12_bad.
Proof.
  intros d k st B. unfold cmap12_read, cmap12_de, cmap12_bad, de_counted32, de_u32, de_u16 in *.
  assert (F: forall n, (length d < k + n)%nat -> (n <= 16)%nat -> ~ exists m, u32_at d (k + 12) m).
  { intros n L Ln (m & X). apply number_fits in X. cbn [width] in X. lia. }
  assert (G: (length d < k + 16)%nat -> ~ exists n i s e g, u32_at d (k + 12) n /\ (i < Z.to_nat n)%nat /\ (k + 16 + 12 * Z.to_nat n <= length d)%nat /\
    u32_at d (k + 16 + 12 * i) s /\ u32_at d (k + 20 + 12 * i) e /\ u32_at d (k + 24 + 12 * i) g /\
    (e < s \/ (s = 0 /\ e = 4294967295) \/ 65535 < g mod 65536 + Z.min (e - s) 65535)).
  { intros L (n & i & s & e & g & _ & _ & X & _). lia. }
  unfold pbind at 1 2.
  destruct (prim_at U16 d k st B) as [(v1 & N1 & E)|(L & E)]; rewrite E; cbn [width] in *; clear E.
  2: { split; [discriminate|]. intros X. apply G in X; [destruct X|lia]. }
  unfold pbind at 1.
  destruct (prim_at U16 d (k + 2) st B) as [(v2 & N2 & E)|(L & E)]; rewrite E; cbn [width] in *; clear E.
  2: { split; [discriminate|]. intros X. apply G in X; [destruct X|lia]. }
  unfold pbind at 1.
  destruct (prim_at U32 d (k + 2 + 2) st B) as [(v3 & N3 & E)|(L & E)]; rewrite E; cbn [width] in *; clear E.
  2: { split; [discriminate|]. intros X. apply G in X; [destruct X|lia]. }
  unfold pbind at 1.
  destruct (prim_at U32 d (k + 2 + 2 + 4) st B) as [(v4 & N4 & E)|(L & E)]; rewrite E; cbn [width] in *; clear E.
  2: { split; [discriminate|]. intros X. apply G in X; [destruct X|lia]. }
  unfold pbind at 1 2.
  destruct (prim_at U32 d (k + 2 + 2 + 4 + 4) st B) as [(n & N & E)|(L & E)]; rewrite E; cbn [width] in *; clear E.
  2: { split; [discriminate|]. intros X. apply G in X; [destruct X|lia]. }
  pose proof (number_fits _ _ _ _ N) as Lf. cbn [width] in Lf.
  replace (k + 2 + 2 + 4 + 4)%nat with (k + 12)%nat in * by lia. replace (k + 12 + 4)%nat with (k + 16)%nat by lia.
  destruct (items_at 12 _ _ d st (item_group d st B) (Z.to_nat n) (k + 16)%nat) as [(l & Hl & Hr & Hn & E)|(Hn & L2 & E)]; rewrite E.
  2: { split; [discriminate|]. intros (n' & i & s & e & g & X & _ & Y & _). rewrite (number_unique _ _ _ _ _ X N) in Y. lia. }
  unfold pret at 1, plift, pbind, cmap12_mapping. cbn [c12_groups c12_language].
  transitivity (groups_mapping [] l = Panic); [destruct (groups_mapping [] l); unfold pret; split; congruence|].
  rewrite groups_panic.
  2: { intros s e x Hx. apply In_nth_error in Hx as [i Hi]. apply Hr in Hi as (X & Y & _). split; eapply u32_range; eassumption. }
  split.
  - intros ([[s e] x] & Hx & Hb). apply In_nth_error in Hx as [i Hi]. exists n, i, s, e, x.
    assert (Hlt: (i < length l)%nat) by (apply nth_error_Some; intros X0; discriminate (eq_trans (eq_sym X0) Hi)). apply Hr in Hi as (X & Y & Z1). cbn [fst snd] in *.
    replace (k + 20 + 12 * i)%nat with (k + 16 + 12 * i + 4)%nat by lia. replace (k + 24 + 12 * i)%nat with (k + 16 + 12 * i + 8)%nat by lia.
    repeat (split; [first [assumption|lia]|]). exact Hb.
  - intros (n' & i & s & e & x & Nn & Hi & _ & X & Y & Z1 & Hb). rewrite (number_unique _ _ _ _ _ Nn N) in Hi.
    destruct (nth_error l i) as [[[s' e'] x']|] eqn:Ei; [|apply nth_error_None in Ei; lia].
    exists (s', e', x'). split; [eapply nth_error_In; eauto|]. apply Hr in Ei as (X' & Y' & Z'). cbn [fst snd] in *.
    replace (k + 20 + 12 * i)%nat with (k + 16 + 12 * i + 4)%nat in Y by lia. replace (k + 24 + 12 * i)%nat with (k + 16 + 12 * i + 8)%nat in Z1 by lia.
    rewrite (number_unique _ _ _ _ _ X' X), (number_unique _ _ _ _ _ Y' Y), (number_unique _ _ _ _ _ Z' Z1). exact Hb.
Qed.

(** *** Format 4 *)
Definition wide (arr : list Z) (delta partial c : Z) : Prop :=
  c + partial < Z.of_nat (length arr) /\ nth (Z.to_nat (c + partial)) arr 0 <> 0 /\
  ~ -32768 <= i16 (nth (Z.to_nat (c + partial)) arr 0) + delta <= 32767.
Lemma codes_panic arr delta off partial : off <> 0 -> forall n s e m, Z.to_nat (1 + e - s) = n ->
  (seg_codes arr delta off partial m (zrange s (1 + e)) = Panic <-> exists c, s <= c <= e /\ 0 <= s + partial /\ wide arr delta partial c) /\
  seg_codes arr delta off partial m (zrange s (1 + e)) <> Err.
Proof.
  intros Ho. induction n as [|n IH]; intros s e m Hn.
  - rewrite PCmap4.zrange_nil by lia. split; [|discriminate]. split; [discriminate|]. intros (c & X & _). lia.
  - rewrite PCmap4.zrange_cons by lia. cbn [seg_codes]. destruct (Z.eqb_spec off 0) as [|_]; [contradiction|].
    destruct ((s + partial <? 0) || (Z.of_nat (length arr) <=? s + partial)) eqn:Eb.
    + split; [|discriminate]. split; [discriminate|]. intros (c & X & Y & Z1 & _). lia.
    + assert (Step: forall m', ~ wide arr delta partial s ->
        (seg_codes arr delta off partial m' (zrange (s + 1) (1 + e)) = Panic <-> exists c, s <= c <= e /\ 0 <= s + partial /\ wide arr delta partial c) /\
        seg_codes arr delta off partial m' (zrange (s + 1) (1 + e)) <> Err).
      { intros m' Hw. destruct (IH (s + 1) e m' ltac:(lia)) as [I1 I2]. split; [|exact I2]. rewrite I1. split.
        - intros (c & X & Y & Z1). exists c. split; [lia|]. split; [lia|exact Z1].
        - intros (c & X & Y & Z1). exists c. split; [|split; [lia|exact Z1]]. destruct (Z.eq_dec c s) as [->|]; [contradiction|lia]. }
      destruct (Z.eqb_spec (nth (Z.to_nat (s + partial)) arr 0) 0) as [Ev|Ev].
      * apply Step. intros (_ & X & _). contradiction.
      * destruct (chk_i_cases (i16 (nth (Z.to_nat (s + partial)) arr 0) + delta)) as [(R & E)|(R & E)]; rewrite E; cbn [rbind].
        -- apply Step. intros (_ & _ & X). contradiction.
        -- split; [|discriminate]. split; [intros _|reflexivity]. exists s. split; [lia|]. split; [lia|]. split; [lia|]. auto.
Qed.
Lemma codes_zero arr delta partial : forall codes m, exists m', seg_codes arr delta 0 partial m codes = Ok m'.
Proof. induction codes as [|c codes IH]; intros m; cbn [seg_codes]; [eauto|]. change (0 =? 0) with true. cbv iota. apply IH. Qed.

Definition seg_wide (arr : list Z) (n : Z) (l : list (Z * Z * Z * Z)) (i : Z) (j : nat) : Prop :=
  exists s e delta o c, nth_error l j = Some (s, e, delta, o) /\ o <> 0 /\ s <= c <= e /\
    0 <= s + (o / 2 - s + (i + Z.of_nat j) - n) /\ wide arr delta (o / 2 - s + (i + Z.of_nat j) - n) c.
Definition open_to (l : list (Z * Z * Z * Z)) (j : nat) : Prop :=
  forall j' s e delta o, (j' <= j)%nat -> nth_error l j' = Some (s, e, delta, o) -> e <> 65535.
Lemma maps_panic arr n : forall l i m,
  seg_maps arr n i m l = Panic <-> exists j, (S j < length l)%nat /\ open_to l j /\ seg_wide arr n l i j.
Proof.
  induction l as [|[[[s e] dl] o] l IH]; intros i m.
  - split; [discriminate|]. intros (j & X & _). cbn in X. lia.
  - destruct l as [|x l].
    { split; [discriminate|]. intros (j & X & _). cbn in X. lia. }
    change (seg_maps arr n i m ((s, e, dl, o) :: x :: l)) with
      (if e =? 65535 then Ok m else m1 <- seg_codes arr dl o (o / 2 - s + i - n) m (zrange s (1 + e)) ;; seg_maps arr n (i + 1) m1 (x :: l)).
    destruct (Z.eqb_spec e 65535) as [->|He].
    { split; [discriminate|]. intros (j & _ & X & _). exfalso. exact (X 0%nat s 65535 dl o ltac:(lia) eq_refl eq_refl). }
    assert (Here: forall P : Prop, (seg_codes arr dl o (o / 2 - s + i - n) m (zrange s (1 + e)) = Panic -> P) -> seg_wide arr n ((s, e, dl, o) :: x :: l) i 0 -> P).
    { intros P H (s' & e' & dl' & o' & c & E & Ho & X & Y & W). cbn [nth_error] in E. injection E as <- <- <- <-. apply H.
      apply (codes_panic arr dl o _ Ho _ s e m eq_refl). exists c. replace (i + Z.of_nat 0) with i in * by lia. auto. }
    assert (Later: forall m1, seg_codes arr dl o (o / 2 - s + i - n) m (zrange s (1 + e)) = Ok m1 ->
      (seg_maps arr n (i + 1) m1 (x :: l) = Panic <-> exists j, (S j < length ((s, e, dl, o) :: x :: l))%nat /\ open_to ((s, e, dl, o) :: x :: l) j /\ seg_wide arr n ((s, e, dl, o) :: x :: l) i j)).
    { intros m1 E1. rewrite IH. split.
      - intros (j & L & O & (s' & e' & dl' & o' & c & E & Ho & X & Y & W)). exists (S j). cbn [List.length] in *. split; [lia|]. split.
        + intros [|j'] a b c' f Hj Hn; cbn [nth_error] in Hn; [injection Hn as <- <- <- <-; exact He|]. eapply (O j'); [lia|exact Hn].
        + exists s', e', dl', o', c. split; [exact E|]. split; [exact Ho|]. split; [exact X|].
          replace (i + Z.of_nat (S j)) with (i + 1 + Z.of_nat j) by lia. auto.
      - intros ([|j] & L & O & W).
        + exfalso. eapply Here; [|exact W]. congruence.
        + exists j. cbn [List.length] in *. split; [lia|]. split.
          * intros j' a b c f Hj Hn. apply (O (S j') a b c f); [lia|exact Hn].
          * destruct W as (s' & e' & dl' & o' & c & E & Ho & X & Y & W). exists s', e', dl', o', c. split; [exact E|]. split; [exact Ho|]. split; [exact X|].
            replace (i + Z.of_nat (S j)) with (i + 1 + Z.of_nat j) in * by lia. auto. }
    destruct (Z.eq_dec o 0) as [->|Ho].
    + destruct (codes_zero arr dl (0 / 2 - s + i - n) (zrange s (1 + e)) m) as [m1 E1]. rewrite E1. cbn [rbind]. now apply Later.
    + destruct (codes_panic arr dl o (o / 2 - s + i - n) Ho _ s e m eq_refl) as [P1 P2].
      destruct (seg_codes arr dl o (o / 2 - s + i - n) m (zrange s (1 + e))) as [m1| |] eqn:E1; cbn [rbind].
      * now apply Later.
      * now destruct P2.
      * split; [intros _|reflexivity]. destruct (proj1 P1 eq_refl) as (c & X & Y & W). exists 0%nat. cbn [List.length]. split; [lia|]. split.
        -- intros j' a b c' f Hj Hn. replace j' with 0%nat in Hn by lia. cbn [nth_error] in Hn. injection Hn as <- <- <- <-. exact He.
        -- exists s, e, dl, o, c. split; [reflexivity|]. split; [exact Ho|]. split; [exact X|]. replace (i + Z.of_nat 0) with i by lia. auto.
Qed.
Lemma combine_at {A B} : forall (a : list A) (b : list B) i x y,
  nth_error (combine a b) i = Some (x, y) <-> nth_error a i = Some x /\ nth_error b i = Some y.
Proof.
  induction a as [|u a IH]; intros [|v b] [|i] x y; cbn [combine nth_error]; try (split; [discriminate|intros [? ?]; discriminate]).
  - split; [intros [= -> ->]; auto|]. now intros [[= ->] [= ->]].
  - apply IH.
Qed.
Lemma u16_as_i16 d k v : u16_at d k v -> number_at I16 d k (i16 v).
Proof.
  intros (bs & S & (F & j & E) & R). cbn [in_range] in R. exists bs. split; [exact S|].
  assert (W: -32768 <= i16 v <= 32767 /\ exists q, v = i16 v + q * 65536).
  { unfold i16, wrap_i. change (2 ^ 16) with 65536. change (2 ^ (16 - 1)) with 32768. cbv zeta.
    rewrite (Z.mod_small v) by lia. destruct (_ <? _) eqn:El; split; try lia; [exists 0|exists 1]; lia. }
  destruct W as [W1 [q W2]]. split; [|exact W1]. split; [exact F|].
  assert (L: length bs = 2%nat) by exact (proj1 S). exists (j - q). rewrite L in *. change (256 ^ Z.of_nat 2) with 65536 in *. lia.
Qed.

Lemma words_at d st (B : Forall is_byte d) t n k : width t = 2%nat ->
  (exists l, length l = n /\ (forall i a, nth_error l i = Some a -> number_at t d (k + 2 * i)%nat a) /\
     (n = 0%nat \/ (k + 2 * n <= length d)%nat) /\ de_counted (de_prim t) n (mkrd d k st) = Ok (l, mkrd d (k + 2 * n) st)) \/
  ((0 < n)%nat /\ (length d < k + 2 * n)%nat /\ de_counted (de_prim t) n (mkrd d k st) = Err).
Proof. intros W. pose proof (items_at _ _ _ d st (item_prim t d st B) n k) as H. rewrite W in H. exact H. Qed.

Definition bad4 (d : list Z) (k : nat) (len : Z) (n : nat) : Prop :=
  n = 0%nat \/ ((k + 16 + 8 * n <= length d)%nat /\ (len < 16 + 8 * Z.of_nat n \/ cmap4_overflow d k n len)).
Lemma cmap4_tail d k st len lang x2 n : Forall is_byte d -> 0 <= len <= 65535 -> Z.of_nat n <= 32767 ->
  pbind (_ <-- pskip 6 ;; e <-- de_counted (de_prim U16) n ;; _ <-- pskip 2 ;; s <-- de_counted (de_prim U16) n ;;
    d <-- de_counted (de_prim I16) n ;; o <-- de_counted (de_prim U16) n ;;
    rem <-- plift (chk_u 64 (len - (16 + Z.of_nat n * 8))) ;;
    arr <-- or_default (de_counted (de_prim U16) (Z.to_nat (rem / 2))) ;;
    pret (mkC4 len lang (0, 0, 0) x2 e s d o arr))
    (fun t => m <-- plift (cmap4_mapping t) ;; pret (c4_language t, m)) (mkrd d (k + 8) st) = Panic <-> bad4 d k len n.
Proof.
  intros B Rl Rn.
  unfold pbind at 1 2. unfold pskip at 1, rd_skip at 1. cbn [rd_input rd_ptr rd_stack].
  replace (k + 8 + 6)%nat with (k + 14)%nat by lia. unfold pbind at 1.
  destruct (words_at d st B U16 n (k + 14) eq_refl) as [(es & Le & He & Fe & E)|(Hn & L & E)]; rewrite E; clear E.
  2: { split; [discriminate|]. intros [X|[X _]]; lia. }
  unfold pbind at 1. unfold pskip at 1, rd_skip at 1. cbn [rd_input rd_ptr rd_stack].
  replace (k + 14 + 2 * n + 2)%nat with (k + 16 + 2 * n)%nat by lia. unfold pbind at 1.
  destruct (words_at d st B U16 n (k + 16 + 2 * n) eq_refl) as [(ss & Ls & Hs & Fs & E)|(Hn & L & E)]; rewrite E; clear E.
  2: { split; [discriminate|]. intros [X|[X _]]; lia. }
  unfold pbind at 1. replace (k + 16 + 2 * n + 2 * n)%nat with (k + 16 + 4 * n)%nat by lia.
  destruct (words_at d st B I16 n (k + 16 + 4 * n) eq_refl) as [(ds & Ld & Hd & Fd & E)|(Hn & L & E)]; rewrite E; clear E.
  2: { split; [discriminate|]. intros [X|[X _]]; lia. }
  unfold pbind at 1. replace (k + 16 + 4 * n + 2 * n)%nat with (k + 16 + 6 * n)%nat by lia.
  destruct (words_at d st B U16 n (k + 16 + 6 * n) eq_refl) as [(os & Lo & Ho & Fo & E)|(Hn & L & E)]; rewrite E; clear E.
  2: { split; [discriminate|]. intros [X|[X _]]; lia. }
  replace (k + 16 + 6 * n + 2 * n)%nat with (k + 16 + 8 * n)%nat by lia.
  unfold pbind at 1. unfold plift at 1.
  destruct (chk_u_cases 64 (len - (16 + Z.of_nat n * 8))) as [(R & E)|(R & E)]; rewrite E; clear E.
  2: { split; [intros _|reflexivity]. change (2 ^ 64) with 18446744073709551616 in R. destruct n as [|n]; [now left|right]. split; [lia|]. left. lia. }
  assert (R0: 16 + 8 * Z.of_nat n <= len) by lia. clear R.
  set (A := Z.to_nat ((len - (16 + Z.of_nat n * 8)) / 2)).
  assert (HA: (len - (16 + 8 * Z.of_nat n)) / 2 = Z.of_nat A).
  { unfold A. rewrite Z2Nat.id; [do 2 f_equal; lia|]. apply Z.div_pos; lia. }
  assert (Arr: exists arr r', or_default (de_counted (de_prim U16) A) (mkrd d (k + 16 + 8 * n) st) = Ok (arr, r') /\
     (forall i a, nth_error arr i = Some a -> u16_at d (k + 16 + 8 * n + 2 * i) a) /\
     ((length arr = A /\ (A = 0%nat \/ (k + 16 + 8 * n + 2 * A <= length d)%nat)) \/ (arr = [] /\ (length d < k + 16 + 8 * n + 2 * A)%nat))).
  { unfold or_default. destruct (words_at d st B U16 A (k + 16 + 8 * n) eq_refl) as [(arr & La & Ha & Fa & E)|(Hn & L & E)]; rewrite E.
    - exists arr. eexists. split; [reflexivity|]. split; [exact Ha|]. left. auto.
    - exists []. eexists. split; [reflexivity|]. split; [intros [|i] a; discriminate|]. right. auto. }
  destruct Arr as (arr & r' & E & Ha & Farr). unfold pbind at 1. rewrite E. clear E. unfold pret at 1.
  unfold plift, pbind. cbn [c4_language].
  match goal with |- context [cmap4_mapping ?x] => set (t := x) end.
  transitivity (cmap4_mapping t = Panic); [destruct (cmap4_mapping t); unfold pret; split; congruence|].
  unfold cmap4_mapping, t. cbn [c4_start c4_array c4_offset]. clear t.
  destruct n as [|n'].
  { destruct ss; [|discriminate]. split; [intros _; now left|reflexivity]. }
  remember (S n') as n eqn:En.
  transitivity (seg_maps arr (Z.of_nat (length os)) 0 [] (combine (combine (combine ss es) ds) os) = Panic).
  { destruct ss as [|s0 ss]; [cbn in Ls; lia|]. reflexivity. }
  rewrite maps_panic. rewrite Lo, !combine_length, Ls, Le, Ld, Lo, !Nat.min_id.
  assert (At: forall j s e dl o, nth_error (combine (combine (combine ss es) ds) os) j = Some (s, e, dl, o) <->
     ((j < n)%nat /\ u16_at d (k + 16 + 2 * n + 2 * j) s /\ u16_at d (k + 14 + 2 * j) e /\ number_at I16 d (k + 16 + 4 * n + 2 * j) dl /\ u16_at d (k + 16 + 6 * n + 2 * j) o)).
  { intros j s e dl o. rewrite !combine_at. split.
    - intros (((X1 & X2) & X3) & X4). split; [rewrite <- Lo; apply nth_error_Some; congruence|].
      repeat split; [now apply Hs|now apply He|now apply Hd|now apply Ho].
    - intros (Hj & X1 & X2 & X3 & X4).
      destruct (nth_error ss j) as [a|] eqn:E1; [|apply nth_error_None in E1; lia].
      destruct (nth_error es j) as [b|] eqn:E2; [|apply nth_error_None in E2; lia].
      destruct (nth_error ds j) as [c|] eqn:E3; [|apply nth_error_None in E3; lia].
      destruct (nth_error os j) as [f|] eqn:E4; [|apply nth_error_None in E4; lia].
      apply Hs in E1. apply He in E2. apply Hd in E3. apply Ho in E4.
      rewrite (number_unique _ _ _ _ _ E1 X1), (number_unique _ _ _ _ _ E2 X2), (number_unique _ _ _ _ _ E3 X3), (number_unique _ _ _ _ _ E4 X4). auto. }
  unfold bad4, cmap4_overflow. cbv zeta. rewrite HA, Nat2Z.id. split.
  - intros (j & Hj & O & (s & e & dl & o & c & E & Hoz & Hc & X & (Y1 & Y2 & Y3))). right. split; [lia|]. right.
    apply At in E as (_ & X1 & X2 & X3 & X4).
    destruct Farr as [(La & Fa)|(-> & _)]; [|exfalso; cbn [List.length] in Y1; lia].
    destruct (nth_error arr (Z.to_nat (c + (o / 2 - s + (0 + Z.of_nat j) - Z.of_nat n)))) as [v|] eqn:Ev; [|apply nth_error_None in Ev; lia].
    pose proof (nth_error_nth _ _ 0 Ev) as Ev'. rewrite Ev' in Y2, Y3. apply Ha in Ev.
    exists j, c, s, e, dl, o, (i16 v). split; [lia|]. split.
    + intros j' Hj' Z1. destruct (nth_error (combine (combine (combine ss es) ds) os) j') as [[[[s' e'] dl'] o']|] eqn:E'.
      * apply (O _ _ _ _ _ Hj' E'). apply At in E' as (_ & _ & W & _). exact (number_unique _ _ _ _ _ W Z1).
      * apply nth_error_None in E'. rewrite !combine_length, Ls, Le, Ld, Lo, !Nat.min_id in E'. lia.
    + replace (c + o / 2 - s + Z.of_nat j - Z.of_nat n) with (c + (o / 2 - s + (0 + Z.of_nat j) - Z.of_nat n)) by lia.
      repeat (split; [first [assumption|lia]|]). split; [exact (u16_as_i16 _ _ _ Ev)|]. split; [|exact Y3].
      pose proof (u16_range _ _ _ Ev) as Rv. intros W. apply Y2. revert W. unfold i16, wrap_i. change (2 ^ 16) with 65536. change (2 ^ (16 - 1)) with 32768. cbv zeta.
      rewrite (Z.mod_small v) by lia. destruct (_ <? _) eqn:El; lia.
  - intros [X|[_ [X|X]]]; [lia|lia|]. destruct X as (j & c & s & e & dl & o & w & Hj & O & X2 & X1 & X3 & X4 & Hoz & Hc & Y0 & Y1 & Y2 & Y3 & Y4 & Y5).
    exists j. split; [lia|]. split.
    + intros j' s' e' dl' o' Hj' E' ->. apply At in E' as (_ & _ & W & _). exact (O j' Hj' W).
    + exists s, e, dl, o, c. split; [apply At; repeat split; assumption || lia|]. split; [exact Hoz|]. split; [exact Hc|]. split; [lia|].
      destruct Farr as [(La & Fa)|(_ & Fa)]; [|lia].
      replace (c + o / 2 - s + Z.of_nat j - Z.of_nat n) with (c + (o / 2 - s + (0 + Z.of_nat j) - Z.of_nat n)) in Y1, Y3 by lia.
      destruct (nth_error arr (Z.to_nat (c + (o / 2 - s + (0 + Z.of_nat j) - Z.of_nat n)))) as [v|] eqn:Ev; [|apply nth_error_None in Ev; lia].
      pose proof (nth_error_nth _ _ 0 Ev) as Ev'. apply Ha in Ev. rewrite (number_unique _ _ _ _ _ Y3 (u16_as_i16 _ _ _ Ev)) in Y4, Y5.
      split; [lia|]. rewrite Ev'. split; [|exact Y5]. intros ->. now apply Y4.
Qed.
Lemma cmap4_stops : stops cmap4_read cmap4_bad.
Proof.
  intros d k st B. unfold cmap4_read, cmap4_de. prims.
  assert (G: (length d < k + 8)%nat -> ~ cmap4_bad d k).
  { intros L (len & x2 & _ & X & _). apply number_fits in X. cbn [width] in X. lia. }
  destruct (prim_at U16 d k st B) as [(v1 & N1 & E1)|(L & E1)]; cbn [width] in *.
  2: { unfold pbind at 1 2. rewrite E1. split; [discriminate|]. intros X. apply G in X; [destruct X|lia]. }
  destruct (prim_at U16 d (k + 2) st B) as [(len & N2 & E2)|(L & E2)]; cbn [width] in *.
  2: { unfold pbind at 1 2 3. rewrite E1, E2. split; [discriminate|]. intros X. apply G in X; [destruct X|lia]. }
  destruct (prim_at U16 d (k + 2 + 2) st B) as [(lang & N3 & E3)|(L & E3)]; cbn [width] in *.
  2: { unfold pbind at 1 2 3 4. rewrite E1, E2, E3. split; [discriminate|]. intros X. apply G in X; [destruct X|lia]. }
  destruct (prim_at U16 d (k + 2 + 2 + 2) st B) as [(x2 & N4 & E4)|(L & E4)]; cbn [width] in *.
  2: { unfold pbind at 1 2 3 4 5. rewrite E1, E2, E3, E4. split; [discriminate|]. intros X. apply G in X; [destruct X|lia]. }
  pose proof (u16_range _ _ _ N2) as R2. pose proof (u16_range _ _ _ N4) as R4.
  transitivity (bad4 d k len (Z.to_nat (x2 / 2))).
  2: { unfold cmap4_bad, bad4. replace (k + 6)%nat with (k + 2 + 2 + 2)%nat by lia. split; [intros H; exists len, x2; auto|].
       intros (len' & x2' & X1 & X2 & H). rewrite (number_unique _ _ _ _ _ X1 N2), (number_unique _ _ _ _ _ X2 N4) in H. exact H. }
  rewrite <- (cmap4_tail d k st len lang x2 (Z.to_nat (x2 / 2)) B R2) by lia.
  replace (k + 8)%nat with (k + 2 + 2 + 2 + 2)%nat by lia.
  match goal with |- pbind (pbind _ (fun _ => pbind _ (fun len => pbind _ (fun lang => pbind _ (@?f len lang))))) ?g _ = _ <-> _ =>
    transitivity (pbind (f len lang x2) g (mkrd d (k + 2 + 2 + 2 + 2) st) = Panic) end; [|reflexivity].
  unfold pbind at 1 2 3 4 5. rewrite E1, E2, E3, E4. reflexivity.
Qed.

(** *** Format 14 *)
Lemma bind_panic {A B} (p : parser A) (f : A -> parser B) r : p r = Panic -> pbind p f r = Panic.
Proof. unfold pbind. now intros ->. Qed.
Lemma list_at {A} (p : parser A) R W d st : item_at W p R d st -> Forall is_byte d -> forall k,
  (list_there d W k /\ exists l k', de_counted32 p (mkrd d k st) = Ok (l, mkrd d k' st)) \/
  (~ list_there d W k /\ de_counted32 p (mkrd d k st) = Err).
Proof.
  intros H B k. unfold de_counted32, list_there. prims.
  destruct (prim_at U32 d k st B) as [(n & N & E)|(L & E)].
  2: { right. split; [|exact (bind_err _ _ _ E)]. intros (c & X & _). apply number_fits in X. lia. }
  rewrite (bind_at _ _ _ _ _ E). cbn [width]. pose proof (number_fits _ _ _ _ N) as Lf. cbn [width] in Lf.
  destruct (items_at W p R d st H (Z.to_nat n) (k + 4)%nat) as [(l & Hl & Hr & Hn & E2)|(Hn & L2 & E2)]; rewrite E2.
  - left. split; [|eauto]. exists n. split; [exact N|]. destruct Hn as [->|]; lia.
  - right. split; [|reflexivity]. intros (c & X & Y). rewrite (number_unique _ _ _ _ _ X N) in Y. lia.
Qed.
Lemma item_u24 d st : Forall is_byte d -> item_at 3 de_u24 (fun _ _ => True) d st.
Proof.
  intros B k. unfold de_u24. prims. pose proof (items_at _ _ _ d st (item_prim U8 d st B) 3 k) as H. cbn [width] in H.
  destruct H as [(l & Hl & _ & Hn & E)|(_ & L & E)].
  - rewrite (bind_at _ _ _ _ _ E). destruct l as [|a [|b [|c [|]]]]; try discriminate Hl. left. eexists. split; [exact I|]. split; [lia|]. reflexivity.
  - right. split; [lia|]. exact (bind_err _ _ _ E).
Qed.
Lemma item_after_u24 {A} (p : parser Z) W R d st (f : Z -> Z -> A) : Forall is_byte d -> item_at W p R d st ->
  item_at (3 + W) (pbind de_u24 (fun a => pbind p (fun b => pret (f a b)))) (fun _ _ => True) d st.
Proof.
  intros B H k. destruct (item_u24 d st B k) as [(a & _ & L & E)|(L & E)].
  2: { right. split; [lia|]. exact (bind_err _ _ _ E). }
  rewrite (bind_at _ _ _ _ _ E). destruct (H (k + 3)%nat) as [(b & _ & L2 & E2)|(L2 & E2)].
  - rewrite (bind_at _ _ _ _ _ E2). left. exists (f a b). split; [exact I|]. split; [lia|]. unfold pret. do 2 f_equal. f_equal. lia.
  - right. split; [lia|]. exact (bind_err _ _ _ E2).
Qed.
Lemma ref_cases {A} (p : parser A) W d k st q : Forall is_byte d ->
  (forall k', (list_there d W k' /\ exists l k'', p (mkrd d k' (k :: st)) = Ok (l, mkrd d k'' (k :: st))) \/
              (~ list_there d W k' /\ p (mkrd d k' (k :: st)) = Err)) ->
  (ref_ok d k q W /\ ~ too_far d q /\ exists x, de_off32 p (mkrd d q (k :: st)) = Ok (x, mkrd d (q + 4) (k :: st))) \/
  (too_far d q /\ ~ ref_ok d k q W /\ de_off32 p (mkrd d q (k :: st)) = Panic) \/
  (~ ref_ok d k q W /\ ~ too_far d q /\ de_off32 p (mkrd d q (k :: st)) = Err).
Proof.
  intros B H. unfold de_off32, de_offset, ref_ok, too_far. prims.
  destruct (prim_at U32 d q (k :: st) B) as [(o & N & E)|(L & E)].
  2: { right. right. split; [|split; [|exact (bind_err _ _ _ E)]]; intros (c & X & _); apply number_fits in X; lia. }
  rewrite (bind_at _ _ _ _ _ E). cbn [width]. pose proof (u32_range _ _ _ N) as Ro.
  assert (Far: (exists o', u32_at d q o' /\ 65535 < o') <-> 65535 < o).
  { split; [intros (o' & X & Y); now rewrite (number_unique _ _ _ _ _ X N) in Y|eauto]. }
  assert (Okr: (exists o', u32_at d q o' /\ (o' = 0 \/ (o' <= 65535 /\ list_there d W (k + Z.to_nat o')))) <-> (o = 0 \/ (o <= 65535 /\ list_there d W (k + Z.to_nat o)))).
  { split; [intros (o' & X & Y); now rewrite (number_unique _ _ _ _ _ X N) in Y|eauto]. }
  rewrite Far, Okr. clear Far Okr. destruct (Z.eqb_spec o 0) as [->|Ho].
  { left. split; [now left|]. split; [lia|]. eexists. reflexivity. }
  unfold try_u, unwrap. change (2 ^ 16) with 65536. destruct ((0 <=? o) && (o <? 65536)) eqn:Eb.
  2: { right. left. split; [lia|]. split; [lia|reflexivity]. }
  unfold follow_offset, top_of_table. cbn [rd_stack rd_input rbind]. destruct (Nat.ltb_spec (length d) (k + Z.to_nat o)) as [Hl|Hl].
  - right. right. split; [|split; [lia|reflexivity]]. intros [X|[_ (c & X & _)]]; [lia|]. apply number_fits in X. lia.
  - destruct (H (k + Z.to_nat o)%nat) as [(X & l & k'' & E2)|(X & E2)]; rewrite E2.
    + left. split; [right; split; [lia|exact X]|]. split; [lia|]. eexists. reflexivity.
    + right. right. split; [|split; [lia|reflexivity]]. intros [Y|[_ Y]]; [lia|contradiction].
Qed.
Lemma selector_cases d k st i : Forall is_byte d ->
  let q := (k + 10 + 11 * i)%nat in let r := mkrd d q (k :: st) in
  (selector_ok d k i /\ ~ selector_bad d k i /\ exists x, selector_de r = Ok (x, mkrd d (q + 11) (k :: st))) \/
  (selector_bad d k i /\ ~ selector_ok d k i /\ selector_de r = Panic) \/
  (~ selector_ok d k i /\ ~ selector_bad d k i /\ selector_de r = Err).
Proof.
  intros B q r. unfold selector_de, r, selector_ok, selector_bad.
  replace (k + 13 + 11 * i)%nat with (q + 3)%nat by (unfold q; lia). replace (k + 17 + 11 * i)%nat with (q + 3 + 4)%nat by (unfold q; lia).
  destruct (item_u24 d (k :: st) B q) as [(a & _ & L & E)|(L & E)].
  2: { rewrite (bind_err _ _ _ E). right. right. split; [|split; [|reflexivity]].
       - intros [(o & X & _) _]. apply number_fits in X. cbn [width] in X. lia.
       - intros [(o & X & _)|[(o & X & _) _]]; apply number_fits in X; cbn [width] in X; lia. }
  rewrite (bind_at _ _ _ _ _ E). clear E.
  assert (P1: forall k', (list_there d 4 k' /\ exists l k'', default_uvs_de (mkrd d k' (k :: st)) = Ok (l, mkrd d k'' (k :: st))) \/ (~ list_there d 4 k' /\ default_uvs_de (mkrd d k' (k :: st)) = Err)).
  { intros k'. apply (list_at _ (fun _ _ => True)); [|exact B]. exact (item_after_u24 de_u8 1 _ d _ pair B (item_prim U8 d _ B)). }
  assert (P2: forall k', (list_there d 5 k' /\ exists l k'', uvs_de (mkrd d k' (k :: st)) = Ok (l, mkrd d k'' (k :: st))) \/ (~ list_there d 5 k' /\ uvs_de (mkrd d k' (k :: st)) = Err)).
  { intros k'. apply (list_at _ (fun _ _ => True)); [|exact B]. exact (item_after_u24 de_u16 2 _ d _ pair B (item_prim U16 d _ B)). }
  destruct (ref_cases default_uvs_de 4 d k st (q + 3) B P1) as [(X & Y & x & E)|[(X & Y & E)|(X & Y & E)]].
  2: { rewrite (bind_panic _ _ _ E). right. left. split; [now left|]. split; [tauto|reflexivity]. }
  2: { rewrite (bind_err _ _ _ E). right. right. split; [tauto|]. split; [tauto|reflexivity]. }
  rewrite (bind_at _ _ _ _ _ E). clear E.
  destruct (ref_cases uvs_de 5 d k st (q + 3 + 4) B P2) as [(X' & Y' & x' & E)|[(X' & Y' & E)|(X' & Y' & E)]].
  - rewrite (bind_at _ _ _ _ _ E). left. split; [tauto|]. split; [tauto|]. eexists. unfold pret. do 2 f_equal. f_equal. lia.
  - rewrite (bind_panic _ _ _ E). right. left. split; [tauto|]. split; [tauto|reflexivity].
  - rewrite (bind_err _ _ _ E). right. right. split; [tauto|]. split; [tauto|reflexivity].
Qed.
Lemma selectors_cases d k st : Forall is_byte d -> forall n i,
  let r := mkrd d (k + 10 + 11 * i) (k :: st) in
  ((forall j, (i <= j < i + n)%nat -> selector_ok d k j /\ ~ selector_bad d k j) /\ exists x k', de_counted selector_de n r = Ok (x, mkrd d k' (k :: st))) \/
  ((exists j, (i <= j < i + n)%nat /\ (forall j', (i <= j' < j)%nat -> selector_ok d k j') /\ selector_bad d k j /\ ~ selector_ok d k j) /\ de_counted selector_de n r = Panic) \/
  ((exists j, (i <= j < i + n)%nat /\ (forall j', (i <= j' < j)%nat -> ~ selector_bad d k j') /\ ~ selector_ok d k j /\ ~ selector_bad d k j) /\ de_counted selector_de n r = Err).
Proof.
  intros B. induction n as [|n IH]; intros i; cbn [de_counted].
  - left. split; [lia|]. eexists. eexists. reflexivity.
  - cbv zeta. destruct (selector_cases d k st i B) as [(X & Y & x & E)|[(X & Y & E)|(X & Y & E)]].
    2: { right. left. split; [|unfold pbind at 1; now rewrite E]. exists i. split; [lia|]. split; [lia|auto]. }
    2: { right. right. split; [|unfold pbind at 1; now rewrite E]. exists i. split; [lia|]. split; [lia|auto]. }
    rewrite (bind_at _ _ _ _ _ E). replace (k + 10 + 11 * i + 11)%nat with (k + 10 + 11 * S i)%nat by lia.
    destruct (IH (S i)) as [(H & l & k' & E2)|[((j & Hj & H1 & H2) & E2)|((j & Hj & H1 & H2) & E2)]].
    + rewrite (bind_at _ _ _ _ _ E2). left. split; [|eexists; eexists; reflexivity]. intros j Hj.
      destruct (Nat.eq_dec j i) as [->|]; [auto|apply H; lia].
    + right. left. split; [|unfold pbind at 1; now rewrite E2]. exists j. split; [lia|]. split; [|exact H2]. intros j' Hj'.
      destruct (Nat.eq_dec j' i) as [->|]; [auto|apply H1; lia].
    + right. right. split; [|unfold pbind at 1; now rewrite E2]. exists j. split; [lia|]. split; [|exact H2]. intros j' Hj'.
      destruct (Nat.eq_dec j' i) as [->|]; [auto|apply H1; lia].
Qed.
(** [shaped p bad there]: [p] aborts for [bad] bytes only, and needs those
    [there]. *)
Definition shaped {A} (p : parser A) (bad there : list Z -> nat -> Prop) : Prop := forall d k st, Forall is_byte d ->
  (p (mkrd d k st) = Panic <-> bad d k) /\
  (there d k -> p (mkrd d k st) <> Err) /\
  (forall x r, p (mkrd d k st) = Ok (x, r) -> there d k /\ exists k', r = mkrd d k' st).
Lemma selector_clash d k i : selector_bad d k i -> selector_ok d k i -> False.
Proof.
  assert (C: forall q w, too_far d q -> ref_ok d k q w -> False).
  { intros q w (o & X & Y) (o' & X' & Y'). rewrite (number_unique _ _ _ _ _ X' X) in Y'. lia. }
  intros [X|[_ X]] [Y1 Y2]; eapply C; eassumption.
Qed.
Definition there14 (d : list Z) (k : nat) : Prop := exists n, u32_at d (k + 6) n /\ forall j, (j < Z.to_nat n)%nat -> selector_ok d k j.
Lemma cmap14_shaped : shaped cmap14_de cmap14_bad there14.
Proof.
  intros d k st B. unfold cmap14_de, with_base, rd_push. cbn [rd_input rd_ptr rd_stack]. unfold de_counted32. prims.
  assert (G: (length d < k + 10)%nat -> forall A (p : res A), p = Err -> (p = Panic <-> cmap14_bad d k) /\ (there14 d k -> p <> Err) /\ (forall x, p = Ok x -> False)).
  { intros L A p ->. split; [split; [discriminate|]|split; [|discriminate]].
    - intros (n & i & X & _). apply number_fits in X. cbn [width] in X. lia.
    - intros (n & X & _). apply number_fits in X. cbn [width] in X. lia. }
  destruct (prim_at U16 d k (k :: st) B) as [(v1 & N1 & E)|(L & E)]; cbn [width] in *.
  2: { rewrite (bind_err _ _ _ E). destruct (G ltac:(lia) _ (@Err (list (Z * option (list (Z * Z)) * option (list (Z * Z))) * rd)) eq_refl) as (X & Y & _). split; [exact X|]. split; [exact Y|discriminate]. }
  rewrite (bind_at _ _ _ _ _ E). clear E.
  destruct (prim_at U32 d (k + 2) (k :: st) B) as [(v2 & N2 & E)|(L & E)]; cbn [width] in *.
  2: { rewrite (bind_err _ _ _ E). destruct (G ltac:(lia) _ (@Err (list (Z * option (list (Z * Z)) * option (list (Z * Z))) * rd)) eq_refl) as (X & Y & _). split; [exact X|]. split; [exact Y|discriminate]. }
  rewrite (bind_at _ _ _ _ _ E). clear E. replace (k + 2 + 4)%nat with (k + 6)%nat by lia.
  destruct (prim_at U32 d (k + 6) (k :: st) B) as [(n & N & E)|(L & E)]; cbn [width] in *.
  2: { rewrite (bind_err _ _ _ E). destruct (G ltac:(lia) _ (@Err (list (Z * option (list (Z * Z)) * option (list (Z * Z))) * rd)) eq_refl) as (X & Y & _). split; [exact X|]. split; [exact Y|discriminate]. }
  rewrite (bind_at _ _ _ _ _ E). clear E. replace (k + 6 + 4)%nat with (k + 10 + 11 * 0)%nat by lia.
  assert (Eb: cmap14_bad d k <-> exists i, (i < Z.to_nat n)%nat /\ (forall j, (j < i)%nat -> selector_ok d k j) /\ selector_bad d k i).
  { split; [intros (n' & i & X & Y); rewrite (number_unique _ _ _ _ _ X N) in Y; eauto|]. intros (i & Y). exists n, i. auto. }
  assert (Et: there14 d k <-> forall j, (j < Z.to_nat n)%nat -> selector_ok d k j).
  { split; [intros (n' & X & Y); now rewrite (number_unique _ _ _ _ _ X N) in Y|]. intros Y. exists n. auto. }
  rewrite Eb, Et.
  destruct (selectors_cases d k st B (Z.to_nat n) 0) as [(H & l & k' & E2)|[((j & Hj & H1 & H2 & H3) & E2)|((j & Hj & H1 & H2 & H3) & E2)]]; rewrite E2.
  - unfold rd_pop. cbn [rd_stack rd_input rd_ptr]. split; [split; [discriminate|]|split; [intros _; discriminate|]].
    + intros (i & Hi & _ & X). destruct (H i ltac:(lia)) as [_ Y]. contradiction.
    + intros x r [= <- <-]. split; [apply Et; intros i Hi; apply H; lia|eauto].
  - split; [split; [intros _|reflexivity]|split; [intros _; discriminate|intros ? ?; discriminate]]. exists j. split; [lia|]. split; [|exact H2]. intros i Hi. apply H1. lia.
  - split; [split; [discriminate|]|split; [|intros ? ?; discriminate]].
    + intros (i & Hi & X & Y). exfalso. destruct (Nat.lt_trichotomy i j) as [C|[->|C]]; [apply (H1 i); [lia|exact Y]|contradiction|apply H2, X; exact C].
    + intros X. destruct H2. apply X. lia.
Qed.

(** *** The other formats *)
Definition there0 (d : list Z) (k : nat) : Prop := exists len, u16_at d (k + 2) len /\ (k + 6 + Z.to_nat (Z.max 256 (len - 6)) <= length d)%nat.
Lemma cmap0_shaped : shaped cmap0_de cmap0_bad there0.
Proof.
  intros d k st B. split; [exact (cmap0_stops d k st B)|]. unfold cmap0_de. prims.
  assert (G: (length d < k + 6)%nat -> ~ there0 d k) by (intros L (len & _ & X); lia).
  destruct (prim_at U16 d k st B) as [(v1 & N1 & E)|(L & E)]; cbn [width] in *.
  2: { rewrite (bind_err _ _ _ E). split; [intros X; apply G in X; [destruct X|lia]|intros ? ?; discriminate]. }
  rewrite (bind_at _ _ _ _ _ E). clear E.
  destruct (prim_at U16 d (k + 2) st B) as [(len & N2 & E)|(L & E)]; cbn [width] in *.
  2: { rewrite (bind_err _ _ _ E). split; [intros X; apply G in X; [destruct X|lia]|intros ? ?; discriminate]. }
  rewrite (bind_at _ _ _ _ _ E). clear E.
  destruct (prim_at U16 d (k + 2 + 2) st B) as [(v3 & N3 & E)|(L & E)]; cbn [width] in *.
  2: { rewrite (bind_err _ _ _ E). split; [intros X; apply G in X; [destruct X|lia]|intros ? ?; discriminate]. }
  rewrite (bind_at _ _ _ _ _ E). clear E G. pose proof (u16_range _ _ _ N2) as R2.
  assert (Et: there0 d k <-> (k + 6 + Z.to_nat (Z.max 256 (len - 6)) <= length d)%nat).
  { split; [intros (n' & X & Y); now rewrite (number_unique _ _ _ _ _ X N2) in Y|]. intros Y. exists len. auto. }
  destruct (chk_u_cases 16 (len - 6)) as [(R & E)|(R & E)].
  2: { rewrite bind_panic by (unfold plift; now rewrite E). split; [intros _; discriminate|intros ? ?; discriminate]. }
  rewrite (bind_at (plift (chk_u 16 (len - 6))) _ _ (len - 6) (mkrd d (k + 2 + 2 + 2) st)) by (unfold plift; now rewrite E).
  pose proof (items_at _ _ _ d st (item_prim U8 d st B) (Z.to_nat (Z.max 256 (len - 6))) (k + 2 + 2 + 2)) as H. cbn [width] in H.
  destruct H as [(l & _ & _ & Hn & E2)|(_ & L & E2)].
  - rewrite (bind_at _ _ _ _ _ E2). split; [intros _; discriminate|]. intros x r [= <- <-]. split; [apply Et; lia|eauto].
  - rewrite (bind_err _ _ _ E2). split; [intros X; apply Et in X; lia|intros ? ?; discriminate].
Qed.
Lemma groups_fine : forall gs m, (forall s e x, In (s, e, x) gs -> 0 <= s <= 4294967295 /\ 0 <= e <= 4294967295) -> groups_mapping m gs <> Err.
Proof.
  induction gs as [|[[s e] x] gs IH]; intros m H; cbn [groups_mapping fst snd]; [discriminate|].
  destruct (H s e x (or_introl eq_refl)) as [Hs He].
  destruct (chk_u_cases 32 (e - s)) as [(R & E)|(R & E)]; rewrite E; change (2 ^ 32) with 4294967296 in R; cbn [rbind]; [|discriminate].
  destruct (chk_u_cases 32 (1 + (e - s))) as [(R' & E')|(R' & E')]; rewrite E'; change (2 ^ 32) with 4294967296 in R'; cbn [rbind]; [|discriminate].
  destruct (items_panic (s, e, x) (Z.to_nat (1 + (e - s))) m 0) as [_ I2]; cbn [fst snd] in *; [lia|lia|lia|].
  rewrite Z2Nat.id in I2 by lia. change (0 + (1 + (e - s))) with (1 + (e - s)) in I2.
  destruct (group_items (s, e, x) m (zrange 0 (1 + (e - s)))) as [m1| |] eqn:Eg; cbn [rbind]; [|now destruct I2|discriminate].
  apply IH. intros; eapply H; right; eassumption.
Qed.
Lemma bind_assoc {A B C} (p : parser A) (f : A -> parser B) (g : B -> parser C) r :
  pbind (pbind p f) g r = pbind p (fun a => pbind (f a) g) r.
Proof. unfold pbind. destruct (p r) as [[a r']| |]; reflexivity. Qed.
Lemma bind_skip {A} n (f : unit -> parser A) d k st : pbind (pskip n) f (mkrd d k st) = f tt (mkrd d (k + n) st).
Proof. reflexivity. Qed.
Lemma bind_ret {A B} (a : A) (f : A -> parser B) r : pbind (pret a) f r = f a r.
Proof. reflexivity. Qed.
Ltac short G := split; [let X := fresh "X" in intros X; apply G in X; [destruct X|lia]|intros ? ?; discriminate].
Definition there12 (d : list Z) (k : nat) : Prop := exists n, u32_at d (k + 12) n /\ (k + 16 + 12 * Z.to_nat n <= length d)%nat.
Lemma cmap12_shaped : shaped cmap12_read cmap12_bad there12.
Proof.
  intros d k st B. split; [exact (cmap12_stops d k st B)|]. unfold cmap12_read, cmap12_de, de_counted32. prims.
  assert (G: (length d < k + 16)%nat -> ~ there12 d k) by (intros L (len & _ & X); lia).
  rewrite bind_assoc.
  destruct (prim_at U16 d k st B) as [(v1 & N1 & E)|(L & E)]; cbn [width] in *.
  2: { rewrite (bind_err _ _ _ E). short G. }
  rewrite (bind_at _ _ _ _ _ E), bind_assoc. clear E.
  destruct (prim_at U16 d (k + 2) st B) as [(v2 & N2 & E)|(L & E)]; cbn [width] in *.
  2: { rewrite (bind_err _ _ _ E). short G. }
  rewrite (bind_at _ _ _ _ _ E), bind_assoc. clear E.
  destruct (prim_at U32 d (k + 2 + 2) st B) as [(v3 & N3 & E)|(L & E)]; cbn [width] in *.
  2: { rewrite (bind_err _ _ _ E). short G. }
  rewrite (bind_at _ _ _ _ _ E), bind_assoc. clear E.
  destruct (prim_at U32 d (k + 2 + 2 + 4) st B) as [(v4 & N4 & E)|(L & E)]; cbn [width] in *.
  2: { rewrite (bind_err _ _ _ E). short G. }
  rewrite (bind_at _ _ _ _ _ E), bind_assoc, bind_assoc. clear E.
  replace (k + 2 + 2 + 4 + 4)%nat with (k + 12)%nat by lia.
  destruct (prim_at U32 d (k + 12) st B) as [(n & N & E)|(L & E)]; cbn [width] in *.
  2: { rewrite (bind_err _ _ _ E). short G. }
  rewrite (bind_at _ _ _ _ _ E). clear E G.
  pose proof (number_fits _ _ _ _ N) as Lf. cbn [width] in Lf.
  assert (Et: there12 d k <-> (k + 16 + 12 * Z.to_nat n <= length d)%nat).
  { split; [intros (n' & X & Y); now rewrite (number_unique _ _ _ _ _ X N) in Y|]. intros Y. exists n. auto. }
  destruct (items_at 12 _ _ d st (item_group d st B) (Z.to_nat n) (k + 12 + 4)%nat) as [(l & Hl & Hr & Hn & E)|(Hn & L2 & E)].
  2: { rewrite (bind_err _ _ _ E). split; [intros X; apply Et in X; lia|intros ? ?; discriminate]. }
  rewrite (bind_at _ _ _ _ _ E). clear E. unfold pret at 1 3, plift, pbind, cmap12_mapping. cbn [c12_groups c12_language].
  pose proof (groups_fine l []) as F. destruct (groups_mapping [] l) as [m| |] eqn:Em.
  - split; [intros _; discriminate|]. unfold pret. intros x r [= <- <-]. split; [apply Et; destruct Hn as [->|]; lia|eauto].
  - destruct F; [|reflexivity]. intros s e x Hx. apply In_nth_error in Hx as [i Hi]. apply Hr in Hi as (X & Y & _). split; eapply u32_range; eassumption.
  - split; [intros _; discriminate|intros ? ?; discriminate].
Qed.
Lemma seg_codes_fine arr dl o p : forall codes m, seg_codes arr dl o p m codes <> Err.
Proof.
  induction codes as [|c codes IH]; intros m; cbn [seg_codes]; [discriminate|].
  destruct (o =? 0); [apply IH|]. destruct (_ || _); [discriminate|]. destruct (_ =? 0); [apply IH|].
  destruct (chk_i_cases (i16 (nth (Z.to_nat (c + p)) arr 0) + dl)) as [(_ & E)|(_ & E)]; rewrite E; cbn [rbind]; [apply IH|discriminate].
Qed.
Lemma maps_fine arr n : forall l i m, seg_maps arr n i m l <> Err.
Proof.
  induction l as [|[[[s e] dl] o] l IH]; intros i m; [discriminate|]. destruct l as [|x l]; [discriminate|].
  change (seg_maps arr n i m ((s, e, dl, o) :: x :: l)) with
      (if e =? 65535 then Ok m else m1 <- seg_codes arr dl o (o / 2 - s + i - n) m (zrange s (1 + e)) ;; seg_maps arr n (i + 1) m1 (x :: l)).
  destruct (e =? 65535); [discriminate|].
  destruct (seg_codes arr dl o (o / 2 - s + i - n) m (zrange s (1 + e))) as [m1| |] eqn:E; cbn [rbind]; [apply IH|now apply seg_codes_fine in E|discriminate].
Qed.
Definition there4 (d : list Z) (k : nat) : Prop := exists x2, u16_at d (k + 6) x2 /\ (k + 16 + 8 * Z.to_nat (x2 / 2) <= length d)%nat.
Lemma mapping4_fine t : cmap4_mapping t <> Err.
Proof. unfold cmap4_mapping. destruct (c4_start t); [discriminate|]. apply maps_fine. Qed.
Lemma cmap4_shaped : shaped cmap4_read cmap4_bad there4.
Proof.
  intros d k st B. pose proof (cmap4_stops d k st B) as St. split; [exact St|]. unfold cmap4_read, cmap4_de in *. prims.
  assert (G: (length d < k + 16)%nat -> ~ there4 d k) by (intros L (len & _ & X); lia).
  rewrite bind_assoc in *.
  destruct (prim_at U16 d k st B) as [(v1 & N1 & E)|(L & E)]; cbn [width] in *.
  2: { rewrite (bind_err _ _ _ E). short G. }
  rewrite (bind_at _ _ _ _ _ E), bind_assoc in *. clear E.
  destruct (prim_at U16 d (k + 2) st B) as [(len & N2 & E)|(L & E)]; cbn [width] in *.
  2: { rewrite (bind_err _ _ _ E). short G. }
  rewrite (bind_at _ _ _ _ _ E), bind_assoc in *. clear E.
  destruct (prim_at U16 d (k + 2 + 2) st B) as [(v3 & N3 & E)|(L & E)]; cbn [width] in *.
  2: { rewrite (bind_err _ _ _ E). short G. }
  rewrite (bind_at _ _ _ _ _ E), bind_assoc in *. clear E.
  destruct (prim_at U16 d (k + 2 + 2 + 2) st B) as [(x2 & N4 & E)|(L & E)]; cbn [width] in *.
  2: { rewrite (bind_err _ _ _ E). short G. }
  rewrite (bind_at _ _ _ _ _ E) in *. clear E. cbv zeta in *.
  assert (Et: there4 d k <-> (k + 16 + 8 * Z.to_nat (x2 / 2) <= length d)%nat).
  { replace (k + 2 + 2 + 2)%nat with (k + 6)%nat in N4 by lia. split; [intros (n' & X & Y); now rewrite (number_unique _ _ _ _ _ X N4) in Y|]. intros Y. exists x2. auto. }
  assert (Bad: Z.to_nat (x2 / 2) = 0%nat -> cmap4_bad d k).
  { intros X. exists len, x2. replace (k + 6)%nat with (k + 2 + 2 + 2)%nat by lia. auto. }
  pose proof (u16_range _ _ _ N2) as R2. pose proof (u16_range _ _ _ N4) as R4.
  set (n := Z.to_nat (x2 / 2)) in *.
  rewrite bind_assoc in *. rewrite (bind_skip 6) in *. rewrite bind_assoc in *.
  destruct (words_at d st B U16 n (k + 2 + 2 + 2 + 2 + 6) eq_refl) as [(es & Le & He & Fe & E)|(Hn & L & E)].
  2: { rewrite (bind_err _ _ _ E). split; [intros X; apply Et in X; lia|intros ? ?; discriminate]. }
  rewrite (bind_at _ _ _ _ _ E), bind_assoc in *. clear E.
  rewrite (bind_skip 2) in *. rewrite bind_assoc in *.
  destruct (words_at d st B U16 n (k + 2 + 2 + 2 + 2 + 6 + 2 * n + 2) eq_refl) as [(ss & Ls & Hs & Fs & E)|(Hn & L & E)].
  2: { rewrite (bind_err _ _ _ E). split; [intros X; apply Et in X; lia|intros ? ?; discriminate]. }
  rewrite (bind_at _ _ _ _ _ E), bind_assoc in *. clear E.
  destruct (words_at d st B I16 n (k + 2 + 2 + 2 + 2 + 6 + 2 * n + 2 + 2 * n) eq_refl) as [(ds & Ld & Hd & Fd & E)|(Hn & L & E)].
  2: { rewrite (bind_err _ _ _ E). split; [intros X; apply Et in X; lia|intros ? ?; discriminate]. }
  rewrite (bind_at _ _ _ _ _ E), bind_assoc in *. clear E.
  destruct (words_at d st B U16 n (k + 2 + 2 + 2 + 2 + 6 + 2 * n + 2 + 2 * n + 2 * n) eq_refl) as [(os & Lo & Ho & Fo & E)|(Hn & L & E)].
  2: { rewrite (bind_err _ _ _ E). split; [intros X; apply Et in X; lia|intros ? ?; discriminate]. }
  rewrite (bind_at _ _ _ _ _ E), bind_assoc in *. clear E.
  destruct (chk_u_cases 64 (len - (16 + Z.of_nat n * 8))) as [(R & E)|(R & E)].
  2: { rewrite bind_panic by (unfold plift; now rewrite E). split; [intros _; discriminate|intros ? ?; discriminate]. }
  rewrite (bind_at (plift (chk_u 64 (len - (16 + Z.of_nat n * 8)))) _ _ (len - (16 + Z.of_nat n * 8)) (mkrd d (k + 2 + 2 + 2 + 2 + 6 + 2 * n + 2 + 2 * n + 2 * n + 2 * n) st)) in * by (unfold plift; now rewrite E).
  rewrite bind_assoc in *. clear E.
  assert (Arr: exists arr k', or_default (de_counted (de_prim U16) (Z.to_nat ((len - (16 + Z.of_nat n * 8)) / 2))) (mkrd d (k + 2 + 2 + 2 + 2 + 6 + 2 * n + 2 + 2 * n + 2 * n + 2 * n) st) = Ok (arr, mkrd d k' st)).
  { unfold or_default. match goal with |- context [de_counted _ ?m (mkrd _ ?q _)] => destruct (words_at d st B U16 m q eq_refl) as [(arr & _ & _ & _ & E)|(_ & _ & E)]; rewrite E; eauto end. }
  destruct Arr as (arr & k' & E). rewrite (bind_at _ _ _ _ _ E) in *. clear E.
  rewrite bind_ret in *.
  unfold plift, pbind in *.
  match goal with |- context [cmap4_mapping ?t] => pose proof (mapping4_fine t) as F; destruct (cmap4_mapping t) as [m| |] end.
  - split; [intros _; discriminate|]. unfold pret in *. intros x r [= <- <-]. split; [|eauto]. apply Et.
    destruct (Nat.eq_dec n 0) as [En|]; [|lia]. destruct St as [_ St]. specialize (St (Bad En)). discriminate.
  - now destruct F.
  - split; [intros _; discriminate|intros ? ?; discriminate].
Qed.

(** *** Subtables *)
Lemma two_bytes d k : Forall is_byte d -> (k + 2 <= length d)%nat ->
  exists a b, firstn 2 (skipn k d) = [a; b] /\ 0 <= a <= 255 /\ 0 <= b <= 255 /\ u16_at d k (a * 256 + b).
Proof.
  intros B L. pose proof (skipn_length k d) as Ls. assert (Fs: Forall is_byte (skipn k d)) by (rewrite <- (firstn_skipn k d) in B; now apply Forall_app in B).
  destruct (skipn k d) as [|a [|b l]] eqn:E; [cbn in Ls; lia|cbn in Ls; lia|]. exists a, b. split; [reflexivity|].
  inversion Fs as [|? ? Fa Fs2]. inversion Fs2 as [|? ? Fb _]. unfold is_byte in Fa, Fb. split; [lia|]. split; [lia|].
  exists [a; b]. split; [|split].
  - split; [reflexivity|]. split; [exact L|]. intros i Hi. cbn [width] in Hi.
    transitivity (nth_error (a :: b :: l) i); [destruct i as [|[|]]; [reflexivity|reflexivity|lia]|].
    rewrite <- E. rewrite <- (firstn_skipn k d) at 2. rewrite nth_error_app2 by (rewrite firstn_length; lia). f_equal. rewrite firstn_length. lia.
  - split; [apply Forall_cons; [unfold is_byte; lia|apply Forall_cons; [unfold is_byte; lia|constructor]]|]. exists 0. cbn [digits_value List.length]. change (256 ^ Z.of_nat 1) with 256. change (256 ^ Z.of_nat 0) with 1. lia.
  - cbn [in_range]. lia.
Qed.
Lemma shaped_map {A B} (p : parser A) (f : A -> B) bad there : shaped p bad there -> shaped (pbind p (fun x => pret (f x))) bad there.
Proof.
  intros H d k st B1. destruct (H d k st B1) as (H1 & H2 & H3). unfold pbind. destruct (p (mkrd d k st)) as [[a r]| |].
  - split; [rewrite <- H1; split; discriminate|]. split; [intros _; discriminate|]. unfold pret. intros x r' [= <- <-]. now apply (H3 a).
  - split; [rewrite <- H1; split; discriminate|]. split; [intros X; now apply H2 in X|intros ? ?; discriminate].
  - split; [rewrite <- H1; split; reflexivity|]. split; [intros _; discriminate|intros ? ?; discriminate].
Qed.
Lemma subtable_cases er d k st : Forall is_byte d -> let o := Z.to_nat (snd er) in
  (subtable_de er (mkrd d k (0%nat :: st)) = Panic <-> subtable_bad d o) /\
  (subtable_there d o -> subtable_de er (mkrd d k (0%nat :: st)) <> Err) /\
  (forall x r, subtable_de er (mkrd d k (0%nat :: st)) = Ok (x, r) -> subtable_there d o /\ exists k', r = mkrd d k' (0%nat :: st)).
Proof.
  intros B. destruct er as [[p e] off]. cbn [snd]. unfold subtable_de. cbv zeta.
  set (o := Z.to_nat off).
  rewrite (bind_at (seek off) _ (mkrd d k (0%nat :: st)) tt (mkrd d o (0%nat :: st)) eq_refl).
  assert (Ep: ppeek 2 (mkrd d o (0%nat :: st)) = if (length d <? o + 2)%nat then Err else Ok (firstn 2 (skipn o d), mkrd d o (0%nat :: st))) by reflexivity.
  assert (U: forall v v', u16_at d o v -> u16_at d o v' -> v = v') by (intros v v'; apply number_unique).
  destruct (Nat.ltb_spec (length d) (o + 2)) as [L|L].
  - assert (NU: forall v, ~ u16_at d o v) by (intros v X; apply number_fits in X; cbn [width] in X; lia).
    rewrite (bind_err _ _ _ Ep). split; [split; [discriminate|]|split; [|intros ? ?; discriminate]].
    + unfold subtable_bad. intros [[X _]|[[X _]|[[X _]|[X _]]]]; now apply NU in X.
    + unfold subtable_there. intros [[X _]|[[X _]|[[X _]|[X _]]]]; now apply NU in X.
  - destruct (two_bytes d o B L) as (a & b & E & Ra & Rb & N).
    assert (Sel: forall v bad there (q : parser subtable), a * 256 + b = v -> shaped q bad there ->
      (nat -> (subtable_bad d o <-> bad d o)) -> (subtable_there d o <-> there d o) ->
      (q (mkrd d o (0%nat :: st)) = Panic <-> subtable_bad d o) /\ (subtable_there d o -> q (mkrd d o (0%nat :: st)) <> Err) /\
      (forall x r, q (mkrd d o (0%nat :: st)) = Ok (x, r) -> subtable_there d o /\ exists k', r = mkrd d k' (0%nat :: st))).
    { intros v bad there q _ Sh Eb Et. destruct (Sh d o (0%nat :: st) B) as (S1 & S2 & S3). rewrite (Eb o). split; [exact S1|]. split; [intros X; apply S2, Et, X|].
      intros x r X. apply S3 in X as [X1 X2]. split; [now apply Et|exact X2]. }
    rewrite E in Ep. rewrite (bind_at _ _ _ _ _ Ep).
    assert (Pick: forall v, (a * 256 + b = v /\ u16_at d o v) \/ ~ u16_at d o v).
    { intros v. destruct (Z.eq_dec (a * 256 + b) v) as [<-|Ne]; [left; auto|right]. intros X. apply Ne. exact (U _ _ N X). }
    destruct (Pick 0) as [(E0 & N0)|N0].
    { assert (a = 0) by lia. assert (b = 0) by lia. subst a b. apply (Sel 0 cmap0_bad there0); [reflexivity|apply (shaped_map _ _ _ _ cmap0_shaped)| |].
      - intros _. unfold subtable_bad. split; [intros [X|[[X _]|[[X _]|[X _]]]]; [apply X|..]; discriminate (U _ _ X N0)|tauto].
      - unfold subtable_there. split; [intros [X|[[X _]|[[X _]|[X _]]]]; [apply X|..]; discriminate (U _ _ X N0)|unfold there0; tauto]. }
    destruct (Pick 4) as [(E4 & N4)|N4].
    { assert (a = 0) by lia. assert (b = 4) by lia. subst a b. apply (Sel 4 cmap4_bad there4); [reflexivity|apply (shaped_map _ _ _ _ cmap4_shaped)| |].
      - intros _. unfold subtable_bad. split; [intros [[X _]|[X|[[X _]|[X _]]]]; [|apply X|..]; discriminate (U _ _ X N4)|tauto].
      - unfold subtable_there. split; [intros [[X _]|[X|[[X _]|[X _]]]]; [|apply X|..]; discriminate (U _ _ X N4)|unfold there4; tauto]. }
    destruct (Pick 12) as [(E12 & N12)|N12].
    { assert (a = 0) by lia. assert (b = 12) by lia. subst a b. apply (Sel 12 cmap12_bad there12); [reflexivity|apply (shaped_map _ _ _ _ cmap12_shaped)| |].
      - intros _. unfold subtable_bad. split; [intros [[X _]|[[X _]|[X|[X _]]]]; [| |apply X|]; discriminate (U _ _ X N12)|tauto].
      - unfold subtable_there. split; [intros [[X _]|[[X _]|[X|[X _]]]]; [| |apply X|]; discriminate (U _ _ X N12)|unfold there12; tauto]. }
    destruct (Pick 14) as [(E14 & N14)|N14].
    { assert (a = 0) by lia. assert (b = 14) by lia. subst a b. apply (Sel 14 cmap14_bad there14); [reflexivity|apply (shaped_map _ _ _ _ cmap14_shaped)| |].
      - intros _. unfold subtable_bad. split; [intros [[X _]|[[X _]|[[X _]|X]]]; [| | |apply X]; discriminate (U _ _ X N14)|tauto].
      - unfold subtable_there. split; [intros [[X _]|[[X _]|[[X _]|X]]]; [| | |apply X]; discriminate (U _ _ X N14)|unfold there14; tauto]. }
    assert (Other: forall (A : Type) (x0 x4 x12 x14 y : A),
      match [a; b] with [0; 0] => x0 | [0; 4] => x4 | [0; 12] => x12 | [0; 14] => x14 | _ => y end = y).
    { intros A x0 x4 x12 x14 y. destruct a as [|a|a]; [|reflexivity|reflexivity].
      destruct b as [|b|b]; [exfalso; apply N0; exact N| |reflexivity].
      repeat (try reflexivity; destruct b as [b|b|]; try reflexivity);
        exfalso; first [apply N4; exact N|apply N12; exact N|apply N14; exact N]. }
    rewrite Other. split; [split; [discriminate|]|split; [|intros ? ?; discriminate]].
    + unfold subtable_bad. intros [[X _]|[[X _]|[[X _]|[X _]]]]; contradiction.
    + unfold subtable_there. intros [[X _]|[[X _]|[[X _]|[X _]]]]; contradiction.
Qed.

Lemma subtables_cases d st : Forall is_byte d -> forall ers k,
  subtables_de ers (mkrd d k (0%nat :: st)) = Panic <->
  exists i er, nth_error ers i = Some er /\ subtable_bad d (Z.to_nat (snd er)) /\
    forall j er', (j < i)%nat -> nth_error ers j = Some er' -> subtable_there d (Z.to_nat (snd er')) /\ ~ subtable_bad d (Z.to_nat (snd er')).
Proof.
  intros B. induction ers as [|er ers IH]; intros k; cbn [subtables_de].
  - split; [discriminate|]. intros ([|i] & er & X & _); discriminate X.
  - destruct (subtable_cases er d k st B) as (S1 & S2 & S3). unfold pbind at 1.
    destruct (subtable_de er (mkrd d k (0%nat :: st))) as [[x r]| |] eqn:E.
    + destruct (S3 x r eq_refl) as (Th & k' & ->). unfold pbind at 1.
      assert (Nb: ~ subtable_bad d (Z.to_nat (snd er))) by (intros X; apply S1 in X; discriminate).
      transitivity (subtables_de ers (mkrd d k' (0%nat :: st)) = Panic).
      { destruct (subtables_de ers (mkrd d k' (0%nat :: st))) as [[l r]| |]; unfold pret; split; congruence. }
      rewrite IH. split.
      * intros (i & er' & X & Y & W). exists (S i), er'. split; [exact X|]. split; [exact Y|]. intros [|j] er'' Hj Hn; cbn [nth_error] in Hn.
        -- injection Hn as <-. auto.
        -- apply (W j); [lia|exact Hn].
      * intros ([|i] & er' & X & Y & W); cbn [nth_error] in X; [injection X as <-; contradiction|]. exists i, er'. split; [exact X|]. split; [exact Y|].
        intros j er'' Hj Hn. apply (W (S j)); [lia|exact Hn].
    + split; [discriminate|]. intros ([|i] & er' & X & Y & W).
      * cbn [nth_error] in X. injection X as <-. apply S1 in Y. discriminate.
      * destruct (W 0%nat er ltac:(lia) eq_refl) as [Z1 _]. now apply S2 in Z1.
    + split; [intros _|reflexivity]. exists 0%nat, er. split; [reflexivity|]. split; [now apply S1|]. lia.
Qed.
Lemma item_record d st : Forall is_byte d -> item_at 8 record_de (fun k x => u32_at d (k + 4) (snd x)) d st.
Proof.
  intros B k. unfold record_de. prims.
  destruct (prim_at U16 d k st B) as [(a & N1 & E)|(L & E)]; [rewrite (bind_at _ _ _ _ _ E)|right; cbn [width] in *; split; [lia|exact (bind_err _ _ _ E)]].
  cbn [width] in *.
  destruct (prim_at U16 d (k + 2) st B) as [(b & N2 & E2)|(L & E2)]; [rewrite (bind_at _ _ _ _ _ E2)|right; cbn [width] in *; split; [lia|exact (bind_err _ _ _ E2)]].
  cbn [width] in *.
  destruct (prim_at U32 d (k + 2 + 2) st B) as [(c & N3 & E3)|(L & E3)]; [rewrite (bind_at _ _ _ _ _ E3)|right; cbn [width] in *; split; [lia|exact (bind_err _ _ _ E3)]].
  cbn [width] in *. left. exists (a, b, c). cbn [snd]. replace (k + 4)%nat with (k + 2 + 2)%nat by lia.
  split; [exact N3|]. apply number_fits in N3. cbn [width] in N3. split; [lia|]. unfold pret. do 2 f_equal. f_equal. lia.
Qed.
Lemma cmap_aborts d : Forall is_byte d -> (from_bytes cmap_de d = Panic <-> cmap_bad d).
Proof.
  intros B. unfold from_bytes.
  transitivity (cmap_de (rd_new d) = Panic); [destruct (cmap_de (rd_new d)) as [[? ?]| |]; split; congruence|].
  unfold cmap_de, with_base, rd_new, rd_push. cbn [rd_input rd_ptr rd_stack]. unfold de_counted16. prims.
  unfold pbind at 1. unfold rd_push. cbn [rd_input rd_ptr rd_stack].
  assert (G: (length d < 4)%nat -> ~ cmap_bad d) by (intros L (n & i & off & _ & X & _); lia).
  destruct (prim_at U16 d 0 [0%nat; 0%nat] B) as [(v1 & N1 & E)|(L & E)]; cbn [width] in *.
  2: { rewrite (bind_err _ _ _ E). split; [discriminate|]. intros X. apply G in X; [destruct X|lia]. }
  rewrite (bind_at _ _ _ _ _ E). clear E.
  destruct (prim_at U16 d (0 + 2) [0%nat; 0%nat] B) as [(n & N & E)|(L & E)]; cbn [width] in *.
  2: { rewrite (bind_err _ _ _ E). split; [discriminate|]. intros X. apply G in X; [destruct X|lia]. }
  rewrite (bind_at _ _ _ _ _ E). clear E. pose proof (number_fits _ _ _ _ N) as Lf. cbn [width] in Lf. change (0 + 2)%nat with 2%nat in *. change (2 + 2)%nat with 4%nat.
  destruct (items_at 8 _ _ d [0%nat; 0%nat] (item_record d _ B) (Z.to_nat n) 4%nat) as [(l & Hl & Hr & Hn & E)|(Hn & L & E)]; rewrite E.
  2: { split; [discriminate|]. intros (n' & i & off & X & Y & _). rewrite (number_unique _ _ _ _ _ X N) in Y. lia. }
  unfold rd_pop. cbn [rd_stack rd_input rd_ptr]. rewrite (subtables_cases d [] B). unfold cmap_bad. split.
  - intros (i & er & X & Y & W). exists n, i, (snd er). split; [exact N|].
    assert (Hi: (i < length l)%nat) by (apply nth_error_Some; intros X0; discriminate (eq_trans (eq_sym X0) X)).
    split; [destruct Hn as [->|]; lia|]. split; [lia|]. pose proof (Hr _ _ X) as Hx. replace (8 + 8 * i)%nat with (4 + 8 * i + 4)%nat by lia.
    split; [exact Hx|]. split; [exact Y|]. intros j o Hj Ho.
    destruct (nth_error l j) as [er'|] eqn:Ej; [|apply nth_error_None in Ej; lia].
    pose proof (Hr _ _ Ej) as Hx'. replace (8 + 8 * j)%nat with (4 + 8 * j + 4)%nat in Ho by lia.
    rewrite (number_unique _ _ _ _ _ Ho Hx'). exact (W j er' Hj Ej).
  - intros (n' & i & off & X & _ & Hi & Ho & Y & W). rewrite (number_unique _ _ _ _ _ X N) in Hi.
    destruct (nth_error l i) as [er|] eqn:Ei; [|apply nth_error_None in Ei; lia].
    pose proof (Hr _ _ Ei) as Hx. replace (8 + 8 * i)%nat with (4 + 8 * i + 4)%nat in Ho by lia.
    exists i, er. split; [exact Ei|]. split; [now rewrite <- (number_unique _ _ _ _ _ Ho Hx)|]. intros j er' Hj Ej.
    apply (W j); [exact Hj|]. pose proof (Hr _ _ Ej) as Hx'. now replace (8 + 8 * j)%nat with (4 + 8 * j + 4)%nat by lia.
Qed.

(** ** Through the table set *)
Lemma get_cmap {P : Type} (other : MName.charset -> MName.coder) (fragment : list Z -> further P -> list Z) (hash : cmapping -> Z) d s :
  Forall is_byte d ->
  (fst (ts_get (library other fragment hash) TAG_cmap (ts_insert_raw TAG_cmap d s)) = Panic <-> cmap_bad d).
Proof.
  intros B. rewrite get_raw by (apply self_by; reflexivity).
  change (des0 (library other fragment hash) TAG_cmap d) with (rmap (LOther TAG_cmap) (rmap (@KCmap (further P)) (from_bytes cmap_de d))).
  rewrite !rmap_panic. now apply cmap_aborts.
Qed.

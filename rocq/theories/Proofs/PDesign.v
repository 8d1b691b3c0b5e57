(** Designspace axis maps. *)
From Coq Require Import ZArith List Lia Bool QArith Qabs Qpower Lqa.
Import ListNotations.
From Verif.Model Require Import MBase MFixed MFloat MFloat32 MVarModel MAvar MDesign.
From Verif.Spec Require Import SBase SFloat SDesign.
From Verif.Proofs Require Import PBase PFixed PFloat PFloat32 PScalar PRound.
Open Scope Z_scope.
Ltac Zify.zify_post_hook ::= idtac.

(** ** Maps *)
Definition keys (m : imap) := map fst m.
Lemma get_in m k w : NoDup (keys m) -> imap_get k m = Some w <-> In (k, w) m.
Proof.
  unfold imap_get, keys. induction m as [|[k' w'] m IH]; cbn [find map fst]; intros N; inversion N as [|? ? N1 N2]; subst.
  - split; [discriminate|intros []].
  - destruct (Z.eqb_spec k' k) as [->|D]; cbn [option_map snd].
    + split; [intros [= <-]; now left|]. intros [[= <-]|I]; [reflexivity|]. exfalso. apply N1. apply in_map_iff. now exists (k, w).
    + rewrite IH by exact N2. split; [now right|]. intros [[= -> _]|I]; [congruence|exact I].
Qed.
Lemma get_none m k : imap_get k m = None <-> forall w, ~ In (k, w) m.
Proof.
  unfold imap_get. induction m as [|[k' w'] m IH]; cbn [find fst]; [split; [intros _ w []|reflexivity]|].
  destruct (Z.eqb_spec k' k) as [->|D]; cbn [option_map snd].
  - split; [discriminate|]. intros H. exfalso. apply (H w'). now left.
  - rewrite IH. split; intros H w I; [destruct I as [[= -> _]|I]; [congruence|now apply (H w)]|apply (H w); now right].
Qed.
Lemma insert_in k w m k' w' : In (k', w') (imap_insert k w m) <-> (k' = k /\ w' = w) \/ (k' <> k /\ In (k', w') m).
Proof.
  unfold imap_insert. cbn [In]. rewrite filter_In. cbn [fst].
  destruct (Z.eqb_spec k' k) as [->|D]; cbn [negb]; split.
  - intros [[= <-]|[_ H]]; [auto|discriminate].
  - intros [[_ ->]|[H _]]; [auto|congruence].
  - intros [[= -> _]|[I _]]; [congruence|auto].
  - intros [[-> _]|[_ I]]; [congruence|auto].
Qed.
Lemma insert_nodup k w m : NoDup (keys m) -> NoDup (keys (imap_insert k w m)).
Proof.
  intros N. unfold imap_insert, keys. cbn [map fst]. constructor.
  - rewrite in_map_iff. intros ([k' w'] & E & I). apply filter_In in I. cbn [fst] in *. subst k'. rewrite Z.eqb_refl in I. destruct I; discriminate.
  - unfold keys in N. clear w. induction m as [|[k' w'] m IH]; cbn [filter fst map]; [constructor|]. inversion N as [|? ? N1 N2]; subst.
    destruct (negb (k' =? k)); [|now apply IH]. cbn [map fst]. constructor; [|now apply IH].
    intros I. apply N1. apply in_map_iff in I. destruct I as (e & E & I). apply filter_In in I. apply in_map_iff. exists e. tauto.
Qed.

(** ** Extremes *)
Lemma fold_max l x : In (fold_left Z.max l x) (x :: l) /\ forall y, In y (x :: l) -> y <= fold_left Z.max l x.
Proof.
  revert x. induction l as [|a l IH]; intros x; cbn [fold_left].
  - split; [now left|]. intros y [->|[]]. lia.
  - destruct (IH (Z.max x a)) as [A B]. split.
    + destruct A as [A|A]; [|right; now right]. rewrite <- A. destruct (Z.max_dec x a) as [-> | ->]; [now left|right; now left].
    + intros y [->|[->|I]]; [pose proof (B (Z.max y a) (or_introl eq_refl)); lia|pose proof (B (Z.max x y) (or_introl eq_refl)); lia|apply B; now right].
Qed.
Lemma fold_min l x : In (fold_left Z.min l x) (x :: l) /\ forall y, In y (x :: l) -> fold_left Z.min l x <= y.
Proof.
  revert x. induction l as [|a l IH]; intros x; cbn [fold_left].
  - split; [now left|]. intros y [->|[]]. lia.
  - destruct (IH (Z.min x a)) as [A B]. split.
    + destruct A as [A|A]; [|right; now right]. rewrite <- A. destruct (Z.min_dec x a) as [-> | ->]; [now left|right; now left].
    + intros y [->|[->|I]]; [pose proof (B (Z.min y a) (or_introl eq_refl)); lia|pose proof (B (Z.min x y) (or_introl eq_refl)); lia|apply B; now right].
Qed.
Lemma zmax_is l a : In a l -> (forall y, In y l -> y <= a) -> zmax l = Some a.
Proof.
  intros I H. destruct l as [|x l]; [destruct I|]. unfold zmax. f_equal. destruct (fold_max l x) as [A B].
  pose proof (H _ A). pose proof (B _ I). lia.
Qed.
Lemma zmin_is l a : In a l -> (forall y, In y l -> a <= y) -> zmin l = Some a.
Proof.
  intros I H. destruct l as [|x l]; [destruct I|]. unfold zmin. f_equal. destruct (fold_min l x) as [A B].
  pose proof (H _ A). pose proof (B _ I). lia.
Qed.

(** ** The cases of the map *)
Definition nodes (m : imap) (k : Z) (w : dyadic) : Prop := In (k, w) m.
Lemma keys_in (m : imap) k : In k (map fst m) <-> exists w, In (k, w) m.
Proof. rewrite in_map_iff. split; [intros ([k' w] & <- & I); now exists w|intros (w & I); now exists (k, w)]. Qed.

Lemma line_node m v w : NoDup (keys m) -> nodes m v w -> line_map m v = Ok w.
Proof. intros N I. unfold line_map. now rewrite (proj2 (get_in m v w N) I). Qed.
Lemma line_empty v : line_map [] v = Ok (f32_of_int v).
Proof. reflexivity. Qed.
Lemma line_below m v a va : NoDup (keys m) -> lowest (nodes m) a va -> v < a ->
  line_map m v = Ok (f32_sub (f32_add (f32_of_int v) va) (f32_of_int a)).
Proof.
  intros N [I L] H. unfold line_map.
  rewrite (proj2 (get_none m v)). 2:{ intros w J. pose proof (L _ _ J). lia. }
  destruct m as [|e m]; [destruct I|]. set (m' := e :: m) in *.
  rewrite (zmin_is (map fst m') a). 2:{ apply keys_in. now exists va. } 2:{ intros y J. apply keys_in in J. destruct J as (w & J). now apply (L y w). }
  cbn [unwrap rbind]. replace (v <? a) with true by lia. rewrite (proj2 (get_in m' a va N) I). reflexivity.
Qed.
Lemma line_above m v a va : NoDup (keys m) -> highest (nodes m) a va -> a < v ->
  line_map m v = Ok (f32_sub (f32_add (f32_of_int v) va) (f32_of_int a)).
Proof.
  intros N [I L] H. unfold line_map.
  rewrite (proj2 (get_none m v)). 2:{ intros w J. pose proof (L _ _ J). lia. }
  destruct m as [|e m]; [destruct I|]. set (m' := e :: m) in *.
  assert (M: exists b, zmin (map fst m') = Some b /\ b <= a).
  { unfold m'. cbn [map zmin]. eexists. split; [reflexivity|]. apply fold_min. change (fst e :: map fst m) with (map fst m'). apply keys_in. now exists va. }
  destruct M as (b & Eb & Lb). rewrite Eb. cbn [unwrap rbind]. replace (v <? b) with false by lia.
  rewrite (zmax_is (map fst m') a). 2:{ apply keys_in. now exists va. } 2:{ intros y J. apply keys_in in J. destruct J as (w & J). now apply (L y w). }
  cbn [unwrap rbind]. replace (a <? v) with true by lia. rewrite (proj2 (get_in m' a va N) I). reflexivity.
Qed.
Definition between_value va vb d y : dyadic := f32_add va (f32_div (f32_mul (f32_sub vb va) (f32_of_int d)) (f32_of_int y)).
Lemma line_between m v a va b vb : NoDup (keys m) -> neighbours (nodes m) v a va b vb ->
  line_map m v = d <- chk_i 32 (v - a) ;; y <- chk_i 32 (b - a) ;; Ok (between_value va vb d y).
Proof.
  intros N (Ia & Ib & H & L). unfold line_map.
  rewrite (proj2 (get_none m v)). 2:{ intros w J. pose proof (L _ _ J). lia. }
  destruct m as [|e m]; [destruct Ia|]. set (m' := e :: m) in *.
  assert (Ka: In a (map fst m')) by (apply keys_in; now exists va).
  assert (Kb: In b (map fst m')) by (apply keys_in; now exists vb).
  assert (M: exists c, zmin (map fst m') = Some c /\ c <= a).
  { unfold m'. cbn [map zmin]. eexists. split; [reflexivity|]. apply fold_min. exact Ka. }
  destruct M as (c & Ec & Lc). rewrite Ec. cbn [unwrap rbind]. replace (v <? c) with false by lia.
  assert (M: exists c, zmax (map fst m') = Some c /\ b <= c).
  { unfold m'. cbn [map zmax]. eexists. split; [reflexivity|]. apply fold_max. exact Kb. }
  destruct M as (c' & Ec' & Lc'). rewrite Ec'. cbn [unwrap rbind]. replace (c' <? v) with false by lia.
  rewrite (zmax_is (filter (fun k => k <? v) (map fst m')) a).
  2:{ apply filter_In. split; [exact Ka|lia]. }
  2:{ intros y J. apply filter_In in J. destruct J as [J J2]. apply keys_in in J. destruct J as (w & J). pose proof (L _ _ J). lia. }
  cbn [unwrap rbind].
  rewrite (zmin_is (filter (fun k => v <? k) (map fst m')) b).
  2:{ apply filter_In. split; [exact Kb|lia]. }
  2:{ intros y J. apply filter_In in J. destruct J as [J J2]. apply keys_in in J. destruct J as (w & J). pose proof (L _ _ J). lia. }
  cbn [unwrap rbind]. rewrite (proj2 (get_in m' a va N) Ia), (proj2 (get_in m' b vb N) Ib). reflexivity.
Qed.

(** Every value is in one of the cases. *)
Lemma line_cases m v : m = [] \/ (exists w, nodes m v w) \/ (exists a va, lowest (nodes m) a va /\ v < a) \/
  (exists a va, highest (nodes m) a va /\ a < v) \/ (exists a va b vb, neighbours (nodes m) v a va b vb).
Proof.
  destruct m as [|e m]; [now left|right]. set (m' := e :: m).
  destruct (imap_get v m') as [w|] eqn:G.
  { left. unfold imap_get in G. destruct (find (fun e0 => fst e0 =? v) m') as [[k u]|] eqn:F; [|discriminate].
    apply find_some in F. cbn [fst] in F. exists u. unfold nodes. destruct F as [F E]. replace v with k by lia. exact F. }
  right. pose proof (proj1 (get_none m' v) G) as NV.
  assert (NE: map fst m' <> []) by discriminate.
  set (lo := filter (fun k => k <? v) (map fst m')). set (hi := filter (fun k => v <? k) (map fst m')).
  assert (all: forall k w, nodes m' k w -> In k lo \/ In k hi).
  { intros k w I. destruct (Z.lt_trichotomy k v) as [C|[C|C]].
    - left. apply filter_In. split; [apply keys_in; now exists w|lia].
    - subst k. exfalso. now apply (NV w).
    - right. apply filter_In. split; [apply keys_in; now exists w|lia]. }
  assert (back: forall k, In k (map fst m') -> exists w, nodes m' k w) by (intros k; apply keys_in).
  assert (L1: forall k, In k lo -> k < v /\ exists w, nodes m' k w).
  { intros k I. apply filter_In in I. split; [lia|]. now apply back. }
  assert (L2: forall k, In k hi -> v < k /\ exists w, nodes m' k w).
  { intros k I. apply filter_In in I. split; [lia|]. now apply back. }
  assert (X: lo = [] \/ exists a, In a lo /\ forall k, In k lo -> k <= a).
  { destruct lo as [|x l]; [now left|right]. exists (fold_left Z.max l x). apply fold_max. }
  assert (Y: hi = [] \/ exists b, In b hi /\ forall k, In k hi -> b <= k).
  { destruct hi as [|x l]; [now left|right]. exists (fold_left Z.min l x). apply fold_min. }
  destruct X as [X|(a & Ia & La)], Y as [Y|(b & Ib & Lb)].
  - exfalso. destruct (all (fst e) (snd e)) as [I|I]; [left; now destruct e|rewrite X in I; destruct I|rewrite Y in I; destruct I].
  - left. destruct (L2 b Ib) as (H & w & I). exists b, w. split; [|exact H]. split; [exact I|].
    intros k u J. destruct (all k u J) as [K|K]; [rewrite X in K; destruct K|now apply Lb].
  - right. left. destruct (L1 a Ia) as (H & w & I). exists a, w. split; [|exact H]. split; [exact I|].
    intros k u J. destruct (all k u J) as [K|K]; [now apply La|rewrite Y in K; destruct K].
  - right. right. destruct (L1 a Ia) as (H & w & I). destruct (L2 b Ib) as (H' & w' & I'). exists a, w, b, w'.
    split; [exact I|]. split; [exact I'|]. split; [lia|].
    intros k u J. destruct (all k u J) as [K|K]; [left; now apply La|right; now apply Lb].
Qed.

(** ** The nodes of an axis *)
Lemma cut_iff x z : cut x z <-> z = f_as_i32 x.
Proof.
  unfold cut, f_as_i32, sat. change (2 ^ (32 - 1)) with 2147483648. change (- (2147483648)) with (-2147483648). change (2147483648 - 1) with 2147483647.
  assert (T: forall t, ((0 <= val x -> inject_Z t <= val x < inject_Z (t + 1)) /\ (val x < 0 -> inject_Z (t - 1) < val x <= inject_Z t))%Q <-> t = dy_trunc x).
  { intros t. rewrite trunc_floor. destruct (Z.leb_spec 0 (mant x)) as [P|P].
    - assert (V: (0 <= val x)%Q) by now apply mant_sign. split.
      + intros [H _]. symmetry. destruct (H V). now apply floor_unique.
      + intros ->. destruct (floor_spec x). split; [auto|intros; lra].
    - assert (V: (val x < 0)%Q). { apply Qnot_le_lt. intros C. apply mant_sign in C. lia. }
      split.
      + intros [_ H]. destruct (H V) as [A B]. unfold Z.sub in A. rewrite inject_Z_plus in A. change (inject_Z (- (1))) with (- (1))%Q in A.
        rewrite <- (Z.opp_involutive t). f_equal. symmetry. apply floor_unique; rewrite val_neg, ?inject_Z_plus, inject_Z_opp; change (inject_Z 1) with 1%Q; lra.
      + intros ->. destruct (floor_spec (dy_neg x)) as [A B]. rewrite val_neg in A, B. rewrite inject_Z_plus in B. change (inject_Z 1) with 1%Q in B.
        split; [intros; lra|]. intros _. unfold Z.sub. rewrite inject_Z_plus, inject_Z_opp. change (inject_Z (- (1))) with (- (1))%Q. split; lra. }
  split.
  - intros (t & -> & H). apply T in H. subst t. reflexivity.
  - intros ->. exists (dy_trunc x). split; [reflexivity|]. now apply T.
Qed.

Lemma fold_insert (key value : dyadic * dyadic -> dyadic) es : forall m, NoDup (keys m) ->
  let m' := fold_left (fun m e => imap_insert (f_as_i32 (key e)) (value e) m) es m in
  NoDup (keys m') /\ forall k w, nodes m' k w <->
    last_entry es key value k w \/ (Forall (fun e => ~ cut (key e) k) es /\ nodes m k w).
Proof.
  induction es as [|e es IH]; intros m N; cbn [fold_left].
  - split; [exact N|]. intros k w. split; [right; auto|]. intros [(l & e & r & E & _)|[_ H]]; [destruct l; discriminate|exact H].
  - destruct (IH (imap_insert (f_as_i32 (key e)) (value e) m)) as [N' H]; [now apply insert_nodup|]. split; [exact N'|].
    intros k w. rewrite H. unfold nodes at 1. rewrite insert_in. split.
    + intros [(l & e' & r & -> & A & B & C)|[F [[-> ->]|[D I]]]].
      * left. exists (e :: l), e', r. auto.
      * left. exists [], e, es. split; [reflexivity|]. split; [now apply cut_iff|]. auto.
      * right. split; [|exact I]. constructor; [|exact F]. rewrite cut_iff. congruence.
    + intros [(l & e' & r & E & A & B & C)|[F I]].
      * destruct l as [|e0 l]; cbn [app] in E; injection E as -> ->.
        -- right. split; [exact C|]. left. split; [now apply cut_iff|exact B].
        -- left. exists l, e', r. auto.
      * inversion F as [|? ? F1 F2]; subst. right. split; [exact F2|]. right. split; [|exact I]. rewrite cut_iff in F1. congruence.
Qed.

Definition axis_imap (ax : axis) (key value : dyadic * dyadic -> dyadic) : imap :=
  match ax_map ax with
  | Some es => fold_left (fun m e => imap_insert (f_as_i32 (key e)) (value e) m) es []
  | None => plain_map ax
  end.
Lemma axis_nodes ax key value : NoDup (keys (axis_imap ax key value)) /\
  forall k w, nodes (axis_imap ax key value) k w <-> node ax key value k w.
Proof.
  unfold axis_imap, node. destruct (ax_map ax) as [es|].
  - destruct (fold_insert key value es []) as [N H]; [constructor|]. split; [exact N|]. intros k w. rewrite H.
    split; [intros [A|[_ []]]; exact A|now left].
  - unfold plain_map. split; [repeat apply insert_nodup; constructor|]. intros k w. unfold nodes, same_number.
    rewrite !insert_in. cbn [In]. split.
    + intros [[-> ->]|[_ [[-> ->]|[_ [[-> ->]|[_ []]]]]]]; auto.
    + intros [C ->]. destruct (Z.eq_dec k (ax_max ax)) as [->|D1]; [auto|]. right. split; [exact D1|].
      destruct (Z.eq_dec k (ax_default ax)) as [->|D2]; [auto|]. right. split; [exact D2|].
      left. split; [|f_equal]; destruct C as [-> | [-> | ->]]; congruence.
Qed.

(** ** Arithmetic *)
Open Scope Q_scope.
Lemma of_int_val z : (Z.abs z <= 16777216)%Z -> val (f32_of_int z) == inject_Z z.
Proof.
  intros H. unfold f32_of_int. rewrite rnd24_rndp, rndp_exact; [rewrite val_Dy; change (Qpower 2 0) with 1; ring|reflexivity|].
  apply rep_edge; [reflexivity|exact H].
Qed.
Lemma of_int_mono x y : (x <= y)%Z -> val (f32_of_int x) <= val (f32_of_int y).
Proof. intros H. unfold f32_of_int. apply rnd_mono. apply val_le_iff. exact H. Qed.

Lemma frac_close d y (D Y : Q) : 0 < d -> d <= y -> d * (1 - uu) <= D -> D <= d * (1 + uu) -> y * (1 - uu) <= Y -> Y <= y * (1 + uu) -> D <= Y ->
  0 <= D / Y <= 1 /\ Qabs (D / Y - d / y) <= 3 * uu.
Proof.
  intros Hd Hdy D1 D2 Y1 Y2 DY.
  assert (P1: 0 < d * (1 - uu)) by (apply Qmult_lt_0_compat; [assumption|reflexivity]).
  assert (P2: 0 < y * (1 - uu)) by (apply Qmult_lt_0_compat; [lra|reflexivity]).
  assert (PY: 0 < Y) by lra. assert (Py: 0 < y) by lra.
  assert (K: 0 <= D / Y <= 1). { split; [apply Qle_shift_div_l; lra|apply Qle_shift_div_r; lra]. }
  split; [exact K|].
  assert (Q: 0 <= d / y <= 1). { split; [apply Qle_shift_div_l; lra|apply Qle_shift_div_r; lra]. }
  set (k := D / Y) in *. set (q := d / y) in *.
  assert (EK: D == k * Y) by (unfold k; field; lra). assert (EQ: d == q * y) by (unfold q; field; lra).
  clearbody k q. rewrite EK in D1, D2. rewrite EQ in D1, D2.
  (* q y (1-u) <= k Y <= q y (1+u), Y ~ y *)
  assert (A1: k * Y <= k * (y * (1 + uu))) by (rewrite !(Qmult_comm k); apply Qmult_le_compat_r; [exact Y2|apply K]).
  assert (A2: k * (y * (1 - uu)) <= k * Y) by (rewrite !(Qmult_comm k); apply Qmult_le_compat_r; [exact Y1|apply K]).
  assert (B1: q * (1 - uu) <= k * (1 + uu)).
  { apply (Qmult_le_r _ _ y Py). lra. }
  assert (B2: k * (1 - uu) <= q * (1 + uu)).
  { apply (Qmult_le_r _ _ y Py). lra. }
  assert (U: uu == 1 # 16777216) by reflexivity. rewrite U in *.
  apply Qabs_Qle_condition. split; lra.
Qed.

Lemma between_accuracy va vb d y : (0 < d)%Z -> (d < y)%Z ->
  Qabs (val (between_value va vb d y) - (val va + (val vb - val va) * (inject_Z d / inject_Z y)))
  <= Qpower 2 (-20) * (Qabs (val va) + Qabs (val vb)).
Proof.
  intros Hd Hy. set (X := val vb - val va).
  assert (Pd: 0 < inject_Z d) by (rewrite <- (Zlt_Qlt 0); exact Hd).
  assert (Pdy: inject_Z d <= inject_Z y) by (rewrite <- Zle_Qle; lia).
  assert (VD: forall z, val (Dy z 0) == inject_Z z) by (intros; rewrite val_Dy; change (Qpower 2 0) with 1; ring).
  destruct (rnd_pos (Dy d 0)) as [D1 D2]; [rewrite VD; lra|]. destruct (rnd_pos (Dy y 0)) as [Y1 Y2]; [rewrite VD; lra|].
  rewrite VD in D1, D2, Y1, Y2.
  pose proof (of_int_mono d y ltac:(lia)) as DY. unfold f32_of_int in DY.
  destruct (frac_close _ _ _ _ Pd Pdy D1 D2 Y1 Y2 DY) as [K1 K2].
  fold (f32_of_int d) in *. fold (f32_of_int y) in *. set (D := val (f32_of_int d)) in *. set (Y := val (f32_of_int y)) in *.
  assert (PY: 0 < Y). { eapply Qlt_le_trans; [|exact Y1]. apply Qmult_lt_0_compat; [lra|reflexivity]. }
  assert (My: mant (f32_of_int y) <> 0%Z) by (apply mant_ne; fold Y; lra).
  (* x *)
  pose proof (rnd_rel (dy_sub vb va)) as EX. rewrite val_sub in EX. fold (f32_sub vb va) in EX. fold X in EX. set (x := val (f32_sub vb va)) in *.
  (* s *)
  pose proof (rnd_rel (dy_mul (f32_sub vb va) (f32_of_int d))) as ES. rewrite val_mul in ES. fold (f32_mul (f32_sub vb va) (f32_of_int d)) in ES.
  fold x D in ES. set (s := f32_mul (f32_sub vb va) (f32_of_int d)) in *.
  (* t *)
  pose proof (fdiv_rel 24 s (f32_of_int y) ltac:(reflexivity) My) as ET. rewrite <- f32_div_fdiv in ET. fold Y in ET.
  change (Qpower 2 (- (24))) with uu in ET. set (t := f32_div s (f32_of_int y)) in *.
  (* r *)
  pose proof (rnd_rel (dy_add va t)) as ER. rewrite val_add in ER. change (rnd24 (dy_add va t)) with (between_value va vb d y) in ER.
  set (r := val (between_value va vb d y)) in *.
  set (k := D / Y) in *. set (q := inject_Z d / inject_Z y) in *.
  (* everything relative to |X| *)
  set (N := Qabs X). assert (N0: 0 <= N) by apply Qabs_nonneg.
  assert (x_le: Qabs x <= N * (1 + uu)).
  { setoid_replace x with ((x - X) + X) by ring. eapply Qle_trans; [apply Qabs_triangle|]. unfold N in *. lra. }
  assert (S1: Qabs (val s / Y - x * k) <= Qabs x * uu).
  { assert (E: val s / Y - x * k == (val s - x * D) / Y) by (unfold k; field; lra). rewrite E.
    unfold Qdiv. rewrite Qabs_Qmult. rewrite (Qabs_pos (/ Y)) by (apply Qinv_le_0_compat; lra).
    apply Qle_shift_div_r; [exact PY|]. eapply Qle_trans; [exact ES|]. rewrite Qabs_Qmult.
    assert (AD: Qabs D == k * Y). { rewrite Qabs_pos; [unfold k; field; lra|]. assert (D == k * Y) by (unfold k; field; lra). rewrite H. apply Qmult_le_0_compat; lra. }
    rewrite AD. setoid_replace (Qabs x * (k * Y) * uu) with (k * (Qabs x * uu * Y)) by ring.
    setoid_replace (Qabs x * uu * Y) with (1 * (Qabs x * uu * Y)) at 2 by ring. apply Qmult_le_compat_r; [apply K1|].
    apply Qmult_le_0_compat; [|lra]. apply Qmult_le_0_compat; [apply Qabs_nonneg|discriminate]. }
  assert (S2: Qabs (x * k - X * q) <= N * uu + N * (3 * uu)).
  { setoid_replace (x * k - X * q) with ((x - X) * k + X * (k - q)) by ring. eapply Qle_trans; [apply Qabs_triangle|].
    rewrite !Qabs_Qmult. fold N. apply Qplus_le_compat.
    - rewrite (Qabs_pos k) by apply K1. apply Qle_trans with (Qabs (x - X) * 1).
      + rewrite !(Qmult_comm (Qabs (x - X))). apply Qmult_le_compat_r; [apply K1|apply Qabs_nonneg].
      + rewrite Qmult_1_r. exact EX.
    - rewrite !(Qmult_comm N). apply Qmult_le_compat_r; [exact K2|exact N0]. }
  assert (q1: Qabs (X * q) <= N).
  { rewrite Qabs_Qmult. fold N. setoid_replace N with (N * 1) at 2 by ring. rewrite !(Qmult_comm N). apply Qmult_le_compat_r; [|exact N0].
    assert (0 <= q <= 1). { unfold q. split; [apply Qle_shift_div_l; lra|apply Qle_shift_div_r; lra]. }
    rewrite Qabs_pos; lra. }
  assert (NX: N <= Qabs (val va) + Qabs (val vb)).
  { unfold N, X. setoid_replace (val vb - val va) with (val vb + - val va) by ring. eapply Qle_trans; [apply Qabs_triangle|]. rewrite Qabs_opp. lra. }
  clearbody N x k. set (sY := val s / Y) in *. set (T := val t) in *. set (XQ := X * q) in *.
  pose proof (Qabs_tri sY (x * k) XQ) as T1.
  assert (s_le: Qabs sY <= N + Qabs (sY - XQ)).
  { setoid_replace sY with ((sY - XQ) + XQ) at 1 by ring. eapply Qle_trans; [apply Qabs_triangle|]. lra. }
  pose proof (Qabs_tri T sY XQ) as T2.
  assert (t_le: Qabs (val va + T) <= Qabs (val va) + (N + Qabs (T - XQ))).
  { eapply Qle_trans; [apply Qabs_triangle|]. apply Qplus_le_compat; [apply Qle_refl|].
    setoid_replace T with ((T - XQ) + XQ) at 1 by ring. eapply Qle_trans; [apply Qabs_triangle|]. lra. }
  assert (T3: Qabs (r - (val va + XQ)) <= Qabs (r - (val va + T)) + Qabs (T - XQ)).
  { setoid_replace (r - (val va + XQ)) with ((r - (val va + T)) + (T - XQ)) by ring. apply Qabs_triangle. }
  change (Qpower 2 (-20)) with (1 # 1048576).
  pose proof (Qabs_nonneg (val va)). pose proof (Qabs_nonneg (val vb)). pose proof (Qabs_nonneg (T - XQ)). pose proof (Qabs_nonneg (sY - XQ)).
  pose proof (Qabs_nonneg sY).
  assert (U: uu == 1 # 16777216) by reflexivity. rewrite U in *.
  set (A := Qabs (val va)) in *. set (B := Qabs (val vb)) in *. set (e1 := Qabs (T - XQ)) in *. set (e2 := Qabs (sY - XQ)) in *.
  set (e3 := Qabs (T - sY)) in *. set (e4 := Qabs (sY - x * k)) in *. set (e5 := Qabs (x * k - XQ)) in *. set (e6 := Qabs x) in *. set (e7 := Qabs sY) in *.
  set (e8 := Qabs (r - (val va + T))) in *. set (e9 := Qabs (val va + T)) in *. set (e10 := Qabs (r - (val va + XQ))) in *.
  clearbody A B e1 e2 e3 e4 e5 e6 e7 e8 e9 e10.
  clear - x_le S1 S2 NX T1 s_le T2 t_le T3 ET ER N0 H H0 H1 H2 H3.
  assert (b4: e4 <= N * (2 # 16777216)) by lra.
  assert (b2: e2 <= N * (6 # 16777216)) by lra.
  assert (b7: e7 <= N * (2)) by lra.
  assert (b3: e3 <= N * (6 # 16777216)) by lra.
  assert (b1: e1 <= N * (12 # 16777216)) by lra.
  lra.
Qed.

(** *** Ordinary maps *)
Lemma ord_rep16 (z : Z) : (Z.abs z <= 16777216)%Z -> representable 24 (inject_Z z / 16).
Proof.
  intros H. apply (rep_ext _ (val (Dy z (-4)))); [rewrite val_Dy; change (Qpower 2 (-4)) with (1 # 16); field|]. now apply rep_edge.
Qed.
Lemma ord_sub va vb : ordinary_output va -> ordinary_output vb -> representable 24 (val vb - val va).
Proof.
  intros (n & N & E) (m & M & F). apply (rep_ext _ (inject_Z (m - n) / 16)).
  - rewrite E, F. unfold Zminus. rewrite inject_Z_plus, inject_Z_opp. field.
  - apply ord_rep16. lia.
Qed.
Lemma ord_out va : ordinary_output va -> representable 24 (val va).
Proof. intros (n & N & E). apply (rep_ext _ (inject_Z n / 16)); [now symmetry|]. apply ord_rep16. lia. Qed.

Section Between.
Variables (va vb : dyadic) (y : Z).
Hypothesis (Oa : ordinary_output va) (Ob : ordinary_output vb) (Y0 : (0 < y <= 524288)%Z) (Up : val va <= val vb).
Let x := val vb - val va.
Lemma bt_x : val (f32_sub vb va) == x.
Proof.
  unfold f32_sub. rewrite rnd24_rndp, rndp_exact; [apply val_sub|reflexivity|].
  apply (rep_ext _ x); [now rewrite val_sub|now apply ord_sub].
Qed.
Lemma bt_y : val (f32_of_int y) == inject_Z y. Proof. apply of_int_val. lia. Qed.
Lemma bt_my : mant (f32_of_int y) <> 0%Z.
Proof. apply mant_ne. rewrite bt_y. intros E. change 0 with (inject_Z 0) in E. apply (proj1 (inject_Z_injective y 0)) in E. lia. Qed.
Lemma bt_mono d d' : (0 <= d)%Z -> (d <= d')%Z -> (d' <= y)%Z -> val (between_value va vb d y) <= val (between_value va vb d' y).
Proof.
  intros H0 H H'. unfold between_value.
  change (f32_add va ?t) with (rnd24 (dy_add va t)). apply rnd_mono. rewrite !val_add. apply Qplus_le_compat; [apply Qle_refl|].
  rewrite !f32_div_fdiv. apply fdiv_mono; [reflexivity|apply bt_my|apply bt_my|]. rewrite bt_y. unfold Qdiv. apply Qmult_le_compat_r.
  - unfold f32_mul. apply rnd_mono. rewrite !val_mul, bt_x, !of_int_val by lia. rewrite !(Qmult_comm x). apply Qmult_le_compat_r; [now rewrite <- Zle_Qle|unfold x; lra].
  - apply Qinv_le_0_compat. rewrite <- (Zle_Qle 0). lia.
Qed.
Lemma bt_range d : (0 < d < y)%Z -> val va <= val (between_value va vb d y) <= val vb.
Proof.
  intros H. unfold between_value. change (f32_add va ?t) with (rnd24 (dy_add va t)). rewrite rnd24_rndp.
  set (s := f32_mul (f32_sub vb va) (f32_of_int d)).
  assert (X0: 0 <= x) by (unfold x; lra).
  assert (Pd: 0 < inject_Z d) by (rewrite <- (Zlt_Qlt 0); lia).
  assert (Py: 0 < inject_Z y) by (rewrite <- (Zlt_Qlt 0); lia).
  assert (P: 0 <= val (dy_mul (f32_sub vb va) (f32_of_int d))).
  { rewrite val_mul, bt_x, of_int_val by lia. apply Qmult_le_0_compat; lra. }
  destruct (rnd_pos _ P) as [S1 S2]. rewrite val_mul, bt_x, of_int_val in S1, S2 by lia.
  change (rnd24 (dy_mul (f32_sub vb va) (f32_of_int d))) with s in *.
  assert (S0: 0 <= val s). { eapply Qle_trans; [|exact S1]. apply Qmult_le_0_compat; [|discriminate]. apply Qmult_le_0_compat; lra. }
  assert (T0: 0 <= val (f32_div s (f32_of_int y))).
  { rewrite f32_div_fdiv. apply fdiv_ge; [reflexivity|apply bt_my|apply rep0|]. rewrite bt_y. apply Qle_shift_div_l; lra. }
  assert (T1: val (f32_div s (f32_of_int y)) <= x).
  { rewrite f32_div_fdiv. apply fdiv_le; [reflexivity|apply bt_my|now apply ord_sub|]. rewrite bt_y. apply Qle_shift_div_r; [exact Py|].
    eapply Qle_trans; [exact S2|]. rewrite <- Qmult_assoc, !(Qmult_comm x). apply Qmult_le_compat_r; [|exact X0].
    assert (B: inject_Z d <= inject_Z y - 1). { assert (d <= y - 1)%Z by lia. rewrite Zle_Qle in H0. unfold Zminus in H0. rewrite inject_Z_plus in H0. exact H0. }
    assert (C: inject_Z y <= 524288). { change 524288 with (inject_Z 524288). rewrite <- Zle_Qle. lia. }
    assert (U: uu == 1 # 16777216) by reflexivity. rewrite U. lra. }
  split; [apply rndp_ge|apply rndp_le]; try reflexivity; try (now apply ord_out); rewrite val_add; unfold x in *; lra.
Qed.
End Between.

Lemma shift_value v a va : ordinary_position v -> ordinary_position a -> ordinary_output va ->
  val (f32_sub (f32_add (f32_of_int v) va) (f32_of_int a)) == val va + inject_Z (v - a).
Proof.
  intros V A (n & N & E). unfold ordinary_position in *.
  assert (E1: val (f32_add (f32_of_int v) va) == inject_Z v + val va).
  { change (f32_add (f32_of_int v) va) with (rnd24 (dy_add (f32_of_int v) va)).
    rewrite rnd24_rndp, rndp_exact; [now rewrite val_add, of_int_val by lia|reflexivity|].
    apply (rep_ext _ (inject_Z (v * 16 + n) / 16)); [rewrite val_add, of_int_val, E, inject_Z_plus, inject_Z_mult by lia; field|]. apply ord_rep16. lia. }
  unfold f32_sub. rewrite rnd24_rndp, rndp_exact.
  - rewrite val_sub, E1, of_int_val by lia. unfold Zminus. rewrite inject_Z_plus, inject_Z_opp. ring.
  - reflexivity.
  - apply (rep_ext _ (inject_Z (v * 16 + n - a * 16) / 16)); [|apply ord_rep16; lia].
    rewrite val_sub, E1, of_int_val, E by lia. unfold Zminus. rewrite !inject_Z_plus, inject_Z_opp, !inject_Z_mult. field.
Qed.

Lemma chk_i32 z : is_i32 z -> chk_i 32 z = Ok z.
Proof. unfold is_i32, chk_i. intros H. change (2 ^ (32 - 1))%Z with 2147483648%Z. match goal with |- (if ?c then _ else _) = _ => replace c with true by lia end. reflexivity. Qed.

(** The value is bounded by the nodes around it. *)
Lemma line_bounds m v : NoDup (keys m) -> m <> [] -> ordinary (nodes m) -> rising (nodes m) -> ordinary_position v ->
  exists r, line_map m v = Ok r /\ forall k w, nodes m k w -> ((k <= v)%Z -> val w <= val r) /\ ((v <= k)%Z -> val r <= val w).
Proof.
  intros N NE O R V. destruct (line_cases m v) as [E|[(w & I)|[(a & va & L & H)|[(a & va & L & H)|(a & va & b & vb & L)]]]].
  - congruence.
  - exists w. split; [now apply line_node|]. intros k u J.
    destruct (Z.eq_dec k v) as [->|D].
    + assert (u = w). { apply (get_in m) in J; [|exact N]. apply (get_in m) in I; [|exact N]. congruence. } subst u. split; intros; apply Qle_refl.
    + split; intros C; [apply (R k u v w)|apply (R v w k u)]; auto; lia.
  - destruct L as [I L]. eexists. split; [apply (line_below m v a va N (conj I L) H)|]. destruct (O a va I) as [O1 O2].
    intros k u J. pose proof (L _ _ J) as Lk. split; [lia|]. intros _. rewrite shift_value by auto.
    assert (val va <= val u). { destruct (Z.eq_dec a k) as [->|D]; [|apply (R a va k u); auto; lia].
      assert (u = va). { apply (get_in m) in J; [|exact N]. apply (get_in m) in I; [|exact N]. congruence. } subst. apply Qle_refl. }
    assert (inject_Z (v - a) <= 0) by (change 0 with (inject_Z 0); rewrite <- Zle_Qle; lia). lra.
  - destruct L as [I L]. eexists. split; [apply (line_above m v a va N (conj I L) H)|]. destruct (O a va I) as [O1 O2].
    intros k u J. pose proof (L _ _ J) as Lk. split; [|lia]. intros _. rewrite shift_value by auto.
    assert (val u <= val va). { destruct (Z.eq_dec a k) as [->|D]; [|apply (R k u a va); auto; lia].
      assert (u = va). { apply (get_in m) in J; [|exact N]. apply (get_in m) in I; [|exact N]. congruence. } subst. apply Qle_refl. }
    assert (0 <= inject_Z (v - a)) by (change 0 with (inject_Z 0); rewrite <- Zle_Qle; lia). lra.
  - pose proof (line_between m v a va b vb N L) as E. destruct L as (Ia & Ib & H & L).
    destruct (O a va Ia) as [Pa Oa]. destruct (O b vb Ib) as [Pb Ob]. unfold ordinary_position in *.
    rewrite !chk_i32 in E by (unfold is_i32; lia). cbn [rbind] in E. eexists. split; [exact E|].
    pose proof (R a va b vb Ia Ib ltac:(lia)) as Up.
    pose proof (bt_range va vb (b - a) Oa Ob ltac:(lia) Up (v - a) ltac:(lia)) as B.
    intros k u J. assert (same: forall k w w', nodes m k w -> nodes m k w' -> w = w').
    { intros k0 w w' I I'. apply (get_in m) in I; [|exact N]. apply (get_in m) in I'; [|exact N]. congruence. }
    destruct (L _ _ J) as [C|C].
    + split; [|lia]. intros _. destruct (Z.eq_dec k a) as [->|D]; [rewrite (same a u va J Ia); lra|].
      pose proof (R k u a va J Ia ltac:(lia)). lra.
    + split; [lia|]. intros _. destruct (Z.eq_dec k b) as [->|D]; [rewrite (same b u vb J Ib); lra|].
      pose proof (R b vb k u Ib J ltac:(lia)). lra.
Qed.

Lemma line_mono m v v' r r' : NoDup (keys m) -> ordinary (nodes m) -> rising (nodes m) -> ordinary_position v -> ordinary_position v' ->
  (v <= v')%Z -> line_map m v = Ok r -> line_map m v' = Ok r' -> val r <= val r'.
Proof.
  intros N O R V V' H E E'.
  destruct (Z.eq_dec v v') as [<-|D]; [rewrite E in E'; apply Ok_inj in E'; subst; apply Qle_refl|].
  assert (NE: m = [] \/ m <> []) by (destruct m; [now left|right; discriminate]).
  destruct NE as [->|NE].
  { rewrite line_empty in E, E'. apply Ok_inj in E. apply Ok_inj in E'. subst r r'. now apply of_int_mono. }
  destruct (line_bounds m v N NE O R V) as (x & X & B). rewrite E in X. apply Ok_inj in X. subst x.
  destruct (line_bounds m v' N NE O R V') as (x & X & B'). rewrite E' in X. apply Ok_inj in X. subst x.
  assert (mid: forall k w, nodes m k w -> (v <= k <= v')%Z -> val r <= val r').
  { intros k w I C. destruct (B k w I) as [_ B1]. destruct (B' k w I) as [B2 _]. specialize (B1 ltac:(lia)). specialize (B2 ltac:(lia)). lra. }
  destruct (line_cases m v) as [C|[(w & I)|[(a & va & L & C)|[(a & va & L & C)|(a & va & b & vb & L)]]]].
  - congruence.
  - apply (mid v w I). lia.
  - destruct (Z.lt_ge_cases v' a) as [C'|C']; [|apply (mid a va (proj1 L)); lia].
    rewrite (line_below m v a va N L C) in E. rewrite (line_below m v' a va N L C') in E'. apply Ok_inj in E. apply Ok_inj in E'. subst r r'.
    destruct (O a va (proj1 L)). rewrite !shift_value by auto.
    assert (inject_Z (v - a) <= inject_Z (v' - a)) by (rewrite <- Zle_Qle; lia). lra.
  - rewrite (line_above m v a va N L C) in E. rewrite (line_above m v' a va N L ltac:(lia)) in E'. apply Ok_inj in E. apply Ok_inj in E'. subst r r'.
    destruct (O a va (proj1 L)). rewrite !shift_value by auto.
    assert (inject_Z (v - a) <= inject_Z (v' - a)) by (rewrite <- Zle_Qle; lia). lra.
  - pose proof L as (Ia & Ib & C & L'). destruct (Z.lt_ge_cases v' b) as [C'|C']; [|apply (mid b vb Ib); lia].
    assert (L2: neighbours (nodes m) v' a va b vb) by (split; [exact Ia|split; [exact Ib|split; [lia|exact L']]]).
    rewrite (line_between m v a va b vb N L) in E. rewrite (line_between m v' a va b vb N L2) in E'.
    destruct (O a va Ia) as [Pa Oa]. destruct (O b vb Ib) as [Pb Ob]. unfold ordinary_position in *.
    rewrite !chk_i32 in E by (unfold is_i32; lia). rewrite !chk_i32 in E' by (unfold is_i32; lia). cbn [rbind] in E, E'.
    apply Ok_inj in E. apply Ok_inj in E'. subst r r'.
    pose proof (R a va b vb Ia Ib ltac:(lia)) as Up. apply bt_mono; auto; lia.
Qed.

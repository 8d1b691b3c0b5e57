(** C53: axis maps of a designspace. *)
From Coq Require Import List ZArith QArith Qabs Sorted Lqa Lia.
Import ListNotations.
From Verif.Model Require Import MBase MFixed MFloat MFloat32 MVarModel MAvar MDesign.
From Verif.Spec Require Import SBase SFloat SAvar SDesign.
From Verif.Proofs Require Import PBase PFloat PAvar PDesign PNormal.
Open Scope Q_scope.

Lemma conversion_map ax f P : conversion ax f P -> exists m, (forall v, f v = line_map m v) /\ NoDup (keys m) /\ forall k w, nodes m k w <-> P k w.
Proof.
  intros [[-> ->]|[-> ->]].
  - exists (axis_imap ax fst snd). split; [reflexivity|apply axis_nodes].
  - exists (axis_imap ax snd fst). split; [reflexivity|apply axis_nodes].
Qed.
Lemma near_nodes m (P : Z -> dyadic -> Prop) : (forall k w, nodes m k w <-> P k w) ->
  (forall v a va b vb, neighbours (nodes m) v a va b vb <-> neighbours P v a va b vb) /\
  (forall a va, lowest (nodes m) a va <-> lowest P a va) /\ (forall a va, highest (nodes m) a va <-> highest P a va) /\
  (ordinary (nodes m) <-> ordinary P) /\ (rising (nodes m) <-> rising P).
Proof.
  intros E.
  assert (E': forall A B : Z -> dyadic -> Prop, (forall k w, A k w <-> B k w) ->
    (forall v a va b vb, neighbours A v a va b vb -> neighbours B v a va b vb) /\ (forall a va, lowest A a va -> lowest B a va) /\
    (forall a va, highest A a va -> highest B a va) /\ (ordinary A -> ordinary B) /\ (rising A -> rising B)).
  { intros A B H. unfold neighbours, lowest, highest, ordinary, rising.
    split; [|split; [|split; [|split]]].
    - intros v a va b vb (X & Y & Z & W). split; [now apply H|]. split; [now apply H|]. split; [exact Z|]. intros k w K. apply (W k w). now apply H.
    - intros a va (X & Y). split; [now apply H|]. intros k w K. apply (Y k w). now apply H.
    - intros a va (X & Y). split; [now apply H|]. intros k w K. apply (Y k w). now apply H.
    - intros X k w K. apply X. now apply H.
    - intros X k w k' w' K K'. apply X; now apply H. }
  destruct (E' _ _ E) as (A1 & A2 & A3 & A4 & A5). destruct (E' P (nodes m)) as (B1 & B2 & B3 & B4 & B5); [intros k w; symmetry; apply E|].
  split; [intros; split; auto|]. split; [intros; split; auto|]. split; [intros; split; auto|]. split; split; auto.
Qed.

(** Both conversions hit the nodes. *)
Theorem C53_node ax f P k w : conversion ax f P -> P k w -> f k = Ok w.
Proof.
  intros C K. destruct (conversion_map _ _ _ C) as (m & E & N & I). rewrite E. apply line_node; [exact N|now apply I].
Qed.
Print Assumptions C53_node.

(** Without nodes they change nothing. *)
Theorem C53_no_nodes ax f P v : conversion ax f P -> (forall k w, ~ P k w) -> f v = Ok (f32_of_int v).
Proof.
  intros C H. destruct (conversion_map _ _ _ C) as (m & E & N & I). rewrite E.
  destruct m as [|[k w] m]; [reflexivity|]. exfalso. apply (H k w). apply I. now left.
Qed.
Print Assumptions C53_no_nodes.

(** Beyond the ends they shift by the offset of the end node. *)
Theorem C53_outside ax f P v a va : conversion ax f P -> ordinary_position v -> ordinary_position a -> ordinary_output va ->
  (lowest P a va /\ (v < a)%Z) \/ (highest P a va /\ (a < v)%Z) ->
  exists r, f v = Ok r /\ val r == val va + inject_Z (v - a).
Proof.
  intros C V A O H. destruct (conversion_map _ _ _ C) as (m & E & N & I). destruct (near_nodes m P I) as (_ & LW & HG & _).
  eexists. split; [|apply (shift_value v a va V A O)]. rewrite E. destruct H as [[L H]|[L H]].
  - apply line_below; auto. now apply LW.
  - apply line_above; auto. now apply HG.
Qed.
Print Assumptions C53_outside.

(** Between neighbouring nodes they interpolate, up to rounding. *)
Theorem C53_between ax f P v a va b vb : conversion ax f P -> neighbours P v a va b vb -> (b - a < 2147483648)%Z ->
  exists r, f v = Ok r /\
    Qabs (val r - (val va + (val vb - val va) * (inject_Z (v - a) / inject_Z (b - a)))) <= Qpower 2 (-20) * (Qabs (val va) + Qabs (val vb)).
Proof.
  intros C H B. destruct (conversion_map _ _ _ C) as (m & E & N & I). destruct (near_nodes m P I) as (NB & _). pose proof H as (_ & _ & H' & _).
  exists (between_value va vb (v - a) (b - a)). split; [|apply between_accuracy; lia].
  rewrite E. rewrite (line_between m v a va b vb N (proj2 (NB v a va b vb) H)).
  rewrite !chk_i32 by (unfold is_i32; lia). reflexivity.
Qed.
Print Assumptions C53_between.

(** They never fail, except by aborting, exactly between nodes at least 2^31 apart. *)
Theorem C53_aborts_iff ax f P v : conversion ax f P ->
  f v <> Err /\ (f v = Panic <-> exists a va b vb, neighbours P v a va b vb /\ (2147483648 <= b - a)%Z).
Proof.
  intros C. destruct (conversion_map _ _ _ C) as (m & E & N & I). destruct (near_nodes m P I) as (NB & LW & HG & _). rewrite E.
  assert (U: forall a va b vb a' va' b' vb', neighbours P v a va b vb -> neighbours P v a' va' b' vb' -> a = a' /\ b = b').
  { intros a va b vb a' va' b' vb' (A & B & C1 & D) (A' & B' & C' & D'). pose proof (D _ _ A'). pose proof (D _ _ B'). pose proof (D' _ _ A). pose proof (D' _ _ B). lia. }
  destruct (line_cases m v) as [->|[(w & H)|[(a & va & L & H)|[(a & va & L & H)|(a & va & b & vb & L)]]]].
  - rewrite line_empty. split; [discriminate|]. split; [discriminate|]. intros (a & va & b & vb & (A & _) & _). apply I in A. destruct A.
  - rewrite (line_node m v w N H). split; [discriminate|]. split; [discriminate|]. intros (a & va & b & vb & (_ & _ & B & D) & _).
    apply I in H. destruct (D _ _ H); lia.
  - rewrite (line_below m v a va N L H). split; [discriminate|]. split; [discriminate|]. intros (a' & va' & b' & vb' & (A & _ & B & D) & _).
    apply LW in L. destruct L as [_ L]. pose proof (L _ _ A). lia.
  - rewrite (line_above m v a va N L H). split; [discriminate|]. split; [discriminate|]. intros (a' & va' & b' & vb' & (_ & A & B & D) & _).
    apply HG in L. destruct L as [_ L]. pose proof (L _ _ A). lia.
  - rewrite (line_between m v a va b vb N L). apply NB in L. pose proof L as (_ & _ & H & _).
    destruct (Z_lt_le_dec (b - a) 2147483648) as [B|B].
    + rewrite !chk_i32 by (unfold is_i32; lia). cbn [rbind]. split; [discriminate|]. split; [discriminate|].
      intros (a' & va' & b' & vb' & L' & B'). destruct (U _ _ _ _ _ _ _ _ L L') as [-> ->]. lia.
    + assert (X: chk_i 32 (b - a) = Panic).
      { unfold chk_i. change (2 ^ (32 - 1))%Z with 2147483648%Z. destruct (_ && _)%bool eqn:Q; [|reflexivity]. lia. }
      assert (Y: rbind (chk_i 32 (v - a)) (fun d => rbind (chk_i 32 (b - a)) (fun y => Ok (between_value va vb d y))) = Panic).
      { rewrite X. unfold chk_i. destruct (_ && _)%bool; reflexivity. }
      rewrite Y. split; [discriminate|]. split; [|reflexivity]. intros _. exists a, va, b, vb. split; [exact L|lia].
Qed.
Print Assumptions C53_aborts_iff.

(** With rising outputs the conversion rises and stays between the outputs of the
    nodes on both sides. *)
Theorem C53_range ax f P v : conversion ax f P -> ordinary P -> rising P -> ordinary_position v -> (exists k w, P k w) ->
  exists r, f v = Ok r /\ forall k w, P k w -> ((k <= v)%Z -> val w <= val r) /\ ((v <= k)%Z -> val r <= val w).
Proof.
  intros C O R V (k & w & K). destruct (conversion_map _ _ _ C) as (m & E & N & I). destruct (near_nodes m P I) as (_ & _ & _ & OR & RI).
  assert (NE: m <> []) by (intros ->; apply I in K; destruct K).
  destruct (line_bounds m v N NE (proj2 OR O) (proj2 RI R) V) as (r & L & B). exists r. rewrite E. split; [exact L|].
  intros k' w' K'. apply B. now apply I.
Qed.
Print Assumptions C53_range.

Theorem C53_monotone ax f P v v' r r' : conversion ax f P -> ordinary P -> rising P -> ordinary_position v -> ordinary_position v' ->
  (v <= v')%Z -> f v = Ok r -> f v' = Ok r' -> val r <= val r'.
Proof.
  intros C O R V V' H. destruct (conversion_map _ _ _ C) as (m & E & N & I). destruct (near_nodes m P I) as (_ & _ & _ & OR & RI).
  rewrite !E. apply line_mono; auto; [now apply OR|now apply RI].
Qed.
Print Assumptions C53_monotone.

(** User coordinates normalize to -1 at the minimum, 0 at the default, 1 at the
    maximum, and linearly in between, up to rounding. *)
Theorem C53_normalize_user ax l : proper_axis ax ->
  exists r q, normalize_user ax l = Ok r /\ normalized ax (val l) q /\ Qabs (val r - q) <= Qpower 2 (-22) /\ -(1) <= val r <= 1 /\
    (val l <= inject_Z (ax_min ax) -> (ax_min ax < ax_default ax)%Z -> val r == -(1)) /\
    (inject_Z (ax_max ax) <= val l -> (ax_default ax < ax_max ax)%Z -> val r == 1) /\
    (val l == inject_Z (ax_default ax) -> val r == 0).
Proof.
  intros P. destruct (user_normalized ax P l) as (q & N & B). exists (user_val ax l), q.
  split; [apply (user_eq ax P)|]. split; [exact N|]. split; [exact B|]. pose proof (pa_le ax P) as L. pose proof (clampd_cases ax P l) as C.
  destruct (user_cases ax P l) as [(A & A1 & A2 & _)|[(A & A1 & A2 & _)|(A & A1)]]; (split; [lra|]); (split; [|split]).
  - intros H _. now apply A2.
  - intros H D. rewrite Zlt_Qlt in D. lra.
  - intros H. lra.
  - intros H D. rewrite Zlt_Qlt in D. lra.
  - intros H _. now apply A2.
  - intros H. lra.
  - intros H D. rewrite Zlt_Qlt in D. lra.
  - intros H D. rewrite Zlt_Qlt in D. lra.
  - intros H. exact A1.
Qed.
Print Assumptions C53_normalize_user.

Theorem C53_normalize_user_monotone ax l l' r r' : proper_axis ax -> val l <= val l' ->
  normalize_user ax l = Ok r -> normalize_user ax l' = Ok r' -> val r <= val r'.
Proof.
  intros P H. rewrite !(user_eq ax P). intros E E'. apply Ok_inj in E. apply Ok_inj in E'. subst r r'. exact (user_mono ax P l l' H).
Qed.
Print Assumptions C53_normalize_user_monotone.

(** Without a map, designs normalize as user coordinates do. *)
Theorem C53_normalize_no_map ax l : ax_map ax = None -> normalize_design ax l = normalize_user ax l.
Proof. unfold normalize_design. now intros ->. Qed.
Print Assumptions C53_normalize_no_map.

(** With one, they normalize to the position between the smallest and the largest
    output, wherever the default is. *)
Theorem C53_normalize_design ax es lo hi l : ax_map ax = Some es -> least_output es lo -> greatest_output es hi -> lo < hi ->
  exists r q, normalize_design ax l = Ok r /\ position lo hi (val l) q /\ Qabs (val r - q) <= Qpower 2 (-21) /\ 0 <= val r <= 1 /\
    (val l <= lo <-> val r == 0) /\ (hi <= val l -> val r == 1).
Proof.
  intros E LO HI H. assert (NE: es <> []) by (intros ->; destruct LO as [(e & [] & _) _]).
  destruct (design_spec ax es lo hi E NE LO HI H) as (g & G & G01 & GM & GL & GH & GP & GC & GQ).
  destruct (GQ l) as (q & Q1 & Q2). exists (g l), q. split; [apply G|]. split; [exact Q1|]. split; [exact Q2|]. split; [apply G01|].
  split; [|apply GH]. split; [apply GL|]. intros Z. destruct (Qlt_le_dec lo (val l)) as [L|L]; [|exact L]. pose proof (GP l L). lra.
Qed.
Print Assumptions C53_normalize_design.

Theorem C53_normalize_design_monotone ax es lo hi l l' r r' : ax_map ax = Some es -> least_output es lo -> greatest_output es hi -> lo < hi ->
  val l <= val l' -> normalize_design ax l = Ok r -> normalize_design ax l' = Ok r' -> val r <= val r'.
Proof.
  intros E LO HI H L. assert (NE: es <> []) by (intros ->; destruct LO as [(e & [] & _) _]).
  destruct (design_spec ax es lo hi E NE LO HI H) as (g & G & _ & GM & _). rewrite !G. intros A B.
  apply Ok_inj in A. apply Ok_inj in B. subst r r'. now apply GM.
Qed.
Print Assumptions C53_normalize_design_monotone.

(** Locations are normalized axis by axis. *)
Theorem C53_location axes loc r : normalize_location axes loc = Ok r <->
  Forall2 (fun al c => normalize_design (fst al) (f32_of_int (snd al)) = Ok c) (combine axes loc) r.
Proof. unfold normalize_location. split; [apply rmapM_inv|apply rmapM_fwd]. Qed.
Print Assumptions C53_location.

(** So a default that is not mapped to the smallest output is not normalized to 0. *)
Definition weight : axis := mk_axis 100 900 400 (Some [(Dy 100 0, Dy 100 0); (Dy 400 0, Dy 400 0); (Dy 900 0, Dy 900 0)]).
Theorem C53_default_refuted : exists ax d, proper_axis ax /\ to_designspace ax (ax_default ax) = Ok d /\
  normalize_design ax d <> Ok dy0 /\ (forall r, normalize_design ax d = Ok r -> ~ val r == 0).
Proof.
  exists weight, (Dy 400 0). split; [unfold proper_axis, ordinary_position; cbn; lia|]. split; [reflexivity|].
  vm_compute. split; [discriminate|]. intros r [= <-]. discriminate.
Qed.
Print Assumptions C53_default_refuted.

(** Hence writing the axes aborts for every map with an entry below the default
    and rising outputs ... *)
Theorem C53_segments_abort ax es e0 e1 : proper_axis ax -> ax_map ax = Some es ->
  (forall e f, In e es -> In f es -> val (fst e) < val (fst f) -> val (snd e) < val (snd f)) ->
  In e0 es -> val (fst e0) < inject_Z (ax_default ax) -> (ax_min ax < ax_default ax)%Z ->
  In e1 es -> val (fst e0) < val (fst e1) ->
  axis_segments ax = Panic.
Proof.
  intros P E R I0 B0 D I1 B1. apply (segments_abort ax es e0); auto. exists e1. split; [exact I1|].
  pose proof (R _ _ I0 I1 B1). lra.
Qed.
Print Assumptions C53_segments_abort.
Example C53_segments_abort_example : axis_segments weight = Panic.
Proof.
  apply (C53_segments_abort weight [(Dy 100 0, Dy 100 0); (Dy 400 0, Dy 400 0); (Dy 900 0, Dy 900 0)] (Dy 100 0, Dy 100 0) (Dy 400 0, Dy 400 0)).
  - unfold proper_axis, ordinary_position. cbn. lia.
  - reflexivity.
  - intros e f [<-|[<-|[<-|[]]]] [<-|[<-|[<-|[]]]]; vm_compute; auto.
  - now left.
  - reflexivity.
  - reflexivity.
  - right. now left.
  - reflexivity.
Qed.

(** ... and works when the default is the minimum: the map then has the normalized
    entries. *)
Theorem C53_segments_ok ax es : proper_axis ax -> ax_min ax = ax_default ax -> (ax_default ax < ax_max ax)%Z -> ax_map ax = Some es ->
  StronglySorted (fun e f => val (fst e) < val (fst f) /\ val (snd e) < val (snd f)) es ->
  Forall (fun e => inject_Z (ax_min ax) <= val (fst e) <= inject_Z (ax_max ax) /\ ordinary_output (snd e)) es ->
  (exists e, In e es /\ val (fst e) == inject_Z (ax_min ax)) -> (exists e, In e es /\ val (fst e) == inject_Z (ax_max ax)) ->
  exists m, axis_segments ax = Ok ((minus1, minus1) :: m) /\
    Forall2 (fun e n => normalize_user ax (fst e) = Ok (fst n) /\ normalize_design ax (snd e) = Ok (snd n)) es m.
Proof. exact (segments_ok ax es). Qed.
Print Assumptions C53_segments_ok.
Definition light : axis := mk_axis 200 900 200 (Some [(Dy 200 0, Dy 40 0); (Dy 600 0, Dy 181 (-1)); (Dy 900 0, Dy 180 0)]).
Example C53_segments_example : exists m, axis_segments light = Ok m /\ length m = 4%nat.
Proof.
  destruct (C53_segments_ok light _ ltac:(unfold proper_axis, ordinary_position; cbn; lia) eq_refl eq_refl eq_refl) as (m & A & B).
  - repeat (apply SSorted_cons || apply SSorted_nil); repeat (apply Forall_cons || apply Forall_nil); split; reflexivity.
  - repeat (apply Forall_cons || apply Forall_nil); (split; [split; discriminate|]); [exists 640%Z|exists 1448%Z|exists 2880%Z]; split; reflexivity || (cbn; lia).
  - eexists. split; [now left|reflexivity].
  - eexists. split; [right; right; now left|reflexivity].
  - exists ((minus1, minus1) :: m). split; [exact A|]. apply Forall2_length in B. cbn [length]. rewrite <- B. reflexivity.
Qed.

(** An axis without a map gets the identity. *)
Theorem C53_segments_no_map ax : ax_map ax = None -> axis_segments ax = Ok [(minus1, minus1); (dy0, dy0); (dy1, dy1)].
Proof. unfold axis_segments. intros ->. reflexivity. Qed.
Print Assumptions C53_segments_no_map.

(** A concrete axis: 400 lies between two nodes, 100 below and 950 above. *)
Example C53_example : exists a va b vb, neighbours (node light fst snd) 400 a va b vb /\ (b - a < 2147483648)%Z.
Proof.
  assert (A: forall k w, node light fst snd k w -> (k = 200 \/ k = 600 \/ k = 900)%Z).
  { intros k w (l & e & r & E & K & _ & _). assert (I: In e [(Dy 200 0, Dy 40 0); (Dy 600 0, Dy 181 (-1)); (Dy 900 0, Dy 180 0)]) by (rewrite E; apply in_or_app; right; now left).
    apply cut_iff in K. destruct I as [<-|[<-|[<-|[]]]]; vm_compute in K; auto. }
  exists 200%Z, (Dy 40 0), 600%Z, (Dy 181 (-1)). split; [|reflexivity]. split; [|split; [|split; [lia|]]].
  - exists [], (Dy 200 0, Dy 40 0), [(Dy 600 0, Dy 181 (-1)); (Dy 900 0, Dy 180 0)]. split; [reflexivity|]. split; [now apply cut_iff|]. split; [reflexivity|].
    repeat (apply Forall_cons || apply Forall_nil); intros C; apply cut_iff in C; discriminate C.
  - exists [(Dy 200 0, Dy 40 0)], (Dy 600 0, Dy 181 (-1)), [(Dy 900 0, Dy 180 0)]. split; [reflexivity|]. split; [now apply cut_iff|]. split; [reflexivity|].
    repeat (apply Forall_cons || apply Forall_nil); intros C; apply cut_iff in C; discriminate C.
  - intros k w K. apply A in K. lia.
Qed.
Example C53_values : (exists r, to_designspace light 400 = Ok r /\ val r == 261 # 4) /\
  (exists r, to_designspace light 100 = Ok r /\ val r == - (60)) /\ (exists r, to_userspace light 180 = Ok r /\ val r == 900).
Proof. repeat split; eexists; (split; [vm_compute; reflexivity|reflexivity]). Qed.

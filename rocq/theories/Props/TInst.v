(** C67: instances with every axis fixed.  C68: what an instance keeps of the
    axes, the named instances, the segment maps and the style attributes. *)
From Coq Require Import List ZArith QArith Qabs.
Import ListNotations.
From Verif.Model Require Import MBase MFixed MFloat MTag MMap MGlyph MTables MStat MGvar MAvar MVarModel MInst.
From Verif.Spec Require Import SFloat SVarModel SAvar SInst.
From Verif.Proofs Require PInstTop PInstRest.
Open Scope Z_scope.

(** If an instance with every axis fixed comes out: there are no axes and no
    segment maps left; every glyph is the interpolation at the location asked
    for; and variation data is left only for glyphs that do not exist. *)
Theorem C67_instance ft user f ft' : vf_fvar ft = Some f -> NoDup (axis_tags f) -> (length (fv_axes f) <= 1000)%nat ->
  as_map user -> complete f user -> (forall vs v, vf_gvar ft = Some vs -> In v vs -> typed v) ->
  instantiate ft user = Ok ft' ->
  known f user /\ vf_fvar ft' = None /\ vf_avar ft' = None /\
  exists loc, location_of f (vf_avar ft) user loc /\
  exists gs gs', vf_glyf ft = Some gs /\ vf_glyf ft' = Some gs' /\
    match vf_gvar ft with
    | None => gs' = gs /\ vf_gvar ft' = None
    | Some vs => (length gs <= length vs)%nat /\ length gs' = length gs /\
        (forall i g v g', nth_error gs i = Some g -> nth_error vs i = Some v -> nth_error gs' i = Some g' ->
           instance_of (axis_tags f) loc g v g') /\
        (vf_gvar ft' = None <-> forall v, In v (skipn (length gs) vs) -> v = None)
    end.
Proof. apply PInstTop.instance_result. Qed.

(** For a proper font and a location on exactly its axes, an instance comes out
    if and only if at that location every glyph with points and variation data
    has a delta set that applies. *)
Theorem C67_when ft f gs user : proper_font ft f gs -> as_map user -> complete f user -> known f user ->
  exists loc, location_of f (vf_avar ft) user loc /\
    ((exists ft', instantiate ft user = Ok ft') <-> all_reached ft f gs loc).
Proof. apply PInstTop.instance_when. Qed.

(** *** Examples *)
Definition wght : tag := [119; 103; 104; 116].
Definition wdth : tag := [119; 100; 116; 104].
Definition num (z : Z) : dyadic := Dy z 0.
Definition ax_wght (def : Z) : axis_record := mk_axis_record wght (num 100) (num def) (num 900) 0 256.
Definition ax_wdth : axis_record := mk_axis_record wdth (num 50) (num 100) (num 200) 0 257.
Definition triangle : glyph :=
  mk_glyph 0 100 0 200 [[mk_point 0 0 true; mk_point 100 0 true; mk_point 50 200 false]] [] [] false.
Definition heavier : delta_set :=
  mk_ds [f2dot14_from_packed 16384] [f2dot14_from_packed 0] [f2dot14_from_packed 16384] [(0, 0); (40, 0); (21, -31); (0, 0); (40, 0); (0, 0); (0, 0)].
Definition one_axis (def : Z) : fvar := mk_fvar [ax_wght def] [].
Definition ex_font (def : Z) : vfont :=
  mk_vf (Some (one_axis def)) None (Some [None; Some [heavier]]) (Some [with_contours triangle []; triangle]) None false.
Example C67_instance_ex : instantiate (ex_font 100) [(wght, Pin (num 500))] =
  Ok (mk_vf None None None
    (Some [with_contours triangle [];
           with_contours triangle [[mk_point 0 0 true; mk_point 120 0 true; mk_point 60 185 false]]]) None false).
Proof. vm_compute. reflexivity. Qed.
Lemma f2_packed p : (-32768 <= p <= 32767)%Z -> (val (f2dot14_from_packed p) == inject_Z p / 16384)%Q -> f2dot14 (f2dot14_from_packed p).
Proof. intros H E. exists p. auto. Qed.
Lemma ex_complete def v : complete (one_axis def) [(wght, Pin v)].
Proof. intros a [<-|[]]. exists v. left. now left. Qed.
Lemma ex_map v : as_map [(wght, Pin v)].
Proof. repeat constructor. Qed.
Example C67_when_ex : proper_font (ex_font 100) (one_axis 100) [with_contours triangle []; triangle] /\ as_map [(wght, Pin (num 500))] /\
  complete (one_axis 100) [(wght, Pin (num 500))] /\ known (one_axis 100) [(wght, Pin (num 500))].
Proof.
  split; [|split; [apply ex_map|split; [apply ex_complete|intros t l [E|[]]; injection E as <- _; now left]]].
  unfold proper_font. split; [reflexivity|]. split; [reflexivity|]. split; [reflexivity|]. split; [repeat constructor; intros []|].
  split; [|split; [discriminate|]].
  - intros [|i] a; [|destruct i; discriminate]. intros E. injection E as <-. split; [discriminate|exact I].
  - intros vs E. injection E as <-. split; [constructor; constructor; constructor|].
    intros [|[|i]] g v G V; [| |destruct i; discriminate].
    + injection V as <-. split; exact I.
    + injection G as <-. injection V as <-. split.
      * constructor; [|constructor]. repeat constructor; cbn; discriminate.
      * exists 7%nat. split; [repeat constructor|]. split; [|split].
        -- constructor; [|constructor]. repeat split. constructor; [|constructor]. apply f2_packed; [split; discriminate|reflexivity].
        -- intros i. do 7 (destruct i as [|i]; [split; discriminate|]). destruct i; split; discriminate.
        -- intros i p. do 3 (destruct i as [|i]; [intros E; injection E as <-; split; discriminate|]). destruct i; discriminate.
Qed.
(** Where nothing applies, for instance at the lightest weight, there is no instance. *)
Example C67_nothing_ex : instantiate (ex_font 100) [(wght, Pin (num 100))] = Panic.
Proof. vm_compute. reflexivity. Qed.

(** One would expect the default location to give the outlines of the font: it
    does not, because the position of a value on its axis is taken from both
    ends, and not from the default. *)
Theorem C67_default_refuted : exists ft f user ft' gs gs', proper_font ft f gs /\ as_map user /\
  (forall a, In a (fv_axes f) -> asked user a (ax_defaultValue a)) /\
  instantiate ft user = Ok ft' /\ vf_glyf ft' = Some gs' /\ gs' <> gs.
Proof.
  exists (ex_font 400), (one_axis 400), [(wght, Drop)]. eexists. exists [with_contours triangle []; triangle]. eexists.
  split; [|split; [repeat constructor|split; [intros a [<-|[]]; right; split; [now left|reflexivity]|split; [vm_compute; reflexivity|split; [reflexivity|discriminate]]]]].
  destruct C67_when_ex as [(_ & A & B & C & D & E & F) _]. split; [reflexivity|]. split; [exact A|]. split; [exact B|]. split; [exact C|].
  split; [|split; [exact E|exact F]]. intros [|i] a; [|destruct i; discriminate]. intros X. injection X as <-. split; [discriminate|exact I].
Qed.

(** ** C68 *)

(** If not every axis is fixed: the axes that are left are those not fixed, in
    order, with the range asked for; the named instances that are left are those
    at places that are left, with the coordinates on those axes. *)
Theorem C68_axes ft user f ft' : vf_fvar ft = Some f -> NoDup (axis_tags f) -> as_map user -> ~ complete f user ->
  instantiate ft user = Ok ft' ->
  exists f', vf_fvar ft' = Some f' /\ selects (free user) (narrowed user) (fv_axes f) (fv_axes f') /\
    (proper_instances f user -> selects (in_reach f user) (reduced f (fv_axes f')) (fv_instances f) (fv_instances f')).
Proof.
  intros FV N M NC H. destruct (PInstRest.instantiate_parts ft user f ft' FV N M H) as (l & nl & P & K & _ & _ & _ & _ & V).
  exact (PInstRest.fvar_left f user l N M P K (vf_fvar ft') NC V).
Qed.
(** Style attributes: those at places that are left. *)
Theorem C68_styles ft user f ft' s : vf_fvar ft = Some f -> NoDup (axis_tags f) -> as_map user ->
  instantiate ft user = Ok ft' -> vf_stat ft = Some s -> styles_apart f user s ->
  exists s', vf_stat ft' = Some s' /\ st_elided s' = st_elided s /\ st_axes s' = st_axes s /\
    selects (style_left f user s) eq (st_values s) (st_values s').
Proof.
  intros FV N M H ES TA. destruct (PInstRest.instantiate_parts ft user f ft' FV N M H) as (l & nl & P & K & _ & _ & _ & S0 & _).
  rewrite ES in S0. destruct S0 as (s' & E & S0). exists s'. split; [exact E|]. exact (PInstRest.stat_left f user l N M P K s s' TA S0).
Qed.
(** Segment maps: those of the axes that are left, unchanged and all valid.  No
    axis has been given a range: with segment maps, that never comes out. *)
Theorem C68_maps ft user f ft' maps : vf_fvar ft = Some f -> NoDup (axis_tags f) -> as_map user -> ~ complete f user ->
  instantiate ft user = Ok ft' -> vf_avar ft = Some maps ->
  (forall t x y, ~ In (t, Range x y) user) /\
  exists ms, vf_avar ft' = Some ms /\
    selects (fun ia => free user (snd ia)) (fun ia m => nth_error maps (fst ia) = Some m /\ seg_valid m = true)
            (combine (seq 0 (length (fv_axes f))) (fv_axes f)) ms.
Proof.
  intros FV N M NC H EM. destruct (PInstRest.instantiate_parts ft user f ft' FV N M H) as (l & nl & P & K & _ & _ & A & _).
  rewrite EM in A. exact (PInstRest.avar_left f user l N M P K maps (vf_avar ft') NC A).
Qed.
(** Outlines cannot be instantiated for some of the axes only: a glyph with
    points and variation data aborts. *)
Theorem C68_some_axes ft f user gs vs i g sets ft' : vf_fvar ft = Some f -> NoDup (axis_tags f) -> as_map user -> ~ complete f user ->
  vf_glyf ft = Some gs -> vf_gvar ft = Some vs -> nth_error gs i = Some g -> nth_error vs i = Some (Some sets) ->
  concat (g_contours g) <> [] -> instantiate ft user <> Ok ft'.
Proof. apply PInstRest.partial_aborts. Qed.
(** Nor can an axis be limited to a range if there is any variation data. *)
Theorem C68_ranges ft f user gs vs i g sets t x y ft' : vf_fvar ft = Some f -> NoDup (axis_tags f) -> as_map user -> In (t, Range x y) user ->
  vf_glyf ft = Some gs -> vf_gvar ft = Some vs -> nth_error gs i = Some g -> nth_error vs i = Some (Some sets) ->
  instantiate ft user <> Ok ft'.
Proof. apply PInstRest.range_aborts. Qed.

(** *** Examples: two axes, no outlines *)
Definition id_map : segment_map := [(Dy (-1) 0, Dy (-1) 0); (dy0, dy0); (dy1, dy1)].
Definition ex_stat : stat := mk_stat None [mk_design_axis wght 256 0; mk_design_axis wdth 257 1]
  [mk_av (Some 0) 0 2 (Some (num 400)) None None None; mk_av (Some 0) 0 3 (Some (num 700)) None None None;
   mk_av None 0 4 None None None (Some [(0, num 400); (1, num 50)])].
Definition ex_two : vfont :=
  mk_vf (Some (mk_fvar [ax_wght 400; ax_wdth]
                 [mk_instance 258 0 [num 400; num 100] None; mk_instance 259 0 [num 700; num 100] None; mk_instance 260 0 [num 400; num 50] (Some 7)]))
        None None None (Some ex_stat) false.
Example C68_axes_ex : exists ft', instantiate ex_two [(wdth, Range (num 75) (num 125)); (wght, Pin (num 400))] = Ok ft' /\
  vf_fvar ft' = Some (mk_fvar [mk_axis_record wdth (num 75) (num 100) (num 125) 0 257] [mk_instance 258 0 [num 100] None]) /\
  option_map (fun s => map av_name (st_values s)) (vf_stat ft') = Some [2].
Proof. eexists. split; [vm_compute; reflexivity|split; reflexivity]. Qed.
Example C68_not_complete_ex : ~ complete (mk_fvar [ax_wght 400; ax_wdth] []) [(wdth, Range (num 75) (num 125)); (wght, Pin (num 400))] /\
  as_map [(wdth, Range (num 75) (num 125)); (wght, Pin (num 400))] /\ NoDup (axis_tags (mk_fvar [ax_wght 400; ax_wdth] [])).
Proof.
  split; [|split].
  - intros C. destruct (C ax_wdth (or_intror (or_introl eq_refl))) as (v & [[E|[E|[]]]|[[E|[E|[]]] _]]); discriminate E.
  - repeat constructor.
  - repeat constructor; [intros [E|[]]; discriminate E|intros []].
Qed.
Example C68_maps_ex : exists ft', instantiate (mk_vf (vf_fvar ex_two) (Some [id_map; [(Dy (-1) 0, Dy (-1) 0); (dy0, dy0); (Dy 1 (-1), Dy 1 (-2)); (dy1, dy1)]]) None None None false) [(wght, Pin (num 400))] = Ok ft' /\
  vf_avar ft' = Some [[(Dy (-1) 0, Dy (-1) 0); (dy0, dy0); (Dy 1 (-1), Dy 1 (-2)); (dy1, dy1)]].
Proof. eexists. split; [vm_compute; reflexivity|reflexivity]. Qed.

Print Assumptions C67_instance.
Print Assumptions C67_when.
Print Assumptions C67_default_refuted.
Print Assumptions C68_axes.
Print Assumptions C68_styles.
Print Assumptions C68_maps.
Print Assumptions C68_some_axes.
Print Assumptions C68_ranges.

(** C85: which bytes make reading glyph outlines abort. *)
From Coq Require Import String List ZArith Bool Lia.
Import ListNotations.
From Verif.Model Require Import MBase MTables MGlyph MGlyf MStore.
From Verif.Spec Require Import SBase SReader SStore SWhole SCalm SStop SOutline.
From Verif.Proofs Require Import PBase PCalm PStore POutline.
From Verif.Model Require MPost.
Open Scope Z_scope.

Theorem C85_glyph : stops de_glyph glyph_bad.
Proof. exact glyph_stops. Qed.
Print Assumptions C85_glyph.

(** The table of glyphs: the program aborts at the first glyph that cannot be
    read, if that is such a glyph. *)
Theorem C85_glyf d locs : Forall is_byte d -> (de_glyf d locs = Panic <->
  exists i off gs, nth_error locs i = Some (Some off) /\ glyph_bad d (Z.to_nat off) /\ de_glyf d (firstn i locs) = Ok gs).
Proof. exact (glyf_stops d locs). Qed.
Print Assumptions C85_glyf.

(** The same for a table set in which the positions are already known. *)
Theorem C85_lookup {T} (K : codecs T) loca glyf d locs s : Forall is_byte d -> named loca "loca" -> named glyf "glyf" ->
  (fst (ts_get K glyf (ts_insert_raw glyf d (ts_insert_typed loca (LLoca locs) s))) = Panic <->
   exists i off gs, nth_error locs i = Some (Some off) /\ glyph_bad d (Z.to_nat off) /\ de_glyf d (firstn i locs) = Ok gs).
Proof.
  intros B -> ->. rewrite <- (C85_glyf d locs B).
  change (MPost.ascii_bytes "loca"%string) with TAG_loca. change (MPost.ascii_bytes "glyf"%string) with TAG_glyf.
  unfold ts_get, get_by at 1, load_by at 1.
  set (s1 := ts_insert_raw TAG_glyf d (ts_insert_typed TAG_loca (LLoca locs) s)).
  assert (G: st_get TAG_glyf s1 = Some (Unloaded d)) by (unfold s1, ts_insert_raw; rewrite st_get_set; reflexivity).
  assert (G2: st_get TAG_loca s1 = Some (Loaded (mk_table None (LLoca locs)))).
  { unfold s1, ts_insert_raw, ts_insert_typed, ts_insert. rewrite !st_get_set. reflexivity. }
  rewrite G. change (des3 K TAG_glyf d s1) with
    (sbind (typed_by (des1 K) TAG_loca (@sel_loca T)) (fun o => sbind (need o) (fun l => slift (rmap (@LGlyf T) (de_glyf d l)))) s1).
  assert (E: typed_by (des1 K) TAG_loca (@sel_loca T) s1 = (Ok (Some locs), s1)).
  { unfold typed_by, get_by, load_by, sbind. rewrite G2. cbv iota beta. rewrite G2. reflexivity. }
  unfold sbind at 1. rewrite E. cbv iota beta. unfold sbind, need, slift. cbv iota beta.
  destruct (de_glyf d locs) as [gs| |]; cbn [rmap rbind fst]; [|split; congruence|split; congruence].
  rewrite st_get_set. destruct (list_eq_dec Z.eq_dec TAG_glyf TAG_glyf); [|congruence]. cbn [fst]. split; congruence.
Qed.
Print Assumptions C85_lookup.

(** ** Cases *)
Ltac bytes := repeat (apply Forall_cons; [unfold is_byte; lia|]); apply Forall_nil.
(** One contour of three points with one repeated flag, the second point [a;b]
    to the right of the first, which is at the largest x. *)
Definition three (a b : Z) : list Z :=
  [0;1; 0;0; 0;0; 0;0; 0;0;  0;2;  0;0;  9;2;  127;255; a;b; 0;0;  0;0; 0;5; 0;0].
(** Two contours, of which the first ends behind the second. *)
Definition crossed (e : Z) : list Z :=
  [0;2; 0;0; 0;0; 0;0; 0;0;  0;e; 0;1;  0;0;  49;49].
(** A glyph that is cut off behind its box. *)
Definition cut : list Z := [0;1; 0;0; 0;0; 0;0; 0;0; 0].
Example C85_case :
  glyph_bad (three 0 1) 0 /\ ~ glyph_bad (three 255 255) 0 /\ glyph_bad (crossed 2) 0 /\ ~ glyph_bad (crossed 0) 0 /\ glyph_bad cut 0 /\
  rmap (fun g => map (map (fun p => (pt_x p, pt_y p, pt_on p))) (g_contours g)) (from_bytes de_glyph (three 255 255)) =
    Ok [[(32767, 0, true); (32766, 5, true); (32766, 5, true)]] /\
  rmap (@List.length _) (de_glyf (crossed 0 ++ cut) [Some 0; None; Some 18]) = Panic.
Proof.
  assert (B3: forall a b, 0 <= a <= 255 -> 0 <= b <= 255 -> Forall is_byte (three a b)) by (intros a b Ha Hb; unfold three; bytes).
  assert (Bc: forall e, 0 <= e <= 255 -> Forall is_byte (crossed e)) by (intros e He; unfold crossed; bytes).
  split; [apply (C85_glyph (three 0 1) 0%nat [0%nat]); [apply B3; lia|reflexivity]|].
  split; [intros X; apply (C85_glyph (three 255 255) 0%nat [0%nat]) in X; [vm_compute in X; discriminate X|apply B3; lia]|].
  split; [apply (C85_glyph (crossed 2) 0%nat [0%nat]); [apply Bc; lia|reflexivity]|].
  split; [intros X; apply (C85_glyph (crossed 0) 0%nat [0%nat]) in X; [vm_compute in X; discriminate X|apply Bc; lia]|].
  split; [apply (C85_glyph cut 0%nat [0%nat]); [unfold cut; bytes|reflexivity]|]. split; vm_compute; reflexivity.
Qed.

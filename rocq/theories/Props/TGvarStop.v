(** C89: which bytes make reading a gvar table abort. *)
From Coq Require Import String List ZArith Bool Lia.
Import ListNotations.
From Verif.Model Require Import MBase MTag MMap MFont MTables MMetrics MGlyph MGlyf MStore MPacked MIup MGvar.
From Verif.Model Require MCli.
From Verif.Spec Require Import SBase SReader SCalm SStop SVarStop SGvarStop SStore SOrder.
From Verif.Proofs Require Import PBase PCalm PStop PVarStop PGvarStop PStore POrder.
Open Scope Z_scope.

(** For any bytes, read with the coordinates and contour ends of the glyphs. *)
Theorem C89_gvar outlines d : Forall is_byte d -> (from_bytes (gvar_de outlines) d = Panic <-> gvar_bad outlines d).
Proof. exact (gvar_stops outlines d). Qed.
Print Assumptions C89_gvar.

(** The same for a table set whose glyphs are known. *)
Theorem C89_lookup {T} (other : codecs T) hash d gs s : Forall is_byte d ->
  (lookup (MCli.K other hash) (ts_insert_raw TAG_gvar d (ts_insert_typed TAG_glyf (LGlyf gs) s)) TAG_gvar = Panic <->
   rmapM gvar_coords_and_ends gs = Panic \/
   exists outlines, rmapM gvar_coords_and_ends gs = Ok outlines /\ gvar_bad outlines d).
Proof.
  intros B. set (K := MCli.K other hash). set (s1 := ts_insert_raw TAG_gvar d (ts_insert_typed TAG_glyf (LGlyf gs) s)).
  assert (G: st_get TAG_gvar s1 = Some (Unloaded d)) by (unfold s1, ts_insert_raw; rewrite st_get_set; reflexivity).
  assert (G2: st_get TAG_glyf s1 = Some (Loaded (mk_table None (LGlyf gs)))).
  { unfold s1, ts_insert_raw, ts_insert_typed, ts_insert. rewrite !st_get_set. reflexivity. }
  rewrite lookup_cases, G.
  change (des3 K TAG_gvar d s1) with (via (des2 K) TAG_glyf sel_glyf
    (fun g => ce <- rmapM gvar_coords_and_ends g ;; rmap (LOther TAG_gvar) (parse_gvar K ce d)) s1).
  rewrite (via_eq K) by reflexivity. cbn [fst]. rewrite lookup_cases, G2. cbn [tb_loaded sel_glyf].
  destruct (rmapM gvar_coords_and_ends gs) as [ces| |]; cbn [rbind rmap].
  - change (parse_gvar K ces d) with (rmap (@MCli.KGvar T) (from_bytes (gvar_de ces) d)). pose proof (C89_gvar ces d B) as C.
    split.
    + intros X. right. exists ces. split; [reflexivity|]. apply C. destruct (from_bytes (gvar_de ces) d); cbn in X; congruence.
    + intros [X|(ces' & X & Y)]; [discriminate|]. injection X as <-. apply C in Y. rewrite Y. reflexivity.
  - split; [discriminate|]. intros [X|(ces' & X & _)]; discriminate.
  - split; auto.
Qed.
Print Assumptions C89_lookup.

(** ** Cases *)
Ltac bytes := repeat (apply Forall_cons; [unfold is_byte; lia|]); apply Forall_nil.
(** One axis, [t] shared tuples, [n] glyphs, 16-bit offsets [a] and [b] (halves),
    a shared tuple, and one variation of no points with tuple number [i]. *)
Definition one (t n a b i : Z) : list Z :=
  [0;1; 0;0; 0;1; 0;t; 0;0;0;24; 0;n; 0;0; 0;0;0;26;  a;0; b;0;  64;0;  0;1; 0;8; 0;0; 0;i].
Definition dot : list (list (Z * Z) * list Z) := [([(3, 4)], [0])].
Definition packed (n a b i : Z) : list Z :=
  [0;1; 0;0; 0;1; 0;0; 0;0;0;24; 0;n; 0;0; 0;0;0;26;  0;a; 0;b;  64;0;  0;1; 0;8; 0;0; 0;i].
(** Nothing wrong; a missing outline; the tuple after the last; offsets that
    decrease; an offset that cannot be doubled; too many glyphs. *)
Example C89_case :
  ~ gvar_bad dot (packed 1 0 4 0) /\ gvar_bad [] (packed 1 0 4 0) /\ gvar_bad dot (packed 1 0 4 1) /\
  ~ gvar_bad dot (packed 1 0 4 2) /\ gvar_bad dot (packed 1 1 0 0) /\
  gvar_bad dot (one 0 1 0 128 0) /\ ~ gvar_bad [] (packed 1 3 3 0) /\
  gvar_bad dot (firstn 12 (packed 1 0 4 0) ++ [255;255] ++ skipn 14 (packed 1 0 4 0)) /\
  rmap (@List.length _) (from_bytes (gvar_de dot) (packed 1 0 4 0)) = Ok 1%nat.
Proof.
  Ltac no := let X := fresh in intros X; apply C89_gvar in X; [vm_compute in X; discriminate X|unfold packed, one; cbn [app repeat]; bytes].
  Ltac yes := apply C89_gvar; [unfold packed, one; cbn [app repeat firstn skipn]; bytes|vm_compute; reflexivity].
  split; [no|]. split; [yes|]. split; [yes|]. split; [no|]. split; [yes|]. split; [yes|]. split; [no|]. split; [yes|].
  vm_compute. reflexivity.
Qed.

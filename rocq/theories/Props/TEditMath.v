(** C81: ttf-edit-math. *)
From Coq Require Import String Sorted Lia.
From Verif.Model Require Import MBase MTag MMap MFont MTables MMetrics MGlyph MGlyf MStore MPost MCmap MMath MCli MEditMath.
From Verif.Spec Require Import SBase SCli SEditMath.
From Verif.Proofs Require Import PEditMath.
From Verif.Proofs Require PStoreEx.
Local Open Scope Z_scope.

(** "dump" works on exactly the fonts that can be opened and whose post and MATH
    tables can be read. *)
Theorem C81_works : forall hash file, Forall is_byte file ->
  ((exists o, edit_math hash true file = Ok o) <->
   exists v m p t, holds file v m /\ opens m /\ post_is m p /\ math_is m t).
Proof.
  intros hash file HB. split.
  - intros [o E]. apply edit_math_iff in E as (v & m & p & H & U & P & t & M & _); [|exact HB]. exists v, m, p, t. auto.
  - intros (v & m & p & t & H & U & P & M). eexists. apply edit_math_iff; [exact HB|]. exists v, m, p. eauto 8.
Qed.
Print Assumptions C81_works.

(** What it prints describes the MATH table of the font, its glyphs called by
    their names in the post table of the font. *)
Theorem C81_dump : forall hash file o, Forall is_byte file -> edit_math hash true file = Ok o ->
  exists v m p t j, holds file v m /\ post_is m p /\ math_is m t /\ o = Some j /\ dumps (names_in p) t j.
Proof.
  intros hash file o HB E. apply edit_math_iff in E as (v & m & p & H & U & P & t & M & ->); [|exact HB].
  exists v, m, p, t. eexists. split; [exact H|]. split; [exact P|]. split; [exact M|]. split; [reflexivity|].
  apply dumped. eapply math_is_sane; eassumption.
Qed.
Print Assumptions C81_dump.

(** "load" prints nothing, needs post, and does not look for MATH. *)
Theorem C81_load : forall hash file o, Forall is_byte file ->
  (edit_math hash false file = Ok o <-> o = None /\ exists v m p, holds file v m /\ opens m /\ post_is m p).
Proof.
  intros hash file o HB. rewrite edit_math_iff by exact HB. split.
  - intros (v & m & p & H & U & P & ->). split; [reflexivity|]. exists v, m, p. auto.
  - intros [-> (v & m & p & H & U & P)]. exists v, m, p. auto.
Qed.
Print Assumptions C81_load.

(** Names that differ and do not start with a backslash tell glyphs apart: each
    glyph of a table has its own entry. *)
Theorem C81_distinct : forall names g g' n, NoDup names -> (forall x, In x names -> hd 0 x <> 92) -> 0 <= g -> 0 <= g' ->
  called names g n -> called names g' n -> g = g'.
Proof. exact names_injective. Qed.
Print Assumptions C81_distinct.
Theorem C81_every_glyph : forall (names : list (list Z)) A (shows : A -> json -> Prop) (l : list (Z * A)) o,
  NoDup names -> (forall x, In x names -> hd 0 x <> 92) -> (forall g a, In (g, a) l -> 0 <= g) -> NoDup (map fst l) ->
  tabulates names shows l o ->
  forall g a, In (g, a) l -> exists n j, called names g n /\ shows a j /\ In (n, j) o.
Proof.
  intros names A shows l o N B P U (S1 & T1 & T2) g a H.
  assert (C: exists n, called names g n).
  { eexists. apply label_called. eapply P; eassumption. }
  destruct C as [n C]. pose proof (T2 g a n H C) as I1. apply in_map_iff in I1 as ([n' j] & <- & I1). cbn [fst] in *.
  destruct (T1 n' j I1) as (g' & a' & H' & C' & S' & _). assert (g' = g) as -> by (eapply names_injective; eauto).
  exists n', j. split; [exact C|]. split; [|exact I1].
  assert (a = a') as ->; [|exact S']. clear - U H H'. induction l as [|[k x] l IH]; [destruct H|]. cbn [map fst] in U. inversion_clear U as [|? ? U1 U2].
  destruct H as [H|H]; destruct H' as [H'|H'].
  - congruence.
  - injection H as -> ->. elim U1. now apply (in_map fst _ (g, a')).
  - injection H' as -> ->. elim U1. now apply (in_map fst _ (g, a)).
  - now apply IH.
Qed.
Print Assumptions C81_every_glyph.

(** But two glyphs with one name share an entry, as do glyph 1 without a name and
    a glyph called "\1". *)
Definition plain_math (it : list (Z * mvalue)) (v : list (Z * mconstruction)) : math :=
  mk_math (mk_mconstants 0 0 0 0 [] 0) it [] [] [] None v [].
Theorem C81_collision_refuted : exists names it it', it <> it' /\
  dump_math (plain_math it []) names = dump_math (plain_math it' []) names.
Proof.
  exists [ascii_bytes "\1"], [(0, mk_mvalue 5 None); (1, mk_mvalue 7 None)], [(1, mk_mvalue 7 None)].
  split; [discriminate|vm_compute; reflexivity].
Qed.
Print Assumptions C81_collision_refuted.
(** And of the glyph constructions nothing is printed but the number 1. *)
Theorem C81_constructions_refuted : exists v v' names, v <> v' /\
  dump_math (plain_math [] v) names = dump_math (plain_math [] v') names.
Proof. exists [], [(3, mk_mconstruction None [(4, 1000)])], []. split; [discriminate|reflexivity]. Qed.
Print Assumptions C81_constructions_refuted.

(** ** An example *)
Example C81_example : exists c, dump_math
    (mk_math c [(0, mk_mvalue 30 None); (12, mk_mvalue (-4) None)] [] [0; 1]
       [(1, mk_mcorners (Some (mk_mkern 0 [] [mk_mvalue 9 None])) None None None)] (Some 20) [] []) [ascii_bytes "x"; ascii_bytes "a"]
  = JObj [(ascii_bytes "constants", constants_json c);
          (ascii_bytes "italic_correction", JObj [(ascii_bytes "\12", JNum (-4)); (ascii_bytes "x", JNum 30)]);
          (ascii_bytes "top_accent_attachment", JObj []);
          (ascii_bytes "extended_shapes", JArr [JStr (ascii_bytes "a"); JStr (ascii_bytes "x")]);
          (ascii_bytes "kerning", JObj [(ascii_bytes "a", JObj [(ascii_bytes "top_right", JObj [(ascii_bytes "kern_values", JArr [JNum 9])])])]);
          (ascii_bytes "min_overlap", JNum 20);
          (ascii_bytes "vertical_extensions", JNum 1); (ascii_bytes "horizontal_extensions", JNum 1)].
Proof. exists (mk_mconstants 0 0 0 0 [] 0). vm_compute. reflexivity. Qed.

(** A font with a post table without names and a MATH table of which glyph 5 has
    an italics correction of 33. *)
Definition math_bytes : list Z :=
  [0; 1; 0; 0; 0; 10; 0; 224; 0; 0] ++ [0; 80; 0; 60; 5; 220; 4; 226] ++ concat (repeat [0; 7; 0; 0] 51) ++ [0; 33] ++
  [0; 8; 0; 0; 0; 0; 0; 0] ++ [0; 16] ++ [0; 1; 0; 33; 0; 0] ++ [0; 1; 0; 1; 0; 5].
Definition post_bytes : list Z := [0; 3; 0; 0] ++ repeat 0 28.
Definition example_file : list Z := Eval vm_compute in
  match font_to_bytes SFNT_TRUETYPE [(TAG_MATH, Ok math_bytes); (TAG_post, Ok post_bytes)] with Ok f => f | _ => [] end.
Example C81_file : Forall is_byte example_file /\ exists fs,
  edit_math (fun _ => 0) true example_file = Ok (Some (JObj fs)) /\ In (ascii_bytes "italic_correction", JObj [(ascii_bytes "\5", JNum 33)]) fs.
Proof.
  split; [apply PStoreEx.bytes_check; reflexivity|]. eexists. split; [vm_compute; reflexivity|]. right. left. reflexivity.
Qed.

(** Proofs about the [tables!] macro. *)
From Coq Require Import String List ZArith Bool Lia.
Import ListNotations.
From Verif.Model Require Import MBase MMacro.
From Verif.Spec Require Import SMacro.
From Verif.Proofs Require Import PBase.
Open Scope string_scope.
Open Scope list_scope.

Lemma wrapper_of_in w k : wrapper_of w = Some k <-> In (w, k) keywords.
Proof.
  unfold wrapper_of, keywords. split.
  - repeat match goal with |- context [if ?a =? ?b then _ else _] => destruct (String.eqb_spec a b); [subst; intros E; injection E as <-; cbn; tauto|] end. discriminate.
  - cbn [In]. intros H. repeat destruct H as [H|H]; try contradiction; injection H as <- <-; reflexivity.
Qed.
Lemma wrapper_of_none w : wrapper_of w = None <-> ~ In w (map fst keywords).
Proof.
  split.
  - intros H Hi. apply in_map_iff in Hi as ([w' k] & <- & Hi). apply wrapper_of_in in Hi. cbn [fst] in H. congruence.
  - intros H. destruct (wrapper_of w) as [k|] eqn:E; [|reflexivity]. apply wrapper_of_in in E. exfalso. apply H. apply in_map_iff. exists (w, k). now split.
Qed.
Lemma special_in t : special t = true <-> In t specials.
Proof.
  unfold special, specials. cbn [In]. rewrite !orb_true_iff, !String.eqb_eq. intuition congruence.
Qed.
Lemma special_wrapper t : In t specials -> wrapper_of t = None.
Proof. cbn [specials In]. intros H. repeat destruct H as [H|H]; try contradiction; subst; reflexivity. Qed.

Lemma field_pragma_spec l a : field_pragma l = Some a <-> Group Bracket l = attr_tok a.
Proof.
  unfold field_pragma, attr_tok. split.
  - destruct l as [|[s| |] [|]]; try discriminate. destruct (String.eqb_spec s "offset_base"); [intros E; injection E as <-; now subst|].
    destruct (String.eqb_spec s "embed"); [intros E; injection E as <-; now subst|discriminate].
  - intros E. injection E as ->. destruct a; reflexivity.
Qed.

Lemma fields_attrs ats : forall acc rest, fields acc (map attr_tok ats ++ rest) = fields (acc ++ ats) rest.
Proof.
  induction ats as [|a ats IH]; intros acc rest; cbn [map app]; [now rewrite app_nil_r|].
  unfold attr_tok at 1. cbn [fields]. rewrite (proj2 (field_pragma_spec _ a)) by reflexivity. rewrite IH, <- app_assoc. reflexivity.
Qed.
(** Writing down fields, then reading them. *)
Lemma fields_read fs l tr : fields_toks fs l -> fields [] (l ++ map attr_tok tr) = Ok (fs, tr).
Proof.
  induction 1 as [|f fs l l' Hf _ IH].
  - cbn [app]. rewrite <- (app_nil_r (map attr_tok tr)), fields_attrs. reflexivity.
  - rewrite <- app_assoc. destruct Hf as [ats ty n l Ht]. rewrite <- app_assoc, fields_attrs. cbn [app]. rewrite <- app_assoc.
    destruct Ht as [w k s junk Hw Hs|t Ht|t Hk Ht]; cbn [app fields].
    + rewrite (proj2 (wrapper_of_in w k) Hw). cbn [expect_group delim_eqb]. rewrite IH. reflexivity.
    + rewrite (special_wrapper t Ht). rewrite IH. cbn [rbind fst snd]. now rewrite (proj2 (special_in t) Ht).
    + rewrite (proj2 (wrapper_of_none t) Hk). rewrite IH. cbn [rbind fst snd]. destruct (special t) eqn:E; [|reflexivity]. now apply special_in in E.
Qed.
Lemma delim_eqb_eq a b : delim_eqb a b = true <-> a = b.
Proof. destruct a, b; cbn; split; congruence. Qed.

(** Reading fields: what was written down.  Induction on the length. *)
Lemma fields_inv n : forall toks acc fs tr, (List.length toks <= n)%nat -> fields acc toks = Ok (fs, tr) -> Forall complete_field fs ->
  exists l, toks = l ++ map attr_tok (match fs with [] => skipn (List.length acc) tr | _ => tr end) /\
    match fs with
    | [] => l = [] /\ firstn (List.length acc) tr = acc
    | f :: fs' => exists ats l', fd_attrs f = acc ++ ats /\ l = map attr_tok ats ++ l' /\ fields_toks (mk_fdecl [] (fd_type f) (fd_name f) :: fs') l'
    end.
Proof.
  induction n as [|n IH]; intros toks acc fs tr Hn.
  - destruct toks as [|]; [|cbn in Hn; lia]. cbn [fields]. intros E _. apply Ok_inj in E. injection E as <- <-. exists [].
    rewrite skipn_all, firstn_all. repeat split.
  - destruct toks as [|[t|d l|] rest]; cbn [fields].
    + intros E _. apply Ok_inj in E. injection E as <- <-. exists []. rewrite skipn_all, firstn_all. repeat split.
    + cbn [List.length] in Hn.
      assert (K: forall n0 rest' ty r, (List.length rest' < n)%nat -> fields [] rest' = Ok r -> forall lt, type_toks ty lt ->
        Forall complete_field (fst r) ->
        exists l, (lt ++ [Id n0]) ++ rest' = l ++ map attr_tok (snd r) /\
          exists ats l', acc = acc ++ ats /\ l = map attr_tok ats ++ l' /\ fields_toks (mk_fdecl [] ty n0 :: fst r) l').
      { intros n0 rest' ty [fs' tr'] Hl Er lt Hlt Hcf. cbn [fst snd] in *. destruct (IH rest' [] fs' tr' ltac:(lia) Er Hcf) as (l1 & E1 & H1).
        destruct fs' as [|f fs'].
        - destruct H1 as [-> _]. cbn [app skipn List.length] in E1. exists (lt ++ [Id n0]). split; [now rewrite E1|].
          exists [], (lt ++ [Id n0]). split; [now rewrite app_nil_r|]. split; [reflexivity|]. rewrite <- (app_nil_r (lt ++ [Id n0])). constructor; [|constructor].
          exact (ft [] ty n0 lt Hlt).
        - destruct H1 as (ats & l' & Ha & El & Hf). cbn [app] in Ha. exists ((lt ++ [Id n0]) ++ l1). split; [rewrite E1; now rewrite !app_assoc|].
          exists [], ((lt ++ [Id n0]) ++ l1). split; [now rewrite app_nil_r|]. split; [reflexivity|]. constructor; [exact (ft [] ty n0 lt Hlt)|].
          inversion Hf as [|f0 fs0 la lb Hfa Hfb]; subst. inversion Hfa; subst. rewrite app_assoc. constructor; [|exact Hfb].
          destruct f as [fa fty fn]. cbn [fd_attrs fd_type fd_name] in *. try subst fa. cbn [map app]. now constructor. }
      destruct (wrapper_of t) as [k|] eqn:Ew.
      * destruct rest as [|g [|[n0| |] rest']]; try discriminate. destruct (expect_group (Some g) Parens) as [|s junk] eqn:Eg; [discriminate|].
        destruct (fields [] rest') as [r| |] eqn:Er; try discriminate. cbn [rbind]. intros E Hcf. apply Ok_inj in E. injection E as <- <-.
        inversion Hcf as [|? ? Hc1 Hc2]; subst.
        assert (Hg: g = Group Parens (s :: junk) /\ s <> Id "compile_error").
        { unfold expect_group in Eg. destruct g as [|d l|]; try (injection Eg as <- _; exfalso; exact (Hc1 k eq_refl)).
          destruct (delim_eqb d Parens) eqn:Ed; [|injection Eg as <- _; exfalso; exact (Hc1 k eq_refl)].
          apply delim_eqb_eq in Ed. subst. split; [reflexivity|]. intros ->. exact (Hc1 k eq_refl). }
        destruct Hg as [-> Hs]. cbn [List.length] in Hn.
        destruct (K n0 rest' (Wrapped k s) r ltac:(lia) Er [Id t; Group Parens (s :: junk)]) as (l & El & H); [|exact Hc2|].
        { constructor; [now apply wrapper_of_in|exact Hs]. }
        exists l. split; [exact El|exact H].
      * destruct rest as [|[n0| |] rest']; try discriminate. destruct (fields [] rest') as [r| |] eqn:Er; try discriminate. cbn [rbind].
        intros E Hcf. apply Ok_inj in E. injection E as <- <-. inversion Hcf as [|? ? Hc1 Hc2]; subst. cbn [List.length] in Hn.
        destruct (K n0 rest' (if special t then Special t else Named t) r ltac:(lia) Er [Id t]) as (l & El & H); [|exact Hc2|].
        { destruct (special t) eqn:Es; [constructor; now apply special_in|]. constructor; [now apply wrapper_of_none|]. rewrite <- special_in. congruence. }
        exists l. split; [exact El|exact H].
    + destruct d; try discriminate. destruct (field_pragma l) as [a|] eqn:Ea; [|discriminate]. intros E Hcf. cbn [List.length] in Hn.
      apply field_pragma_spec in Ea. destruct (IH rest (acc ++ [a]) fs tr ltac:(lia) E Hcf) as (l1 & E1 & H1).
      destruct fs as [|f fs].
      * destruct H1 as [-> H1]. cbn [app] in E1. exists []. cbn [app]. split; [|split; [reflexivity|]].
        -- rewrite Ea, E1. rewrite app_length in H1 |- *. cbn [List.length] in H1 |- *.
           rewrite <- (firstn_skipn (List.length acc + 1) tr) at 2. rewrite H1. rewrite <- app_assoc. rewrite skipn_app, skipn_all, Nat.sub_diag. reflexivity.
        -- rewrite <- (firstn_skipn (List.length (acc ++ [a])) tr). rewrite H1, <- app_assoc. rewrite firstn_app, firstn_all, Nat.sub_diag. cbn. now rewrite app_nil_r.
      * destruct H1 as (ats & l' & Ha & El & Hf). exists (Group Bracket l :: l1). split; [cbn [app]; now rewrite E1|].
        exists (a :: ats), l'. split; [now rewrite Ha, <- app_assoc|]. split; [|exact Hf]. cbn [map app]. rewrite Ea, El. reflexivity.
    + discriminate.
Qed.
Lemma fields_iff toks fs tr : fields [] toks = Ok (fs, tr) /\ Forall complete_field fs <->
  exists l, toks = l ++ map attr_tok tr /\ fields_toks fs l.
Proof.
  split.
  - intros [E C]. destruct (fields_inv _ toks [] fs tr (le_n _) E C) as (l & El & H). exists l. destruct fs as [|f fs].
    + destruct H as [-> _]. split; [exact El|constructor].
    + split; [exact El|]. destruct H as (ats & l' & Ha & -> & Hf). cbn [app] in Ha. inversion Hf as [|f0 fs0 la lb Hfa Hfb]; subst. inversion Hfa; subst.
      rewrite app_assoc. constructor; [|exact Hfb]. destruct f as [fa fty fn]. cbn [fd_attrs fd_type fd_name] in *. try subst fa. cbn [map app]. now constructor.
  - intros (l & -> & H). split; [now apply fields_read|]. induction H as [|f fs l l' Hf _ IH]; constructor; [|exact IH].
    destruct Hf as [ats ty n l Ht]. intros k. cbn [fd_type]. destruct Ht; try discriminate. intros E. injection E as _ E. congruence.
Qed.

(** ** Tables *)
Fixpoint apply_pragmas (fl : flags) (ps : list string) : flags :=
  match ps with
  | [] => fl
  | p :: ps' => apply_pragmas (match table_pragma fl [Id p] with Some fl' => fl' | None => fl end) ps'
  end.
Lemma table_pragma_in fl l fl' : table_pragma fl l = Some fl' -> exists p, l = [Id p] /\ In p pragmas.
Proof.
  unfold table_pragma. destruct l as [|[s| |] [|]]; try discriminate.
  repeat match goal with |- context [if ?a =? ?b then _ else _] => destruct (String.eqb_spec a b); [subst; intros _; eexists; split; [reflexivity|cbn; tauto]|] end. discriminate.
Qed.
Lemma table_pragma_ok fl p : In p pragmas -> exists fl', table_pragma fl [Id p] = Some fl'.
Proof. cbn [pragmas In]. intros H. repeat destruct H as [H|H]; try contradiction; subst; eexists; reflexivity. Qed.
Definition joined (fl : flags) (ps : list string) : flags :=
  mk_flags (fl_embedded fl || has_pragma "embedded" ps) (fl_debug fl && negb (has_pragma "nodebug" ps))
    (fl_serialize fl && negb (has_pragma "noserialize" ps)) (fl_default fl || has_pragma "default" ps)
    (fl_deserialize fl && negb (has_pragma "nodeserialize" ps)).
Lemma has_cons p q ps : has_pragma p (q :: ps) = (p =? q) || has_pragma p ps.
Proof.
  unfold has_pragma. destruct (String.eqb_spec p q).
  - subst. destruct (in_dec string_dec q (q :: ps)) as [|H]; [reflexivity|]. exfalso. apply H. now left.
  - cbn [orb]. destruct (in_dec string_dec p (q :: ps)) as [[H|H]|H]; destruct (in_dec string_dec p ps) as [H'|H']; try reflexivity; try congruence; try contradiction.
    exfalso. apply H. now right.
Qed.
Lemma apply_joined ps : Forall (fun p => In p pragmas) ps -> forall fl, apply_pragmas fl ps = joined fl ps.
Proof.
  induction 1 as [|p ps Hp _ IH]; intros fl.
  - destruct fl as [[] [] [] [] []]; reflexivity.
  - cbn [apply_pragmas]. rewrite IH. unfold joined. rewrite !has_cons. cbn [pragmas In] in Hp.
    repeat destruct Hp as [Hp|Hp]; try contradiction; subst p; cbn; destruct fl as [[] [] [] [] []]; cbn; repeat match goal with |- context [has_pragma ?a ps] => destruct (has_pragma a ps) end; reflexivity.
Qed.
Lemma apply_flags ps : Forall (fun p => In p pragmas) ps -> apply_pragmas no_flags ps = flags_of ps.
Proof. intros H. rewrite (apply_joined ps H). reflexivity. Qed.
Lemma tables_pragmas ps : Forall (fun p => In p pragmas) ps -> forall n fl rest,
  tables (Some (n, fl)) (map pragma_tok ps ++ rest) = tables (Some (n, apply_pragmas fl ps)) rest.
Proof.
  induction 1 as [|p ps Hp _ IH]; intros n fl rest; [reflexivity|]. cbn [map app]. unfold pragma_tok at 1. cbn [tables].
  destruct (table_pragma_ok fl p Hp) as [fl' E]. rewrite E. cbn [apply_pragmas]. rewrite E. apply IH.
Qed.

Lemma expand_read ds l : decls_toks ds l -> expand l = Ok ds.
Proof.
  unfold expand. induction 1 as [|d ds l l' Hd _ IH]; [reflexivity|]. destruct Hd as [n ps fs tr body Hps Hb].
  cbn [app tables]. rewrite <- !app_assoc. rewrite (tables_pragmas ps Hps). cbn [app tables expect_group delim_eqb].
  rewrite (fields_read fs body tr Hb). cbn [rbind]. rewrite IH. cbn [rbind fst snd]. now rewrite (apply_flags ps Hps).
Qed.
Lemma fields_error acc : fields acc error_toks = Panic.
Proof. reflexivity. Qed.
Lemma tables_inv toks : forall st ds, tables st toks = Ok ds -> complete_decls ds ->
  match st with
  | None => decls_toks ds toks
  | Some (n, fl) => exists ps fs tr body ds' rest, Forall (fun p => In p pragmas) ps /\ fields_toks fs body /\ decls_toks ds' rest /\
      ds = mk_decl n (apply_pragmas fl ps) fs tr :: ds' /\ toks = map pragma_tok ps ++ Group Brace (body ++ map attr_tok tr) :: rest
  end.
Proof.
  induction toks as [|t toks IH]; intros [[n fl]|] ds E C.
  - cbn [tables expect_group] in E. rewrite fields_error in E. discriminate.
  - cbn [tables] in E. apply Ok_inj in E. subst. constructor.
  - assert (B: forall d l, t = Group d l -> d = Brace -> exists fs tr body ds', fields_toks fs body /\ decls_toks ds' toks /\
        ds = mk_decl n fl fs tr :: ds' /\ l = body ++ map attr_tok tr).
    { intros d l -> ->. cbn [tables expect_group delim_eqb] in E. destruct (fields [] l) as [[fs tr]| |] eqn:Ef; try discriminate. cbn [rbind fst snd] in E.
      destruct (tables None toks) as [ds'| |] eqn:Et; try discriminate. cbn [rbind] in E. apply Ok_inj in E. subst ds. inversion C as [|? ? C1 C2]; subst.
      destruct (proj1 (fields_iff l fs tr) (conj Ef C1)) as (body & El & Hb). exists fs, tr, body, ds'. repeat split; auto. exact (IH None ds' Et C2). }
    destruct t as [s|d l|]; [cbn [tables expect_group] in E; rewrite fields_error in E; discriminate| |cbn [tables expect_group] in E; rewrite fields_error in E; discriminate].
    destruct d.
    + destruct (B Brace l eq_refl eq_refl) as (fs & tr & body & ds' & H1 & H2 & -> & ->). exists [], fs, tr, body, ds', toks. repeat split; auto.
    + cbn [tables] in E. destruct (table_pragma fl l) as [fl'|] eqn:Ep; [|discriminate]. destruct (table_pragma_in _ _ _ Ep) as (p & -> & Hp).
      destruct (IH (Some (n, fl')) ds E C) as (ps & fs & tr & body & ds' & rest & H1 & H2 & H3 & -> & ->).
      exists (p :: ps), fs, tr, body, ds', rest. split; [now constructor|]. split; [exact H2|]. split; [exact H3|]. split; [|reflexivity]. cbn [apply_pragmas]. now rewrite Ep.
    + cbn [tables expect_group delim_eqb] in E. rewrite fields_error in E. discriminate.
    + cbn [tables expect_group delim_eqb] in E. rewrite fields_error in E. discriminate.
  - destruct t as [s| |]; try discriminate. cbn [tables] in E.
    destruct (IH (Some (s, no_flags)) ds E C) as (ps & fs & tr & body & ds' & rest & H1 & H2 & H3 & -> & ->).
    change (Id s :: map pragma_tok ps ++ Group Brace (body ++ map attr_tok tr) :: rest) with ([Id s] ++ map pragma_tok ps ++ [Group Brace (body ++ map attr_tok tr)] ++ rest).
    rewrite !app_assoc. constructor; [|exact H3]. rewrite <- app_assoc. rewrite (apply_flags ps H1). now constructor.
Qed.
Lemma decls_complete ds l : decls_toks ds l -> complete_decls ds.
Proof.
  induction 1 as [|d ds l l' Hd _ IH]; constructor; [|exact IH]. destruct Hd as [n ps fs tr body Hps Hb]. cbn [d_fields].
  destruct (proj2 (fields_iff (body ++ map attr_tok tr) fs tr)) as [_ H]; [|exact H]. exists body. now split.
Qed.
Lemma expand_iff toks ds : expand toks = Ok ds /\ complete_decls ds <-> decls_toks ds toks.
Proof.
  split.
  - intros [E C]. exact (tables_inv toks None ds E C).
  - intros H. split; [now apply expand_read|]. eapply decls_complete; eauto.
Qed.
Lemma fields_no_err n : forall toks acc, (List.length toks <= n)%nat -> fields acc toks <> Err.
Proof.
  induction n as [|n IH]; intros toks acc Hn.
  - destruct toks; [discriminate|cbn in Hn; lia].
  - destruct toks as [|[t|d l|] rest]; cbn [fields List.length] in *; try discriminate.
    + destruct (wrapper_of t).
      * destruct rest as [|g [|[n0| |] rest']]; try discriminate. destruct (expect_group _ _); [discriminate|]. cbn [List.length] in Hn.
        pose proof (IH rest' [] ltac:(lia)). destruct (fields [] rest'); cbn [rbind]; congruence.
      * destruct rest as [|[n0| |] rest']; try discriminate. cbn [List.length] in Hn. pose proof (IH rest' [] ltac:(lia)). destruct (fields [] rest'); cbn [rbind]; congruence.
    + destruct d; try discriminate. destruct (field_pragma l); [|discriminate]. apply IH. lia.
Qed.
Lemma tables_no_err toks : forall st, tables st toks <> Err.
Proof.
  induction toks as [|t toks IH]; intros [[n fl]|]; try discriminate.
  - cbn [tables]. assert (B: forall l, (b <- fields [] l ;; ds <- tables None toks ;; Ok (mk_decl n fl (fst b) (snd b) :: ds)) <> Err).
    { intros l. pose proof (fields_no_err _ l [] (le_n _)). destruct (fields [] l); cbn [rbind]; try congruence. pose proof (IH None). destruct (tables None toks); cbn [rbind]; congruence. }
    destruct t as [s|[] l|]; try apply B. destruct (table_pragma fl l); [apply IH|discriminate].
  - destruct t; try discriminate. cbn [tables]. apply IH.
Qed.

(** Contextual lookups: crates/otspec/src/layout/contextual.rs and
    src/layout/contextual.rs.  The GSUB and GPOS variants are the same code. *)
From Verif.Model Require Import MBase MMap MOffset MLayout MLow.

(** ** Low level *)
(** SequenceLookupRecord, otspec contextual.rs:10-13 *)
Definition lookup_record : Type := Z * Z.
Definition lr_ser (r : lookup_record) : list Z := ser_u16 (fst r) ++ ser_u16 (snd r).
Definition lr_de : parser lookup_record := a <-- de_u16 ;; b <-- de_u16 ;; pret (a, b).

(** SequenceRule, otspec contextual.rs:69-74 *)
Record seq_rule := mk_seq_rule { sr_count : Z; sr_lookups : Z; sr_input : list Z; sr_records : list lookup_record }.
(** otspec contextual.rs:76-91; [glyphCount as usize - 1] *)
Definition sr_de : parser seq_rule :=
  n <-- de_u16 ;; k <-- de_u16 ;;
  if n =? 0 then ppanic else
  i <-- de_counted de_u16 (Z.to_nat (n - 1)) ;;
  r <-- de_counted lr_de (Z.to_nat k) ;;
  pret (mk_seq_rule n k i r).
(** ChainedSequenceRule, otspec contextual.rs:127-136 *)
Record chain_rule := mk_chain_rule {
  cr_back : list Z; cr_count : Z; cr_input : list Z; cr_ahead : list Z; cr_records : list lookup_record }.
(** otspec contextual.rs:138-163 *)
Definition cr_de : parser chain_rule :=
  b <-- de_words ;;
  n <-- de_u16 ;;
  if n =? 0 then ppanic else
  i <-- de_counted de_u16 (Z.to_nat (n - 1)) ;;
  a <-- de_words ;;
  r <-- de_counted16 lr_de ;;
  pret (mk_chain_rule b n i a r).

Definition rules (R : Type) : Type := list (option (list (option R))).
(** SequenceContextFormat1-3, otspec contextual.rs:14-35, 94-102.  The class
    definitions are maps (ClassDef). *)
Inductive seq_low :=
| SC1 (format : Z) (cov : option (list Z)) (sets : rules seq_rule)
| SC2 (format : Z) (cov : option (list Z)) (classes : option classdef) (sets : rules seq_rule)
| SC3 (format count lookups : Z) (covs : list (option (list Z))) (records : list lookup_record).
(** ChainedSequenceContextFormat1-3, otspec contextual.rs:36-65 *)
Inductive chain_low :=
| CC1 (format : Z) (cov : option (list Z)) (sets : rules chain_rule)
| CC2 (format : Z) (cov : option (list Z)) (back input ahead : option classdef) (sets : rules chain_rule)
| CC3 (format : Z) (back input ahead : list (option (list Z))) (records : list lookup_record).

(** SequenceRuleSet, ChainedSequenceRuleSet *)
Definition set_de {R} (p : parser R) : parser (list (option R)) := with_base (de_vec16 p).
Definition sc1_de : parser seq_low := with_base (
  f <-- de_u16 ;; c <-- de_cov ;; s <-- de_vec16 (set_de sr_de) ;; pret (SC1 f c s)).
Definition sc2_de : parser seq_low := with_base (
  f <-- de_u16 ;; c <-- de_cov ;; k <-- de_off16 cd_de ;; s <-- de_vec16 (set_de sr_de) ;; pret (SC2 f c k s)).
(** otspec contextual.rs:104-124 *)
Definition sc3_de : parser seq_low := with_base (
  f <-- de_u16 ;; n <-- de_u16 ;; k <-- de_u16 ;;
  c <-- de_counted de_cov (Z.to_nat n) ;; r <-- de_counted lr_de (Z.to_nat k) ;; pret (SC3 f n k c r)).
Definition cc1_de : parser chain_low := with_base (
  f <-- de_u16 ;; c <-- de_cov ;; s <-- de_vec16 (set_de cr_de) ;; pret (CC1 f c s)).
Definition cc2_de : parser chain_low := with_base (
  f <-- de_u16 ;; c <-- de_cov ;; b <-- de_off16 cd_de ;; i <-- de_off16 cd_de ;; a <-- de_off16 cd_de ;;
  s <-- de_vec16 (set_de cr_de) ;; pret (CC2 f c b i a s)).
Definition cc3_de : parser chain_low := with_base (
  f <-- de_u16 ;; b <-- de_vec16 cov_de ;; i <-- de_vec16 cov_de ;; a <-- de_vec16 cov_de ;;
  r <-- de_counted16 lr_de ;; pret (CC3 f b i a r)).
(** deserialize_gpos7 / deserialize_gsub5, otspec contextual.rs:165-182, 204-221 *)
Definition seq_de : parser seq_low := by_format (fun s =>
  match s with [0; 1] => sc1_de | [0; 2] => sc2_de | [0; 3] => sc3_de | _ => perr end).
(** deserialize_gpos8 / deserialize_gsub6, otspec contextual.rs:184-202, 223-241 *)
Definition chain_de : parser chain_low := by_format (fun s =>
  match s with [0; 1] => cc1_de | [0; 2] => cc2_de | [0; 3] => cc3_de | _ => perr end).

(** The derived [Serialize] of SequenceContextFormat3: its offsets are in a
    plain [Vec<Offset16<Coverage>>], which is neither a [VecOffset16] nor marked
    [embed], so the derive macro (otspec_macros/src/ser.rs:170-194) does not
    report them and the offset manager never sets them: an offset with a target
    that was just made by [Offset16::to] has no number, and writing it fails
    (offsets.rs:177-188).  An offset to nothing writes 0.
    Formats 1 and 2 are never produced by [to_lowlevel] and their writing is not
    modelled. *)
Definition plain_links (l : list (option (list Z))) : res (list Z) :=
  bss <- rmapM (fun o => match o with None => Ok (ser_u16 0) | Some _ => Err end) l ;; Ok (concat bss).
Definition seq_enc (s : seq_low) : res obj :=
  match s with
  | SC3 f n k covs recs =>
      c <- plain_links covs ;;
      Ok (raw (ser_u16 f ++ ser_u16 n ++ ser_u16 k ++ c ++ concat (map lr_ser recs)))
  | _ => Panic
  end.
(** The derived [Serialize] of ChainedSequenceContextFormat3 *)
Definition chain_enc (s : chain_low) : res obj :=
  match s with
  | CC3 f b i a recs =>
      b' <- vec_enc cov_enc b ;;
      i' <- vec_enc cov_enc i ;;
      a' <- vec_enc cov_enc a ;;
      Ok (raw (ser_u16 f) ++ b' ++ i' ++ a' ++
          raw (ser_u16 (u16 (Z.of_nat (length recs))) ++ concat (map lr_ser recs)))
  | _ => Panic
  end.

(** ** High level *)
(** Slot = BTreeSet<GlyphID>; SequenceContextRule, contextual.rs:15-17 *)
Definition slot := list Z.
Definition context_rule : Type := list (slot * list Z).
(** coverage_to_slot, contextual.rs:27-34 *)
Definition cov_to_slot (o : option (list Z)) : slot := bs_of_list (cov_or_nah o).
(** collate_lookup_records, contextual.rs:39-53 *)
Fixpoint collate_from (i : nat) (slots : list slot) (recs : list lookup_record) : context_rule :=
  match slots with
  | [] => []
  | g :: slots' =>
      (g, map snd (filter (fun r : lookup_record => fst r =? Z.of_nat i) recs)) :: collate_from (S i) slots' recs
  end.
Definition collate (slots : list slot) (recs : list lookup_record) : context_rule := collate_from 0 slots recs.

(** The rules of a rule set; null offsets are skipped (contextual.rs:62-65) *)
Definition set_rules {R} (o : option (list (option R))) : list R :=
  match o with None => [] | Some l => concat (map (fun r => match r with Some x => [x] | None => [] end) l) end.
(** SequenceContext::from_lowlevel_format1/2/3, contextual.rs:56-112; [max] is
    max_glyph_id *)
Definition seq_from_low (max : Z) (s : seq_low) : list context_rule :=
  match s with
  | SC1 _ cov sets =>
      concat (map (fun gs => map (fun r => collate (map (fun g => [g]) (fst gs :: sr_input r)) (sr_records r)) (set_rules (snd gs)))
                  (combine (cov_or_nah cov) sets))
  | SC2 _ _ classes sets =>
      let cd := match classes with Some m => m | None => [] end in
      concat (map (fun cs => map (fun r => collate (map (fun c => cd_get_glyphs cd c max) (u16 (Z.of_nat (fst cs)) :: sr_input r)) (sr_records r))
                                 (set_rules (snd cs)))
                  (combine (seq 0 (length sets)) sets))
  | SC3 _ _ _ covs recs => [collate (map cov_to_slot covs) recs]
  end.
(** ChainedSequenceContextRule, contextual.rs:183-197 *)
Record chained_rule := mk_chained { ch_back : list slot; ch_ahead : list slot; ch_input : context_rule }.
(** ChainedSequenceContext::from_lowlevel_format1/2/3, contextual.rs:207-314 *)
Definition chain_from_low (max : Z) (s : chain_low) : list chained_rule :=
  match s with
  | CC1 _ cov sets =>
      concat (map (fun gs => map (fun r => mk_chained (map (fun g => [g]) (cr_back r)) (map (fun g => [g]) (cr_ahead r))
                                             (collate (map (fun g => [g]) (fst gs :: cr_input r)) (cr_records r)))
                                 (set_rules (snd gs)))
                  (combine (cov_or_nah cov) sets))
  | CC2 _ _ back input ahead sets =>
      let cd o := match o with Some m => m | None => [] end in
      concat (map (fun cs => map (fun r => mk_chained (map (fun c => cd_get_glyphs (cd back) c max) (cr_back r))
                                             (map (fun c => cd_get_glyphs (cd ahead) c max) (cr_ahead r))
                                             (collate (map (fun c => cd_get_glyphs (cd input) c max) (u16 (Z.of_nat (fst cs)) :: cr_input r)) (cr_records r)))
                                 (set_rules (snd cs)))
                  (combine (seq 0 (length sets)) sets))
  | CC3 _ back input ahead recs =>
      [mk_chained (map cov_to_slot back) (map cov_to_slot ahead) (collate (map cov_to_slot input) recs)]
  end.

(** The lookup records of a rule, contextual.rs:151-164, 343-356 *)
Fixpoint rule_records (i : nat) (r : context_rule) : list lookup_record :=
  match r with
  | [] => []
  | (_, ids) :: r' => map (fun id => (u16 (Z.of_nat i), id)) ids ++ rule_records (S i) r'
  end.
(** SequenceContext::to_format3, contextual.rs:143-175 *)
Definition seq_to_low (r : context_rule) : seq_low :=
  let recs := rule_records 0 r in
  SC3 3 (u16 (Z.of_nat (length r))) (u16 (Z.of_nat (length recs))) (map (fun sl => Some (fst sl)) r) recs.
(** ChainedSequenceContext::to_format3, contextual.rs:319-366 *)
Definition chain_to_low (r : chained_rule) : chain_low :=
  CC3 3 (map Some (ch_back r)) (map (fun sl => Some (fst sl)) (ch_input r)) (map Some (ch_ahead r)) (rule_records 0 (ch_input r)).

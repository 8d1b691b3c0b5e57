(** Value semantics: every place holds its own copy. *)
From Verif.Model Require Import MBase MCow.

Definition vals (V : Type) := place -> option V.
Definition vset {V} (p : place) (v : option V) (e : vals V) : vals V :=
  fun q => if place_eqb q p then v else e q.

(** What one operation does when each place holds a value of its own. *)
Definition vstep {V} (o : cop V) (e : vals V) : option V * vals V :=
  match o with
  | CNew v n => (None, vset (InVar n) (Some v) e)
  | CGet tag n => (None, match e (InFont tag) with None => e | Some v => vset (InVar n) (Some v) e end)
  | CClone n n' => (None, match e (InVar n) with None => e | Some v => vset (InVar n') (Some v) e end)
  | CModify n f => (None, match e (InVar n) with None => e | Some v => vset (InVar n) (Some (f v)) e end)
  | CInsert n tag => (None, match e (InVar n) with
                            | None => e
                            | Some v => vset (InFont tag) (Some v) (vset (InVar n) None e)
                            end)
  | CRemove tag => (None, vset (InFont tag) None e)
  | CDrop n => (None, vset (InVar n) None e)
  | CIntoOwned n => (e (InVar n), vset (InVar n) None e)
  | CRead p => (e p, e)
  end.
Fixpoint vrun {V} (ops : list (cop V)) (e : vals V) : list (option V) :=
  match ops with
  | [] => []
  | o :: ops' => let '(v, e1) := vstep o e in v :: vrun ops' e1
  end.

(** Ordered maps: std::collections::BTreeMap / BTreeSet, as association lists
    kept in increasing key order.  [ltb] is the key order ([Ord]). *)
From Verif.Model Require Import MBase.

Section BTreeMap.
  Context {K V : Type} (ltb : K -> K -> bool).

  (** BTreeMap::insert (replaces an existing entry with an equal key) *)
  Fixpoint bm_insert (k : K) (v : V) (m : list (K * V)) : list (K * V) :=
    match m with
    | [] => [(k, v)]
    | (k', v') :: m' =>
        if ltb k k' then (k, v) :: m
        else if ltb k' k then (k', v') :: bm_insert k v m'
        else (k, v) :: m'
    end.

  (** BTreeMap::get *)
  Fixpoint bm_get (k : K) (m : list (K * V)) : option V :=
    match m with
    | [] => None
    | (k', v') :: m' => if ltb k k' || ltb k' k then bm_get k m' else Some v'
    end.

  (** BTreeMap::remove (the map part) *)
  Fixpoint bm_remove (k : K) (m : list (K * V)) : list (K * V) :=
    match m with
    | [] => []
    | (k', v') :: m' => if ltb k k' || ltb k' k then (k', v') :: bm_remove k m' else m'
    end.

  (** collect() into a BTreeMap: later entries win *)
  Definition bm_of_list (l : list (K * V)) : list (K * V) :=
    fold_left (fun m kv => bm_insert (fst kv) (snd kv) m) l [].
End BTreeMap.

(** BTreeSet<u16/u32/...>::insert and collect() *)
Fixpoint bs_insert (k : Z) (s : list Z) : list Z :=
  match s with
  | [] => [k]
  | x :: s' => if k <? x then k :: s else if x <? k then x :: bs_insert k s' else s
  end.
Definition bs_of_list (l : list Z) : list Z := fold_left (fun s k => bs_insert k s) l [].

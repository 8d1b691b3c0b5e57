(** Reference-counted table handles: src/table_store.rs:122-185, 525-600 *)
From Verif.Model Require Import MBase.

(** Where a reference to a table can live: in the font under a tag, or in a
    variable of the program. *)
Inductive place := InFont (tag : Z) | InVar (n : Z).
Definition place_eqb (a b : place) : bool :=
  match a, b with
  | InFont x, InFont y => x =? y
  | InVar x, InVar y => x =? y
  | _, _ => false
  end.

Section Cow.
Context {V : Type}.

(** An allocation of [Rc]: the value and the number of strong references;
    [None] once freed.  No weak references are ever made. *)
Definition cell := option (V * nat).
Definition heap := list cell.
Definition refs := list (place * nat).
Record mem := mk_mem { m_heap : heap; m_refs : refs }.
Definition mem0 : mem := mk_mem [] [].

Definition heap_set (h : heap) (a : nat) (c : cell) : heap := firstn a h ++ c :: skipn (S a) h.
Fixpoint ref_get (p : place) (rs : refs) : option nat :=
  match rs with
  | [] => None
  | (q, a) :: rs' => if place_eqb p q then Some a else ref_get p rs'
  end.
Fixpoint ref_del (p : place) (rs : refs) : refs :=
  match rs with
  | [] => []
  | (q, a) :: rs' => if place_eqb p q then ref_del p rs' else (q, a) :: ref_del p rs'
  end.

(** Reading through a reference; a freed cell would be a use after free. *)
Definition deref (h : heap) (a : nat) : res V :=
  match nth_error h a with Some (Some (v, _)) => Ok v | _ => Panic end.
(** [Rc::clone] *)
Definition retain (h : heap) (a : nat) : res heap :=
  match nth_error h a with Some (Some (v, c)) => Ok (heap_set h a (Some (v, S c))) | _ => Panic end.
(** dropping an [Rc] *)
Definition release (h : heap) (a : nat) : res heap :=
  match nth_error h a with
  | Some (Some (v, S (S c))) => Ok (heap_set h a (Some (v, S c)))
  | Some (Some (v, _)) => Ok (heap_set h a None)
  | _ => Panic
  end.
(** [Rc::new] *)
Definition alloc (h : heap) (v : V) : heap * nat := (h ++ [Some (v, 1%nat)], length h).

(** Dropping what a place holds, if anything. *)
Definition clear (p : place) (m : mem) : res mem :=
  match ref_get p (m_refs m) with
  | None => Ok m
  | Some a => h <- release (m_heap m) a ;; Ok (mk_mem h (ref_del p (m_refs m)))
  end.
(** Storing a reference that is already counted. *)
Definition store_ref (p : place) (a : nat) (m : mem) : res mem :=
  m' <- clear p m ;; Ok (mk_mem (m_heap m') ((p, a) :: m_refs m')).

Inductive cop :=
| CNew (v : V) (n : Z)              (* let n = a table made from a value *)
| CGet (tag n : Z)                  (* let n = font.tables.xxxx() : 244-250, 592-594 *)
| CClone (n n' : Z)                 (* let n' = n.clone() *)
| CModify (n : Z) (f : V -> V)      (* a change through DerefMut : 181-185 *)
| CInsert (n tag : Z)               (* font.tables.insert(n) : 296-301, 567-572 *)
| CRemove (tag : Z)                 (* font.tables.remove : 274-278 *)
| CDrop (n : Z)
| CIntoOwned (n : Z)                (* n.into_owned() : 165-170 *)
| CRead (p : place).                (* reading a handle, or the table in the font *)

(** [None]: the operation does not apply (the variable or table is absent). *)
Definition cstep (o : cop) (m : mem) : res (option V * mem) :=
  match o with
  | CNew v n => let '(h, a) := alloc (m_heap m) v in m' <- store_ref (InVar n) a (mk_mem h (m_refs m)) ;; Ok (None, m')
  | CGet tag n =>
      match ref_get (InFont tag) (m_refs m) with
      | None => Ok (None, m)
      | Some a => h <- retain (m_heap m) a ;; m' <- store_ref (InVar n) a (mk_mem h (m_refs m)) ;; Ok (None, m')
      end
  | CClone n n' =>
      match ref_get (InVar n) (m_refs m) with
      | None => Ok (None, m)
      | Some a => h <- retain (m_heap m) a ;; m' <- store_ref (InVar n') a (mk_mem h (m_refs m)) ;; Ok (None, m')
      end
  | CModify n f =>
      match ref_get (InVar n) (m_refs m) with
      | None => Ok (None, m)
      | Some a =>
          match nth_error (m_heap m) a with
          | Some (Some (v, c)) =>
              (* Rc::make_mut *)
              if (c =? 1)%nat then Ok (None, mk_mem (heap_set (m_heap m) a (Some (f v, c))) (m_refs m))
              else let '(h, a') := alloc (m_heap m) v in
                   h' <- release h a ;;
                   Ok (None, mk_mem (heap_set h' a' (Some (f v, 1%nat))) ((InVar n, a') :: ref_del (InVar n) (m_refs m)))
          | _ => Panic
          end
      end
  | CInsert n tag =>
      match ref_get (InVar n) (m_refs m) with
      | None => Ok (None, m)
      | Some a => m' <- store_ref (InFont tag) a (mk_mem (m_heap m) (ref_del (InVar n) (m_refs m))) ;; Ok (None, m')
      end
  | CRemove tag => m' <- clear (InFont tag) m ;; Ok (None, m')
  | CDrop n => m' <- clear (InVar n) m ;; Ok (None, m')
  | CIntoOwned n =>
      match ref_get (InVar n) (m_refs m) with
      | None => Ok (None, m)
      | Some a =>
          (* try_unwrap when unique, a clone of the value otherwise; the handle is gone either way *)
          v <- deref (m_heap m) a ;; m' <- clear (InVar n) m ;; Ok (Some v, m')
      end
  | CRead p =>
      match ref_get p (m_refs m) with
      | None => Ok (None, m)
      | Some a => v <- deref (m_heap m) a ;; Ok (Some v, m)
      end
  end.
Fixpoint crun (ops : list cop) (m : mem) : res (list (option V) * mem) :=
  match ops with
  | [] => Ok ([], m)
  | o :: ops' => ' (v, m1) <- cstep o m ;; ' (vs, m2) <- crun ops' m1 ;; Ok (v :: vs, m2)
  end.
End Cow.
Arguments cop : clear implicits.
Arguments mem : clear implicits.

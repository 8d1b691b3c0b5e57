(** Offsets and the offset manager: crates/otspec/src/{offsets,offsetmanager}.rs
    and the derive macros of crates/otspec_macros. *)
From Coq Require Import List ZArith Bool Lia.
Import ListNotations.
From Verif.Model Require Import MBase.
Open Scope Z_scope.

(** ** Objects

    What the derived [Serialize] (otspec_macros/src/ser.rs:10-83) sees of a
    value: the bytes of its plain fields, its offset fields, and embedded
    structures, arrays of structures and arrays of offsets ([IGroup]), in field
    order.  An offset is what [Offset<T,U>] (offsets.rs:37-43) is once the
    stored number, which is recomputed before writing, is left out: a link to
    an object or to nothing.  Simplification: an absent [Option<Offset16<T>>]
    field writes no bytes and has no target; it is left out of the item list.
    [Far32] is the 32-bit offset of an extension subtable (otspec
    tables/GSUB.rs:34-39), which has its own reader and is never written. *)
Inductive off_kind := Off16 | Off32 | OptOff16 | Far32.
Inductive item :=
| IB (b : Z)
| IRef (k : off_kind) (o : option (list item))
| IGroup (l : list item).
Definition obj := list item.
Definition ref : Type := off_kind * option obj.

(** [std::mem::size_of::<U>()], offsets.rs:189-191 *)
Definition off_width (k : off_kind) : nat := match k with Off16 | OptOff16 => 2 | Off32 | Far32 => 4 end.

(** ot_binary_size (ser.rs:63-65, offsets.rs:189, counted.rs:18) *)
Fixpoint item_size (i : item) : nat :=
  match i with
  | IB _ => 1
  | IRef k _ => off_width k
  | IGroup l => list_sum (map item_size l)
  end.
Definition size (o : obj) : nat := list_sum (map item_size o).
(** object_size, offsets.rs:81-83 *)
Definition link_size (o : option obj) : nat := match o with Some l => size l | None => 0 end.

(** offset_fields (ser.rs:67-71): the offset fields in order, followed by the
    offset fields of the embedded parts in order. *)
Definition directs (l : list item) : list ref :=
  concat (map (fun i => match i with IRef k o => [(k, o)] | _ => [] end) l).
Fixpoint group_kids (i : item) : list ref :=
  match i with IGroup g => directs g ++ concat (map group_kids g) | _ => [] end.
Definition kids (o : obj) : list ref := directs o ++ concat (map group_kids o).
(** children, offsets.rs:76-78 *)
Definition link_kids (o : option obj) : list ref := match o with Some l => kids l | None => [] end.

(** ** The object graph

    offsetmanager.rs:22-33 builds a petgraph Graph with one node for every
    offset field below the root, whose edges lead from each node to its
    children; it is a tree, and a node is identified here by the path of child
    numbers that leads to it. *)
Definition path := list nat.
Record node := mk_node { nd_path : path; nd_kind : off_kind; nd_obj : option obj }.
Fixpoint number_kids (p : path) (i : nat) (ks : list ref) : list node :=
  match ks with
  | [] => []
  | (k, o) :: ks' => mk_node (p ++ [i]) k o :: number_kids p (S i) ks'
  end.
Definition node_kids (n : node) : list node := number_kids (nd_path n) 0 (link_kids (nd_obj n)).

Fixpoint item_nodes (i : item) : nat :=
  match i with
  | IB _ => 0
  | IRef _ None => 1
  | IRef _ (Some l) => S (list_sum (map item_nodes l))
  | IGroup l => list_sum (map item_nodes l)
  end.
Definition link_nodes (o : option obj) : nat := item_nodes (IRef Off16 o).

(** petgraph's [Topo] on a tree: a stack of nodes to visit; the visited node's
    children are pushed last child first (edges are iterated most recent
    first), so the first child is on top.  (On a tree every child has a single
    parent, which has just been visited.) *)
Fixpoint visit (fuel : nat) (stack : list node) : list node :=
  match fuel, stack with
  | S f, n :: st => n :: visit f (node_kids n ++ st)
  | _, _ => []
  end.
(** Offset16::to(obj), offsetmanager.rs:151, and the order of the traversals *)
Definition traversal (o : obj) : list node :=
  visit (link_nodes (Some o)) [mk_node [] Off16 (Some o)].

(** offsetmanager.rs:40-63, first pass: the edge into each node gets the
    position of the node; nothing is recorded while the counter is 0. *)
Fixpoint first_pass (counter : nat) (ns : list node) : list (path * nat) :=
  match ns with
  | [] => []
  | n :: ns' =>
      (if (0 <? counter)%nat then [(nd_path n, counter)] else []) ++
      first_pass (counter + link_size (nd_obj n)) ns'
  end.
Fixpoint path_eqb (p q : path) : bool :=
  match p, q with
  | [], [] => true
  | a :: p', b :: q' => Nat.eqb a b && path_eqb p' q'
  | _, _ => false
  end.
Fixpoint assoc {A} (p : path) (l : list (path * A)) : option A :=
  match l with
  | [] => None
  | (q, a) :: l' => if path_eqb p q then Some a else assoc p l'
  end.

(** offsets.rs:111-113 ([U::from_u32]: [None] if it does not fit) and
    offsets.rs:367-383 (the same for [Option<Offset>], which panics) *)
Definition set_offset (k : off_kind) (off : Z) : res (option Z) :=
  let v := u32 off in
  match k with
  | Off16 => Ok (try_u 16 v)
  | Off32 | Far32 => Ok (Some v)
  | OptOff16 => x <- unwrap (try_u 16 v) ;; Ok (Some x)
  end.
(** offsetmanager.rs:78-85, the children of one node; [is_explicitly_zero]
    (offsets.rs:104-108) is that there is no link *)
Fixpoint set_kids (edges : list (path * nat)) (base : nat) (ks : list node) : res (list (path * option Z)) :=
  match ks with
  | [] => Ok []
  | c :: ks' =>
      w <- unwrap (assoc (nd_path c) edges) ;;
      (if (w <? base)%nat then Panic else
       cell <- match nd_obj c with
               | None => Ok []
               | Some _ => v <- set_offset (nd_kind c) (Z.of_nat (w - base)) ;; Ok [(nd_path c, v)]
               end ;;
       r <- set_kids edges base ks' ;;
       Ok (cell ++ r))
  end.
(** offsetmanager.rs:65-88, second pass; [base] keeps its value when a node has
    no incoming edge *)
Fixpoint second_pass (edges : list (path * nat)) (base : nat) (ns : list node) : res (list (path * option Z)) :=
  match ns with
  | [] => Ok []
  | n :: ns' =>
      base' <- match nd_path n with [] => Ok base | _ => unwrap (assoc (nd_path n) edges) end ;;
      cells <- set_kids edges base' (node_kids n) ;;
      r <- second_pass edges base' ns' ;;
      Ok (cells ++ r)
  end.

(** ** Writing one object

    to_bytes_shallow (ser.rs:56-60) with the numbers that have been set: the
    offset fields write [off], or 0 without a link, or fail (offsets.rs:177-188).
    [val j] is the number set for the j-th of [kids]; the offset fields of a
    structure are numbered before those of its embedded parts. *)
Fixpoint emit_item (val : nat -> option Z) (i : item) (s : nat) {struct i} : res (list Z) :=
  match i with
  | IB b => Ok [b]
  | IRef k None => Ok (be_bytes (off_width k) 0)
  | IRef k (Some _) =>
      match val s with Some v => Ok (be_bytes (off_width k) v) | None => Err end
  | IGroup g =>
      (fix go (d gr : nat) (l : list item) {struct l} : res (list Z) :=
         match l with
         | [] => Ok []
         | i :: l' =>
             b <- emit_item val i (match i with IRef _ _ => d | _ => gr end) ;;
             r <- go (match i with IRef _ _ => S d | _ => d end) (gr + length (group_kids i))%nat l' ;;
             Ok (b ++ r)
         end) s (s + length (directs g))%nat g
  end.
Definition emit (val : nat -> option Z) (o : obj) : res (list Z) := emit_item val (IGroup o) 0.
(** offsetmanager.rs:94-113 and offsets.rs:114-119 *)
Fixpoint write_nodes (cells : list (path * option Z)) (ns : list node) : res (list Z) :=
  match ns with
  | [] => Ok []
  | n :: ns' =>
      b <- match nd_obj n with
           | None => Ok []
           | Some o => emit (fun j => match assoc (nd_path n ++ [j]) cells with Some v => v | None => None end) o
           end ;;
      r <- write_nodes cells ns' ;;
      Ok (b ++ r)
  end.

(** The derived [to_bytes] (ser.rs:26-54): the offsets are resolved, the object
    itself is written, then its descendants. *)
Definition to_bytes (o : obj) : res (list Z) :=
  let ns := traversal o in
  let edges := first_pass 0 ns in
  cells <- second_pass edges 0 ns ;;
  write_nodes cells ns.

(** ** Reading: offsets.rs:197-212.  A 32-bit offset above 65535 does not
    convert to u16 ([unwrap]). *)
Definition de_offset {A} (w32 : bool) (p : parser A) : parser (option A) :=
  off <-- (if w32 then de_u32 else de_u16) ;;
  if off =? 0 then pret None
  else fun r =>
    match unwrap (try_u 16 off) with
    | Ok v =>
        match follow_offset r v with
        | Ok r1 => match p r1 with
                   | Ok (x, r2) => Ok (Some x, mkrd (rd_input r2) (rd_ptr r) (rd_stack r2))
                   | Err => Err | Panic => Panic end
        | Err => Err | Panic => Panic end
    | Err => Err | Panic => Panic end.
Definition de_off16 {A} (p : parser A) : parser (option A) := de_offset false p.
Definition de_off32 {A} (p : parser A) : parser (option A) := de_offset true p.
(** A structure whose first field is marked [offset_base]: otspec_macros/src/de.rs:26-41, 55-59 *)
Definition with_base {A} (p : parser A) : parser A := fun r =>
  match p (rd_push r) with
  | Ok (x, r1) => match rd_pop r1 with Ok r2 => Ok (x, r2) | Err => Err | Panic => Panic end
  | Err => Err | Panic => Panic end.

(** Building items. *)
Definition raw (bs : list Z) : list item := map IB bs.

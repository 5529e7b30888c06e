(** Model of src/utki/tree.hpp with the addresses of nodes, for iterators that are kept while the tree changes.

    A node has an address. A pointer to a container is the address of the node whose children it holds ([None] for the roots, tree.hpp:166);
    a container iterator is the address of a node, or an address of its own for the end of each container. Addresses are never
    used again: an address that is no longer in memory is an invalid pointer or iterator, and using it is undefined.

    The container is std::vector or std::list (tree.hpp:47-63, container_templ). When a std::vector makes room, all its elements move
    ([realloc]), otherwise those behind the place of the insertion or erasure, and its end; a node that moves takes the buffer of its
    children along, so that these stay where they are, while the pointer to the container and the iterator of its end become invalid.
    The elements of a std::list never move. *)
From Verif Require Import Base TreeModel.

Inductive kind := Vector | List.
Notation addr := nat.

Section TreeMem.
Context {V : Type}.
Notation tree := (tree V).

(** address, value, end of the container of children, children *)
Inductive atree := ANode (a : addr) (v : V) (e : addr) (ch : list atree).
Definition a_addr (t : atree) : addr := match t with ANode a _ _ _ => a end.
Definition a_end (t : atree) : addr := match t with ANode _ _ e _ => e end.
Definition a_children (t : atree) : list atree := match t with ANode _ _ _ ch => ch end.
Fixpoint strip (t : atree) : tree := match t with ANode _ v _ ch => Node v (map strip ch) end.
(** a container: its end and its elements *)
Notation cont := (addr * list atree)%type.
Record mem := { top : cont; next : addr }.
Definition forest (m : mem) : list tree := map strip (snd (top m)).

Fixpoint all_nodes (t : atree) : list atree := match t with ANode a v e ch => ANode a v e ch :: flat_map all_nodes ch end.
Definition containers (m : mem) : list (option addr * cont) :=
  (None, top m) :: map (fun t => (Some (a_addr t), (a_end t, a_children t))) (flat_map all_nodes (snd (top m))).
(** the iterators of a container *)
Definition pointers (k : cont) : list addr := map a_addr (snd k) ++ [fst k].

Definition owner_eqb (a b : option addr) : bool :=
  match a, b with Some a, Some b => Nat.eqb a b | None, None => true | _, _ => false end.
Definition m_list (m : mem) (o : option addr) : outcome cont :=
  match find (fun x => owner_eqb (fst x) o) (containers m) with Some (_, k) => Ok k | None => UB UseAfterFree end.
(** the container an iterator belongs to *)
Definition locate (m : mem) (a : addr) : option (option addr * cont) := find (fun x => existsb (Nat.eqb a) (pointers (snd x))) (containers m).
Fixpoint position (a : addr) (l : list addr) : nat := match l with [] => 0 | b :: l => if Nat.eqb a b then 0 else S (position a l) end.
Definition m_place (m : mem) (a : addr) : outcome (option addr * cont * nat) :=
  match locate m a with Some (o, k) => Ok (o, k, position a (pointers k)) | None => UB UseAfterFree end.
Definition nth_or_ub {A} (l : list A) (n : nat) : outcome A := match nth_error l n with Some x => Ok x | None => UB OutOfBounds end.

Definition m_begin (m : mem) (o : option addr) : outcome addr := k <- m_list m o ;; nth_or_ub (pointers k) 0.
Definition m_end (m : mem) (o : option addr) : outcome addr := k <- m_list m o ;; Ok (fst k).
Definition m_deref (m : mem) (a : addr) : outcome atree := x <- m_place m a ;; let '(o, k, i) := x in nth_or_ub (snd k) i.
Definition m_inc (m : mem) (a : addr) : outcome addr := x <- m_place m a ;; let '(o, k, i) := x in nth_or_ub (pointers k) (S i).
Definition m_dec (m : mem) (a : addr) : outcome addr :=
  x <- m_place m a ;; let '(o, k, i) := x in match i with O => UB OutOfBounds | S i => nth_or_ub (pointers k) i end.
Definition m_eq (m : mem) (a b : addr) : outcome bool :=
  x <- m_place m a ;; y <- m_place m b ;;
  if owner_eqb (fst (fst x)) (fst (fst y)) then Ok (Nat.eqb a b) else UB ForeignIterator.

(** tree.hpp:218-242 *)
Record m_iterator := MIterator { m_lists : list (option addr); m_iters : list addr }.

(** tree.hpp:401-437 *)
Definition mem_deref (m : mem) (it : m_iterator) : outcome tree := i <- back (m_iters it) ;; t <- m_deref m i ;; Ok (strip t).

(** tree.hpp:287-295 and 869-874, the loop of operator++ and erase *)
Fixpoint mem_pop (m : mem) (checked : bool) (fuel : nat) (it : m_iterator) : outcome m_iterator :=
  match fuel with
  | O => Diverge
  | S fuel =>
      if negb (Nat.eqb (length (m_iters it)) 1) then
        i <- back (m_iters it) ;;
        c <- back (m_lists it) ;;
        e <- m_end m c ;;
        at_end <- m_eq m i e ;;
        if (at_end : bool) then
          ls <- pop_back (m_lists it) ;;
          is <- pop_back (m_iters it) ;;
          assert_ checked (Nat.eqb (length is) (length ls)) ;;;
          j <- back is ;;
          j <- m_inc m j ;;
          is <- set_back is j ;;
          mem_pop m checked fuel (MIterator ls is)
        else Ok it
      else Ok it
  end.
(** tree.hpp:268-298, operator++. [Some i] is [&iter->children] for the node at [i]. *)
Definition mem_incr (dbg : bool) (m : mem) (it : m_iterator) : outcome m_iterator :=
  assert_ dbg (nonempty (m_iters it)) ;;;
  assert_ dbg (Nat.eqb (length (m_iters it)) (length (m_lists it))) ;;;
  i <- back (m_iters it) ;;
  (if dbg then
     c <- back (m_lists it) ;;
     e <- m_end m c ;;
     b <- m_eq m i e ;;
     assert_ dbg (negb b)
   else Ok tt) ;;;
  t <- m_deref m i ;;
  if nonempty (a_children t) then
    let ls := push_back (m_lists it) (Some i) in
    b <- m_begin m (Some i) ;;
    Ok (MIterator ls (push_back (m_iters it) b))
  else
    i <- m_inc m i ;;
    is <- set_back (m_iters it) i ;;
    assert_ dbg (Nat.leb 1 (length is)) ;;;
    mem_pop m false (length is) (MIterator (m_lists it) is).
(** tree.hpp:317-328, the loop of operator-- *)
Fixpoint mem_descend (dbg : bool) (m : mem) (fuel : nat) (it : m_iterator) : outcome m_iterator :=
  match fuel with
  | O => Diverge
  | S fuel =>
      i <- back (m_iters it) ;;
      (if dbg then
         c <- back (m_lists it) ;;
         b <- m_begin m c ;;
         b <- m_eq m i b ;;
         assert_ dbg (negb b)
       else Ok tt) ;;;
      i <- m_dec m i ;;
      is <- set_back (m_iters it) i ;;
      t <- m_deref m i ;;
      if nonempty (a_children t) then
        e <- m_end m (Some i) ;;
        mem_descend dbg m fuel (MIterator (push_back (m_lists it) (Some i)) (push_back is e))
      else Ok (MIterator (m_lists it) is)
  end.
(** tree.hpp:306-331, operator-- *)
Definition mem_decr (dbg : bool) (m : mem) (it : m_iterator) : outcome m_iterator :=
  assert_ dbg (nonempty (m_iters it)) ;;;
  assert_ dbg (nonempty (m_lists it)) ;;;
  i <- back (m_iters it) ;;
  c <- back (m_lists it) ;;
  b <- m_begin m c ;;
  at_begin <- m_eq m i b ;;
  if (at_begin : bool) then
    is <- pop_back (m_iters it) ;;
    ls <- pop_back (m_lists it) ;;
    Ok (MIterator ls is)
  else mem_descend dbg m (S (size (forest m))) it.
(** tree.hpp:338-355, operator== *)
Fixpoint m_all_eq (m : mem) (a b : list addr) : outcome bool :=
  match a, b with
  | x :: a, y :: b => e <- m_eq m x y ;; if (e : bool) then m_all_eq m a b else Ok false
  | _, _ => Ok true
  end.
Definition mem_eq (m : mem) (a b : m_iterator) : outcome bool :=
  if Nat.eqb (length (m_iters a)) (length (m_iters b)) then m_all_eq m (m_iters a) (m_iters b) else Ok false.

(** Nodes that move get new addresses, from [n] on, and so do the ends of their containers; their children stay. *)
Fixpoint moved (n : addr) (l : list atree) : list atree :=
  match l with
  | [] => []
  | ANode _ v _ ch :: l => ANode n v (S n) ch :: moved (S (S n)) l
  end.
(** A tree is put into memory, from the address [n] on. *)
Fixpoint label (t : tree) (n : addr) : atree * addr :=
  match t with
  | Node v ch =>
      let '(ch, n') := (fix go (l : list tree) (n : addr) : list atree * addr :=
        match l with
        | [] => ([], n)
        | t :: l => let '(t, n) := label t n in let '(l, n) := go l n in (t :: l, n)
        end) ch (S (S n)) in
      (ANode n v (S n) ch, n')
  end.
(** The container of the node at [o] is replaced. *)
Fixpoint put (o : addr) (k : cont) (t : atree) : atree :=
  match t with ANode a v e ch => if Nat.eqb a o then ANode a v (fst k) (snd k) else ANode a v e (map (put o k) ch) end.
Definition put_cont (o : option addr) (k : cont) (top : cont) : cont :=
  match o with None => k | Some o => (fst top, map (put o k) (snd top)) end.

(** [c->insert(i, t)] *)
Definition insert_at (kd : kind) (realloc : bool) (n : addr) (k : cont) (i : nat) (t : tree) : cont * addr * addr :=
  let front := firstn i (snd k) in
  let rest := skipn i (snd k) in
  let '(new, n) := label t n in
  match kd with
  | List => ((fst k, front ++ new :: rest), a_addr new, n)
  | Vector =>
      let n1 := n + 2 * length front in
      let n2 := n1 + 2 * length rest in
      ((n2, (if realloc then moved n front else front) ++ new :: moved n1 rest), a_addr new, S n2)
  end.
Definition m_insert (kd : kind) (realloc : bool) (m : mem) (o : option addr) (a : addr) (t : tree) : outcome (mem * addr) :=
  k <- m_list m o ;;
  x <- m_place m a ;;
  let '(o', _, i) := x in
  if owner_eqb o o' then
    let '(k, new, n) := insert_at kd realloc (next m) k i t in
    Ok ({| top := put_cont o k (top m); next := n |}, new)
  else UB ForeignIterator.
(** [c->erase(i)] *)
Definition erase_at (kd : kind) (n : addr) (k : cont) (i : nat) : cont * addr :=
  let rest := skipn (S i) (snd k) in
  match kd with
  | List => ((fst k, firstn i (snd k) ++ rest), n)
  | Vector => let n1 := n + 2 * length rest in ((n1, firstn i (snd k) ++ moved n rest), S n1)
  end.
Definition m_erase (kd : kind) (m : mem) (o : option addr) (a : addr) : outcome (mem * addr) :=
  k <- m_list m o ;;
  x <- m_place m a ;;
  let '(o', _, i) := x in
  if owner_eqb o o' then
    if Nat.ltb i (length (snd k)) then
      let '(k, n) := erase_at kd (next m) k i in
      p <- nth_or_ub (pointers k) i ;;
      Ok ({| top := put_cont o k (top m); next := n |}, p)
    else UB OutOfBounds
  else UB ForeignIterator.

(** tree.hpp:812-829, insert *)
Definition mem_insert (kd : kind) (realloc : bool) (m : mem) (it : m_iterator) (t : tree) : outcome (mem * m_iterator) :=
  c <- back (m_lists it) ;;
  i <- back (m_iters it) ;;
  r <- m_insert kd realloc m c i t ;;
  is <- set_back (m_iters it) (snd r) ;;
  Ok (fst r, MIterator (m_lists it) is).
(** tree.hpp:840-858, insert_after *)
Definition mem_insert_after (kd : kind) (realloc : bool) (m : mem) (it : m_iterator) (t : tree) : outcome (mem * m_iterator) :=
  c <- back (m_lists it) ;;
  i <- back (m_iters it) ;;
  i <- m_inc m i ;;
  r <- m_insert kd realloc m c i t ;;
  is <- set_back (m_iters it) (snd r) ;;
  Ok (fst r, MIterator (m_lists it) is).
(** tree.hpp:866-876, erase *)
Definition mem_erase (dbg : bool) (kd : kind) (m : mem) (it : m_iterator) : outcome (mem * m_iterator) :=
  c <- back (m_lists it) ;;
  i <- back (m_iters it) ;;
  r <- m_erase kd m c i ;;
  is <- set_back (m_iters it) (snd r) ;;
  it <- mem_pop (fst r) dbg (length is) (MIterator (m_lists it) is) ;;
  Ok (fst r, it).
End TreeMem.
Arguments atree : clear implicits.
Arguments mem : clear implicits.

(** Model of src/utki/tree.hpp: tree and traversal with their iterators.

    A container of nodes is identified by the path to it: [] is the list of roots and [c ++ [i]] the
    children of element [i] of container [c]. A container iterator is a container and a position in
    it. The stacks of a traversal iterator are lists with the front of the vector first. Mixing
    iterators of different containers, leaving a container and dereferencing its end are
    undefined. *)
From Verif Require Import Base.

Notation path := (list nat).
(** Container iterator. *)
Notation citer := (path * nat)%type.

Section Tree.
Context {V : Type}.

(** tree.hpp:51-146, the members [value] and [children]. *)
Inductive tree := Node (value : V) (children : list tree).
Definition value (t : tree) : V := match t with Node v _ => v end.
Definition children (t : tree) : list tree := match t with Node _ ch => ch end.

(** The container a pointer refers to. *)
Fixpoint container (f : list tree) (c : path) : option (list tree) :=
  match c with
  | [] => Some f
  | i :: c => match nth_error f i with Some t => container (children t) c | None => None end
  end.

(** The forest with the contents of one container replaced. *)
Fixpoint set_container (f : list tree) (c : path) (l : list tree) : list tree :=
  match c with
  | [] => l
  | i :: c =>
      match nth_error f i with
      | Some (Node v ch) => firstn i f ++ Node v (set_container ch c l) :: skipn (S i) f
      | None => f
      end
  end.

(** tree.hpp:218-242 *)
Record iterator := Iterator { list_stack : list path; iter_stack : list citer }.

Definition back {A} (l : list A) : outcome A :=
  match rev l with x :: _ => Ok x | [] => UB OutOfBounds end.
Definition pop_back {A} (l : list A) : outcome (list A) :=
  match l with [] => UB OutOfBounds | _ => Ok (removelast l) end.
Definition push_back {A} (l : list A) (x : A) : list A := l ++ [x].
(** [l.back() = x] *)
Definition set_back {A} (l : list A) (x : A) : outcome (list A) :=
  match l with [] => UB OutOfBounds | _ => Ok (removelast l ++ [x]) end.

Section Ops.
Variable dbg : bool.
Variable f : list tree.

Definition deref_list (c : path) : outcome (list tree) :=
  match container f c with Some l => Ok l | None => UB BadPointer end.

Definition cbegin (c : path) : outcome citer := l <- deref_list c ;; Ok (c, 0).
Definition cend (c : path) : outcome citer := l <- deref_list c ;; Ok (c, length l).

(** [*iter] *)
Definition cderef (i : citer) : outcome tree :=
  l <- deref_list (fst i) ;;
  match nth_error l (snd i) with Some t => Ok t | None => UB OutOfBounds end.
(** [++iter], [--iter] *)
Definition cinc (i : citer) : outcome citer :=
  l <- deref_list (fst i) ;;
  if Nat.ltb (snd i) (length l) then Ok (fst i, S (snd i)) else UB OutOfBounds.
Definition cdec (i : citer) : outcome citer :=
  match snd i with O => UB OutOfBounds | S p => Ok (fst i, p) end.

Definition path_eqb (a b : path) : bool := if list_eq_dec Nat.eq_dec a b then true else false.
(** [a == b], [a < b] on container iterators *)
Definition ceq (a b : citer) : outcome bool :=
  if path_eqb (fst a) (fst b) then Ok (Nat.eqb (snd a) (snd b)) else UB ForeignIterator.
Definition clt (a b : citer) : outcome bool :=
  if path_eqb (fst a) (fst b) then Ok (Nat.ltb (snd a) (snd b)) else UB ForeignIterator.

Definition nonempty {A} (l : list A) : bool := match l with [] => false | _ => true end.

(** tree.hpp:287-295: the loop of operator++, also that of erase, 869-874, which has an assertion ([checked]) that the
    former does not have. *)
Fixpoint pop_loop (checked : bool) (fuel : nat) (it : iterator) : outcome iterator :=
  match fuel with
  | O => Diverge
  | S fuel =>
      if negb (Nat.eqb (length (iter_stack it)) 1) then
        i <- back (iter_stack it) ;;
        c <- back (list_stack it) ;;
        e <- cend c ;;
        at_end <- ceq i e ;;
        if (at_end : bool) then
          ls <- pop_back (list_stack it) ;;
          is <- pop_back (iter_stack it) ;;
          assert_ checked (Nat.eqb (length is) (length ls)) ;;;
          j <- back is ;;
          j <- cinc j ;;
          is <- set_back is j ;;
          pop_loop checked fuel (Iterator ls is)
        else Ok it
      else Ok it
  end.

(** tree.hpp:268-298, operator++ *)
Definition incr (it : iterator) : outcome iterator :=
  assert_ dbg (nonempty (iter_stack it)) ;;;
  assert_ dbg (Nat.eqb (length (iter_stack it)) (length (list_stack it))) ;;;
  i <- back (iter_stack it) ;;
  (if dbg then
     c <- back (list_stack it) ;;
     e <- cend c ;;
     b <- ceq i e ;;
     assert_ dbg (negb b)
   else Ok tt) ;;;
  t <- cderef i ;;
  if nonempty (children t) then
    (* &iter->children *)
    let c := fst i ++ [snd i] in
    let ls := push_back (list_stack it) c in
    b <- cbegin c ;;
    Ok (Iterator ls (push_back (iter_stack it) b))
  else
    i <- cinc i ;;
    is <- set_back (iter_stack it) i ;;
    assert_ dbg (Nat.leb 1 (length is)) ;;;
    pop_loop false (length is) (Iterator (list_stack it) is).

(** tree.hpp:317-328: the loop of operator--. *)
Fixpoint descend (fuel : nat) (it : iterator) : outcome iterator :=
  match fuel with
  | O => Diverge
  | S fuel =>
      i <- back (iter_stack it) ;;
      (if dbg then
         c <- back (list_stack it) ;;
         b <- cbegin c ;;
         b <- ceq i b ;;
         assert_ dbg (negb b)
       else Ok tt) ;;;
      i <- cdec i ;;
      is <- set_back (iter_stack it) i ;;
      t <- cderef i ;;
      if nonempty (children t) then
        let c := fst i ++ [snd i] in
        e <- cend c ;;
        descend fuel (Iterator (push_back (list_stack it) c) (push_back is e))
      else Ok (Iterator (list_stack it) is)
  end.

(** Number of nodes. *)
Fixpoint tree_size (t : tree) : nat :=
  match t with Node _ ch => S (fold_right (fun t n => tree_size t + n) 0 ch) end.
Definition size (l : list tree) : nat := fold_right (fun t n => tree_size t + n) 0 l.

(** tree.hpp:306-331, operator--; fuel: it descends at most [size f] times. *)
Definition decr (it : iterator) : outcome iterator :=
  assert_ dbg (nonempty (iter_stack it)) ;;;
  assert_ dbg (nonempty (list_stack it)) ;;;
  i <- back (iter_stack it) ;;
  c <- back (list_stack it) ;;
  b <- cbegin c ;;
  at_begin <- ceq i b ;;
  if (at_begin : bool) then
    is <- pop_back (iter_stack it) ;;
    ls <- pop_back (list_stack it) ;;
    Ok (Iterator ls is)
  else descend (S (size f)) it.

(** std::vector's operator== and operator< on the iterator stacks (tree.hpp:338-395):
    equal sizes and std::equal; std::lexicographical_compare. *)
Fixpoint all_eq (a b : list citer) : outcome bool :=
  match a, b with
  | x :: a, y :: b => e <- ceq x y ;; if (e : bool) then all_eq a b else Ok false
  | _, _ => Ok true
  end.
Definition it_eq (a b : iterator) : outcome bool :=
  if Nat.eqb (length (iter_stack a)) (length (iter_stack b)) then all_eq (iter_stack a) (iter_stack b)
  else Ok false.
Definition it_ne (a b : iterator) : outcome bool := e <- it_eq a b ;; Ok (negb e).
Fixpoint lex_lt (a b : list citer) : outcome bool :=
  match a, b with
  | _, [] => Ok false
  | [], _ :: _ => Ok true
  | x :: a, y :: b =>
      l <- clt x y ;;
      if (l : bool) then Ok true
      else g <- clt y x ;; if (g : bool) then Ok false else lex_lt a b
  end.
Definition it_lt (a b : iterator) : outcome bool := lex_lt (iter_stack a) (iter_stack b).
Definition it_gt (a b : iterator) : outcome bool := it_lt b a.
Definition it_le (a b : iterator) : outcome bool := g <- it_lt b a ;; Ok (negb g).
Definition it_ge (a b : iterator) : outcome bool := g <- it_lt a b ;; Ok (negb g).

(** tree.hpp:401-437, operator* and operator-> *)
Definition deref (it : iterator) : outcome tree := i <- back (iter_stack it) ;; cderef i.

(** tree.hpp:445-453, index *)
Fixpoint index_loop (ls : list path) (is : list citer) : outcome (list nat) :=
  match is, ls with
  | [], _ => Ok []
  | _ :: _, [] => UB OutOfBounds
  | i :: is, c :: ls =>
      b <- cbegin c ;;
      d <- (if path_eqb (fst b) (fst i) then Ok (snd i - snd b) else UB ForeignIterator) ;;
      r <- index_loop ls is ;;
      Ok (d :: r)
  end.
Definition index (it : iterator) : outcome (list nat) :=
  assert_ dbg (Nat.eqb (length (iter_stack it)) (length (list_stack it))) ;;;
  index_loop (list_stack it) (iter_stack it).

(** tree.hpp:462-465 *)
Definition depth (it : iterator) : nat := length (iter_stack it).

(** tree.hpp:473-491: [.at(d)] throws inside of a noexcept function. *)
Definition at_level (it : iterator) (d : nat) : outcome tree :=
  match nth_error (iter_stack it) d with
  | Some i => cderef i
  | None => Terminate
  end.

(** tree.hpp:498-505 *)
Definition is_last_child (it : iterator) : outcome bool :=
  i <- back (iter_stack it) ;;
  c <- back (list_stack it) ;;
  e <- cend c ;;
  b <- ceq i e ;;
  if (b : bool) then Ok false
  else n <- cinc i ;; ceq n e.

(** tree.hpp:535-553, make_iterator_internal; [iter] is always the beginning of [list]. *)
Fixpoint make_loop (lst : path) (iter : citer) (index : list nat) (ret : iterator) : outcome iterator :=
  match index with
  | [] => Ok ret
  | i :: index =>
      let ls := push_back (list_stack ret) lst in
      l <- deref_list lst ;;
      if Nat.leb (length l) i then Throw OutOfRange
      else
        let n := (fst iter, snd iter + i) in   (* std::next(iter, i) *)
        let is := push_back (iter_stack ret) n in
        t <- cderef n ;;
        let lst := fst n ++ [snd n] in
        b <- cbegin lst ;;
        make_loop lst b index (Iterator ls is)
  end.
Definition make_iterator (index : list nat) : outcome iterator :=
  b <- cbegin [] ;; make_loop [] b index (Iterator [] []).

(** tree.hpp:624-638, is_valid *)
Fixpoint valid_loop (li : path) (index : list nat) : outcome bool :=
  match index with
  | [] => Ok true
  | i :: index =>
      l <- deref_list li ;;
      if Nat.leb (length l) i then Ok false
      else t <- cderef (li, i) ;; valid_loop (li ++ [i]) index
  end.
Definition is_valid (index : list nat) : outcome bool :=
  match index with [] => Ok false | _ => valid_loop [] index end.

(** tree.hpp:673-690, operator[] *)
Definition at_index (index : list nat) : outcome tree :=
  (if dbg then b <- is_valid index ;; assert_ dbg b else Ok tt) ;;;
  it <- make_iterator index ;;
  deref it.

(** tree.hpp:736-766, begin, end *)
Definition it_begin : outcome iterator := b <- cbegin [] ;; Ok (Iterator [[]] [b]).
Definition it_end : outcome iterator := e <- cend [] ;; Ok (Iterator [[]] [e]).

(** The container part of the modifying operations. [c->insert(i, t)] and [c->erase(i)]: [i] has to
    be an iterator of [*c]. They return the new forest and the returned container iterator. *)
Definition cinsert (c : path) (i : citer) (t : tree) : outcome (list tree * citer) :=
  l <- deref_list c ;;
  if path_eqb (fst i) c then
    if Nat.leb (snd i) (length l)
    then Ok (set_container f c (firstn (snd i) l ++ t :: skipn (snd i) l), (c, snd i))
    else UB OutOfBounds
  else UB ForeignIterator.
Definition cerase (c : path) (i : citer) : outcome (list tree * citer) :=
  l <- deref_list c ;;
  if path_eqb (fst i) c then
    if Nat.ltb (snd i) (length l)
    then Ok (set_container f c (firstn (snd i) l ++ skipn (S (snd i)) l), (c, snd i))
    else UB OutOfBounds
  else UB ForeignIterator.

(** tree.hpp:812-829, insert (both overloads; the const& one copies the tree first) *)
Definition insert (it : iterator) (t : tree) : outcome (list tree * iterator) :=
  c <- back (list_stack it) ;;
  i <- back (iter_stack it) ;;
  r <- cinsert c i t ;;
  is <- set_back (iter_stack it) (snd r) ;;
  Ok (fst r, Iterator (list_stack it) is).

(** tree.hpp:840-858, insert_after *)
Definition insert_after (it : iterator) (t : tree) : outcome (list tree * iterator) :=
  c <- back (list_stack it) ;;
  i <- back (iter_stack it) ;;
  n <- cinc i ;;
  r <- cinsert c n t ;;
  is <- set_back (iter_stack it) (snd r) ;;
  Ok (fst r, Iterator (list_stack it) is).
End Ops.

(** tree.hpp:866-876, erase: the loop runs on the modified forest. *)
Definition erase (dbg : bool) (f : list tree) (it : iterator) : outcome (list tree * iterator) :=
  c <- back (list_stack it) ;;
  i <- back (iter_stack it) ;;
  r <- cerase f c i ;;
  is <- set_back (iter_stack it) (snd r) ;;
  let f := fst r in
  it <- pop_loop f dbg (length is) (Iterator (list_stack it) is) ;;
  Ok (f, it).

(** ** Client loops *)
(** [for(auto i = begin(); i != end(); ++i) visit( *i )] *)
Fixpoint forward_loop (dbg : bool) (f : list tree) (fuel : nat) (it last : iterator) : outcome (list tree) :=
  match fuel with
  | O => Diverge
  | S fuel =>
      ne <- it_ne it last ;;
      if (ne : bool) then
        t <- deref f it ;;
        it <- incr dbg f it ;;
        r <- forward_loop dbg f fuel it last ;;
        Ok (t :: r)
      else Ok []
  end.
Definition forward (dbg : bool) (f : list tree) : outcome (list tree) :=
  b <- it_begin f ;; e <- it_end f ;; forward_loop dbg f (S (size f)) b e.

(** [for(auto i = rbegin(); i != rend(); ++i) visit( *i )] where the reverse iterator (std::reverse_iterator,
    tree.hpp:525-531, 772-802) holds [current]; [*i] is [*--tmp] of a copy and [++i] is [--current]. *)
Fixpoint backward_loop (dbg : bool) (f : list tree) (fuel : nat) (it last : iterator) : outcome (list tree) :=
  match fuel with
  | O => Diverge
  | S fuel =>
      ne <- it_ne it last ;;
      if (ne : bool) then
        tmp <- decr dbg f it ;;
        t <- deref f tmp ;;
        it <- decr dbg f it ;;
        r <- backward_loop dbg f fuel it last ;;
        Ok (t :: r)
      else Ok []
  end.
Definition backward (dbg : bool) (f : list tree) : outcome (list tree) :=
  b <- it_begin f ;; e <- it_end f ;; backward_loop dbg f (S (size f)) e b.

(** [n] increments *)
Fixpoint incr_n (dbg : bool) (f : list tree) (n : nat) (it : iterator) : outcome iterator :=
  match n with
  | O => Ok it
  | S n => it <- incr dbg f it ;; incr_n dbg f n it
  end.
End Tree.
Arguments tree : clear implicits.

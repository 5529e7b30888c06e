(** Model of small templates of src/utki/utility.hpp and of src/utki/views.hpp.

    A collection is the list of its elements, an iterator into it a position from 0 to its length
    (a [Z], so that positions outside can be expressed). Moving an iterator outside of this range is
    undefined behaviour, even when it is not dereferenced. *)
From Verif Require Import Base.
Local Open Scope Z_scope.

(** std::next(iter, d), std::prev(iter, d): the library precondition is that the range is valid. *)
Definition std_next (len p d : Z) : outcome Z :=
  if (0 <=? p + d) && (p + d <=? len) then Ok (p + d) else UB BadPointer.
Definition std_prev (len p d : Z) : outcome Z := std_next len p (- d).

(** Conversion of a value to difference_type, whose greatest value is [maxd]. A value which is not
    representable would become another one; it is made visible as an outcome. *)
Definition to_difference (maxd v : Z) : outcome Z := if v <=? maxd then Ok v else UB SignedOverflow.

(** utki::next, utility.hpp:70-83. [maxd] is std::numeric_limits<difference_type>::max(). [steps] is
    the given number of iterations of the loop. *)
Fixpoint next_loop (fuel : nat) (maxd len iter num_left : Z) : outcome Z :=
  match fuel with
  | O => Diverge
  | S fuel =>
      if maxd <? num_left then
        let num_left := (num_left - maxd) mod 2 ^ 64 in
        iter <- std_next len iter maxd ;;
        next_loop fuel maxd len iter num_left
      else
        d <- to_difference maxd num_left ;;
        std_next len iter d
  end.
Definition next (fuel : nat) (maxd len iter n : Z) : outcome Z := next_loop fuel maxd len iter n.

(** utki::prev, utility.hpp:94-107 *)
Fixpoint prev_loop (fuel : nat) (maxd len iter num_left : Z) : outcome Z :=
  match fuel with
  | O => Diverge
  | S fuel =>
      if maxd <? num_left then
        let num_left := (num_left - maxd) mod 2 ^ 64 in
        iter <- std_prev len iter maxd ;;
        prev_loop fuel maxd len iter num_left
      else
        d <- to_difference maxd num_left ;;
        std_prev len iter d
  end.
Definition prev (fuel : nat) (maxd len iter n : Z) : outcome Z := prev_loop fuel maxd len iter n.

(** end_pointer, utility.hpp:119-123: pointers into the array are positions. *)
Definition end_pointer {A} (c : list A) : outcome Z :=
  let len := Z.of_nat (length c) in std_next len 0 len.

(** The difference_type of the standard containers is ptrdiff_t. *)
Definition ptrdiff_max : Z := 2 ^ 63 - 1.
(** With it three iterations are enough for every size_t: 2^64 - 1 = 2 * (2^63 - 1) + 1. *)
Definition next_std (len iter n : Z) : outcome Z := next 3 ptrdiff_max len iter n.

(** [*i] *)
Definition deref {A} (c : list A) (p : Z) : outcome A :=
  if p <? 0 then UB OutOfBounds
  else match nth_error c (Z.to_nat p) with Some x => Ok x | None => UB OutOfBounds end.

(** A range-for loop over the iterators [p] up to [e] of the collection [c]; the elements visited. *)
Fixpoint iterate {A} (fuel : nat) (c : list A) (p e : Z) : outcome (list A) :=
  match fuel with
  | O => Diverge
  | S fuel =>
      if p =? e then Ok []
      else
        x <- deref c p ;;
        p <- std_next (Z.of_nat (length c)) p 1 ;;
        r <- iterate fuel c p e ;;
        Ok (x :: r)
  end.

(** skip_front<num_to_skip>(c): views.hpp:38-59; the elements visited by a range-for loop over it *)
Definition skip_front_begin {A} (dbg : bool) (n : Z) (c : list A) : outcome Z :=
  assert_ dbg (n <=? Z.of_nat (length c)) ;;;
  next_std (Z.of_nat (length c)) 0 n.
Definition skip_front_iterate {A} (fuel : nat) (dbg : bool) (n : Z) (c : list A) : outcome (list A) :=
  b <- skip_front_begin dbg n c ;;
  iterate fuel c b (Z.of_nat (length c)).

(** views::reverse(c): views.hpp:84-103. A reverse iterator with base [p] refers to the element
    before [p]; it is incremented by decrementing the base. *)
Fixpoint reverse_loop {A} (fuel : nat) (c : list A) (p e : Z) : outcome (list A) :=
  match fuel with
  | O => Diverge
  | S fuel =>
      if p =? e then Ok []
      else
        q <- std_prev (Z.of_nat (length c)) p 1 ;;
        x <- deref c q ;;
        p <- std_prev (Z.of_nat (length c)) p 1 ;;
        r <- reverse_loop fuel c p e ;;
        Ok (x :: r)
  end.
Definition reverse_iterate {A} (fuel : nat) (c : list A) : outcome (list A) :=
  reverse_loop fuel c (Z.of_nat (length c)) 0.

(** zip_view: views.hpp:121-199. The collections have a common element type here; an element type of
    several collections is their sum. [mapM] is std::apply over the tuple. *)
Fixpoint mapM {A B} (f : A -> outcome B) (l : list A) : outcome (list B) :=
  match l with
  | [] => Ok []
  | x :: l => y <- f x ;; r <- mapM f l ;; Ok (y :: r)
  end.
(** zip_view::zip_view, 127-130: the minimum of the sizes at the time of construction *)
Definition zip_min_size {A} (cs : list (list A)) : Z :=
  match cs with
  | [] => 0   (* ill-formed in C++: std::min of an empty initializer list *)
  | c :: cs => fold_left (fun m c => Z.min m (Z.of_nat (length c))) cs (Z.of_nat (length c))
  end.
(** operator!=: 146-149 *)
Definition zip_ne (i j : list Z) : bool :=
  match i, j with a :: _, b :: _ => negb (a =? b) | _, _ => false end.
(** operator++: 151-161 *)
Definition zip_next {A} (cs : list (list A)) (i : list Z) : outcome (list Z) :=
  mapM (fun cp => std_next (Z.of_nat (length (fst cp))) (snd cp) 1) (combine cs i).
(** operator*: 163-171 *)
Definition zip_deref {A} (cs : list (list A)) (i : list Z) : outcome (list A) :=
  mapM (fun cp => deref (fst cp) (snd cp)) (combine cs i).
Definition zip_begin {A} (cs : list (list A)) : list Z := map (fun _ => 0) cs.
(** end: 190-198 *)
Definition zip_end {A} (min_size : Z) (cs : list (list A)) : outcome (list Z) :=
  mapM (fun c => next_std (Z.of_nat (length c)) 0 min_size) cs.
Fixpoint zip_loop {A} (fuel : nat) (cs : list (list A)) (i e : list Z) : outcome (list (list A)) :=
  match fuel with
  | O => Diverge
  | S fuel =>
      if zip_ne i e then
        t <- zip_deref cs i ;;
        i <- zip_next cs i ;;
        r <- zip_loop fuel cs i e ;;
        Ok (t :: r)
      else Ok []
  end.
(** A range-for loop over a zip_view made of the collections when the minimum of their sizes was
    [min_size]; [cs] are the collections now. *)
Definition zip_iterate {A} (fuel : nat) (min_size : Z) (cs : list (list A)) : outcome (list (list A)) :=
  e <- zip_end min_size cs ;;
  zip_loop fuel cs (zip_begin cs) e.

(** std::map<K, V, lt>: its elements in order of keys. *)
Section Map.
Context {K V : Type}.
Variable lt : K -> K -> bool.
Definition equivalent (a b : K) : bool := negb (lt a b) && negb (lt b a).
(** insert: nothing happens if there is an element with an equivalent key *)
Fixpoint map_insert (k : K) (v : V) (m : list (K * V)) : list (K * V) :=
  match m with
  | [] => [(k, v)]
  | (k', v') :: m' =>
      if lt k' k then (k', v') :: map_insert k v m'
      else if lt k k' then (k, v) :: m
      else m
  end.
(** find *)
Fixpoint map_find (k : K) (m : list (K * V)) : option (K * V) :=
  match m with
  | [] => None
  | (k', v') :: m' => if equivalent k k' then Some (k', v') else map_find k m'
  end.
End Map.

(** flip_pair: utility.hpp:147-151 *)
Definition flip_pair {A B} (p : A * B) : B * A := (snd p, fst p).
(** flip_map: utility.hpp:158-164, 172-178; [lt] is the comparator of the new map. std::transform
    visits the elements in order and assigns to the insert iterator. *)
Definition flip_map {K V} (lt : V -> V -> bool) (m : list (K * V)) : list (V * K) :=
  fold_left (fun ret p => map_insert lt (fst (flip_pair p)) (snd (flip_pair p)) ret) m [].

(** contains: utility.hpp:193-214. The general case uses std::find with operator==. *)
Fixpoint std_find {A} (eqb : A -> A -> bool) (v : A) (c : list A) (p : Z) : Z :=
  match c with
  | [] => p
  | x :: c => if eqb x v then p else std_find eqb v c (p + 1)
  end.
Definition contains {A} (eqb : A -> A -> bool) (c : list A) (v : A) : bool :=
  negb (std_find eqb v c 0 =? Z.of_nat (length c)).
(** For std::map (and std::unordered_map, with [equivalent] as its key equality) *)
Definition contains_map {K V} (lt : K -> K -> bool) (m : list (K * V)) (k : K) : bool :=
  match map_find lt k m with Some _ => true | None => false end.

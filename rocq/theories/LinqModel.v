(** Model of linq: src/utki/linq.hpp:46-232.

    A collection is the list of its elements in iteration order. [moved x] is what is left of the element [x]
    after it was moved from. An aggregator either holds a const reference to a collection of the caller
    (made from an lvalue), from whose elements nothing can be moved, or its own collection. Every operation
    gives its result and what the collection of the aggregator is like afterwards.

    The functions passed are pure. The parameter of a function is a const reference, or something that takes
    the argument over if it can (a value or an rvalue reference).

    Functions with effects and exceptions are in LinqEffModel. Not modelled: capacity, multimaps. *)
From Verif Require Import Base UtilModel.

(** const collection_type& (216-226) or collection_type&& (228-232) *)
Inductive hold := Borrowed | Owned.
Record aggregator (A : Type) := { held : hold; elements : list A }.
Arguments held {A}. Arguments elements {A}.
Inductive param := ByConstRef | ByValue.

Section Linq.
Context {A : Type}.
Variable moved : A -> A.

(** linq: 216-232 *)
Definition linq_lvalue (c : list A) : aggregator A := {| held := Borrowed; elements := c |}.
Definition linq_rvalue (c : list A) : aggregator A := {| held := Owned; elements := c |}.
(** get: 86-89 *)
Definition get (a : aggregator A) : list A := elements a.

(** std::move(e) passed to something that takes it over: e afterwards. An element of a const collection
    is copied. *)
Definition take (h : hold) (x : A) : A := match h with Owned => moved x | Borrowed => x end.
Definition pass (p : param) (h : hold) (x : A) : A := match p with ByValue => take h x | ByConstRef => x end.

(** select: 91-125, for a function of one argument. Result, and the collection afterwards *)
Fixpoint select_loop {B} (p : param) (func : A -> B) (h : hold) (l : list A) : list B * list A :=
  match l with
  | [] => ([], [])
  | e :: l =>
      let r := func e in
      let e := pass p h e in
      let '(ret, l) := select_loop p func h l in
      (r :: ret, e :: l)
  end.
Definition select {B} (p : param) (func : A -> B) (a : aggregator A) : aggregator B * list A :=
  let '(ret, l) := select_loop p func (held a) (elements a) in
  ({| held := Owned; elements := ret |}, l).
(** of two arguments; [i] is a size_t *)
Fixpoint select_index_loop {B} (p : param) (func : A -> N -> B) (h : hold) (l : list A) (i : N) : list B * list A :=
  match l with
  | [] => ([], [])
  | e :: l =>
      let r := func e i in
      let e := pass p h e in
      let i := ((i + 1) mod 2 ^ 64)%N in
      let '(ret, l) := select_index_loop p func h l i in
      (r :: ret, e :: l)
  end.
Definition select_index {B} (p : param) (func : A -> N -> B) (a : aggregator A) : aggregator B * list A :=
  let '(ret, l) := select_index_loop p func (held a) (elements a) 0%N in
  ({| held := Owned; elements := ret |}, l).

(** group_by: 127-153. operator[] of std::map adds an empty vector for a new key. *)
Fixpoint map_modify {K V} (lt : K -> K -> bool) (k : K) (f : V -> V) (m : list (K * V)) : list (K * V) :=
  match m with
  | [] => []
  | (k', v) :: m => if equivalent lt k k' then (k', f v) :: m else (k', v) :: map_modify lt k f m
  end.
Fixpoint group_loop {K} (lt : K -> K -> bool) (func : A -> K) (h : hold) (l : list A) (ret : list (K * list A)) : list (K * list A) * list A :=
  match l with
  | [] => (ret, [])
  | v :: l =>
      let k := func v in                              (* v is an lvalue here *)
      let ret := map_insert lt k [] ret in
      let ret := map_modify lt k (fun g => g ++ [v]) ret in
      let v := take h v in
      let '(ret, l) := group_loop lt func h l ret in
      (ret, v :: l)
  end.
Definition group_by {K} (lt : K -> K -> bool) (func : A -> K) (a : aggregator A) : aggregator (K * list A) * list A :=
  let '(ret, l) := group_loop lt func (held a) (elements a) [] in
  ({| held := Owned; elements := ret |}, l).

(** where: 155-180. std::copy_if calls the predicate with *first, which is an rvalue as [first] is a move iterator;
    so a predicate that does not take a const reference gets the element itself. [ret] has the type of the collection;
    std::inserter inserts before a position that is kept behind the element inserted last: [insert] says
    what becomes of [ret] when inserting at its end. *)
Fixpoint where_loop (insert : A -> list A -> list A) (p : param) (func : A -> bool) (h : hold) (l ret : list A) : list A * list A :=
  match l with
  | [] => (ret, [])
  | e :: l =>
      let b := func e in
      let e := pass p h e in
      let ret := if b then insert e ret else ret in
      let e := if b then take h e else e in
      let '(ret, l) := where_loop insert p func h l ret in
      (ret, e :: l)
  end.
(** For sequences *)
Definition push_end (x : A) (l : list A) : list A := l ++ [x].
Definition where_ (insert : A -> list A -> list A) (p : param) (func : A -> bool) (a : aggregator A) : aggregator A * list A :=
  let '(ret, l) := where_loop insert p func (held a) (elements a) [] in
  ({| held := Owned; elements := ret |}, l).

(** order_by: 182-213. [std_sort cmp] is std::sort. *)
Definition order_by {K} (std_sort : (A -> A -> bool) -> list A -> list A) (lt : K -> K -> bool) (func : A -> K) (a : aggregator A) : aggregator A * list A :=
  let comparer := fun x y => lt (func x) (func y) in
  match held a with
  | Owned =>
      (* sorted in place, then moved out of; a moved-from collection is taken to be empty *)
      ({| held := Owned; elements := std_sort comparer (elements a) |}, [])
  | Borrowed => ({| held := Owned; elements := std_sort comparer (elements a) |}, elements a)
  end.
End Linq.

(** std::map as a collection: an element inserted with a hint goes where its key belongs. Keys are const,
    so they are copied also when the element is moved. *)
Definition map_insert_pair {K V} (lt : K -> K -> bool) (x : K * V) (m : list (K * V)) : list (K * V) := map_insert lt (fst x) (snd x) m.

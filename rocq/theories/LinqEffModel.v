(** Model of linq, src/utki/linq.hpp:46-232, with functions and element types that have effects and may throw.

    As in LinqModel a collection is the list of its elements in iteration order, [moved x] is what is left of [x] after it
    was moved from, and the aggregator holds a const reference to the collection of the caller or its own collection. [W]
    is the state of everything else: calling a function passed by the user and copying an element may do anything to it
    and have any outcome. They do not change the elements of the collection, other than by taking over what they are
    given. Moving an element does not throw. Keys of maps are compared and moved without effects.

    Every operation gives the world and the collection of the aggregator afterwards, also if the outcome is not [Ok]. *)
From Verif Require Import Base UtilModel LinqModel.

Section LinqEff.
Context {W A : Type}.
Variable copy : W -> A -> W * outcome unit.
Variable moved : A -> A.

(** Going on only after [Ok]; [left] is what the collection is like if not *)
Definition go_on {X Y C} (m : W * outcome X) (left : C) (k : W -> X -> W * C * outcome Y) : W * C * outcome Y :=
  let '(w, r) := m in
  match r with
  | Ok x => k w x
  | Throw e => (w, left, Throw e)
  | UB r => (w, left, UB r)
  | Abort => (w, left, Abort)
  | Terminate => (w, left, Terminate)
  | Diverge => (w, left, Diverge)
  end.
Definition finish {X Y} (f : X -> Y) (front : list A) (m : W * list A * outcome X) : W * list A * outcome Y :=
  let '(w, l, r) := m in (w, front ++ l, x <- r ;; Ok (f x)).

(** Initialising something from std::move(e), where e is an element: an element of a const collection is copied. *)
Definition transfer (h : hold) (w : W) (e : A) : W * outcome unit :=
  match h with Owned => (w, Ok tt) | Borrowed => copy w e end.
(** Calling a function with std::move(e): the initialisation of its parameter, then the call. *)
Definition call_rvalue {B} (p : param) (func : W -> A -> W * outcome B) (h : hold) (w : W) (e : A) : W * outcome B :=
  let '(w, r) := match p with ByConstRef => (w, Ok tt) | ByValue => transfer h w e end in
  match r with
  | Ok _ => func w e
  | Throw x => (w, Throw x) | UB r => (w, UB r) | Abort => (w, Abort) | Terminate => (w, Terminate) | Diverge => (w, Diverge)
  end.
(** ... with the lvalue e, of which a copy is made for a by-value parameter *)
Definition call_lvalue {B} (p : param) (func : W -> A -> W * outcome B) (w : W) (e : A) : W * outcome B :=
  call_rvalue p func Borrowed w e.

(** select: 91-125. Also for a function of two arguments: [i] is the second one, which increases by 1. *)
Fixpoint select_eff_loop {B} (p : param) (func : N -> W -> A -> W * outcome B) (h : hold) (i : N) (w : W) (l : list A)
    : W * list A * outcome (list B) :=
  match l with
  | [] => (w, [], Ok [])
  | e :: l =>
      let left := pass moved p h e in
      go_on (call_rvalue p (func i) h w e) (left :: l) (fun w r =>
        finish (cons r) [left] (select_eff_loop p func h ((i + 1) mod 2 ^ 64)%N w l))
  end.
Definition select_eff {B} (p : param) (func : W -> A -> W * outcome B) (w : W) (a : aggregator A) : W * list A * outcome (aggregator B) :=
  finish linq_rvalue [] (select_eff_loop p (fun _ => func) (held a) 0 w (elements a)).
Definition select_index_eff {B} (p : param) (func : N -> W -> A -> W * outcome B) (w : W) (a : aggregator A) : W * list A * outcome (aggregator B) :=
  finish linq_rvalue [] (select_eff_loop p func (held a) 0 w (elements a)).

(** group_by: 127-153. The key is computed from the lvalue, then the element goes to the group of the key. *)
Fixpoint group_eff_loop {K} (p : param) (lt : K -> K -> bool) (func : W -> A -> W * outcome K) (h : hold) (w : W) (l : list A)
    (ret : list (K * list A)) : W * list A * outcome (list (K * list A)) :=
  match l with
  | [] => (w, [], Ok ret)
  | v :: l =>
      go_on (call_lvalue p func w v) (v :: l) (fun w k =>
        let ret := map_insert lt k [] ret in
        go_on (transfer h w v) (v :: l) (fun w _ =>
          let ret := map_modify lt k (fun g => g ++ [v]) ret in
          finish (fun r => r) [take moved h v] (group_eff_loop p lt func h w l ret)))
  end.
Definition group_by_eff {K} (p : param) (lt : K -> K -> bool) (func : W -> A -> W * outcome K) (w : W) (a : aggregator A)
    : W * list A * outcome (aggregator (K * list A)) :=
  finish linq_rvalue [] (group_eff_loop p lt func (held a) w (elements a) []).

(** where: 155-180; see LinqModel for std::copy_if over move iterators. *)
Fixpoint where_eff_loop (insert : A -> list A -> list A) (p : param) (func : W -> A -> W * outcome bool) (h : hold) (w : W)
    (l ret : list A) : W * list A * outcome (list A) :=
  match l with
  | [] => (w, [], Ok ret)
  | e :: l =>
      let e' := pass moved p h e in
      go_on (call_rvalue p func h w e) (e' :: l) (fun w b =>
        if b : bool then
          go_on (transfer h w e') (e' :: l) (fun w _ =>
            finish (fun r => r) [take moved h e'] (where_eff_loop insert p func h w l (insert e' ret)))
        else finish (fun r => r) [e'] (where_eff_loop insert p func h w l ret))
  end.
Definition where_eff (insert : A -> list A -> list A) (p : param) (func : W -> A -> W * outcome bool) (w : W) (a : aggregator A)
    : W * list A * outcome (aggregator A) :=
  finish linq_rvalue [] (where_eff_loop insert p func (held a) w (elements a) []).

(** order_by: 182-213. [std_sort cmp] is std::sort with a comparison that has effects: the range afterwards is arbitrary if
    the comparison throws. func returns a reference to a part of its argument, or throws. *)
Fixpoint copy_all (w : W) (l : list A) : W * outcome unit :=
  match l with
  | [] => (w, Ok tt)
  | x :: l =>
      let '(w, r) := copy w x in
      match r with Ok _ => copy_all w l | r => (w, r) end
  end.
Definition comparer {K} (lt : K -> K -> bool) (func : W -> A -> W * outcome K) (w : W) (x y : A) : W * outcome bool :=
  let '(w, r) := func w x in
  match r with
  | Ok k => let '(w, r) := func w y in (w, k' <- r ;; Ok (lt k k'))
  | Throw e => (w, Throw e) | UB r => (w, UB r) | Abort => (w, Abort) | Terminate => (w, Terminate) | Diverge => (w, Diverge)
  end.
Definition order_by_eff {K} (std_sort : (W -> A -> A -> W * outcome bool) -> W -> list A -> W * list A * outcome unit)
    (lt : K -> K -> bool) (func : W -> A -> W * outcome K) (w : W) (a : aggregator A) : W * list A * outcome (aggregator A) :=
  match held a with
  | Owned =>
      let '(w, l, r) := std_sort (comparer lt func) w (elements a) in
      match r with
      | Ok _ => (w, [], Ok (linq_rvalue l))
      | r => (w, l, r ;;; Ok (linq_rvalue l))
      end
  | Borrowed =>
      go_on (copy_all w (elements a)) (elements a) (fun w _ =>
        let '(w, l, r) := std_sort (comparer lt func) w (elements a) in
        (w, elements a, r ;;; Ok (linq_rvalue l)))
  end.
End LinqEff.

(** Model of range-based for loops over skip_front, reverse and zip whose bodies change the collections:
    src/utki/views.hpp:38-73, 82-115, 121-209. The values that are seen without changes are those of C58 (UtilModel).

    for(auto&& r : view) { body }   is   { auto i = view.begin(); auto e = view.end(); for(; i != e; ++i) { auto&& r = *i; body } }

    A collection is the sequence of the places of its elements and the place after the last one, which is where end() points to.
    Places are numbers. An iterator is a place; it is valid as long as the place belongs to the collection. So push_back to a std::vector
    replaces all places if it reallocates, else it replaces the place after the last one; std::list keeps the other places when it inserts
    or erases. A reference is a place as well; what is stored there is part of the state [S] of the program, which the body can change in
    every respect. It goes on ([Ok true]: to its end or continue), leaves the loop ([Ok false]: break, return), or fails.
    Simplifications: collections with bidirectional iterators; utki::next(i, n) is n times ++ (for random access iterators i + n, with the same
    result and the same precondition); of several kinds of undefined behaviour in one operation the first one is given. *)
From Verif Require Import Base.

Record coll := { ids : list nat; fin : nat }.
Definition places (c : coll) : list nat := ids c ++ [fin c].

Fixpoint follows (a : nat) (l : list nat) : option nat :=
  match l with
  | x :: (y :: _) as r => if Nat.eqb x a then Some y else follows a r
  | _ => None
  end.
Definition has (a : nat) (l : list nat) : bool := existsb (Nat.eqb a) l.

(** Iterators of the collection *)
Definition it_begin (c : coll) : nat := hd 0 (places c).
Definition it_end (c : coll) : nat := fin c.
Definition it_next (c : coll) (a : nat) : outcome nat :=
  match follows a (places c) with Some b => Ok b | None => if Nat.eqb a (fin c) then UB OutOfBounds else UB UseAfterFree end.
Definition it_prev (c : coll) (a : nat) : outcome nat :=
  match follows a (rev (places c)) with Some b => Ok b | None => if has a (places c) then UB OutOfBounds else UB UseAfterFree end.
Definition it_ref (c : coll) (a : nat) : outcome nat :=
  if has a (ids c) then Ok a else if Nat.eqb a (fin c) then UB OutOfBounds else UB UseAfterFree.
Definition it_neq (c : coll) (a b : nat) : outcome bool :=
  if has a (places c) && has b (places c) then Ok (negb (Nat.eqb a b)) else UB UseAfterFree.
Fixpoint it_advance (c : coll) (n : nat) (a : nat) : outcome nat :=
  match n with O => Ok a | S n => b <- it_next c a ;; it_advance c n b end.

Definition failing {A B} (r : outcome A) : outcome B :=
  match r with Ok _ => Diverge | Throw e => Throw e | UB u => UB u | Abort => Abort | Terminate => Terminate | Diverge => Diverge end.

Section Loop.
Context {S : Type}.
(** The collections of the program, by number *)
Variable colls : S -> nat -> coll.

(** The loop over iterators I which give R. [Ok true]: to the end. *)
Section Range.
Context {I R : Type}.
Variable neq : S -> I -> I -> outcome bool.
Variable incr : S -> I -> outcome I.
Variable get : S -> I -> outcome R.
Variable body : R -> S -> S * outcome bool.
Fixpoint loop (fuel : nat) (s : S) (i e : I) : S * outcome bool :=
  match fuel with
  | O => (s, Diverge)
  | Datatypes.S fuel =>
      match neq s i e with
      | Ok true =>
          match get s i with
          | Ok r =>
              let '(s, o) := body r s in
              match o with
              | Ok true => match incr s i with Ok i => loop fuel s i e | o => (s, failing o) end
              | o => (s, o)
              end
          | o => (s, failing o)
          end
      | Ok false => (s, Ok true)
      | o => (s, failing o)
      end
  end.
Definition range_for (fuel : nat) (s : S) (b e : outcome I) : S * outcome bool :=
  match b with
  | Ok b => match e with Ok e => loop fuel s b e | o => (s, failing o) end
  | o => (s, failing o)
  end.
End Range.

(** views.hpp:38-73 *)
Definition skip_begin (dbg : bool) (n k : nat) (s : S) : outcome nat :=
  assert_ dbg (Nat.leb n (length (ids (colls s k)))) ;;; it_advance (colls s k) n (it_begin (colls s k)).
Definition for_skip_front (dbg : bool) (n k : nat) (body : nat -> S -> S * outcome bool) (fuel : nat) (s : S) : S * outcome bool :=
  range_for (fun s => it_neq (colls s k)) (fun s => it_next (colls s k)) (fun s => it_ref (colls s k)) body fuel s
    (skip_begin dbg n k s) (Ok (it_end (colls s k))).

(** views.hpp:82-115; a std::reverse_iterator holds the iterator after the element it refers to. *)
Definition for_reverse (k : nat) (body : nat -> S -> S * outcome bool) (fuel : nat) (s : S) : S * outcome bool :=
  range_for (fun s => it_neq (colls s k)) (fun s => it_prev (colls s k)) (fun s => it_prev (colls s k)) body fuel s
    (Ok (it_end (colls s k))) (Ok (it_begin (colls s k))).

(** views.hpp:121-209; min_size is computed when the view is made. *)
Record zip_view := { over : list nat; min_size : nat }.
Fixpoint least (l : list nat) : nat := match l with [] => 0 | [n] => n | n :: r => Nat.min n (least r) end.
Definition zip (ks : list nat) (s : S) : zip_view := {| over := ks; min_size := least (map (fun k => length (ids (colls s k))) ks) |}.

Fixpoint each_of (f : nat -> nat -> outcome nat) (ks l : list nat) : outcome (list nat) :=
  match ks, l with
  | k :: ks, a :: l => b <- f k a ;; r <- each_of f ks l ;; Ok (b :: r)
  | _, _ => Ok []
  end.
Definition zip_begin (v : zip_view) (s : S) : list nat := map (fun k => it_begin (colls s k)) (over v).
Definition zip_end (v : zip_view) (s : S) : outcome (list nat) :=
  each_of (fun k => it_advance (colls s k) (min_size v)) (over v) (zip_begin v s).
(** operator!= looks at the first iterators only. *)
Definition zip_neq (v : zip_view) (s : S) (i e : list nat) : outcome bool :=
  match over v, i, e with
  | k :: _, a :: _, b :: _ => it_neq (colls s k) a b
  | _, _, _ => UB BadArgument
  end.
Definition for_zip (v : zip_view) (body : list nat -> S -> S * outcome bool) (fuel : nat) (s : S) : S * outcome bool :=
  range_for (zip_neq v) (fun s => each_of (fun k => it_next (colls s k)) (over v)) (fun s => each_of (fun k => it_ref (colls s k)) (over v)) body fuel s
    (Ok (zip_begin v s)) (zip_end v s).
End Loop.

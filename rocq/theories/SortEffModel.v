(** Model of src/utki/sort.hpp for C++17, with comparators and element types that have effects and may throw.

    As in SortModel the memory the iterators point into is a list and iterators are positions in it. [W] is the
    state of everything else. A comparison and the copying of an element may do anything to it and have any outcome.
    The comparator does not change the elements. [moved x] is what is left of an element [x] after it was moved from;
    moving an element does not throw. Copying the comparator itself has no effect.

    The memory and the world are also given when the outcome is not [Ok]. *)
From Verif Require Import Base.

Section Sort.
Context {W A : Type}.
Variable cmp : W -> A -> A -> W * outcome bool.
Variable copy : W -> A -> W * outcome unit.
Variable moved : A -> A.

Definition state : Type := W * list A.
Definition eff (X : Type) : Type := state -> state * outcome X.
Definition ret {X} (x : X) : eff X := fun s => (s, Ok x).
Definition raise {X} (o : outcome X) : eff X := fun s => (s, o).
Definition andThen {X Y} (m : eff X) (k : X -> eff Y) : eff Y := fun s =>
  let '(s, r) := m s in
  match r with
  | Ok x => k x s
  | Throw e => (s, Throw e)
  | UB r => (s, UB r)
  | Abort => (s, Abort)
  | Terminate => (s, Terminate)
  | Diverge => (s, Diverge)
  end.
Notation "x <-- m ;; k" := (andThen m (fun x => k)) (at level 61, m at next level, right associativity).

(** [*i] *)
Definition get_eff (i : nat) : eff A := fun s =>
  (s, match nth_error (snd s) i with Some x => Ok x | None => UB OutOfBounds end).
(** [*i = x] *)
Definition put_eff (i : nat) (x : A) : eff unit := fun '(w, m) =>
  if Nat.ltb i (length m) then ((w, firstn i m ++ x :: skipn (S i) m), Ok tt) else ((w, m), UB OutOfBounds).
(** std::move( *i ) given to something that takes it over *)
Definition take_eff (i : nat) : eff A :=
  x <-- get_eff i ;; _ <-- put_eff i (moved x) ;; ret x.
(** Incrementing an iterator past the end of the memory is undefined. *)
Definition inc_eff (i : nat) : eff nat := fun s =>
  (s, if Nat.ltb i (length (snd s)) then Ok (S i) else UB OutOfBounds).
Definition call_cmp (x y : A) : eff bool := fun '(w, m) => let '(w, r) := cmp w x y in ((w, m), r).
Definition call_copy (x : A) : eff unit := fun '(w, m) => let '(w, r) := copy w x in ((w, m), r).

(** sort.hpp:62-68 *)
Definition iter_swap_eff (a b : nat) : eff unit :=
  temp <-- take_eff a ;;
  y <-- take_eff b ;;
  _ <-- put_eff a y ;;
  put_eff b temp.

(** sort.hpp:70-79; fuel: [inc_eff] fails after at most [length m] steps. *)
Fixpoint find_if_not_eff (fuel : nat) (q : A -> eff bool) (first last : nat) : eff nat :=
  match fuel with
  | O => raise Diverge
  | S fuel =>
      if Nat.eqb first last then ret last
      else
        x <-- get_eff first ;;
        b <-- q x ;;
        if negb b then ret first
        else first <-- inc_eff first ;; find_if_not_eff fuel q first last
  end.

(** sort.hpp:88-93 *)
Fixpoint partition_loop_eff (fuel : nat) (p : A -> eff bool) (first i last : nat) : eff nat :=
  match fuel with
  | O => raise Diverge
  | S fuel =>
      if Nat.eqb i last then ret first
      else
        x <-- get_eff i ;;
        b <-- p x ;;
        first <-- (if b : bool then _ <-- iter_swap_eff i first ;; inc_eff first else ret first) ;;
        i <-- inc_eff i ;;
        partition_loop_eff fuel p first i last
  end.
(** sort.hpp:81-95. [pivot] is the element which the predicate [p] holds a copy of: the predicate is passed to find_if_not
    by value. *)
Definition partition_eff (pivot : A) (p : A -> eff bool) (first last : nat) : eff nat := fun s =>
  (_ <-- call_copy pivot ;;
   first <-- find_if_not_eff (S (length (snd s))) p first last ;;
   if Nat.eqb first last then ret first
   else
     i <-- inc_eff first ;;
     partition_loop_eff (S (length (snd s))) p first i last) s.

(** sort.hpp:97-113. Each lambda expression captures a copy of the pivot; the lambda itself is constructed as the parameter of
    partition. *)
Fixpoint quick_sort_eff (fuel : nat) (first last : nat) : eff unit :=
  match fuel with
  | O => raise Diverge
  | S fuel =>
      let n := (Z.of_nat last - Z.of_nat first)%Z in
      if (n <=? 1)%Z then ret tt
      else
        pivot <-- get_eff (first + Z.to_nat (Z.quot n 2)) ;;
        _ <-- call_copy pivot ;;
        _ <-- call_copy pivot ;;
        middle1 <-- partition_eff pivot (fun elem => call_cmp elem pivot) first last ;;
        _ <-- call_copy pivot ;;
        middle2 <-- partition_eff pivot (fun elem => b <-- call_cmp pivot elem ;; ret (negb b)) middle1 last ;;
        _ <-- quick_sort_eff fuel first middle1 ;;
        quick_sort_eff fuel middle2 last
  end.
End Sort.

(** sort.hpp:127-135 (C++17). How deep the recursion may get is [depth]. *)
Definition sort_eff {W A} (depth : nat) cmp copy moved (w : W) (m : list A) (first last : nat) : W * list A * outcome unit :=
  let '((w, m), r) := quick_sort_eff cmp copy moved depth first last (w, m) in (w, m, r).

(** Model of src/utki/sort.hpp for C++17 (with C++20 utki::sort is std::sort).

    The memory the iterators point into is a list, iterators are positions in it. The comparator is a
    total function: it neither throws nor changes the elements. Moving an element is copying it. *)
From Verif Require Import Base.

Section Sort.
Context {A : Type}.
Implicit Types m : list A.

(** [*i] *)
Definition get m (i : nat) : outcome A :=
  match nth_error m i with Some x => Ok x | None => UB OutOfBounds end.
(** [*i = x] *)
Definition put m (i : nat) (x : A) : outcome (list A) :=
  if Nat.ltb i (length m) then Ok (firstn i m ++ x :: skipn (S i) m) else UB OutOfBounds.
(** Incrementing an iterator past the end of the memory is undefined. *)
Definition inc m (i : nat) : outcome nat := if Nat.ltb i (length m) then Ok (S i) else UB OutOfBounds.

(** sort.hpp:62-68 *)
Definition iter_swap m (a b : nat) : outcome (list A) :=
  temp <- get m a ;;
  y <- get m b ;;
  m <- put m a y ;;
  put m b temp.

(** sort.hpp:70-79; fuel: [inc] fails after at most [length m] steps. *)
Fixpoint find_if_not_loop (fuel : nat) m (q : A -> bool) (first last : nat) : outcome nat :=
  match fuel with
  | O => Diverge
  | S fuel =>
      if Nat.eqb first last then Ok last
      else
        x <- get m first ;;
        if negb (q x) then Ok first
        else first <- inc m first ;; find_if_not_loop fuel m q first last
  end.
Definition find_if_not m q first last := find_if_not_loop (S (length m)) m q first last.

(** sort.hpp:81-95 *)
Fixpoint partition_loop (fuel : nat) m (p : A -> bool) (first i last : nat) : outcome (list A * nat) :=
  match fuel with
  | O => Diverge
  | S fuel =>
      if Nat.eqb i last then Ok (m, first)
      else
        x <- get m i ;;
        r <- (if p x then
                m <- iter_swap m i first ;;
                first <- inc m first ;;
                Ok (m, first)
              else Ok (m, first)) ;;
        let '(m, first) := r in
        i <- inc m i ;;
        partition_loop fuel m p first i last
  end.
Definition partition m (p : A -> bool) (first last : nat) : outcome (list A * nat) :=
  first <- find_if_not m p first last ;;
  if Nat.eqb first last then Ok (m, first)
  else
    i <- inc m first ;;   (* next(first) *)
    partition_loop (S (length m)) m p first i last.

(** sort.hpp:97-113. [last - first] is the signed distance; [n / 2] truncates. The depth of the
    recursion is bounded by [fuel]; [Diverge] means that it is exceeded. *)
Fixpoint quick_sort (fuel : nat) (cmp : A -> A -> bool) m (first last : nat) : outcome (list A) :=
  match fuel with
  | O => Diverge
  | S fuel =>
      let n := (Z.of_nat last - Z.of_nat first)%Z in
      if (n <=? 1)%Z then Ok m
      else
        pivot <- get m (first + Z.to_nat (Z.quot n 2)) ;;
        r <- partition m (fun elem => cmp elem pivot) first last ;;
        let '(m, middle1) := r in
        r <- partition m (fun elem => negb (cmp pivot elem)) middle1 last ;;
        let '(m, middle2) := r in
        m <- quick_sort fuel cmp m first middle1 ;;
        quick_sort fuel cmp m middle2 last
  end.
End Sort.

(** Model of the deep comparisons of spans: src/utki/span.hpp:495-534.

    A span is the list of the elements it refers to (see SpanModel for the memory). The comparisons work
    on spans of two element types; [eq] is operator== , [lt] is operator< and [lt'] is operator< with the
    types exchanged. *)
From Verif Require Import Base.

(** std::equal(first1, last1, first2, last2). For random access iterators the distances are compared first. *)
Fixpoint equal_loop {A B} (eq : A -> B -> bool) (l : list A) (r : list B) : outcome bool :=
  match l with
  | [] => Ok true
  | x :: l =>
      match r with
      | [] => UB OutOfBounds
      | y :: r => if eq x y then equal_loop eq l r else Ok false
      end
  end.
Definition std_equal {A B} (eq : A -> B -> bool) (l : list A) (r : list B) : outcome bool :=
  if Nat.eqb (length l) (length r) then equal_loop eq l r else Ok false.

(** std::lexicographical_compare *)
Fixpoint lexicographical_compare {A B} (lt : A -> B -> bool) (lt' : B -> A -> bool) (l : list A) (r : list B) : bool :=
  match l, r with
  | x :: l, y :: r =>
      if lt x y then true
      else if lt' y x then false
      else lexicographical_compare lt lt' l r
  | [], _ :: _ => true
  | _, [] => false
  end.

(** 495-504 *)
Definition deep_equals {A B} (eq : A -> B -> bool) (l : list A) (r : list B) : outcome bool := std_equal eq l r.
(** 506-510 *)
Definition deep_not_equals {A B} (eq : A -> B -> bool) (l : list A) (r : list B) : outcome bool :=
  b <- deep_equals eq l r ;; Ok (negb b).
(** 512-516 *)
Definition deep_less_than {A B} (lt : A -> B -> bool) (lt' : B -> A -> bool) (l : list A) (r : list B) : bool :=
  lexicographical_compare lt lt' l r.
(** 518-522 *)
Definition deep_greater_or_equals {A B} (lt : A -> B -> bool) (lt' : B -> A -> bool) (l : list A) (r : list B) : bool :=
  negb (deep_less_than lt lt' l r).
(** 524-528 *)
Definition deep_greater_than {A B} (lt : A -> B -> bool) (lt' : B -> A -> bool) (l : list A) (r : list B) : bool :=
  deep_less_than lt' lt r l.
(** 530-534 *)
Definition deep_less_or_equals {A B} (lt : A -> B -> bool) (lt' : B -> A -> bool) (l : list A) (r : list B) : bool :=
  negb (deep_greater_than lt lt' l r).

(** Specification of sorting. *)
From Verif Require Import Base.
From Coq Require Export Sorting.Permutation.

Section Spec.
Context {A : Type}.
Variable cmp : A -> A -> bool.

(** Strict weak order. *)
Definition strict_weak_order : Prop :=
  (forall x, cmp x x = false) /\
  (forall x y z, cmp x y = true -> cmp y z = true -> cmp x z = true) /\
  (forall x y z, cmp x y = false -> cmp y x = false -> cmp y z = false -> cmp z y = false ->
     cmp x z = false /\ cmp z x = false).

(** No element is before an earlier one. *)
Definition sorted (l : list A) : Prop :=
  forall i j x y, i < j -> nth_error l i = Some x -> nth_error l j = Some y -> cmp y x = false.
End Spec.

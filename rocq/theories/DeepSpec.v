(** Specification of the comparison of sequences. *)
From Verif Require Import Base.

(** Same length, and equal at every position. *)
Definition elementwise {A B} (eq : A -> B -> bool) (l : list A) (r : list B) : Prop :=
  length l = length r /\ forall i x y, nth_error l i = Some x -> nth_error r i = Some y -> eq x y = true.

(** Neither of the elements at position [i] is less. *)
Definition tied {A B} (lt : A -> B -> bool) (lt' : B -> A -> bool) (l : list A) (r : list B) (i : nat) : Prop :=
  exists x y, nth_error l i = Some x /\ nth_error r i = Some y /\ lt x y = false /\ lt' y x = false.
(** Lexicographic order: at the first position that is not tied, either the element of [l] is less or [l] ends
    before [r]. *)
Definition lexicographic {A B} (lt : A -> B -> bool) (lt' : B -> A -> bool) (l : list A) (r : list B) : Prop :=
  exists i, (forall j, j < i -> tied lt lt' l r j) /\
    exists y, nth_error r i = Some y /\ (nth_error l i = None \/ exists x, nth_error l i = Some x /\ lt x y = true).

(** A strict total order, with its equality. *)
Definition total_order {A} (eq lt : A -> A -> bool) : Prop :=
  (forall x y, eq x y = true <-> x = y) /\
  (forall x, lt x x = false) /\
  (forall x y z, lt x y = true -> lt y z = true -> lt x z = true) /\
  (forall x y, lt x y = true \/ x = y \/ lt y x = true).

(** Specification of linq. *)
From Verif Require Import Base SortSpec UtilSpec.

(** What std::sort promises for a strict weak order. *)
Definition sorts {A} (std_sort : (A -> A -> bool) -> list A -> list A) : Prop :=
  forall cmp l, strict_weak_order cmp -> Permutation (std_sort cmp l) l /\ sorted cmp (std_sort cmp l).

(** [r] groups the elements of [l] by their keys: each key occurs once, in order; it comes with all elements that
    have this key, in their order; and every element is in a group. *)
Definition groups {A K} (lt : K -> K -> bool) (key : A -> K) (l : list A) (r : list (K * list A)) : Prop :=
  is_map lt r /\
  (forall k g, In (k, g) r -> g <> [] /\ exists belongs : A -> bool, (forall x, belongs x = true <-> same lt (key x) k) /\ g = filter belongs l) /\
  (forall x, In x l -> exists k g, In (k, g) r /\ In x g /\ same lt (key x) k).

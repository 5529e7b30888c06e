(** Specification of contains. *)
From Verif Require Import Base ContainsModel.

(** The elements are compared with the value one after another, with the answer false each time. *)
Inductive passed {S A B} (eq : A -> B -> run S bool) (v : B) : list A -> S -> S -> Prop :=
| passed_none : forall s, passed eq v [] s s
| passed_one : forall x c s s1 s2, eq x v s = (Ok false, s1) -> passed eq v c s1 s2 -> passed eq v (x :: c) s s2.
(** Not a value *)
Definition fails {A} (r : outcome A) : Prop := match r with Ok _ => False | _ => True end.

(** The elements of a search tree in order; its height *)
Fixpoint in_order {P} (t : tree P) : list P := match t with Leaf => [] | Node l p r => in_order l ++ p :: in_order r end.
Fixpoint height {P} (t : tree P) : nat := match t with Leaf => 0 | Node l _ r => 1 + max (height l) (height r) end.

(** The key has been inserted and not erased since; the operations with the last one first. *)
Fixpoint present {K V} (eq : K -> K -> bool) (ops : list (op K V)) (k : K) : bool :=
  match ops with
  | [] => false
  | Insert k' _ :: ops => eq k' k || present eq ops k
  | Erase k' :: ops => negb (eq k' k) && present eq ops k
  | Rehash _ :: ops => present eq ops k
  end.
Definition equivalence {K} (eq : K -> K -> bool) : Prop :=
  (forall a, eq a a = true) /\ (forall a b, eq a b = true -> eq b a = true) /\ (forall a b c, eq a b = true -> eq b c = true -> eq a c = true).

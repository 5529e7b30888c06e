(** Specification of comparing trees and of erasing nodes while iterating. *)
From Verif Require Import Base TreeModel TreeSpec.

Section Spec.
Context {V : Type}.
Notation tree := (tree V).

(** Same shape and equal values at the same places. *)
Definition same (eqb : V -> V -> bool) (f g : list tree) : Prop :=
  Forall2 (fun a b => fst a = fst b /\ eqb (snd a) (snd b) = true) (outline 0 f) (outline 0 g).

(** The forest without the nodes that satisfy [pred] and everything below them. *)
Fixpoint pruned (pred : tree -> bool) (t : tree) : list tree :=
  match t with Node v ch => if pred t then [] else [Node v (flat_map (pruned pred) ch)] end.
Definition prune (pred : tree -> bool) (f : list tree) : list tree := flat_map (pruned pred) f.

(** The nodes that have no ancestor that satisfies [pred], in pre-order. *)
Fixpoint exposed (pred : tree -> bool) (t : tree) : list tree :=
  match t with Node v ch => t :: if pred t then [] else flat_map (exposed pred) ch end.
End Spec.

(** Properties of comparing trees and of erasing nodes while iterating. *)
From Verif Require Import Base TreeModel TreeSpec TreeProps TreeMoreModel TreeMoreSpec TreeMoreProofs.

(** ** C74 *)
Theorem C74_erase_where : forall (V : Type) dbg pred (f : list (tree V)),
  erase_where dbg pred f = Ok (prune pred f, flat_map (exposed pred) f).
Proof. exact @erase_where_ok. Qed.
Print Assumptions C74_erase_where.

Example C74_case :
  erase_where true (fun t => Nat.even (value t)) sample = Ok ([Node 1 [Node 3 []]; Node 5 []],
    [Node 1 [Node 2 []; Node 3 [Node 4 []]]; Node 2 []; Node 3 [Node 4 []]; Node 4 []; Node 5 []; Node 6 [Node 7 []]]) /\
  erase_where true (fun t => Nat.eqb (value t) 1) sample = Ok ([Node 5 []; Node 6 [Node 7 []]],
    [Node 1 [Node 2 []; Node 3 [Node 4 []]]; Node 5 []; Node 6 [Node 7 []]; Node 7 []]) /\
  erase_where true (fun _ => true) sample = Ok ([], sample) /\
  erase_where true (fun _ => false) sample = Ok (sample, nodes sample).
Proof. repeat split. Qed.

(** ** C75 *)
Theorem C75_equal : forall (V : Type) eqb (t s : tree V), exists b,
  tree_eq (fun v w => Ok (eqb v w)) t s = Ok b /\ (b = true <-> same eqb [t] [s]).
Proof. exact @tree_eq_same. Qed.
Print Assumptions C75_equal.

Theorem C75_identical : forall (V : Type) eqb (t s : tree V), (forall v w, eqb v w = true <-> v = w) ->
  exists b, tree_eq (fun v w => Ok (eqb v w)) t s = Ok b /\ (b = true <-> t = s).
Proof. exact @tree_eq_iff. Qed.
Print Assumptions C75_identical.

(** An exception of the comparison of values never leaves the comparison of trees, it ends the program; from the
    comparison with a value it does leave. *)
Theorem C75_throw : forall (V : Type) value_eq (t s : tree V) e,
  tree_eq value_eq t s <> Throw e /\
  (value_eq (value t) (value s) = Throw e -> tree_eq value_eq t s = Terminate) /\
  (forall v, value_eq (value t) v = Throw e -> eq_value value_eq t v = Throw e).
Proof. exact @tree_eq_throws. Qed.
Print Assumptions C75_throw.

Example C75_case :
  let eq := tree_eq (fun v w => Ok (Nat.eqb v w)) in
  eq (Node 1 [Node 2 []; Node 3 [Node 4 []]]) (Node 1 [Node 2 []; Node 3 [Node 4 []]]) = Ok true /\
  (* the same values in the same order, another shape *)
  eq (Node 1 [Node 2 []; Node 3 [Node 4 []]]) (Node 1 [Node 2 [Node 3 []]; Node 4 []]) = Ok false /\
  eq (Node 1 [Node 2 []]) (Node 1 [Node 2 []; Node 3 []]) = Ok false /\
  eq (Node 1 [Node 2 []]) (Node 1 [Node 3 []]) = Ok false /\
  (* the comparison with a value ignores the children *)
  eq_value (fun v w => Ok (Nat.eqb v w)) (Node 1 [Node 2 []]) 1 = Ok true.
Proof. repeat split. Qed.

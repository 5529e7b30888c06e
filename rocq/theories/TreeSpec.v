(** Specification of tree traversal: paths and pre-order. *)
From Verif Require Import Base TreeModel.

Section Spec.
Context {V : Type}.
Notation tree := (tree V).

(** The index paths of the nodes of a forest in pre-order; [k] is the number of the first tree. *)
Fixpoint tree_paths (i : nat) (t : tree) : list path :=
  match t with
  | Node _ ch =>
      [i] :: map (cons i)
        ((fix go k l := match l with [] => [] | t :: l => tree_paths k t ++ go (S k) l end) 0 ch)
  end.
Fixpoint paths_from (k : nat) (l : list tree) : list path :=
  match l with [] => [] | t :: l => tree_paths k t ++ paths_from (S k) l end.
Definition preorder (f : list tree) : list path := paths_from 0 f.

(** Positions of iterators: the nodes, then end(). *)
Definition positions (f : list tree) : list path := preorder f ++ [[length f]].

(** The node at a path. *)
Fixpoint node_at (f : list tree) (p : path) : option tree :=
  match p with
  | [] => None
  | [i] => nth_error f i
  | i :: p => match nth_error f i with Some (Node _ ch) => node_at ch p | None => None end
  end.

(** All nodes, parents before children. *)
Fixpoint subtrees (t : tree) : list tree :=
  match t with Node v ch => Node v ch :: flat_map subtrees ch end.
Definition nodes (f : list tree) : list tree := flat_map subtrees f.

(** The pre-order sequence of values together with their depths; it determines the forest. *)
Fixpoint outline_tree (d : nat) (t : tree) : list (nat * V) :=
  match t with Node v ch => (d, v) :: flat_map (outline_tree (S d)) ch end.
Definition outline (d : nat) (f : list tree) : list (nat * V) := flat_map (outline_tree d) f.

(** The iterator that stands at a path. *)
Fixpoint stack_from (c : path) (p : path) : list path :=
  match p with [] => [] | i :: p => c :: stack_from (c ++ [i]) p end.
Definition at_path (p : path) : iterator :=
  let ls := stack_from [] p in Iterator ls (combine ls p).
End Spec.

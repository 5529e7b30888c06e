(** Specification for TreeMemModel.v: sound memories, the iterator that stands at a path, the iterators that stay valid. *)
From Verif Require Import Base TreeModel TreeMemModel.

Section Spec.
Context {V : Type}.
Notation atree := (atree V).
Notation mem := (mem V).

(** The addresses in use: two of each node, and the end of the roots. *)
Definition addrs_of (l : list atree) : list nat := flat_map (fun t => [a_addr t; a_end t]) (flat_map all_nodes l).
Definition addresses (m : mem) : list nat := fst (top m) :: addrs_of (snd (top m)).
Definition sound (m : mem) : Prop := NoDup (addresses m) /\ Forall (fun a => a < next m) (addresses m).

(** A forest in memory. *)
Fixpoint load_list (l : list (tree V)) (n : nat) : list atree * nat :=
  match l with
  | [] => ([], n)
  | t :: l => let '(t, n) := label t n in let '(l, n) := load_list l n in (t :: l, n)
  end.
Definition load (f : list (tree V)) : mem := let '(l, n) := load_list f 1 in {| top := (0, l); next := n |}.

(** The stacks of the iterator at path [p], down from the container [k] of the node [o]. *)
Fixpoint trail (o : option nat) (k : nat * list atree) (p : path) : option (list (option nat) * list nat) :=
  match p with
  | [] => Some ([], [])
  | i :: p =>
      match nth_error (map a_addr (snd k) ++ [fst k]) i with
      | None => None
      | Some a =>
          match p with
          | [] => Some ([o], [a])
          | _ =>
              match nth_error (snd k) i with
              | None => None
              | Some t =>
                  match trail (Some a) (a_end t, a_children t) p with
                  | None => None
                  | Some (ls, is) => Some (o :: ls, a :: is)
                  end
              end
          end
      end
  end.
(** The iterator [it] is valid and stands at [p]. *)
Definition stands (m : mem) (p : path) (it : m_iterator) : Prop := trail None (top m) p = Some (m_lists it, m_iters it).

(** The path [p] goes through the container at [q] at one of its positions for which [P] holds. *)
Definition through (q : path) (P : nat -> Prop) (p : path) : Prop := exists j r, p = q ++ j :: r /\ P j.
End Spec.

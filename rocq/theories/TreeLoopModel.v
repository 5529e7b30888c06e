(** Model of loops that erase nodes while they walk over a tree, with the addresses of nodes (TreeMemModel): src/utki/tree.hpp:736-757, 866-876.

    for(auto i = tr.begin(); i != tr.end();) { if(...) i = tr.erase(i); else ++i; }

    What is done at a node is decided by a function of the caller, which is given the node and may change the state [W] of the
    rest of the program (not the tree), fail, or leave the loop. [cached] is the variant in which end() is called once before the loop.
    The first result is the tree when the loop is left, in whatever way. *)
From Verif Require Import Base TreeModel TreeMemModel.

Inductive action := Next | Erase | Stop.

Section Loop.
Context {V W : Type}.
Notation tree := (tree V).
Notation mem := (mem V).
Variable decide : tree -> W -> W * outcome action.

(** The outcome of a failed operation *)
Definition failed {A B} (r : outcome A) : outcome B :=
  match r with Ok _ => Diverge | Throw e => Throw e | UB u => UB u | Abort => Abort | Terminate => Terminate | Diverge => Diverge end.

(** tree.hpp:736-739, 754-757 with 238-242 *)
Definition mem_begin (m : mem) : m_iterator := MIterator [None] [nth 0 (pointers (top m)) 0].
Definition mem_end (m : mem) : m_iterator := MIterator [None] [fst (top m)].

(** [Ok true]: to the end; [Ok false]: left by break *)
Fixpoint mem_loop (dbg : bool) (kd : kind) (cached : option m_iterator) (fuel : nat) (m : mem) (it : m_iterator) (w : W)
  : mem * W * outcome bool :=
  match fuel with
  | O => (m, w, Diverge)
  | S fuel =>
      let last := match cached with Some e => e | None => mem_end m end in
      match mem_eq m it last with
      | Ok true => (m, w, Ok true)
      | Ok false =>
          match mem_deref m it with
          | Ok t =>
              let '(w, r) := decide t w in
              match r with
              | Ok Erase =>
                  match mem_erase dbg kd m it with
                  | Ok (m, it) => mem_loop dbg kd cached fuel m it w
                  | r => (m, w, failed r)
                  end
              | Ok Next =>
                  match mem_incr dbg m it with
                  | Ok it => mem_loop dbg kd cached fuel m it w
                  | r => (m, w, failed r)
                  end
              | Ok Stop => (m, w, Ok false)
              | r => (m, w, failed r)
              end
          | r => (m, w, failed r)
          end
      | r => (m, w, failed r)
      end
  end.
Definition mem_erase_where (dbg : bool) (kd : kind) (cached : bool) (m : mem) (w : W) : mem * W * outcome bool :=
  mem_loop dbg kd (if cached then Some (mem_end m) else None) (S (size (forest m))) m (mem_begin m) w.
End Loop.

(** insert(i, *j) and insert_after(i, *j) with nodes of the same tree: the overloads for const value_type& (tree.hpp:826-829, 855-858)
    copy the node before anything is moved. *)
Definition mem_insert_own {V : Type} (kd : kind) (realloc : bool) (m : mem V) (i j : m_iterator) : outcome (mem V * m_iterator) :=
  t <- mem_deref m j ;; mem_insert kd realloc m i t.
Definition mem_insert_after_own {V : Type} (kd : kind) (realloc : bool) (m : mem V) (i j : m_iterator) : outcome (mem V * m_iterator) :=
  t <- mem_deref m j ;; mem_insert_after kd realloc m i t.

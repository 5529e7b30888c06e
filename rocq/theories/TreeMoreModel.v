(** Model of comparison of trees (src/utki/tree.hpp:129-146) and of the erase-while-iterating loop over a
    [traversal] (tree.hpp:699-770, 804-852). *)
From Verif Require Import Base TreeModel.

Section Model.
Context {V : Type}.
Notation tree := (tree V).

(** ** Comparison, tree.hpp:129-146 *)
(** [value == t.value] is the comparison of the element type; it may throw. *)
Variable value_eq : V -> V -> outcome bool.

(** tree.hpp:136-139; the comparison with a value leaves exceptions alone. *)
Definition eq_value (t : tree) (v : V) : outcome bool := value_eq (value t) v.

(** A [noexcept] function that an exception would leave ends in std::terminate(). *)
Definition noexcept_ {A} (m : outcome A) : outcome A :=
  match m with Throw _ => Terminate | m => m end.

(** tree.hpp:142-145.  [children == t.children] is the comparison of two containers of the standard library: the
    sizes first, then the elements in order up to the first pair that differs; the elements are compared by this very
    operator. *)
Fixpoint tree_eq (t s : tree) {struct t} : outcome bool :=
  noexcept_
    match t, s with
    | Node v ch, Node w dh =>
        b <- value_eq v w ;;
        if (b : bool) then
          if Nat.eqb (length ch) (length dh) then
            (fix elements (l k : list tree) : outcome bool :=
               match l, k with
               | x :: l, y :: k => b <- tree_eq x y ;; if (b : bool) then elements l k else Ok false
               | _, _ => Ok true
               end) ch dh
          else Ok false
        else Ok false
    end.

(** ** The loop
[for(auto i = tr.begin(); i != tr.end();) { if(pred( *i )) i = tr.erase(i); else ++i; }].
    The second result is the sequence of the nodes [pred] was called with, as they were at that moment. *)
Fixpoint erase_loop (dbg : bool) (pred : tree -> bool) (fuel : nat) (f : list tree) (it : iterator)
  : outcome (list tree * list tree) :=
  match fuel with
  | O => Diverge
  | S fuel =>
      last <- it_end f ;;
      ne <- it_ne it last ;;
      if (ne : bool) then
        t <- deref f it ;;
        if pred t then
          r <- erase dbg f it ;;
          s <- erase_loop dbg pred fuel (fst r) (snd r) ;;
          Ok (fst s, t :: snd s)
        else
          it <- incr dbg f it ;;
          s <- erase_loop dbg pred fuel f it ;;
          Ok (fst s, t :: snd s)
      else Ok (f, [])
  end.
Definition erase_where (dbg : bool) (pred : tree -> bool) (f : list tree) : outcome (list tree * list tree) :=
  b <- it_begin f ;; erase_loop dbg pred (S (size f)) f b.
End Model.

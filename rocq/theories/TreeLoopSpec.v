(** Specification of loops that erase nodes: a recursive walk. *)
From Verif Require Import Base TreeModel TreeLoopModel.

Section Spec.
Context {V W : Type}.
Notation tree := (tree V).
Variable decide : tree -> W -> W * outcome action.

(** One after the other, as long as the result is [Ok true]; the others stay as they are. *)
Section Each.
Variable visit : tree -> W -> list tree * W * outcome bool.
Fixpoint each (l : list tree) (w : W) : list tree * W * outcome bool :=
  match l with
  | [] => ([], w, Ok true)
  | t :: l =>
      let '(t', w, r) := visit t w in
      match r with
      | Ok true => let '(l', w, r) := each l w in (t' ++ l', w, r)
      | r => (t' ++ l, w, r)
      end
  end.
End Each.

(** What is left of a tree: nothing, or the node with what is left of its children. *)
Fixpoint walk (t : tree) (w : W) : list tree * W * outcome bool :=
  match t with
  | Node v ch =>
      let '(w, r) := decide t w in
      match r with
      | Ok Erase => ([], w, Ok true)
      | Ok Next => let '(ch', w, r) := each walk ch w in ([Node v ch'], w, r)
      | Ok Stop => ([t], w, Ok false)
      | Throw e => ([t], w, Throw e)
      | UB u => ([t], w, UB u)
      | Abort => ([t], w, Abort)
      | Terminate => ([t], w, Terminate)
      | Diverge => ([t], w, Diverge)
      end
  end.

(** As [walk], but the erasure of a root is the last thing that happens. *)
Definition walk_root (t : tree) (w : W) : list tree * W * outcome bool :=
  match walk t w with ([], w, Ok true) => ([], w, UB UseAfterFree) | r => r end.
End Spec.

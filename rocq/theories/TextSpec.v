(** Specification of the conversions between spans, containers and texts. *)
From Verif Require Import Base TextModel.

Section Spec.
Context {A : Type}.
Variable mem : list A.

(** [n] elements from [p] on. *)
Definition valid_range (p : ptr) (n : nat) : Prop :=
  match p with None => n = 0 | Some i => i + n <= length mem end.
Definition range (p : ptr) (n : nat) : list A :=
  match p with None => [] | Some i => firstn n (skipn i mem) end.

Definition sp_valid (s : sp) : Prop := valid_range (s_data s) (s_size s).
Definition elements (s : sp) : list A := range (s_data s) (s_size s).
(** data() of an empty container is any pointer at all. *)
Definition cont_valid (c : cont) : Prop := c_size c = 0 \/ valid_range (c_data c) (c_size c).
Definition cont_elements (c : cont) : list A := range (c_data c) (c_size c).

(** Running [body] over a list until it fails. *)
Fixpoint run {S : Type} (body : S -> A -> S * outcome unit) (l : list A) (st : S) : S * outcome unit :=
  match l with
  | [] => (st, Ok tt)
  | a :: l => let (st, r) := body st a in match r with Ok _ => run body l st | r => (st, r) end
  end.
(** What the elements of a list write. *)
Definition written (put : A -> outcome (list N)) (l : list A) : list N :=
  flat_map (fun a => match put a with Ok t => t | _ => [] end) l.
End Spec.

(** The texts that the arguments of cat write, in order, until one of them makes the stream bad. *)
Fixpoint texts {F : Type} (f : F) (args : list (arg F)) : list (list N) :=
  match args with
  | [] => []
  | a :: args => let '(t, f, g) := a f in t :: if (g : bool) then texts f args else []
  end.

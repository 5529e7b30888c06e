(** Specification of the lifetime of what what() returns. *)
From Verif Require Import Base ExceptModel ExceptPtrModel.

(** The exception as an exception of ExceptModel *)
Fixpoint forget (x : object) : exn :=
  match x with
  | Plain c name what base =>
      Obj c name what (match base with NoNested => NoNested | NullNested => NullNested | Nested n => Nested (forget n) end)
  | Stack _ name nesting nested base =>
      Stacked name (forget nesting) (match nested with Some n => Some (forget n) | None => None end)
        (match base with NoNested => NoNested | NullNested => NullNested | Nested n => Nested (forget n) end)
  end.

(** [asked k x i]: the call of kind [k] for [x] asks the stacked_exception [i] for its what(). Exceptions nested with std::throw_with_nested
    are printed with utki::to_string, or by name only. A stacked_exception asks the exception nested in it for its to_string() if it is a utki::exception. *)
Definition shown (n : object) : kind := if obj_is_std n then ToString else Current.
Definition listed (n : object) : kind := if obj_is_utki n then Method else shown n.
Definition nested_base (x : object) : nest object := match x with Plain _ _ _ base | Stack _ _ _ _ base => base end.
Inductive asked : kind -> object -> nat -> Prop :=
| asks_itself : forall i name nesting nested base, asked What (Stack i name nesting nested base) i
| asks_listed : forall i name nesting nested base j, asked Method (Stack i name nesting nested base) j -> asked What (Stack i name nesting nested base) j
| asks_what : forall x i, asked What x i -> asked ToString x i
| asks_base : forall x n i, nested_base x = Nested n -> asked (shown n) n i -> asked ToString x i
| asks_current : forall x n i, nested_base x = Nested n -> asked (shown n) n i -> asked Current x i
| asks_plain : forall c name what base i, asked ToString (Plain c name what base) i -> asked Method (Plain c name what base) i
| asks_nesting : forall j name nesting nested base i, asked ToString nesting i -> asked Method (Stack j name nesting nested base) i
| asks_nested : forall j name nesting n base i, asked (listed n) n i -> asked Method (Stack j name nesting (Some n) base) i.

(** What throw_with_nested makes of exceptions that hold no others *)
Inductive thrown : object -> Prop :=
| thrown_first : forall c name what, thrown (Plain c name what NoNested)
| thrown_over : forall i name c n w x, thrown x -> thrown (Stack i name (Plain c n w NoNested) (Some x) NoNested).

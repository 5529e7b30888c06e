(** Specification of exception texts in a process that runs out of memory. *)
From Coq Require Import String.
From Verif Require Import Base StrLit.
Local Open Scope string_scope. Local Open Scope list_scope. Local Open Scope Z_scope.

Section Spec.
Variable mangled : list Z -> list Z.
(** What may be left of a text: all of it or a beginning, part by part; names may be mangled; and a text that what() of a
    stacked_exception has not been able to make is the name of the problem. Nothing is changed or added otherwise. *)
Inductive damaged : list Z -> list Z -> Prop :=
| whole : forall t, damaged t t
| beginning : forall n t t', damaged t t' -> damaged (firstn n t) t'
| parts : forall a a' b b', damaged a a' -> damaged b b' -> damaged (a ++ b) (a' ++ b')
| name_mangled : forall n, damaged (mangled n) n
| no_stack : forall t, damaged (zstr "std::bad_alloc") (zstr "exception stack:" ++ [10] ++ t)
| no_error : damaged (zstr "std::bad_alloc") (zstr "error").

(** The program ends, or is undefined, even with enough memory: a chain whose end is missing, or a to_string of the user. *)
Definition ends {A} (o : outcome A) : Prop := match o with Ok _ | Throw _ => False | _ => True end.
(** With the faults there is std::bad_alloc, or what there would be without them, but for damage. *)
Definition no_worse (r o : outcome (list Z)) : Prop :=
  ends o \/
  match r with
  | Throw BadAlloc => True
  | Ok t => exists t', o = Ok t' /\ damaged t t'
  | r => o = r
  end.
End Spec.

(** Specification of logging, assertions and demangle on other platforms. *)
From Coq Require Import String.
From Verif Require Import Base TextModel LogModel PlatformModel.

(** [t] is [s] up to its first zero. *)
Definition up_to_zero {C : Type} (zero : C) (s t : list C) : Prop :=
  ~ In zero t /\ (s = t \/ exists r, s = t ++ zero :: r).

(** A function that only appends to the stream it is given: what it writes does not depend on what was written before. *)
Definition appends {F X : Type} (print : printing F X) (out : F -> X -> list N * F * bool * X * outcome unit) : Prop :=
  forall t f x, print (Stream t f true) x = let '(o, f', g, x', r) := out f x in (Stream (t ++ o) f' g, x', r).

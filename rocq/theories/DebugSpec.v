(** Specifications for DebugModel.v and for the agreement of debug and release builds. *)
From Coq Require Import String.
From Verif Require Import Base StrLit MiscSpec DebugModel.
Local Open Scope string_scope. Local Open Scope list_scope. Local Open Scope Z_scope.

(** The condition holds, fails, or cannot be evaluated. *)
Definition holds (a : argument) : Prop := a = Bool true \/ a = Pointer false \/ a = Checker (Some (inl true)).
Definition fails (a : argument) : Prop := a = Bool false \/ a = Pointer true \/ a = Checker (Some (inl false)).

(** The message: file, line number in decimal, the word error, and the text of the user, if any, on a line of its own *)
Definition message (terminal : bool) (f : list Z) (n : Z) (user : option (list Z)) (m : list Z) : Prop :=
  exists ds, Forall is_digit ds /\ ds <> [] /\ decimal ds = n /\
  m = f ++ zstr ":" ++ ds ++ zstr ": " ++
      (if terminal then 27 :: zstr "[1;31m" else []) ++ zstr "error" ++ (if terminal then 27 :: zstr "[0m" else []) ++
      zstr ": assertion failed" ++
      match user with None => [] | Some t => zstr ":" ++ [10] ++ zstr "  " ++ t end ++ [10].

(** A run in a debug build which neither aborts nor does anything undefined *)
Definition sound {A} (m : outcome A) : Prop := match m with Abort | UB _ => False | _ => True end.
(** Debug and release build agree: if the debug build is sound, then the release build does the same. *)
Definition agree {A} (debug release : outcome A) : Prop := sound debug -> release = debug.

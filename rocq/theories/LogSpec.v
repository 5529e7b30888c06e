(** Specification of logging and of demangle. *)
From Verif Require Import Base TextModel TextSpec LogModel.

(** What is known of abi::__cxa_demangle: on success (status 0) it returns a new block that holds the demangled name,
    otherwise it returns null and leaves the heap alone. *)
Definition cxa_contract (demangled : list N -> option (list N)) (cxa : list N -> heap -> Z * option nat * heap) : Prop :=
  forall name h,
    match demangled name with
    | Some t => exists b, (forall x, In x h -> fst x <> b) /\ cxa name h = (0%Z, Some b, (b, t) :: h)
    | None => exists s, s <> 0%Z /\ cxa name h = (s, None, h)
    end.

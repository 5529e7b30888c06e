(** Common vocabulary of all models: outcomes of C++ calls and machine integers.
    Nothing here models a particular piece of code. *)
From Coq Require Export List NArith ZArith Lia Bool Arith.
From Coq Require Export ZifyBool ZifyNat ZifyN.
Export ListNotations.

(** Exceptions the library throws or looks at, by static type. *)
Inductive exn := InvalidArgument | OutOfRange | LogicError | BadCast | RuntimeError | BadAlloc.

(** Reasons for undefined behaviour. *)
Inductive ub :=
| OutOfBounds       (* read or write outside of an object, deref of end *)
| ShiftOverflow     (* shift amount >= width of promoted type *)
| SignedOverflow    (* signed integer overflow *)
| NullDeref         (* use of a null smart pointer *)
| UseAfterFree      (* use of a destroyed object / invalidated iterator *)
| BadArgument       (* library precondition violated, e.g. isspace(-2) *)
| BadPointer        (* pointer arithmetic outside of the array *)
| ForeignIterator   (* comparison of iterators of different containers *).

(** What can come out of a call:
    [Ok]        normal return,
    [Throw]     an exception leaves the call,
    [UB]        undefined behaviour,
    [Abort]     a utki assertion failed (abort()),
    [Terminate] std::terminate was called,
    [Diverge]   the fuel of the model ran out: no claim is ever made that treats this as a return. *)
Inductive outcome (A : Type) :=
| Ok (a : A) | Throw (e : exn) | UB (r : ub) | Abort | Terminate | Diverge.
Arguments Ok {A} a.
Arguments Throw {A} e.
Arguments UB {A} r.
Arguments Abort {A}.
Arguments Terminate {A}.
Arguments Diverge {A}.

Definition bind {A B} (x : outcome A) (f : A -> outcome B) : outcome B :=
  match x with
  | Ok a => f a
  | Throw e => Throw e
  | UB r => UB r
  | Abort => Abort
  | Terminate => Terminate
  | Diverge => Diverge
  end.

Declare Scope outcome_scope.
Notation "x <- m ;; k" := (bind m (fun x => k))
  (at level 61, m at next level, right associativity) : outcome_scope.
Notation "m ;;; k" := (bind m (fun _ => k))
  (at level 61, right associativity) : outcome_scope.
Open Scope outcome_scope.

(** ASSERT(cond): src/utki/debug.hpp; active in debug builds only. *)
Definition assert_ (dbg : bool) (cond : bool) : outcome unit :=
  if dbg && negb cond then Abort else Ok tt.

Definition is_ok {A} (x : outcome A) : bool := match x with Ok _ => true | _ => false end.

(** A byte is an [N] below 256. *)
Definition byte_ok (b : N) : bool := (b <? 256)%N.
Definition bytes_ok (l : list N) : bool := forallb byte_ok l.

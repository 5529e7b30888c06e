(** Specification of copies of signals. *)
From Verif Require Import Base SignalCopyModel.

Section Spec.
Context {F A W : Type}.

(** The callbacks of the signal [i], in order; None if there is no such signal *)
Definition callbacks (s : state F W) (i : nat) : option (list F) := option_map (map snd) (signals s i).

(** A program knows connections only from connect: every connection it disconnects is the result of one
    of the operations before. [known] are those known from the beginning. *)
Fixpoint honest (known : list nat) (l : list (op F A)) (xs : list (out F)) : Prop :=
  match l, xs with
  | o :: l, x :: xs =>
      match o with m_disconnect _ c => In c known | _ => True end /\
      honest (match x with r_connection c => c :: known | _ => known end) l xs
  | _, _ => True
  end.
(** The signal [i] is neither destroyed nor assigned to another value. *)
Definition keeps (i : nat) (o : op F A) : bool :=
  match o with m_destroy k => negb (Nat.eqb k i) | m_assign k _ => negb (Nat.eqb k i) | _ => true end.
(** The signal an operation changes *)
Definition target (o : op F A) : option nat :=
  match o with
  | m_new i | m_copy i _ | m_assign i _ | m_destroy i | m_connect i _ | m_disconnect i _ => Some i
  | m_emit _ _ | m_size _ => None
  end.

Variable call : F -> A -> W -> W * option exn.
(** The callbacks [fs] are called in order, up to the first that throws. *)
Inductive called : list F -> A -> W -> list F -> W -> option exn -> Prop :=
| call_none a w : called [] a w [] w None
| call_next f fs a w w1 l w2 r : call f a w = (w1, None) -> called fs a w1 l w2 r -> called (f :: fs) a w (f :: l) w2 r
| call_throws f fs a w w1 e : call f a w = (w1, Some e) -> called (f :: fs) a w [f] w1 (Some e).
End Spec.

(** Specification of emissions of a signal by its callbacks, while it is being emitted. *)
From Verif Require Import Base SignalModel.
From Coq Require Import Sorted.

(** outcomes a caller can see *)
Definition caught (o : outcome unit) : Prop := o = Ok tt \/ exists e, o = Throw e.

Section Spec.
Context {F A : Type}.
Variable pass : A -> A * A.
Notation events := (list (event F A)).

(** The connection is there, after the events t. *)
Definition there (t : events) (c : nat) (f : F) : Prop := In (Connected c f) t /\ ~ In (Disconnected c) t.

(** [emitted t a e o]: after the events t the signal is emitted with the argument a, during which the events e happen, and
    which ends with o. The callbacks invoked by this very emission are in the order of connection, none of them twice, and
    include all that are connected when it ends normally. *)
Inductive emitted : events -> A -> events -> outcome unit -> Prop :=
| emitted_in_order t a e l o : invoked t a e l o ->
    StronglySorted lt (map fst l) -> (o = Ok tt -> forall c f, there (t ++ e) c f -> In c (map fst l)) ->
    emitted t a e o
(** [invoked t a e l o]: the callbacks l are invoked, those connected at the time, until one does not return or is no longer
    connected when it returns *)
with invoked : events -> A -> events -> list (nat * F) -> outcome unit -> Prop :=
| invoked_none t a : invoked t a [] [] (Ok tt)
| invoked_forever t a : invoked t a [] [] Diverge
| invoked_next t a x rest c f body e l o : pass a = (x, rest) -> there t c f ->
    acted (t ++ [Called c f x]) body (Ok tt) -> there (t ++ Called c f x :: body) c f ->
    invoked (t ++ Called c f x :: body) rest e l o ->
    invoked t a (Called c f x :: body ++ e) ((c, f) :: l) o
| invoked_last t a x rest c f body o : pass a = (x, rest) -> there t c f ->
    acted (t ++ [Called c f x]) body o -> o <> Ok tt ->
    invoked t a (Called c f x :: body) [(c, f)] o
| invoked_removed t a x rest c f body : pass a = (x, rest) -> there t c f ->
    acted (t ++ [Called c f x]) body (Ok tt) -> ~ there (t ++ Called c f x :: body) c f ->
    invoked t a (Called c f x :: body) [(c, f)] (UB UseAfterFree)
(** [acted t e o]: what a callback does. It may go on after an emission that threw an exception. *)
with acted : events -> events -> outcome unit -> Prop :=
| acted_return t : acted t [] (Ok tt)
| acted_throw t x : acted t [] (Throw x)
| acted_connect t c f e o : (forall g, ~ In (Connected c g) t) -> acted (t ++ [Connected c f]) e o -> acted t (Connected c f :: e) o
| acted_disconnect t c f e o : there t c f -> acted (t ++ [Disconnected c]) e o -> acted t (Disconnected c :: e) o
| acted_unconnected t c : (forall f, ~ there t c f) -> acted t [] (UB UseAfterFree)
| acted_emit t a e1 e2 o1 o : emitted t a e1 o1 -> caught o1 -> acted (t ++ e1) e2 o -> acted t (e1 ++ e2) o
| acted_failed t a e1 o : emitted t a e1 o -> ~ caught o -> acted t e1 o.

(** Every callback emits the signal, before anything else that changes it. *)
Inductive emits_first {W} : script F A W -> Prop :=
| ef_emit a k : emits_first (s_emit a k)
| ef_size k : (forall n, emits_first (k n)) -> emits_first (s_size k)
| ef_get k : (forall w, emits_first (k w)) -> emits_first (s_get k)
| ef_set w k : emits_first k -> emits_first (s_set w k).
End Spec.

(** Specification of signal. *)
From Verif Require Import Base SignalModel.
From Coq Require Import Sorted.

Section Spec.
Context {F A W : Type}.

(** Histories: the connections made get the numbers 0, 1, 2, ... *)
Definition is_connect (o : op F A) : bool := match o with op_connect _ => true | _ => false end.
Definition connects (h : list (op F A)) : nat := length (filter is_connect h).
(** The connection [c], made with the callback [f], is there after the history [h]. *)
Definition is_connected (h : list (op F A)) (c : nat) (f : F) : Prop :=
  exists h1 h2, h = h1 ++ op_connect f :: h2 /\ connects h1 = c /\ ~ In (op_disconnect c) h2.
(** Only connections that are there are disconnected. *)
Definition valid (h : list (op F A)) : Prop :=
  forall h1 c h2, h = h1 ++ op_disconnect c :: h2 -> exists f, is_connected h1 c f.

(** A callback body that does not change the signal, with its end: the state of the program after it and
    the exception, if one is thrown. [n] is the number of callbacks connected; the first state is the one
    before. *)
Inductive quiet (n : nat) : W -> script F A W -> W -> option exn -> Prop :=
| q_done w0 w : quiet n w0 (s_done w) w None
| q_throw w0 w e : quiet n w0 (s_throw w e) w (Some e)
| q_size w0 k w r : quiet n w0 (k n) w r -> quiet n w0 (s_size k) w r
| q_get w0 k w r : quiet n w0 (k w0) w r -> quiet n w0 (s_get k) w r
| q_set w0 w1 k w r : quiet n w1 k w r -> quiet n w0 (s_set w1 k) w r.

Variable prog : F -> A -> W -> script F A W.
Variable pass : A -> A * A.
(** The callbacks of [l] are called in order, up to the first that throws. *)
Inductive delivery (n : nat) : list (nat * F) -> A -> W -> list (event F A) -> W -> option exn -> Prop :=
| d_nil a w : delivery n [] a w [] w None
| d_call c f l a x a' w w1 evs w2 r : pass a = (x, a') -> quiet n w (prog f x w) w1 None -> delivery n l a' w1 evs w2 r ->
    delivery n ((c, f) :: l) a w (Called c f x :: evs) w2 r
| d_throw c f l a x a' w w1 e : pass a = (x, a') -> quiet n w (prog f x w) w1 (Some e) ->
    delivery n ((c, f) :: l) a w [Called c f x] w1 (Some e).

(** States of signals after the use of one, including its use by callbacks *)
Definition reachable (s : state F A W) : Prop :=
  exists fuel h w r, perform_all prog pass fuel h (new_signal w) = (s, r).

(** Callbacks invoked and connected according to a list of events *)
Fixpoint calls (l : list (event F A)) : list (nat * F) :=
  match l with [] => [] | Called c f _ :: l => (c, f) :: calls l | _ :: l => calls l end.
Fixpoint received (l : list (event F A)) : list A :=
  match l with [] => [] | Called _ _ a :: l => a :: received l | _ :: l => received l end.
Fixpoint added (l : list (event F A)) : list (nat * F) :=
  match l with [] => [] | Connected c f :: l => (c, f) :: added l | _ :: l => added l end.

(** Bodies without emission; bodies that only connect; bodies that connect something. *)
Inductive flat : script F A W -> Prop :=
| fl_done w : flat (s_done w)
| fl_throw w e : flat (s_throw w e)
| fl_connect f k : (forall c, flat (k c)) -> flat (s_connect f k)
| fl_disconnect c k : flat k -> flat (s_disconnect c k)
| fl_size k : (forall n, flat (k n)) -> flat (s_size k)
| fl_get k : (forall w, flat (k w)) -> flat (s_get k)
| fl_set w k : flat k -> flat (s_set w k).
Inductive connecting : script F A W -> Prop :=
| co_done w : connecting (s_done w)
| co_connect f k : (forall c, connecting (k c)) -> connecting (s_connect f k)
| co_size k : (forall n, connecting (k n)) -> connecting (s_size k)
| co_get k : (forall w, connecting (k w)) -> connecting (s_get k)
| co_set w k : connecting k -> connecting (s_set w k).
Inductive connects_one : script F A W -> Prop :=
| c1_connect f k : (forall c, connecting (k c)) -> connects_one (s_connect f k)
| c1_size k : (forall n, connects_one (k n)) -> connects_one (s_size k)
| c1_get k : (forall w, connects_one (k w)) -> connects_one (s_get k)
| c1_set w k : connects_one k -> connects_one (s_set w k).
End Spec.

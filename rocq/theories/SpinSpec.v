(** Specification of spin_lock: what threads observe, and the happens-before relation of C++. *)
From Verif Require Import Base SpinModel.
From Coq Require Import Relations.

Definition trace := list (nat * event).

(** A thread holds the lock from the test_and_set that returned false, which ends lock, to its unlock. *)
Definition holds (tr : trace) (t : nat) : Prop :=
  exists tr1 o tr2, tr = tr1 ++ (t, Tas o false) :: tr2 /\ forall o, ~ In (t, Clear o) tr2.
Definition waits (tr : trace) (t : nat) : Prop :=
  exists tr1 tr2, tr = tr1 ++ (t, Begin) :: tr2 /\ forall o, ~ In (t, Tas o false) tr2.

Definition is_access (e : event) : bool := match e with Read _ _ | Write _ _ => true | _ => false end.
Definition needs_lock (e : event) : bool := match e with Read _ _ | Write _ _ | Clear _ => true | _ => false end.
(** unlock is called, and the data is accessed, only while holding the lock. *)
Definition disciplined (tr : trace) : Prop :=
  forall tr1 t e tr2, tr = tr1 ++ (t, e) :: tr2 -> needs_lock e = true -> holds tr1 t.

(** ** Happens-before (C++ [intro.races]) of the events of a trace, named by their positions *)
Definition at_ (tr : trace) (i : nat) (t : nat) (e : event) : Prop := nth_error tr i = Some (t, e).
(** sequenced before *)
Definition sb (tr : trace) (i j : nat) : Prop := i < j /\ exists t e e', at_ tr i t e /\ at_ tr j t e'.
(** synchronizes with: a release store of the flag, and an acquire test_and_set which reads the value of that store
    or of a read-modify-write in the release sequence headed by it. Between the two there is no other store. *)
Definition sw (tr : trace) (i j : nat) : Prop := i < j /\ exists t r t',
  at_ tr i t (Clear Release) /\ at_ tr j t' (Tas Acquire r) /\
  forall k u o, i < k < j -> ~ at_ tr k u (Clear o).
Definition hb (tr : trace) : nat -> nat -> Prop := clos_trans nat (fun i j => sb tr i j \/ sw tr i j).

Definition writes (x : nat) (e : event) : Prop := exists v, e = Write x v.
Definition reads (x : nat) (e : event) : Prop := exists v, e = Read x v.
(** A data race: two accesses to the same object, one of them a write, in different threads and not ordered. *)
Definition race (tr : trace) : Prop := exists i j t e t' e' x,
  at_ tr i t e /\ at_ tr j t' e' /\ t <> t' /\ writes x e /\ (writes x e' \/ reads x e') /\ ~ hb tr i j /\ ~ hb tr j i.

(** A thread does not call lock while it holds the lock. *)
Definition single (tr : trace) : Prop := forall tr1 t tr2, tr = tr1 ++ (t, Begin) :: tr2 -> ~ holds tr1 t.
(** the number of times an event happened *)
Definition happened (tr : trace) (t : nat) (e : nat * event -> bool) : nat := length (filter (fun x => Nat.eqb (fst x) t && e x) tr).
Definition acquired (x : nat * event) : bool := match snd x with Tas _ r => negb r | _ => false end.
Definition refused (x : nat * event) : bool := match snd x with Tas _ r => r | _ => false end.

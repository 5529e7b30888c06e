(** Specification of spin_lock in the memory model of C++ ([intro.races], [atomics.order], [atomics.flag]). *)
From Verif Require Import Base SpinModel SpinMemModel.
From Coq Require Import Relations.

Record execution := {
  ops : operations;
  (** the modification order of the flag: its n-th modification after the initialization *)
  mo : nat -> option nat;
  (** the order that comes from elsewhere: start and join of threads, other atomics and locks *)
  other : nat -> nat -> Prop;
  (** the write that a read takes its value from; None is the initial value *)
  source : nat -> option nat;
  initial : nat -> Z }.

Definition on_flag (e : event) : bool := match e with Tas _ _ | Clear _ => true | _ => false end.
(** the value of the flag after the operation *)
Definition leaves (e : event) : bool := match e with Tas _ _ => true | _ => false end.

(** sequenced before *)
Definition sb (X : execution) (i j : nat) : Prop := i < j /\ exists t e e', ops X i = Some (t, e) /\ ops X j = Some (t, e').
(** synchronizes with: a release store of the flag, and an acquire test_and_set which reads the value of that store
    or of a read-modify-write in the release sequence headed by it *)
Definition sw (X : execution) (i j : nat) : Prop := exists n k t t' r, n < k /\ mo X n = Some i /\ mo X k = Some j /\
  ops X i = Some (t, Clear Release) /\ ops X j = Some (t', Tas Acquire r) /\
  forall m, n < m < k -> exists h u o v, mo X m = Some h /\ ops X h = Some (u, Tas o v).
(** happens before *)
Definition hb (X : execution) : nat -> nat -> Prop := clos_trans nat (fun i j => sb X i j \/ sw X i j \/ other X i j).

(** The modification order is a total order of the modifications of the flag; a test_and_set returns the value just
    before its own modification; modifications ordered by happens-before are in this order (write-write coherence). *)
Record flag_rules (X : execution) : Prop := {
  mo_only : forall n i, mo X n = Some i -> exists t e, ops X i = Some (t, e) /\ on_flag e = true;
  mo_all : forall i t e, ops X i = Some (t, e) -> on_flag e = true -> exists n, mo X n = Some i;
  mo_once : forall n k i, mo X n = Some i -> mo X k = Some i -> n = k;
  mo_dense : forall n i, mo X (S n) = Some i -> exists j, mo X n = Some j;
  rmw_first : forall i t o r, mo X 0 = Some i -> ops X i = Some (t, Tas o r) -> r = false;
  rmw_next : forall n j u e i t o r, mo X n = Some j -> ops X j = Some (u, e) -> mo X (S n) = Some i -> ops X i = Some (t, Tas o r) -> r = leaves e;
  coherent : forall n k i j, mo X n = Some i -> mo X k = Some j -> hb X i j -> n < k }.

Definition writes (x : nat) (e : event) : Prop := exists v, e = Write x v.
Definition reads (x : nat) (e : event) : Prop := exists v, e = Read x v.
(** Two accesses to the same object, one of them a write, in different threads *)
Definition conflict (X : execution) (i j : nat) : Prop := exists t e t' e' x,
  ops X i = Some (t, e) /\ ops X j = Some (t', e') /\ t <> t' /\ writes x e /\ (writes x e' \/ reads x e').
Definition race_free (X : execution) : Prop := forall i j, conflict X i j -> hb X i j \/ hb X j i.

(** If there is no data race (which would be undefined behaviour), a read yields the value of a visible write: one that
    happens before it, with no other write to the object between them. *)
Definition data_rules (X : execution) : Prop := race_free X ->
  forall j t x v, ops X j = Some (t, Read x v) ->
  match source X j with
  | None => v = initial X x /\ forall i u w, ops X i = Some (u, Write x w) -> ~ hb X i j
  | Some i => (exists u, ops X i = Some (u, Write x v)) /\ hb X i j /\
      forall k u w, ops X k = Some (u, Write x w) -> hb X i k -> ~ hb X k j
  end.

(** ** Critical sections *)
(** operation i ended a call of lock *)
Definition acquires (X : execution) (i : nat) : Prop := exists t o, ops X i = Some (t, Tas o false).
(** operation j is the unlock that follows this call *)
Definition released_by (X : execution) (i j : nat) : Prop := i < j /\ exists t o o',
  ops X i = Some (t, Tas o false) /\ ops X j = Some (t, Clear o') /\ forall k o'', i < k < j -> ops X k <> Some (t, Clear o'').

(** ** An interleaved execution of [SpinModel] as an execution of the memory model: operations are numbered as in the
    trace, the modification order of the flag is their order in the trace, and a read takes its value from the last write before it. *)
Definition flag_ops (tr : list (nat * event)) : list nat :=
  filter (fun i => match nth_error tr i with Some (_, e) => on_flag e | None => false end) (seq 0 (length tr)).
Fixpoint last_write_before (tr : list (nat * event)) (x j : nat) : option nat :=
  match j with
  | O => None
  | S j => match nth_error tr j with
           | Some (_, Write y _) => if Nat.eqb y x then Some j else last_write_before tr x j
           | _ => last_write_before tr x j
           end
  end.
Definition interleaved (m : nat -> Z) (tr : list (nat * event)) : execution :=
  {| ops := nth_error tr; mo := nth_error (flag_ops tr); other := fun _ _ => False;
     source := fun j => match nth_error tr j with Some (_, Read x _) => last_write_before tr x j | _ => None end;
     initial := m |}.

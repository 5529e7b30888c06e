(** Model of utki::spin_lock: src/utki/spin_lock.hpp:37-59.

    Any number of threads, numbered, share one lock and some data. A schedule says which thread does what
    next, so it stands for the programs of all threads and for their interleaving. The order of the
    operations on the flag in the schedule is the modification order of the atomic flag; test_and_set is
    a read-modify-write and so reads the value just before its own in that order. Data is read from
    memory as in the schedule; that no other value is possible is part of C46, and executions
    without an interleaving are those of [SpinMemModel] (C110).

    Not modelled: std::atomic_flag::test_and_set and clear are single steps, as the standard says. *)
From Verif Require Import Base.

(** std::memory_order, as far as used *)
Inductive order := Relaxed | Acquire | Release.
Inductive event :=
| Begin                        (** lock is called *)
| Tas (o : order) (r : bool)   (** test_and_set with the value returned *)
| Clear (o : order)
| Read (x : nat) (v : Z)
| Write (x : nat) (v : Z).
Inductive action := call_lock | spin | unlock | read (x : nat) | write (x : nat) (v : Z).

(** [spinning t]: the thread is in the loop of lock *)
Record state := { flag : bool; spinning : nat -> bool; mem : nat -> Z }.
Definition upd {B} (f : nat -> B) (x : nat) (v : B) : nat -> B := fun y => if Nat.eqb y x then v else f y.

(** the memory orders passed by lock (49) and unlock (58) *)
Record orders := { lock_order : order; unlock_order : order }.
Definition code : orders := {| lock_order := Acquire; unlock_order := Release |}.

(** A step of a thread; None if the thread cannot do this now. *)
Definition step (c : orders) (s : state) (t : nat) (a : action) : option (state * event) :=
  match a with
  | call_lock =>
      if spinning s t then None
      else Some ({| flag := flag s; spinning := upd (spinning s) t true; mem := mem s |}, Begin)
  | spin =>
      (* 49: while (test_and_set(acquire)) {} *)
      if spinning s t then
        let r := flag s in
        Some ({| flag := true; spinning := upd (spinning s) t r; mem := mem s |}, Tas (lock_order c) r)
      else None
  | unlock =>
      (* 58: clear(release) *)
      if spinning s t then None
      else Some ({| flag := false; spinning := spinning s; mem := mem s |}, Clear (unlock_order c))
  | read x => if spinning s t then None else Some (s, Read x (mem s x))
  | write x v =>
      if spinning s t then None
      else Some ({| flag := flag s; spinning := spinning s; mem := upd (mem s) x v |}, Write x v)
  end.

Fixpoint exec (c : orders) (s : state) (l : list (nat * action)) : option (state * list (nat * event)) :=
  match l with
  | [] => Some (s, [])
  | (t, a) :: l =>
      match step c s t a with
      | None => None
      | Some (s, e) =>
          match exec c s l with
          | None => None
          | Some (s, tr) => Some (s, (t, e) :: tr)
          end
      end
  end.

(** 39: ATOMIC_FLAG_INIT is clear. *)
Definition init (m : nat -> Z) : state := {| flag := false; spinning := fun _ => false; mem := m |}.

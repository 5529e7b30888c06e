(** utki::spin_lock without interleaving: src/utki/spin_lock.hpp:37-59 once more.

    [SpinModel] runs the threads step by step. Here only the order of the operations of one thread is
    given; what the threads see of each other is left to the rules of the memory model of C++
    ([SpinMemSpec]). The operations of all threads carry numbers, which say nothing but the order of
    the operations of one thread; an execution may be infinite.

    Not modelled: data that the lock does not protect, and what else the threads do; if it orders
    operations of different threads, that order is part of the execution ([SpinMemSpec.other]). *)
From Verif Require Import Base SpinModel.

Definition same_order (a b : order) : bool :=
  match a, b with Relaxed, Relaxed | Acquire, Acquire | Release, Release => true | _, _ => false end.

(** Where a thread is: neither in lock nor between lock and unlock; in the loop of lock; after lock. *)
Inductive phase := idle | in_loop | owner.
Definition after (c : orders) (p : phase) (e : event) : option phase :=
  match p, e with
  | idle, Begin => Some in_loop
  (* 49: while (test_and_set(acquire)) {} *)
  | in_loop, Tas o r => if same_order o (lock_order c) then Some (if r then in_loop else owner) else None
  | owner, Read _ _ | owner, Write _ _ => Some owner
  (* 58: clear(release) *)
  | owner, Clear o => if same_order o (unlock_order c) then Some idle else None
  | _, _ => None
  end.

(** The operations of an execution: by number, the thread and the operation. *)
Definition operations := nat -> option (nat * event).

(** where thread t is before the operation with number n *)
Fixpoint phase_at (c : orders) (ops : operations) (t n : nat) : option phase :=
  match n with
  | O => Some idle
  | S n =>
      match ops n with
      | Some (u, e) =>
          if Nat.eqb u t then match phase_at c ops t n with Some p => after c p e | None => None end
          else phase_at c ops t n
      | None => phase_at c ops t n
      end
  end.
(** Every thread calls lock and unlock in turns and accesses the data in between. *)
Definition threads (c : orders) (ops : operations) : Prop := forall t n, exists p, phase_at c ops t n = Some p.

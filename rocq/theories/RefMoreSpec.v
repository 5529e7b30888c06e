(** Specification of make_shared_from and make_weak_from over the life of an object. *)
From Verif Require Import Base RefModel RefMoreModel.

(** Some std::shared_ptr or shared_ref refers to the object. *)
Definition owned (s : world) (o : nat) : Prop := exists v, lookup (owners s) v = Some (Some o).
(** The object exists: its constructor was entered and its destructor has not ended. *)
Definition exists_as (s : world) (o : nat) (b : base) (c : nat) : Prop :=
  exists x, nth_error (objs s) o = Some x /\ ob_base x = b /\ ob_class x = c /\ ob_phase x <> Gone.
Definition in_phase (s : world) (o : nat) (p : phase) : Prop := exists x, nth_error (objs s) o = Some x /\ ob_phase x = p.
(** Nothing has changed but that [v] refers to [p]. *)
Definition only_owner_added (s s' : world) (v : nat) (p : ptr) : Prop :=
  objs s' = objs s /\ watchers s' = watchers s /\ forall x, lookup (owners s') x = if Nat.eqb x v then Some p else lookup (owners s) x.
Definition only_watcher_added (s s' : world) (w : nat) (p : ptr) : Prop :=
  objs s' = objs s /\ owners s' = owners s /\ forall x, lookup (watchers s') x = if Nat.eqb x w then Some p else lookup (watchers s) x.
(** After some history that started with nothing *)
Definition reachable (derives : nat -> nat -> bool) (dbg : bool) (s : world) : Prop := exists h xs, run derives dbg h start = Ok (s, xs).
(** What becomes of a call inside of a function that must not throw *)
Definition without_exception {A} (m : outcome A) : outcome A :=
  match m with Throw _ => Terminate | Ok a => Ok a | UB r => UB r | Abort => Abort | Terminate => Terminate | Diverge => Diverge end.

(** Model of utki::signal: src/utki/signal.hpp:43-118.

    std::list is a sequence of nodes with identities: an iterator is the identity of its node, stays
    valid while other nodes come and go, and is never used again for another node. end() is [None].
    Using an iterator of a node that is no longer in the list is undefined behaviour.

    A callback is a name [F]; what it does when invoked with an argument is given by [prog]: a script
    which may connect and disconnect callbacks of the signal, emit it (and catch the exceptions that
    come out of this), ask for its size, throw, and look at and change the state [W] of the rest of the
    program. Scripts are finite; endless behaviour can come from emissions only. *)
From Verif Require Import Base.

Section Signal.
Context {F A W : Type}.

Inductive script :=
| s_done (w : W)
| s_throw (w : W) (e : exn)
| s_connect (f : F) (k : nat -> script)
| s_disconnect (c : nat) (k : script)
(** the rest of the script is given the exception, if one came out of the emission; see [then_] *)
| s_emit (a : A) (k : option exn -> script)
| s_size (k : nat -> script)
| s_get (k : W -> script)
| s_set (w : W) (k : script).
(** no exception is caught *)
Definition then_ (k : script) (e : option exn) : script := match e with None => k | Some e => s_get (fun w => s_throw w e) end.
Variable prog : F -> A -> W -> script.

(** What happens, for observation: invocations and changes of the list of callbacks. *)
Inductive event := Called (c : nat) (f : F) (a : A) | Connected (c : nat) (f : F) | Disconnected (c : nat).
Record state := { nodes : list (nat * F); fresh : nat; world : W; trace : list event }.

Definition log (e : event) (s : state) : state :=
  {| nodes := nodes s; fresh := fresh s; world := world s; trace := trace s ++ [e] |}.
Definition set_world (w : W) (s : state) : state :=
  {| nodes := nodes s; fresh := fresh s; world := w; trace := trace s |}.

(** list operations *)
Fixpoint find_node (l : list (nat * F)) (c : nat) : option F :=
  match l with
  | [] => None
  | (i, f) :: l => if Nat.eqb i c then Some f else find_node l c
  end.
Definition first_node (l : list (nat * F)) : option nat := match l with [] => None | (i, _) :: _ => Some i end.
(** ++ on an iterator *)
Fixpoint next_node (l : list (nat * F)) (c : nat) : outcome (option nat) :=
  match l with
  | [] => UB UseAfterFree
  | (i, _) :: l => if Nat.eqb i c then Ok (first_node l) else next_node l c
  end.
Definition erase_node (l : list (nat * F)) (c : nat) : list (nat * F) := filter (fun x => negb (Nat.eqb (fst x) c)) l.

(** connect: 76-80 *)
Definition connect (f : F) (s : state) : state * nat :=
  let c := fresh s in
  (log (Connected c f) {| nodes := nodes s ++ [(c, f)]; fresh := S (fresh s); world := world s; trace := trace s |}, c).
(** disconnect: 86-89 *)
Definition disconnect (c : nat) (s : state) : state * outcome unit :=
  match find_node (nodes s) c with
  | Some _ => (log (Disconnected c) {| nodes := erase_node (nodes s) c; fresh := fresh s; world := world s; trace := trace s |}, Ok tt)
  | None => (s, UB UseAfterFree)
  end.
(** size and empty: 107-117 *)
Definition size (s : state) : nat := length (nodes s).
Definition empty (s : state) : bool := Nat.eqb (size s) 0.
(** the destructor: 59-62 *)
Definition destroy (dbg : bool) (s : state) : outcome unit := assert_ dbg (empty s).

(** The body of a callback. [emit] is the emission by the callback itself. *)
Fixpoint run_script (emit : A -> state -> state * outcome unit) (p : script) (s : state) : state * outcome unit :=
  match p with
  | s_done w => (set_world w s, Ok tt)
  | s_throw w e => (set_world w s, Throw e)
  | s_connect f k => let '(s, c) := connect f s in run_script emit (k c) s
  | s_disconnect c k =>
      match disconnect c s with
      | (s, Ok _) => run_script emit k s
      | r => r
      end
  | s_emit a k =>
      match emit a s with
      | (s, Ok _) => run_script emit (k None) s
      | (s, Throw e) => run_script emit (k (Some e)) s
      | r => r
      end
  | s_size k => run_script emit (k (size s)) s
  | s_get k => run_script emit (k (world s)) s
  | s_set w k => run_script emit k (set_world w s)
  end.

(** Passing a parameter on: std::forward of the type of the parameter (98-100). For a type that is
    not a reference the callback's parameter is move-constructed from it; for a reference the
    callback receives that reference. [pass x] is the received value and what remains in [x]. *)
Variable pass : A -> A * A.

(** emit: 96-101. One unit of fuel per invocation. *)
Fixpoint emit_loop (fuel : nat) (i : option nat) (a : A) (s : state) : state * outcome unit :=
  match i with
  | None => (s, Ok tt)
  | Some c =>
      match fuel with
      | O => (s, Diverge)
      | S fuel =>
          match find_node (nodes s) c with
          | None => (s, UB UseAfterFree)
          | Some f =>
              let '(received, rest) := pass a in
              match run_script (fun a s => emit_loop fuel (first_node (nodes s)) a s)
                      (prog f received (world s)) (log (Called c f received) s) with
              | (s, Ok _) =>
                  match next_node (nodes s) c with
                  | Ok i => emit_loop fuel i rest s
                  | UB r => (s, UB r)
                  | _ => (s, Diverge)
                  end
              | r => r
              end
          end
      end
  end.
Definition emit (fuel : nat) (a : A) (s : state) : state * outcome unit := emit_loop fuel (first_node (nodes s)) a s.

(** The program outside of callbacks *)
Inductive op := op_connect (f : F) | op_disconnect (c : nat) | op_emit (a : A).
Definition perform (fuel : nat) (o : op) (s : state) : state * outcome unit :=
  match o with
  | op_connect f => (fst (connect f s), Ok tt)
  | op_disconnect c => disconnect c s
  | op_emit a => emit fuel a s
  end.
(** Exceptions are caught by the program, anything else but success ends it. *)
Fixpoint perform_all (fuel : nat) (l : list op) (s : state) : state * outcome unit :=
  match l with
  | [] => (s, Ok tt)
  | o :: l =>
      match perform fuel o s with
      | (s, Ok _) | (s, Throw _) => perform_all fuel l s
      | r => r
      end
  end.
Definition new_signal (w : W) : state := {| nodes := []; fresh := 0; world := w; trace := [] |}.
End Signal.
Arguments script : clear implicits.
Arguments event : clear implicits.
Arguments state : clear implicits.
Arguments op : clear implicits.
(** By-value parameters ([moved] is what a move leaves behind) and reference parameters. *)
Definition by_value {A} (moved : A -> A) (x : A) : A * A := (x, moved x).
Definition by_reference {A} (x : A) : A * A := (x, x).

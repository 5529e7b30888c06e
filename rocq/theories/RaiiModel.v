(** Model of scope_exit: src/utki/utility.hpp:230-280, and of intrusive_singleton and singleton:
    src/utki/singleton.hpp:67-175.

    Simplifications: a function run by a scope_exit does not use that scope_exit; one thread. For the
    static pointer of a singleton after the end of main see [SingletonEndModel]. *)
From Verif Require Import Base.

(** ** scope_exit

    std::function is null or a function. Moving from one leaves an unspecified value, given by [moved].
    A function changes the state [W] of the program and may throw. *)
Section ScopeExit.
Context {F W : Type}.
Variable call : F -> W -> W * option exn.
Variable moved : option F -> option F.

Inductive se_op := se_construct (f : option F) | se_release (i : nat) | se_destroy (i : nat).
(** what an operation shows: the function returned, or the function run *)
Inductive se_out := se_nothing | se_returned (f : option F) | se_ran (f : option F).
(** the member f of the objects constructed, in the order of construction; None once destroyed *)
Record se_state := { members : list (option (option F)); se_world : W }.

Fixpoint replace {B} (l : list B) (i : nat) (x : B) : list B :=
  match l, i with
  | [], _ => []
  | _ :: l, O => x :: l
  | y :: l, S i => y :: replace l i x
  end.

(** constructor: 245-247. The parameter is an rvalue; what is left in it is nobody's concern. *)
Definition construct (f : option F) (s : se_state) : se_state :=
  {| members := members s ++ [Some f]; se_world := se_world s |}.
(** destructor: 249-260. noexcept: an exception that gets out ends in std::terminate. *)
Definition call_noexcept (r : W * option exn) (catch : bool) : W * outcome unit :=
  match r with
  | (w, None) => (w, Ok tt)
  | (w, Some _) => (w, if catch then Ok tt else Terminate)
  end.
Definition destroy (f : option F) (w : W) : W * outcome unit * option F :=
  match f with
  | None => (w, Ok tt, None)
  | Some g => (call_noexcept (call g w) true, Some g)
  end.
(** release: 267-272. Result, and the member afterwards *)
Definition release (f : option F) : option F * option F :=
  let ret := f in
  let f := moved f in
  let f := None in
  (ret, f).

Definition se_step (o : se_op) (s : se_state) : outcome (se_state * se_out) :=
  match o with
  | se_construct f => Ok (construct f s, se_nothing)
  | se_release i =>
      match nth_error (members s) i with
      | Some (Some f) =>
          let '(ret, f) := release f in
          Ok ({| members := replace (members s) i (Some f); se_world := se_world s |}, se_returned ret)
      | _ => UB UseAfterFree
      end
  | se_destroy i =>
      match nth_error (members s) i with
      | Some (Some f) =>
          let '(w, r, ran) := destroy f (se_world s) in
          r ;;; Ok ({| members := replace (members s) i None; se_world := w |}, se_ran ran)
      | _ => UB UseAfterFree
      end
  end.
Fixpoint se_run (l : list se_op) (s : se_state) : outcome (se_state * list se_out) :=
  match l with
  | [] => Ok (s, [])
  | o :: l =>
      r <- se_step o s ;;
      let '(s, x) := r in
      r <- se_run l s ;;
      let '(s, xs) := r in
      Ok (s, x :: xs)
  end.
Definition se_init (w : W) : se_state := {| members := []; se_world := w |}.
End ScopeExit.
Arguments se_op : clear implicits.
Arguments se_out : clear implicits.
Arguments se_state : clear implicits.

(** ** singleton

    [instance] is the static std::unique_ptr; objects are identified by number. Constructing an object of
    the singleton class runs the constructor of intrusive_singleton (72-79) and then the rest of the
    constructor of the class, which may throw; in that case the destructor of intrusive_singleton is run. *)
Inductive sg_op := sg_construct (fails : option exn) | sg_destroy (i : nat) | sg_is_created | sg_inst.
Inductive sg_out := sg_made (i : nat) | sg_threw (e : exn) | sg_nothing | sg_bool (b : bool) | sg_obj (i : nat).
Record sg_state := { instance : option nat; sg_fresh : nat }.

(** 72-79 *)
Definition base_construct (this : nat) (s : sg_state) : outcome sg_state :=
  match instance s with
  | Some _ => Throw LogicError
  | None => Ok {| instance := Some this; sg_fresh := sg_fresh s |}
  end.
(** 119-123 *)
Definition base_destroy (dbg : bool) (this : nat) (s : sg_state) : outcome sg_state :=
  assert_ dbg (match instance s with Some i => Nat.eqb i this | None => false end) ;;;
  Ok {| instance := None; sg_fresh := sg_fresh s |}.
(** 102-105 *)
Definition is_created (s : sg_state) : bool := match instance s with Some _ => true | None => false end.
(** 111-117 *)
Definition inst (dbg : bool) (s : sg_state) : outcome nat :=
  assert_ dbg (is_created s) ;;;
  match instance s with Some i => Ok i | None => UB NullDeref end.

Definition sg_step (dbg : bool) (o : sg_op) (s : sg_state) : outcome (sg_state * sg_out) :=
  match o with
  | sg_construct fails =>
      let this := sg_fresh s in
      let s := {| instance := instance s; sg_fresh := S (sg_fresh s) |} in
      match base_construct this s with
      | Ok s1 =>
          match fails with
          | None => Ok (s1, sg_made this)
          | Some e => s2 <- base_destroy dbg this s1 ;; Ok (s2, sg_threw e)
          end
      | Throw e => Ok (s, sg_threw e)
      | UB r => UB r | Abort => Abort | Terminate => Terminate | Diverge => Diverge
      end
  | sg_destroy i => s <- base_destroy dbg i s ;; Ok (s, sg_nothing)
  | sg_is_created => Ok (s, sg_bool (is_created s))
  | sg_inst => i <- inst dbg s ;; Ok (s, sg_obj i)
  end.
Fixpoint sg_run (dbg : bool) (l : list sg_op) (s : sg_state) : outcome (sg_state * list (sg_op * sg_out)) :=
  match l with
  | [] => Ok (s, [])
  | o :: l =>
      r <- sg_step dbg o s ;;
      let '(s, x) := r in
      r <- sg_run dbg l s ;;
      let '(s, xs) := r in
      Ok (s, (o, x) :: xs)
  end.
Definition sg_init : sg_state := {| instance := None; sg_fresh := 0 |}.

(** Model of make_shared_from and make_weak_from over the whole life of an object: src/utki/shared.hpp:44-132, and of the
    comparisons of references: src/utki/shared_ref.hpp:182-223, src/utki/unique_ref.hpp:136-177.

    RefModel has make_shared_from for objects which are owned. Here objects are also used while they are constructed or
    destroyed, and they need not be managed by a std::shared_ptr at all: automatic, static and member objects, copies.

    std::enable_shared_from_this has one member weak_this, of type std::weak_ptr. It is empty until the first std::shared_ptr
    takes the object over, which happens when std::make_shared returns; copy construction and assignment do not copy it.
    Objects are numbered as their construction begins. Not modelled: taking over an object made with new (not possible for
    classes derived from utki::shared, 46-49), several threads. *)
From Verif Require Import Base RefModel.

(** The base class that provides shared_from_this *)
Inductive base := UtkiShared | StdEnable.
Inductive phase := Constructing | Complete | Destructing | Gone.
(** [weak_this]: is it empty, or refers to the control block of the object? *)
Record object := { ob_base : base; ob_class : nat; ob_phase : phase; weak_this : bool }.
Definition with_phase (x : object) (p : phase) : object :=
  {| ob_base := ob_base x; ob_class := ob_class x; ob_phase := p; weak_this := weak_this x |}.
(** [uses]: the strong count in the control block of the object, 0 if there is none. [owners]: the variables of type
    std::shared_ptr and shared_ref, [watchers]: those of type std::weak_ptr. *)
Record world := { objs : list object; uses : nat -> nat; owners : store ptr; watchers : store ptr }.
Definition start : world := {| objs := []; uses := fun _ => 0; owners := []; watchers := [] |}.

Fixpoint replace (l : list object) (o : nat) (x : object) : list object :=
  match l, o with
  | [], _ => []
  | _ :: l, 0 => x :: l
  | y :: l, S o => y :: replace l o x
  end.
Definition set_phase (s : world) (o : nat) (x : object) (p : phase) : world :=
  {| objs := replace (objs s) o (with_phase x p); uses := uses s; owners := owners s; watchers := watchers s |}.
Definition one_more (s : world) (o : nat) : world :=
  {| objs := objs s; uses := upd (uses s) o (S (uses s o)); owners := owners s; watchers := watchers s |}.
(** The last owner calls the destructor of the object, which then runs. *)
Definition one_less (s : world) (o : nat) : world :=
  let n := pred (uses s o) in
  let s' := {| objs := objs s; uses := upd (uses s) o n; owners := owners s; watchers := watchers s |} in
  match n, nth_error (objs s) o with
  | 0, Some x => set_phase s' o x Destructing
  | _, _ => s'
  end.
Definition own (s : world) (v : nat) (p : ptr) : world :=
  let s := match p with Some o => one_more s o | None => s end in
  {| objs := objs s; uses := uses s; owners := add (owners s) v p; watchers := watchers s |}.
Definition watch (s : world) (w : nat) (p : ptr) : world :=
  {| objs := objs s; uses := uses s; owners := owners s; watchers := add (watchers s) w p |}.

Inductive op :=
| begin_object (b : base) (c : nat)      (* a constructor is entered, wherever the object lives *)
| begin_copy (o : nat)                   (* ... the copy or move constructor: 55, 58 *)
| assign_object (o u : nat)              (* 56, 59: o = u; *)
| complete (o : nat)                     (* the constructor of an object that no std::shared_ptr takes over ends *)
| complete_make (v o : nat)              (* ... inside of make_shared *)
| abandon (o : nat)                      (* the constructor throws *)
| begin_end (o : nat)                    (* the destructor of an object without owner is entered *)
| finish_end (o : nat)                   (* a destructor ends *)
| copy_owner (v u : nat)
| drop_owner (v : nat)
| make_shared_from (v o t : nat)         (* 95-108, on o seen as a t *)
| make_weak_from (w o t : nat)           (* 119-132 *)
| make_weak (w v : nat)                  (* 69-84 *)
| lock (v w : nat)
| drop_watcher (w : nat).
Inductive out := done | bad_weak_ptr.

Section Steps.
Variable derives : nat -> nat -> bool.
Variable dbg : bool.

Definition with_object {A} (s : world) (o : nat) (k : object -> outcome A) : outcome A :=
  match nth_error (objs s) o with
  | Some x => match ob_phase x with Gone => UB UseAfterFree | _ => k x end
  | None => UB UseAfterFree
  end.
Definition fresh {A} (l : store ptr) (v : nat) (k : outcome A) : outcome A := match lookup l v with None => k | Some _ => UB BadArgument end.
Definition held_by {A} (l : store ptr) (v : nat) (k : ptr -> outcome A) : outcome A :=
  match lookup l v with Some p => k p | None => UB UseAfterFree end.

(** std::enable_shared_from_this::shared_from_this: shared_ptr(weak_this), which throws if it is expired or empty. *)
Definition shared_from_this (s : world) (o : nat) (x : object) : option nat :=
  if weak_this x && negb (Nat.eqb (uses s o) 0) then Some o else None.
(** 103-107: the pointer passed to the constructor of the shared_ref, if nothing is thrown *)
Definition shared_from (s : world) (o t : nat) (x : object) : option ptr :=
  match shared_from_this s o x with
  | None => None
  | Some o => Some (match ob_base x with
                    | UtkiShared => if derives (ob_class x) t then Some o else None
                    | StdEnable => Some o
                    end)
  end.
(** std::weak_ptr::lock *)
Definition locked (s : world) (p : ptr) : ptr :=
  match p with Some o => if Nat.eqb (uses s o) 0 then None else Some o | None => None end.

Definition step (a : op) (s : world) : outcome (world * out) :=
  match a with
  | begin_object b c =>
      Ok ({| objs := objs s ++ [{| ob_base := b; ob_class := c; ob_phase := Constructing; weak_this := false |}];
             uses := uses s; owners := owners s; watchers := watchers s |}, done)
  | begin_copy o => with_object s o (fun x =>
      Ok ({| objs := objs s ++ [{| ob_base := ob_base x; ob_class := ob_class x; ob_phase := Constructing; weak_this := false |}];
             uses := uses s; owners := owners s; watchers := watchers s |}, done))
  | assign_object o u => with_object s o (fun _ => with_object s u (fun _ => Ok (s, done)))
  | complete o => with_object s o (fun x =>
      match ob_phase x with Constructing => Ok (set_phase s o x Complete, done) | _ => UB BadArgument end)
  | complete_make v o => fresh (owners s) v (with_object s o (fun x =>
      match ob_phase x with
      | Constructing =>
          Ok ({| objs := replace (objs s) o {| ob_base := ob_base x; ob_class := ob_class x; ob_phase := Complete; weak_this := true |};
                 uses := upd (uses s) o 1; owners := add (owners s) v (Some o); watchers := watchers s |}, done)
      | _ => UB BadArgument
      end))
  | abandon o => with_object s o (fun x =>
      match ob_phase x with Constructing => Ok (set_phase s o x Gone, done) | _ => UB BadArgument end)
  | begin_end o => with_object s o (fun x =>
      match ob_phase x, weak_this x with Complete, false => Ok (set_phase s o x Destructing, done) | _, _ => UB BadArgument end)
  | finish_end o => with_object s o (fun x =>
      match ob_phase x with Destructing => Ok (set_phase s o x Gone, done) | _ => UB BadArgument end)
  | copy_owner v u => fresh (owners s) v (held_by (owners s) u (fun p => Ok (own s v p, done)))
  | drop_owner v => held_by (owners s) v (fun p =>
      let s' := {| objs := objs s; uses := uses s; owners := remove (owners s) v; watchers := watchers s |} in
      Ok (match p with Some o => one_less s' o | None => s' end, done))
  | make_shared_from v o t => fresh (owners s) v (with_object s o (fun x =>
      match shared_from s o t x with
      | None => Ok (s, bad_weak_ptr)
      | Some p => assert_ dbg (negb (is_null p)) ;;; Ok (own s v p, done)     (* shared_ref.hpp:73-77 *)
      end))
  | make_weak_from w o t => fresh (watchers s) w (with_object s o (fun x =>
      match ob_base x with
      | UtkiShared =>
          (* make_weak(make_shared_from(o)): the temporary shared_ref owns the object for a while *)
          match shared_from s o t x with
          | None => Ok (s, bad_weak_ptr)
          | Some p =>
              assert_ dbg (negb (is_null p)) ;;;
              Ok (match p with
                  | Some o => one_less (watch (one_more s o) w p) o
                  | None => watch s w p
                  end, done)
          end
      | StdEnable => Ok (watch s w (if weak_this x then Some o else None), done)   (* weak_from_this *)
      end))
  | make_weak w v => fresh (watchers s) w (held_by (owners s) v (fun p => Ok (watch s w p, done)))
  | lock v w => fresh (owners s) v (held_by (watchers s) w (fun p => Ok (own s v (locked s p), done)))
  | drop_watcher w => held_by (watchers s) w (fun _ =>
      Ok ({| objs := objs s; uses := uses s; owners := owners s; watchers := remove (watchers s) w |}, done))
  end.
Fixpoint run (h : list op) (s : world) : outcome (world * list out) :=
  match h with
  | [] => Ok (s, [])
  | a :: h =>
      r <- step a s ;;
      let '(s, x) := r in
      r <- run h s ;;
      let '(s, xs) := r in
      Ok (s, x :: xs)
  end.
End Steps.

(** ** Comparisons

    [objects o] is the object with the number [o]; its comparison operators may throw. The functions are noexcept. *)
Section Compare.
Context {T : Type}.
Variable dbg : bool.
Variable objects : nat -> T.
Definition noexcept {A} (m : outcome A) : outcome A := match m with Throw _ => Terminate | m => m end.
Definition get_object (p : ptr) : outcome T := o <- ref_get dbg p ;; Ok (objects o).
(** operator<(ref, object): shared_ref.hpp:189-192, unique_ref.hpp:143-146 *)
Definition ref_less (less : T -> T -> outcome bool) (r : ptr) (x : T) : outcome bool := noexcept (y <- get_object r ;; less y x).
(** operator==(ref, object): 203-206, 157-160 *)
Definition ref_equals (equal : T -> T -> outcome bool) (r : ptr) (x : T) : outcome bool := noexcept (y <- get_object r ;; equal y x).
(** operator==(ref, ref): 217-223, 171-177 *)
Definition refs_equal (equal : T -> T -> outcome bool) (l r : ptr) : outcome bool :=
  noexcept (x <- get_object l ;; y <- get_object r ;; equal x y).
(** l < r for two references, as std::set does it: operator< with r converted to a reference to its object (177-180, 131-134). *)
Definition refs_less (less : T -> T -> outcome bool) (l r : ptr) : outcome bool := x <- get_object r ;; ref_less less l x.
End Compare.

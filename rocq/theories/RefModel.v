(** Model of shared_ref and dynamic_reference_cast: src/utki/shared_ref.hpp:58-261, of make_weak and
    make_shared_from: src/utki/shared.hpp:69-132, and of unique_ref: src/utki/unique_ref.hpp:54-193.

    Pointer variables have numbers, objects are numbered as they are created. Wherever such a variable
    lives (a local variable, a member, an element of a container), its operations make up the history; so
    the destruction of the members of a destroyed object is part of the history that follows.
    std::shared_ptr is modelled by reference counts, std::unique_ptr by what it holds.

    Comparisons, and shared_from_this on objects without owner, are in RefMoreModel. Not modelled: custom deleters, objects destroyed by other means,
    several threads. *)
From Verif Require Import Base.

(** ** Variables *)
Definition store (B : Type) := list (nat * B).
Section Store.
Context {B : Type}.
Fixpoint lookup (l : store B) (v : nat) : option B :=
  match l with
  | [] => None
  | (x, b) :: l => if Nat.eqb x v then Some b else lookup l v
  end.
Fixpoint set (l : store B) (v : nat) (b : B) : store B :=
  match l with
  | [] => []
  | (x, c) :: l => if Nat.eqb x v then (x, b) :: l else (x, c) :: set l v b
  end.
Fixpoint remove (l : store B) (v : nat) : store B :=
  match l with
  | [] => []
  | (x, c) :: l => if Nat.eqb x v then l else (x, c) :: remove l v
  end.
Definition add (l : store B) (v : nat) (b : B) : store B := (v, b) :: l.
End Store.

(** A pointer value: null or an object *)
Definition ptr := option nat.
(** shared_ref, std::shared_ptr *)
Inductive kind := Ref | Ptr.

(** ** std::shared_ptr

    [count]: the strong count in the control block of each object; [classes]: the dynamic type of each object
    created; [dead]: the objects destroyed, in order. *)
Record state := {
  vars : store (kind * ptr);
  weaks : store ptr;
  count : nat -> nat;
  classes : list nat;
  dead : list nat
}.
Definition with_vars (s : state) (l : store (kind * ptr)) : state :=
  {| vars := l; weaks := weaks s; count := count s; classes := classes s; dead := dead s |}.
Definition upd (f : nat -> nat) (o n : nat) : nat -> nat := fun x => if Nat.eqb x o then n else f x.
(** one more owner *)
Definition inc (p : ptr) (s : state) : state :=
  match p with
  | None => s
  | Some o => {| vars := vars s; weaks := weaks s; count := upd (count s) o (S (count s o)); classes := classes s; dead := dead s |}
  end.
(** one owner less; the last one destroys the object *)
Definition dec (p : ptr) (s : state) : state :=
  match p with
  | None => s
  | Some o =>
      let n := pred (count s o) in
      {| vars := vars s; weaks := weaks s; count := upd (count s) o n; classes := classes s;
         dead := if Nat.eqb n 0 then dead s ++ [o] else dead s |}
  end.

(** copy and move construction of the variable v from the value p (of the variable u) *)
Definition sp_copy (k : kind) (v : nat) (p : ptr) (s : state) : state :=
  inc p (with_vars s (add (vars s) v (k, p))).
Definition sp_move (k k' : kind) (v u : nat) (p : ptr) (s : state) : state :=
  with_vars s (add (set (vars s) u (k', None)) v (k, p)).
(** operator=(const&): shared_ptr(r).swap( *this); operator=(&&): shared_ptr(std::move(r)).swap( *this) *)
Definition sp_copy_assign (k : kind) (v : nat) (old p : ptr) (s : state) : state :=
  dec old (with_vars (inc p s) (set (vars s) v (k, p))).
Definition sp_move_assign (k : kind) (v u : nat) (p : ptr) (s : state) : state :=
  let l := set (vars s) u (k, None) in
  match lookup l v with
  | Some (_, old) => dec old (with_vars s (set l v (k, p)))
  | None => s
  end.
Definition sp_destroy (v : nat) (p : ptr) (s : state) : state := dec p (with_vars s (remove (vars s) v)).

(** ** shared_ref *)
Section Shared.
(** [derives d t]: a [t] can be reached from an object of dynamic type [d] by dynamic_cast *)
Variable derives : nat -> nat -> bool.
Variable dbg : bool.

Inductive op :=
| make (v c : nat) (fails : option exn)   (* make_shared: 235-238; the constructor of the object may throw *)
| null_ptr (v : nat)                      (* a null std::shared_ptr *)
| copy (v u : nat)                        (* 83; or of a std::shared_ptr *)
| move (v u : nat)                        (* 86 *)
| copy_assign (v u : nat)                 (* 84 *)
| move_assign (v u : nat)                 (* 87 *)
| convert (v u : nat)                     (* 102-106 *)
| to_ptr (v u : nat)                      (* 113-141 *)
| from_ptr (v u : nat)                    (* 73-77 *)
| destroy (v : nat)                       (* 89 *)
| get (v : nat)                           (* 157-172 *)
| cast (v u t : nat)                      (* dynamic_reference_cast: 250-258 *)
| make_weak (w v : nat)                   (* 129-150, shared.hpp:69-84 *)
| lock (v w : nat)                        (* std::weak_ptr::lock *)
| drop_weak (w : nat)
| from_this (v o t : nat).                (* make_shared_from: shared.hpp:95-107, on an object seen as a t *)
Inductive out := o_none | o_obj (o : nat) | o_threw (e : exn).

Definition is_null (p : ptr) : bool := match p with None => true | Some _ => false end.
Definition class_of (s : state) (o : nat) : nat := nth o (classes s) 0.

(** get: 157-172 *)
Definition ref_get (p : ptr) : outcome nat :=
  assert_ dbg (negb (is_null p)) ;;;
  match p with None => UB NullDeref | Some o => Ok o end.
(** std::dynamic_pointer_cast: the value of the result *)
Definition dynamic_pointer_cast (t : nat) (p : ptr) (s : state) : ptr :=
  match p with
  | None => None
  | Some o => if derives (class_of s o) t then Some o else None
  end.
(** dynamic_reference_cast: 250-258 *)
Definition dyn_ref_cast (t : nat) (r : ptr) (s : state) : outcome ptr :=
  let p := dynamic_pointer_cast t r s in
  (if is_null p then
     o <- ref_get r ;;
     (* dynamic_cast<dst_type&> *)
     (if derives (class_of s o) t then Ok tt else Throw BadCast)
   else Ok tt) ;;;
  assert_ dbg (negb (is_null p)) ;;;
  Ok p.

Definition fresh_var {A} (v : nat) (s : state) (k : outcome A) : outcome A :=
  match lookup (vars s) v with None => k | Some _ => UB BadArgument end.
Definition with_var {A} (v : nat) (s : state) (k : kind -> ptr -> outcome A) : outcome A :=
  match lookup (vars s) v with Some (kd, p) => k kd p | None => UB UseAfterFree end.

Definition step (a : op) (s : state) : outcome (state * out) :=
  match a with
  | make v c fails => fresh_var v s (
      match fails with
      | Some e => Ok (s, o_threw e)
      | None =>
          let o := length (classes s) in
          Ok ({| vars := add (vars s) v (Ref, Some o); weaks := weaks s; count := upd (count s) o 1;
                 classes := classes s ++ [c]; dead := dead s |}, o_none)
      end)
  | null_ptr v => fresh_var v s (Ok (sp_copy Ptr v None s, o_none))
  | copy v u => fresh_var v s (with_var u s (fun k p => Ok (sp_copy k v p s, o_none)))
  | move v u => fresh_var v s (with_var u s (fun k p => Ok (sp_move k k v u p s, o_none)))
  | copy_assign v u => with_var v s (fun k old => with_var u s (fun _ p => Ok (sp_copy_assign k v old p s, o_none)))
  | move_assign v u => with_var v s (fun k _ => with_var u s (fun _ p => Ok (sp_move_assign k v u p s, o_none)))
  | convert v u => fresh_var v s (with_var u s (fun _ p =>
      assert_ dbg (negb (is_null p)) ;;; Ok (sp_copy Ref v p s, o_none)))
  | to_ptr v u => fresh_var v s (with_var u s (fun _ p => Ok (sp_copy Ptr v p s, o_none)))
  | from_ptr v u => fresh_var v s (with_var u s (fun _ p =>
      assert_ dbg (negb (is_null p)) ;;; Ok (sp_copy Ref v p s, o_none)))
  | destroy v => with_var v s (fun _ p => Ok (sp_destroy v p s, o_none))
  | get v => with_var v s (fun _ p => o <- ref_get p ;; Ok (s, o_obj o))
  | cast v u t => fresh_var v s (with_var u s (fun _ r =>
      match dyn_ref_cast t r s with
      | Ok p => Ok (sp_copy Ref v p s, o_none)
      | Throw e => Ok (s, o_threw e)
      | UB r => UB r | Abort => Abort | Terminate => Terminate | Diverge => Diverge
      end))
  | make_weak w v => with_var v s (fun _ p =>
      match lookup (weaks s) w with
      | None => Ok ({| vars := vars s; weaks := add (weaks s) w p; count := count s; classes := classes s; dead := dead s |}, o_none)
      | Some _ => UB BadArgument
      end)
  | lock v w => fresh_var v s (
      match lookup (weaks s) w with
      | Some p =>
          let q := match p with Some o => if Nat.eqb (count s o) 0 then None else Some o | None => None end in
          Ok (sp_copy Ptr v q s, o_none)
      | None => UB UseAfterFree
      end)
  | drop_weak w =>
      match lookup (weaks s) w with
      | Some _ => Ok ({| vars := vars s; weaks := remove (weaks s) w; count := count s; classes := classes s; dead := dead s |}, o_none)
      | None => UB UseAfterFree
      end
  | from_this v o t => fresh_var v s (
      (* shared_from_this: from the weak pointer in the object, which exists *)
      if Nat.eqb (count s o) 0 then UB UseAfterFree
      else
        let p := dynamic_pointer_cast t (Some o) s in
        assert_ dbg (negb (is_null p)) ;;; Ok (sp_copy Ref v p s, o_none))
  end.
Fixpoint run (h : list op) (s : state) : outcome (state * list out) :=
  match h with
  | [] => Ok (s, [])
  | a :: h =>
      r <- step a s ;;
      let '(s, x) := r in
      r <- run h s ;;
      let '(s, xs) := r in
      Ok (s, x :: xs)
  end.
End Shared.
Definition init : state := {| vars := []; weaks := []; count := fun _ => 0; classes := []; dead := [] |}.

(** ** unique_ref *)
Record ustate := { uvars : store (kind * ptr); made : nat; udead : list nat }.
Inductive uop :=
| umake (v : nat) (fails : option exn)    (* make_unique: 189-192 *)
| umove (v u : nat)                       (* 83; or of a std::unique_ptr *)
| uassign (v u : nat)                     (* 84 *)
| uconvert (v u : nat)                    (* 99-103 *)
| uto_ptr (v u : nat)                     (* 111-114 *)
| ufrom_ptr (v u : nat)                   (* 71-75, from std::move(u) *)
| udestroy (v : nat)
| uget (v : nat).                         (* 121-125 *)

(** std::unique_ptr: moving leaves null; reset and the destructor delete *)
Definition kill (p : ptr) (d : list nat) : list nat := match p with None => d | Some o => d ++ [o] end.
Definition up_move (k k' : kind) (v u : nat) (p : ptr) (s : ustate) : ustate :=
  {| uvars := add (set (uvars s) u (k', None)) v (k, p); made := made s; udead := udead s |}.
(** operator=(&&): reset(u.release()) *)
Definition up_assign (k : kind) (v u : nat) (p : ptr) (s : ustate) : ustate :=
  let l := set (uvars s) u (k, None) in
  match lookup l v with
  | Some (_, old) => {| uvars := set l v (k, p); made := made s; udead := kill old (udead s) |}
  | None => s
  end.

Definition ufresh_var {A} (v : nat) (s : ustate) (k : outcome A) : outcome A :=
  match lookup (uvars s) v with None => k | Some _ => UB BadArgument end.
Definition uwith_var {A} (v : nat) (s : ustate) (k : kind -> ptr -> outcome A) : outcome A :=
  match lookup (uvars s) v with Some (kd, p) => k kd p | None => UB UseAfterFree end.
Definition ustep (dbg : bool) (a : uop) (s : ustate) : outcome (ustate * out) :=
  match a with
  | umake v fails => ufresh_var v s (
      match fails with
      | Some e => Ok (s, o_threw e)
      | None => Ok ({| uvars := add (uvars s) v (Ref, Some (made s)); made := S (made s); udead := udead s |}, o_none)
      end)
  | umove v u => ufresh_var v s (uwith_var u s (fun k p => Ok (up_move k k v u p s, o_none)))
  | uassign v u => uwith_var v s (fun k _ => uwith_var u s (fun _ p => Ok (up_assign k v u p s, o_none)))
  | uconvert v u => ufresh_var v s (uwith_var u s (fun k p =>
      assert_ dbg (negb (is_null p)) ;;; Ok (up_move Ref k v u p s, o_none)))
  | uto_ptr v u => ufresh_var v s (uwith_var u s (fun k p => Ok (up_move Ptr k v u p s, o_none)))
  | ufrom_ptr v u => ufresh_var v s (uwith_var u s (fun k p =>
      assert_ dbg (negb (is_null p)) ;;; Ok (up_move Ref k v u p s, o_none)))
  | udestroy v => uwith_var v s (fun _ p =>
      Ok ({| uvars := remove (uvars s) v; made := made s; udead := kill p (udead s) |}, o_none))
  | uget v => uwith_var v s (fun _ p => o <- ref_get dbg p ;; Ok (s, o_obj o))
  end.
Fixpoint urun (dbg : bool) (h : list uop) (s : ustate) : outcome (ustate * list out) :=
  match h with
  | [] => Ok (s, [])
  | a :: h =>
      r <- ustep dbg a s ;;
      let '(s, x) := r in
      r <- urun dbg h s ;;
      let '(s, xs) := r in
      Ok (s, x :: xs)
  end.
Definition uinit : ustate := {| uvars := []; made := 0; udead := [] |}.

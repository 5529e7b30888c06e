(** Model of the end of a program with a singleton: src/utki/singleton.hpp:67-175, on top of [RaiiModel].

    The static [instance] (a std::unique_ptr, 84 and 159-175) is initialized statically, but destroyed in the same order as
    if it had been initialized dynamically at the point [p_instance] of the start of the program; for a static data member of
    a class template the point is not specified. At the end of the program the objects with static storage duration are
    destroyed, the last one initialized first; the destructor of std::unique_ptr deletes the object it points to.

    [clears]: whether the standard library sets the pointer to null before it deletes the object (libc++) or not (libstdc++,
    MSVC). Simplifications: one thread; no other static object is destroyed meanwhile than those of the program here. *)
From Verif Require Import Base RaiiModel.

Inductive storage := Automatic | Static | Heap.
(** What the destructor of another static object does with the singleton *)
Inductive use := use_is_created | use_inst | use_nothing.
(** Destructors to be run at the end of the program *)
Inductive registered := r_instance | r_object (i : nat) | r_user (u : use).
Record program := { single : sg_state; live : list (nat * storage); gone : bool; regs : list registered (* the last one first *) }.

Inductive p_op :=
| p_instance
| p_user (u : use)                              (* another static object is initialized *)
| p_construct (st : storage) (fails : option exn)
| p_destroy (i : nat).                          (* delete, or the end of the scope of an automatic object *)
Inductive p_out := p_made (i : nat) | p_threw (e : exn) | p_nothing.

Definition p_step (dbg : bool) (o : p_op) (p : program) : outcome (program * p_out) :=
  match o with
  | p_instance => Ok ({| single := single p; live := live p; gone := gone p; regs := r_instance :: regs p |}, p_nothing)
  | p_user u => Ok ({| single := single p; live := live p; gone := gone p; regs := r_user u :: regs p |}, p_nothing)
  | p_construct st fails =>
      r <- sg_step dbg (sg_construct fails) (single p) ;;
      match r with
      | (s, sg_made i) =>
          Ok ({| single := s; live := (i, st) :: live p; gone := gone p;
                 regs := match st with Static => r_object i :: regs p | _ => regs p end |}, p_made i)
      | (s, sg_threw e) => Ok ({| single := s; live := live p; gone := gone p; regs := regs p |}, p_threw e)
      | (s, _) => Ok ({| single := s; live := live p; gone := gone p; regs := regs p |}, p_nothing)
      end
  | p_destroy i =>
      s <- base_destroy dbg i (single p) ;;
      Ok ({| single := s; live := filter (fun x => negb (Nat.eqb (fst x) i)) (live p); gone := gone p; regs := regs p |}, p_nothing)
  end.
Fixpoint p_run (dbg : bool) (l : list p_op) (p : program) : outcome (program * list (p_op * p_out)) :=
  match l with
  | [] => Ok (p, [])
  | o :: l =>
      r <- p_step dbg o p ;;
      let '(p, x) := r in
      r <- p_run dbg l p ;;
      let '(p, xs) := r in
      Ok (p, (o, x) :: xs)
  end.
Definition p_start : program := {| single := sg_init; live := []; gone := false; regs := [] |}.

Fixpoint storage_of (l : list (nat * storage)) (i : nat) : option storage :=
  match l with
  | [] => None
  | (j, st) :: l => if Nat.eqb j i then Some st else storage_of l i
  end.
(** [delete] by std::default_delete: the destructor, which is virtual, and operator delete *)
Definition delete_object (dbg : bool) (i : nat) (p : program) : outcome program :=
  s <- base_destroy dbg i (single p) ;;
  match storage_of (live p) i with
  | Some Heap => Ok {| single := s; live := filter (fun x => negb (Nat.eqb (fst x) i)) (live p); gone := gone p; regs := regs p |}
  | Some _ => UB BadArgument
  | None => UB UseAfterFree
  end.
(** The static objects are destroyed. *)
Definition p_end_step (dbg clears : bool) (r : registered) (p : program) : outcome program :=
  match r with
  | r_instance =>
      let over p := {| single := single p; live := live p; gone := true; regs := regs p |} in
      match instance (single p) with
      | None => Ok (over p)
      | Some i =>
          let s := if clears then {| instance := None; sg_fresh := sg_fresh (single p) |} else single p in
          p <- delete_object dbg i {| single := s; live := live p; gone := gone p; regs := regs p |} ;;
          Ok (over p)
      end
  | r_object i =>
      if gone p then UB UseAfterFree
      else
        s <- base_destroy dbg i (single p) ;;
        Ok {| single := s; live := filter (fun x => negb (Nat.eqb (fst x) i)) (live p); gone := gone p; regs := regs p |}
  | r_user u =>
      match u with
      | use_nothing => Ok p
      | use_is_created => if gone p then UB UseAfterFree else Ok p
      | use_inst => if gone p then UB UseAfterFree else _ <- inst dbg (single p) ;; Ok p
      end
  end.
Fixpoint p_end_loop (dbg clears : bool) (l : list registered) (p : program) : outcome program :=
  match l with
  | [] => Ok p
  | r :: l => p <- p_end_step dbg clears r p ;; p_end_loop dbg clears l p
  end.
(** main has returned, or std::exit was called *)
Definition p_end (dbg clears : bool) (p : program) : outcome program := p_end_loop dbg clears (regs p) p.

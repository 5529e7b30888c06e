(** Model of copies of utki::signal: src/utki/signal.hpp:43-118.

    The class declares a destructor (59-62) and nothing else of the kind, so it has the copy constructor and
    the copy assignment of its member std::list, and no move operations: moving from a signal copies it.

    A node of a std::list has an identity, as in SignalModel.v. Copying makes new nodes. Assigning makes new
    nodes and ends the old ones: the standard does not say that iterators stay valid. Assigning a signal to
    itself does nothing. Using an iterator that is not one of the list is undefined behaviour.

    Callbacks change the state [W] of the program and may throw; here they do not use the signals. *)
From Verif Require Import Base.

Section SignalCopy.
Context {F A W : Type}.
Variable call : F -> A -> W -> W * option exn.

(** the signals by number, None if there is none; the numbers from [fresh] on identify no node yet *)
Record state := { signals : nat -> option (list (nat * F)); fresh : nat; world : W }.
Inductive op :=
| m_new (i : nat) | m_copy (i j : nat) | m_assign (i j : nat) | m_destroy (i : nat)
| m_connect (i : nat) (f : F) | m_disconnect (i c : nat) | m_emit (i : nat) (a : A) | m_size (i : nat).
(** what an operation shows: nothing; a connection; a number; the callbacks that were called and the exception *)
Inductive out := r_none | r_connection (c : nat) | r_size (n : nat) | r_called (l : list F) (e : option exn).

Definition put (i : nat) (l : option (list (nat * F))) (s : state) : state :=
  {| signals := fun k => if Nat.eqb k i then l else signals s k; fresh := fresh s; world := world s |}.
Definition get (i : nat) (s : state) : outcome (list (nat * F)) :=
  match signals s i with Some l => Ok l | None => UB UseAfterFree end.
(** new nodes for the elements of a list *)
Definition copy_list (l : list (nat * F)) (s : state) : list (nat * F) * state :=
  (combine (seq (fresh s) (length l)) (map snd l),
   {| signals := signals s; fresh := fresh s + length l; world := world s |}).

(** emit: 96-101 *)
Fixpoint emit_to (l : list (nat * F)) (a : A) (w : W) : W * list F * option exn :=
  match l with
  | [] => (w, [], None)
  | (_, f) :: l =>
      match call f a w with
      | (w, Some e) => (w, [f], Some e)
      | (w, None) => let '(w, fs, r) := emit_to l a w in (w, f :: fs, r)
      end
  end.

Definition step (dbg : bool) (o : op) (s : state) : outcome (state * out) :=
  match o with
  | m_new i =>
      match signals s i with None => Ok (put i (Some []) s, r_none) | Some _ => UB BadArgument end
  | m_copy i j =>
      match signals s i with
      | Some _ => UB BadArgument
      | None => l <- get j s ;; let '(l, s) := copy_list l s in Ok (put i (Some l) s, r_none)
      end
  | m_assign i j =>
      _x <- get i s ;; l <- get j s ;;
      if Nat.eqb i j then Ok (s, r_none)
      else let '(l, s) := copy_list l s in Ok (put i (Some l) s, r_none)
  | m_destroy i =>   (* 59-62 *)
      l <- get i s ;; assert_ dbg (Nat.eqb (length l) 0) ;;; Ok (put i None s, r_none)
  | m_connect i f =>   (* 76-80 *)
      l <- get i s ;;
      Ok (put i (Some (l ++ [(fresh s, f)])) {| signals := signals s; fresh := S (fresh s); world := world s |}, r_connection (fresh s))
  | m_disconnect i c =>   (* 86-89 *)
      l <- get i s ;;
      if existsb (fun x => Nat.eqb (fst x) c) l
      then Ok (put i (Some (filter (fun x => negb (Nat.eqb (fst x) c)) l)) s, r_none)
      else UB UseAfterFree
  | m_emit i a =>
      l <- get i s ;;
      let '(w, fs, r) := emit_to l a (world s) in
      Ok ({| signals := signals s; fresh := fresh s; world := w |}, r_called fs r)
  | m_size i => l <- get i s ;; Ok (s, r_size (length l))   (* 107-110 *)
  end.
Fixpoint run (dbg : bool) (l : list op) (s : state) : outcome (state * list out) :=
  match l with
  | [] => Ok (s, [])
  | o :: l =>
      r <- step dbg o s ;;
      let '(s, x) := r in
      r <- run dbg l s ;;
      let '(s, xs) := r in
      Ok (s, x :: xs)
  end.
Definition init (w : W) : state := {| signals := fun _ => None; fresh := 0; world := w |}.
End SignalCopy.
Arguments state : clear implicits.
Arguments op : clear implicits.
Arguments out : clear implicits.

(** Model of logging (src/utki/log.cpp:44-61, log.hpp:36-56, debug.hpp:72-139) and of utki::demangle
    (src/utki/debug.cpp:102-137). *)
From Verif Require Import Base TextModel.

(** ** Logging.  The Android branch is not modelled. *)
Section Log.
Context {F X : Type}.

(** std::cout (its text so far, formatting state, whether it is good), how much of the text was flushed, and the
    rest of the program's state. *)
Record world := World { cout : stream F; flushed : nat; rest : X }.

(** A call can change the world and can throw. *)
Definition action := world -> world * outcome unit.

(** std::cout.flush() *)
Definition flush (w : world) : world :=
  if st_good (cout w) then World (cout w) (length (st_text (cout w))) (rest w) else w.

(** log.cpp:44-61; [None] is an empty std::function. *)
Definition log (print : option action) : action := fun w =>
  match print with
  | None => (w, Ok tt)
  | Some print =>
      let (w, r) := print w in
      match r with
      | Ok _ => (flush w, Ok tt)
      | r => (w, r)
      end
  end.

(** log.hpp:49-56; the arguments were evaluated by the caller. *)
Definition logcat (args : list (arg F)) : action :=
  log (Some (fun w => (flush (World (fold_left insert_arg args (cout w)) (flushed w) (rest w)), Ok tt))).

(** The argument of a call is an expression: evaluating it may have effects, and may throw. *)
Definition expr (T : Type) := world -> world * outcome T.
Definition eval {T : Type} (e : expr T) (k : T -> action) : action := fun w =>
  let (w, r) := e w in
  match r with
  | Ok t => k t w
  | Throw x => (w, Throw x)
  | UB x => (w, UB x)
  | Abort => (w, Abort) | Terminate => (w, Terminate) | Diverge => (w, Diverge)
  end.
Definition nothing : action := fun w => (w, Ok tt).

(** debug.hpp:72-79, the macro; [LOG(x)] expands to nothing in a release build. *)
Definition LOG (dbg : bool) (e : expr (option action)) : action := if dbg then eval e log else nothing.

(** debug.hpp:89-98 *)
Definition log_debug (dbg : bool) (e : expr (option action)) : action :=
  eval e (fun print => if dbg then log print else nothing).

(** debug.hpp:106-117 *)
Definition logcat_debug (dbg : bool) (e : expr (list (arg F))) : action :=
  eval e (fun args => if dbg then logcat args else nothing).

(** debug.hpp:125-139 *)
Definition run_debug (dbg : bool) (e : expr (option action)) : action :=
  eval e (fun proc =>
    if dbg then match proc with None => nothing | Some proc => proc end
    else nothing).
End Log.
Arguments world : clear implicits.
Arguments action : clear implicits.
Arguments expr : clear implicits.

(** ** demangle, debug.cpp:102-131 (gcc and clang) *)
Section Demangle.
(** The heap of malloc(): the live blocks with their contents (the text before the terminating zero). *)
Definition heap := list (nat * list N).

(** free(): a null pointer is fine, a block that is not live is undefined behaviour. *)
Definition free (p : option nat) (h : heap) : outcome heap :=
  match p with
  | None => Ok h
  | Some b =>
      if existsb (fun x => Nat.eqb (fst x) b) h then Ok (filter (fun x => negb (Nat.eqb (fst x) b)) h)
      else UB UseAfterFree
  end.

(** std::string(const char* ); [alloc t] says whether the memory for [t] can be had. *)
Variable alloc : list N -> bool.
Definition new_string (t : list N) : outcome (list N) := if alloc t then Ok t else Throw RuntimeError.
Definition string_of_block (h : heap) (p : option nat) : outcome (list N) :=
  match p with
  | None => UB NullDeref
  | Some b =>
      match find (fun x => Nat.eqb (fst x) b) h with
      | Some x => new_string (snd x)
      | None => UB UseAfterFree
      end
  end.

(** [cxa name h] is abi::__cxa_demangle: the status, the returned pointer and the heap afterwards. *)
Variable cxa : list N -> heap -> Z * option nat * heap.

(** The result, and the heap when the function is left. *)
Definition demangle (name : list N) (h : heap) : outcome (list N) * heap :=
  let '(status, demangled_name, h) := cxa name h in
  if (status =? 0)%Z then
    (* the string is built before the destructor of scope_exit runs, which also runs when that throws *)
    let r := string_of_block h demangled_name in
    match free demangled_name h with
    | Ok h' => (r, h')
    | UB e => (UB e, h)
    | _ => (Abort, h)
    end
  else (new_string name, h).
End Demangle.

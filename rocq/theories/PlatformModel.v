(** Model of the branches of log.cpp and debug.cpp for Android and for the Microsoft compiler: src/utki/log.cpp:50-54,
    debug.cpp:90-93, 132-137 (LogModel and DebugModel have the branches for the other platforms).

    The system log of Android is a list of entries; functions of the NDK get C strings, that is the characters before
    the first zero. How much of a long message the system keeps is not modelled.
    __android_log_assert with a null format writes "Assertion failed: " and its first argument with priority FATAL, and
    calls abort (android/log.h). *)
From Coq Require Import String.
From Verif Require Import Base StrLit TextModel LogModel StringModel MiscModel DebugModel.
Local Open Scope string_scope. Local Open Scope list_scope.

Inductive priority := Info | Fatal.
Record entry (C : Type) := Entry { e_priority : priority; e_tag : string; e_text : list C }.
Arguments Entry {C}. Arguments e_priority {C}. Arguments e_tag {C}. Arguments e_text {C}.

(** What a function sees of the characters [s] through s.c_str() *)
Fixpoint c_str {C : Type} (is_zero : C -> bool) (s : list C) : list C :=
  match s with [] => [] | c :: s => if is_zero c then [] else c :: c_str is_zero s end.

(** ** Logging *)
Section Log.
Context {F X : Type}.
(** The formatting state of a new stream *)
Variable default : F.
(** A function that prints to the stream it is given; it may change the rest of the program's state and throw. *)
Definition printing := stream F -> X -> stream F * X * outcome unit.
Record device := Device { system_log : list (entry N); others : X }.

(** log.cpp:44-54 *)
Definition log_android (print : option printing) (d : device) : device * outcome unit :=
  match print with
  | None => (d, Ok tt)
  | Some print =>
      let '(ss, x, r) := print (Stream [] default true) (others d) in
      match r with
      | Ok _ => (Device (system_log d ++ [Entry Info "utki" (c_str (N.eqb 0) (st_text ss))]) x, Ok tt)
      | r => (Device (system_log d) x, r)
      end
  end.
(** log.hpp:49-56; flush of a string stream does nothing *)
Definition logcat_android (args : list (arg F)) : device -> device * outcome unit :=
  log_android (Some (fun s x => (fold_left insert_arg args s, x, Ok tt))).

(** The same function handed to utki::log elsewhere, where it is given std::cout *)
Definition to_cout (print : printing) : action F X := fun w =>
  let '(s, x, r) := print (cout w) (rest w) in (World s (flushed w) x, r).
End Log.
Arguments printing : clear implicits.
Arguments device : clear implicits.

(** ** Assertions, debug.cpp:57-100: the entry written to the system log, if any, and how the call ends *)
Section Assert.
Local Open Scope Z_scope.
Definition assert_always_android (terminal condition : bool) (print : printer) (loc : location) : list (entry Z) * ending :=
  if condition then ([], Returned)
  else
    match file loc with
    | None => ([], Undefined NullDeref)
    | Some f =>
        let ss := f ++ zstr ":" ++ digits (line loc) ++ zstr ": " in
        let ss := ss ++ (if terminal then colored_error_string else uncolored_error_string) in
        let ss := ss ++ zstr ": assertion failed" in
        let log_assert ss := ([Entry Fatal "utki" (zstr "Assertion failed: " ++ c_str (Z.eqb 0) ss)], Aborted) in
        match print with
        | None => log_assert ss
        | Some (text, None) => log_assert (ss ++ zstr ":" ++ endl ++ zstr "  " ++ text)
        | Some (_, Some e) => ([], Raised (OfUser e))
        end
    end.
End Assert.

(** ** demangle, debug.cpp:132-137 (the Microsoft compiler) and 138-140 (other compilers). type_info::name() is readable
    with the Microsoft compiler. *)
Definition demangle_msvc (cpp20 : bool) (name : list N) : outcome (list N) :=
  let prefix := str "class " in
  if starts_with N.eqb cpp20 name prefix then substr name (size prefix) npos else Ok name.
Definition demangle_other (name : list N) : outcome (list N) := Ok name.

(** Model of src/utki/debug.cpp:57-100 and of the assertion part of src/utki/debug.hpp:148-530. *)
From Coq Require Import String.
From Verif Require Import Base StrLit MiscModel.
Local Open Scope string_scope. Local Open Scope list_scope. Local Open Scope Z_scope.

(** What can leave a user supplied function: std::bad_function_call, thrown when it is an empty
    std::function, or an exception of its own *)
Inductive raised := BadFunctionCall | OfUser (n : Z).
(** How a call ends *)
Inductive ending := Returned | Aborted | Raised (e : raised) | Undefined (r : ub).

(** utki::source_location, debug.hpp:151-197; [file] is None for a null file_name *)
Record location := { file : option (list Z); line : Z }.
(** A std::function<void(std::ostream&)>: empty, or what it writes and how it ends (None: it returns) *)
Definition printer := option (list Z * option Z).

(** debug.cpp:53-54 *)
Definition colored_error_string : list Z := 27 :: zstr "[1;31merror" ++ 27 :: zstr "[0m".
Definition uncolored_error_string : list Z := zstr "error".
Definition endl : list Z := [10].

(** assert_always, debug.cpp:57-100: what is written to std::cerr, and how the call ends.
    [terminal] is the result of is_terminal_cerr(). *)
Definition assert_always (terminal condition : bool) (print : printer) (loc : location) : list Z * ending :=
  if condition then ([], Returned)
  else
    match file loc with
    | None => ([], Undefined NullDeref)   (* operator<< of a null pointer *)
    | Some f =>
        let ss := f ++ zstr ":" ++ digits (line loc) ++ zstr ": " in
        let ss := ss ++ (if terminal then colored_error_string else uncolored_error_string) in
        let ss := ss ++ zstr ": assertion failed" in
        match print with
        | None => (ss ++ endl, Aborted)
        | Some (text, None) => (ss ++ zstr ":" ++ endl ++ zstr "  " ++ text ++ endl, Aborted)
        | Some (_, Some e) => ([], Raised (OfUser e))   (* ss is lost *)
        end
    end.

(** The first argument of utki::assert, debug.hpp:261-511: a bool; a pointer, smart pointer or
    std::function other than std::function<bool()>, of which it is tested that it is not null; a
    std::function<bool()> (or anything else that converts to it, a lambda), which is called. *)
Inductive argument :=
| Bool (b : bool)
| Pointer (null : bool)
| Checker (f : option (bool + Z)).   (* None: empty; inl b: returns b; inr e: throws *)

(** utki::assert, debug.hpp:261-511 *)
Definition assert (dbg terminal : bool) (arg : argument) (print : printer) (loc : location) : list Z * ending :=
  if dbg then
    match arg with
    | Bool b => assert_always terminal b print loc
    | Pointer null => assert_always terminal (negb null) print loc
    | Checker None => ([], Raised BadFunctionCall)
    | Checker (Some (inl b)) => assert_always terminal b print loc
    | Checker (Some (inr e)) => ([], Raised (OfUser e))
    end
  else ([], Returned).

(** Programs: an expression evaluates in the state [S] of the program. The macros of debug.hpp:515-530
    expand to a call of utki::assert in a debug build and to nothing in a release build; a call of
    utki::assert written by the user evaluates its arguments in both. *)
Section Program.
Context {S : Type}.
Definition assert_call (dbg terminal : bool) (arg : S -> S * argument) (print : printer) (loc : location) (s : S)
  : S * (list Z * ending) :=
  let '(s, a) := arg s in (s, assert dbg terminal a print loc).
Definition ASSERT (dbg terminal : bool) (arg : S -> S * argument) (print : printer) (loc : location) (s : S)
  : S * (list Z * ending) :=
  if dbg then assert_call dbg terminal arg print loc s else (s, ([], Returned)).
End Program.

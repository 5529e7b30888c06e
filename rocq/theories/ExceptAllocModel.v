(** Model of src/utki/exception.hpp:95-127 and src/utki/exception.cpp:45-97 in a process that runs out of memory; with src/utki/debug.cpp:102-145
    (demangle) and src/utki/string.hpp:261-270 (cat). The exceptions are those of ExceptModel, which is the model with enough memory.

    Operations that allocate take the next entry of a list of faults: None or no more entries: there is memory. Some n: there is none.
    - operator<< of a std::stringstream does not let the exception out: it sets badbit, with the first n characters written, and
      the following insertions do nothing. Their operands are evaluated all the same.
    - ss.str() and the construction of a std::string throw std::bad_alloc.
    - abi::__cxa_demangle reports it, and demangle falls back to the mangled name. [mangled] gives it from the demangled one.
    Exception objects are made from memory that is set aside for this (the emergency pool), so throw and rethrow do not fail.
    The assignment to description moves. Functions that override to_string are those of ExceptModel: they are given with their outcome. *)
From Coq Require Import String.
From Verif Require Import Base StrLit ExceptModel.
Local Open Scope string_scope. Local Open Scope list_scope. Local Open Scope Z_scope.

Definition faults := list (option nat).
Definition run (A : Type) := faults -> outcome A * faults.
Definition ret {A} (a : A) : run A := fun f => (Ok a, f).
Definition lift {A} (o : outcome A) : run A := fun f => (o, f).
Definition and_then {A B} (m : run A) (k : A -> run B) : run B := fun f =>
  match m f with
  | (Ok a, f) => k a f
  | (Throw e, f) => (Throw e, f)
  | (UB r, f) => (UB r, f)
  | (Abort, f) => (Abort, f)
  | (Terminate, f) => (Terminate, f)
  | (Diverge, f) => (Diverge, f)
  end.
Notation "x <~ m ;; k" := (and_then m (fun x => k)) (at level 61, m at next level, right associativity).
Definition allocate : run (option nat) := fun f => match f with [] => (Ok None, []) | x :: f => (Ok x, f) end.
(** std::string(t) *)
Definition new_string (t : text) : run text := a <~ allocate ;; match a with None => ret t | Some _ => lift (Throw BadAlloc) end.

(** A std::stringstream: its text and badbit *)
Definition stream := (text * bool)%type.
Definition empty_stream : stream := ([], false).
Definition insert (s : stream) (t : text) : run stream :=
  if snd s then ret s
  else a <~ allocate ;; match a with None => ret (fst s ++ t, false) | Some n => ret (fst s ++ firstn n t, true) end.
Definition str (s : stream) : run text := new_string (fst s).

Record alloc_printers := {
  a_what : run text;
  a_to_string : text -> run text;
  a_method : text -> run text;
  a_current : text -> run text
}.

Section Compiler.
Variable gnu : bool.
Variable mangled : text -> text.

(** debug.cpp:102-145 *)
Definition demangle (name : text) : run text :=
  if gnu then a <~ allocate ;; new_string (match a with None => name | Some _ => mangled name end)
  else new_string name.
(** exception.cpp:58-64 *)
Definition a_current_type (name : text) : run text := if gnu then demangle name else new_string (zstr "unknown exception").

Fixpoint alloc_printers_of (e : exn) : alloc_printers :=
  let rest (base : nest exn) (ind : text) (ss : stream) : run stream :=
    match base with
    | NoNested => ret ss
    | NullNested => lift Terminate
    | Nested n =>
        ss <~ insert ss newline ;;
        t <~ (if is_std n then a_to_string (alloc_printers_of n) ind else a_current (alloc_printers_of n) ind) ;;
        insert ss t
    end in
  (* exception.cpp:56-81 *)
  let current (name : text) (base : nest exn) (ind : text) : run text :=
    ss <~ insert empty_stream ind ;;
    t <~ a_current_type name ;;
    ss <~ insert ss t ;;
    ss <~ rest base ind ss ;;
    str ss in
  (* exception.cpp:84-97 *)
  let to_string (name : text) (what : run text) (base : nest exn) (ind : text) : run text :=
    ss <~ insert empty_stream ind ;;
    t <~ demangle name ;;
    ss <~ insert ss t ;;
    ss <~ insert ss (zstr ": ") ;;
    w <~ what ;;
    ss <~ insert ss w ;;
    ss <~ rest base ind ss ;;
    str ss in
  match e with
  | Obj c name what base =>
      {| a_what := ret what;
         a_to_string := to_string name (ret what) base;
         a_method := fun _ => to_string name (ret what) base [];
         a_current := current name base |}
  | Own name what own base =>
      {| a_what := ret what;
         a_to_string := to_string name (ret what) base;
         a_method := fun ind => lift (own ind);
         a_current := current name base |}
  | Stacked name nesting nested base =>
      (* exception.hpp:110-125 *)
      let method (ind : text) : run text :=
        ss <~ insert empty_stream ind ;;
        h <~ a_to_string (alloc_printers_of nesting) [] ;;
        ss <~ insert ss h ;;
        match nested with
        | None => lift Terminate
        | Some n =>
            ss <~ insert ss newline ;;
            t <~ (if is_utki n then a_method (alloc_printers_of n) ind
                  else if is_std n then a_to_string (alloc_printers_of n) ind
                  else a_current (alloc_printers_of n) ind) ;;
            ss <~ insert ss t ;;
            str ss
        end in
      (* exception.hpp:97-108 *)
      let what : run text := fun f =>
        match (t <~ method (zstr "- ") ;;
               ss <~ insert empty_stream (zstr "exception stack:" ++ newline) ;;
               ss <~ insert ss t ;;
               str ss) f with
        | (Throw BadAlloc, f) => (Ok (zstr "std::bad_alloc"), f)
        | (Throw _, f) => (Ok (zstr "error"), f)
        | r => r
        end in
      {| a_what := what;
         a_to_string := to_string name what base;
         a_method := method;
         a_current := current name base |}
  end.
End Compiler.

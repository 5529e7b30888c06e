(** Model of src/utki/exception.hpp and src/utki/exception.cpp.

    Texts are lists of characters other than NUL; exception texts and type names are arbitrary. The library itself does
    not run out of memory, but a to_string overridden by a user of the library may throw anything. *)
From Coq Require Import String.
From Verif Require Import Base StrLit.
Local Open Scope string_scope. Local Open Scope list_scope. Local Open Scope Z_scope.

Definition text := list Z.
Definition newline : text := [10].

(** The base std::nested_exception of an exception object: there is none; there is one without an
    exception (made when no exception was being handled); or it holds the nested exception. *)
Inductive nest (A : Type) := NoNested | NullNested | Nested (e : A).
Arguments NoNested {A}. Arguments NullNested {A}. Arguments Nested {A} _.

(** Not derived from std::exception; derived from it; derived from utki::exception and not overriding
    its to_string *)
Inductive class := Foreign | Std | Utki.

(** An exception object. [Obj]: [what] is its what() (unused if Foreign). [Stacked]: an object of type
    utki::stacked_exception<X> or of a type derived from it; [nesting] is its member of type X, [nested]
    the exception held by its member of type std::nested_exception (exception.hpp:84-85). [Own]: an
    object derived from utki::exception whose class overrides to_string by [own]. [name] is the
    demangled name of the type of the object. *)
Inductive exn :=
| Obj (c : class) (name what : text) (base : nest exn)
| Own (name what : text) (own : text -> outcome text) (base : nest exn)
| Stacked (name : text) (nesting : exn) (nested : option exn) (base : nest exn).

Definition is_std (e : exn) : bool := match e with Obj Foreign _ _ _ => false | _ => true end.
Definition is_utki (e : exn) : bool := match e with Obj Utki _ _ _ | Own _ _ _ _ | Stacked _ _ _ _ => true | _ => false end.

(** What can be asked from an exception object *)
Record printers := {
  what_of : outcome text;                (* e.what() *)
  to_string_of : text -> outcome text;   (* utki::to_string(e, indentation) *)
  method_of : text -> outcome text;      (* e.to_string(indentation), of a utki::exception *)
  current_of : text -> outcome text      (* current_exception_to_string(indentation) while e is handled *)
}.

Section Compiler.
(** GCC or clang, or else another compiler (MSVC) *)
Variable gnu : bool.
(** the name of the type of the exception being handled, exception.cpp:58-64 *)
Definition current_type (name : text) : text := if gnu then name else zstr "unknown exception".

Fixpoint printers_of (e : exn) : printers :=
  (* the nested exception of the base, if any: exception.cpp:66-79, 89-95. std::rethrow_if_nested
     and rethrow_nested call std::terminate if no exception is held. *)
  let rest (base : nest exn) (ind : text) : outcome text :=
    match base with
    | NoNested => Ok []
    | NullNested => Terminate
    | Nested n =>
        t <- (if is_std n then to_string_of (printers_of n) ind else current_of (printers_of n) ind) ;;
        Ok (newline ++ t)
    end in
  (* current_exception_to_string, exception.cpp:56-81 *)
  let current (name : text) (base : nest exn) (ind : text) : outcome text :=
    r <- rest base ind ;; Ok (ind ++ current_type name ++ r) in
  (* to_string, exception.cpp:84-97 *)
  let to_string (name : text) (what : outcome text) (base : nest exn) (ind : text) : outcome text :=
    w <- what ;;
    r <- rest base ind ;;
    Ok (ind ++ name ++ zstr ": " ++ w ++ r) in
  match e with
  | Obj c name what base =>
      {| what_of := Ok what;
         to_string_of := to_string name (Ok what) base;
         (* exception::to_string, exception.cpp:45-48: the indentation is not passed on *)
         method_of := fun _ => to_string name (Ok what) base [];
         current_of := current name base |}
  | Own name what own base =>
      {| what_of := Ok what;
         to_string_of := to_string name (Ok what) base;
         method_of := own;
         current_of := current name base |}
  | Stacked name nesting nested base =>
      (* stacked_exception::to_string, exception.hpp:110-125 *)
      let method (ind : text) : outcome text :=
        h <- to_string_of (printers_of nesting) [] ;;
        t <- match nested with
             | None => Terminate
             | Some n =>
                 if is_utki n then method_of (printers_of n) ind
                 else if is_std n then to_string_of (printers_of n) ind
                 else current_of (printers_of n) ind
             end ;;
        Ok (ind ++ h ++ newline ++ t) in
      (* stacked_exception::what, exception.hpp:97-108 *)
      let what : outcome text :=
        match (t <- method (zstr "- ") ;; Ok (zstr "exception stack:" ++ newline ++ t)) with
        | Throw BadAlloc => Ok (zstr "std::bad_alloc")
        | Throw _ => Ok (zstr "error")
        | r => r
        end in
      {| what_of := what;
         to_string_of := to_string name what base;
         method_of := method;
         current_of := current name base |}
  end.

(** current_exception_to_string, exception.cpp:50-82; [cur] is the exception being handled *)
Definition current_exception_to_string (cur : option exn) (ind : text) : outcome text :=
  match cur with
  | None => Throw LogicError
  | Some e => current_of (printers_of e) ind
  end.
End Compiler.

(** throw_with_nested, exception.hpp:134-149: what is thrown while [cur] is being handled. In the last
    line the class template argument of stacked_exception is deduced from the argument: for an argument
    which is a stacked_exception itself this makes a copy of it. [stacked_name n] is the demangled name
    of stacked_exception<X> for a type X with the demangled name [n]. *)
Definition throw_with_nested (stacked_name : text -> text) (dbg : bool) (cur : option exn) (e : exn) : outcome exn :=
  assert_ dbg (match cur with None => false | Some _ => true end) ;;;
  match e with
  | Obj _ name _ _ | Own name _ _ _ => Ok (Stacked (stacked_name name) e cur NoNested)
  | Stacked _ _ _ _ => Ok e
  end.

(** Chains built by utki::throw_with_nested: [es] are thrown one after the other, each from the
    handler of the exception thrown before. *)
Fixpoint rethrow (stacked_name : text -> text) (dbg : bool) (e : exn) (es : list exn) : outcome exn :=
  match es with
  | [] => Ok e
  | x :: es => y <- throw_with_nested stacked_name dbg (Some e) x ;; rethrow stacked_name dbg y es
  end.

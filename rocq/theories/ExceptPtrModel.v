(** Model of the pointers that what() of exceptions returns: src/utki/exception.hpp:84-127 and src/utki/exception.cpp:45-97 with the buffers of
    the member description (exception.hpp:87).

    There is enough memory here, and no to_string is overridden by users (for these see ExceptAllocModel and ExceptModel). The text of a description
    begins with "exception stack:" and a line feed, so it is longer than what a std::string keeps without a buffer (15 characters with
    libstdc++ and MSVC, 22 with libc++; "- ", a name, ": " and a line feed follow). *)
From Coq Require Import String.
From Verif Require Import Base StrLit ExceptModel.
Local Open Scope string_scope. Local Open Scope list_scope. Local Open Scope Z_scope.

(** Exception objects as in ExceptModel. A stacked_exception has an identity. Exceptions that are nested are held by std::exception_ptr, so
    an object can be in several chains. *)
Inductive object :=
| Plain (c : class) (name what : text) (base : nest object)
| Stack (id : nat) (name : text) (nesting : object) (nested : option object) (base : nest object).
Definition obj_is_std (x : object) : bool := match x with Plain Foreign _ _ _ => false | _ => true end.
Definition obj_is_utki (x : object) : bool := match x with Plain Utki _ _ _ | Stack _ _ _ _ _ => true | _ => false end.

(** Buffers, None for those given back; and the buffer of the description of each stacked_exception, None before the first what() *)
Record mem := { buffers : list (option text); description : nat -> option nat }.
(** What a const char* points to: a text that lives as long as its exception object, or a buffer *)
Inductive pointer := Fixed (t : text) | Buffer (b : nat).
Definition read (m : mem) (p : pointer) : outcome text :=
  match p with
  | Fixed t => Ok t
  | Buffer b => match nth_error (buffers m) b with Some (Some t) => Ok t | _ => UB UseAfterFree end
  end.
Fixpoint give_back (l : list (option text)) (b : nat) : list (option text) :=
  match l, b with
  | [], _ => []
  | _ :: l, O => None :: l
  | x :: l, S b => x :: give_back l b
  end.
(** description = t, t an rvalue: the buffer of t becomes that of description, the one before is given back at the end of the statement. *)
Definition assign (m : mem) (id : nat) (t : text) : mem :=
  {| buffers := (match description m id with None => buffers m | Some b => give_back (buffers m) b end) ++ [Some t];
     description := fun i => if Nat.eqb i id then Some (List.length (buffers m)) else description m i |}.

Definition call (A : Type) := mem -> outcome A * mem.
Definition return_ {A} (a : A) : call A := fun m => (Ok a, m).
Definition terminate {A} : call A := fun m => (Terminate, m).
Definition then_ {A B} (c : call A) (k : A -> call B) : call B := fun m =>
  match c m with
  | (Ok a, m) => k a m
  | (Throw e, m) => (Throw e, m)
  | (UB r, m) => (UB r, m)
  | (Abort, m) => (Abort, m)
  | (Terminate, m) => (Terminate, m)
  | (Diverge, m) => (Diverge, m)
  end.
Notation "x <~ c ;; k" := (then_ c (fun x => k)) (at level 61, c at next level, right associativity).
Definition read_now (p : pointer) : call text := fun m => (read m p, m).

Record calls := {
  c_what : call pointer;             (* e.what() *)
  c_to_string : text -> call text;   (* utki::to_string(e, indentation) *)
  c_method : text -> call text;      (* e.to_string(indentation), of a utki::exception *)
  c_current : text -> call text      (* current_exception_to_string(indentation) while e is handled *)
}.

Section Compiler.
Variable gnu : bool.
Fixpoint calls_of (x : object) : calls :=
  let rest (base : nest object) (ind : text) : call text :=
    match base with
    | NoNested => return_ []
    | NullNested => terminate
    | Nested n =>
        t <~ (if obj_is_std n then c_to_string (calls_of n) ind else c_current (calls_of n) ind) ;;
        return_ (newline ++ t)
    end in
  (* exception.cpp:56-81 *)
  let current (name : text) (base : nest object) (ind : text) : call text :=
    r <~ rest base ind ;;
    return_ (ind ++ current_type gnu name ++ r) in
  (* exception.cpp:84-97; the pointer is read while it is inserted into the stream. *)
  let to_string (name : text) (what : call pointer) (base : nest object) (ind : text) : call text :=
    p <~ what ;;
    w <~ read_now p ;;
    r <~ rest base ind ;;
    return_ (ind ++ name ++ zstr ": " ++ w ++ r) in
  match x with
  | Plain c name what base =>
      {| c_what := return_ (Fixed what);
         c_to_string := to_string name (return_ (Fixed what)) base;
         (* exception.cpp:45-48 *)
         c_method := fun _ => to_string name (return_ (Fixed what)) base [];
         c_current := current name base |}
  | Stack id name nesting nested base =>
      (* exception.hpp:110-125 *)
      let method (ind : text) : call text :=
        h <~ c_to_string (calls_of nesting) [] ;;
        t <~ match nested with
             | None => terminate
             | Some n => if obj_is_utki n then c_method (calls_of n) ind
                         else if obj_is_std n then c_to_string (calls_of n) ind
                         else c_current (calls_of n) ind
             end ;;
        return_ (ind ++ h ++ newline ++ t) in
      (* exception.hpp:97-108; c_str() of the new description *)
      let what : call pointer :=
        t <~ method (zstr "- ") ;;
        fun m => (Ok (Buffer (List.length (buffers m))), assign m id (zstr "exception stack:" ++ newline ++ t)) in
      {| c_what := what;
         c_to_string := to_string name what base;
         c_method := method;
         c_current := current name base |}
  end.

(** ** Programs: what they do with exceptions, one call after another *)
Inductive kind := What | ToString | Method | Current.
Record use := { use_kind : kind; use_object : object; use_ind : text }.
Definition perform (u : use) (m : mem) : outcome unit * mem :=
  let c := calls_of (use_object u) in
  match use_kind u with
  | What => (_ <~ c_what c ;; return_ tt) m
  | ToString => (_ <~ c_to_string c (use_ind u) ;; return_ tt) m
  | Method => (_ <~ c_method c (use_ind u) ;; return_ tt) m
  | Current => (_ <~ c_current c (use_ind u) ;; return_ tt) m
  end.
Definition start : mem := {| buffers := []; description := fun _ => None |}.
(** All the calls return: std::terminate would end the program. *)
Inductive runs : list use -> mem -> mem -> Prop :=
| runs_end : forall m, runs [] m m
| runs_call : forall u us m m1 m2, perform u m = (Ok tt, m1) -> runs us m1 m2 -> runs (u :: us) m m2.
End Compiler.

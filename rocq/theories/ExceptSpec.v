(** Specifications for ExceptModel.v: what the printed text of an exception contains. *)
From Coq Require Import String.
From Verif Require Import Base StrLit ExceptModel.
Local Open Scope string_scope. Local Open Scope list_scope. Local Open Scope Z_scope.

Section Compiler.
(** GCC and clang know the type of the exception being handled, other compilers do not. *)
Variable gnu : bool.
Definition type_shown (name : text) : text := if gnu then name else zstr "unknown exception".

(** What is said about one exception: its type and its what(), or its type only *)
Inductive entry := Full (name what : text) | NameOnly (name : text).
Definition entry_of (c : class) (name what : text) : entry :=
  match c with Foreign => NameOnly (type_shown name) | _ => Full name what end.

(** The class of the object overrides to_string. *)
Definition is_own (e : exn) : bool := match e with Own _ _ _ _ => true | _ => false end.
Definition is_stacked (e : exn) : bool := match e with Stacked _ _ _ _ => true | _ => false end.
Definition type_name (e : exn) : text := match e with Obj _ n _ _ | Own n _ _ _ | Stacked n _ _ _ => n end.

(** [members e l]: [l] are the exceptions of the chain of [e] from the outermost to the innermost. A
    stacked exception stands for its nesting exception, followed by its nested one, which prints itself
    and so must not do this by its own to_string. *)
Inductive members : exn -> list entry -> Prop :=
| members_last c name what : members (Obj c name what NoNested) [entry_of c name what]
| members_nested c name what e l : members e l -> members (Obj c name what (Nested e)) (entry_of c name what :: l)
| members_own name what own : members (Own name what own NoNested) [Full name what]
| members_own_nested name what own e l : members e l -> members (Own name what own (Nested e)) (Full name what :: l)
| members_stacked name nesting e l l' : is_std nesting = true -> is_own e = false -> members nesting l -> members e l' ->
    members (Stacked name nesting (Some e) NoNested) (l ++ l').

End Compiler.

(** [broken e]: somewhere in the chain a nested exception is missing. *)
Inductive broken : exn -> Prop :=
| broken_base c name what : broken (Obj c name what NullNested)
| broken_nested c name what e : broken e -> broken (Obj c name what (Nested e))
| broken_own_base name what own : broken (Own name what own NullNested)
| broken_own_nested name what own e : broken e -> broken (Own name what own (Nested e))
| broken_member name nesting : broken (Stacked name nesting None NoNested)
| broken_nesting name nesting e : broken nesting -> broken (Stacked name nesting (Some e) NoNested)
| broken_stacked name nesting e : broken e -> broken (Stacked name nesting (Some e) NoNested).

(** A chain as it arises from throwing: no stacked exception is itself wrapped by
    std::throw_with_nested, nesting exceptions are derived from std::exception (exception.hpp:79), and no
    exception which overrides to_string is nested in a stacked exception. *)
Fixpoint chain (e : exn) : Prop :=
  match e with
  | Obj _ _ _ (Nested n) | Own _ _ _ (Nested n) => chain n
  | Obj _ _ _ _ | Own _ _ _ _ => True
  | Stacked _ nesting nested base =>
      base = NoNested /\ is_std nesting = true /\ chain nesting /\
      match nested with Some n => is_own n = false /\ chain n | None => True end
  end.

(** A line of the text: about an exception, or the header of an embedded stack of exceptions *)
Inductive line := Entry (prefix : text) (e : entry) | Header (prefix name : text).
Definition entry_text (e : entry) : text :=
  match e with Full name what => name ++ zstr ": " ++ what | NameOnly name => name end.
Definition line_text (l : line) : text :=
  match l with
  | Entry p e => p ++ entry_text e
  | Header p name => p ++ name ++ zstr ": exception stack:"
  end.
(** The line feed, which ends all lines but the last *)
Definition line_feed : text := [10].
Fixpoint lines_text (ls : list line) : text :=
  match ls with
  | [] => []
  | [l] => line_text l
  | l :: ls => line_text l ++ line_feed ++ lines_text ls
  end.
Definition entries (ls : list line) : list entry :=
  flat_map (fun l => match l with Entry _ e => [e] | Header _ _ => [] end) ls.
Definition prefix_of (l : line) : text := match l with Entry p _ => p | Header p _ => p end.
(** The text [t], printed with the indentation [ind], lists exactly the exceptions [es], in order, each
    once and on lines of its own. *)
Definition lists (ind : text) (es : list entry) (t : text) : Prop :=
  exists ls, t = lines_text ls /\ entries ls = es /\
    (exists l ls', ls = l :: ls' /\ prefix_of l = ind) /\
    Forall (fun l => prefix_of l = ind \/ prefix_of l = [] \/ prefix_of l = zstr "- ") ls.
(** ... and every line is indented by [ind] and is about an exception of the chain *)
Definition lists_indented (ind : text) (es : list entry) (t : text) : Prop :=
  t = lines_text (map (Entry ind) es).

(** Chains made by std::throw_with_nested only *)
Inductive plain : exn -> Prop :=
| plain_last c name what : plain (Obj c name what NoNested)
| plain_nested c name what e : plain e -> plain (Obj c name what (Nested e)).
(** A single exception derived from std::exception, and its entry *)
Definition single (e : exn) : Prop :=
  match e with Obj c _ _ NoNested => c <> Foreign | Own _ _ _ NoNested => True | _ => False end.
Definition full_entry (e : exn) : entry :=
  match e with Obj _ n w _ | Own n w _ _ => Full n w | Stacked n _ _ _ => NameOnly n end.
(** Chains made by utki::throw_with_nested with single exceptions over such a chain which does not
    start with a utki::exception *)
Inductive stack : exn -> Prop :=
| stack_top name g e : single g -> is_utki e = false -> plain e -> stack (Stacked name g (Some e) NoNested)
| stack_more name g e : single g -> stack e -> stack (Stacked name g (Some e) NoNested).

(** [over gnu o e l]: [e] is a stack of exceptions thrown by utki::throw_with_nested while [o] was being
    handled; [l] are the exceptions above [o]. *)
Inductive over (gnu : bool) (o : exn) : exn -> list entry -> Prop :=
| over_top name nesting l : is_std nesting = true -> members gnu nesting l -> over gnu o (Stacked name nesting (Some o) NoNested) l
| over_more name nesting l e l' : is_std nesting = true -> members gnu nesting l -> over gnu o e l' ->
    over gnu o (Stacked name nesting (Some e) NoNested) (l ++ l').

From Coq Require Import String.
From Verif Require Import Base StrLit ExceptModel ExceptSpec ExceptProofs.
Local Open Scope string_scope. Local Open Scope list_scope. Local Open Scope Z_scope.

(** C66: to_string lists every exception of the chain, once, in order. *)
Theorem C66_to_string : forall gnu e es ind, members gnu e es -> is_std e = true ->
  exists t, to_string_of (printers_of gnu e) ind = Ok t /\ lists ind es t.
Proof. exact to_string_complete. Qed.
Print Assumptions C66_to_string.
(** C66: so does current_exception_to_string, with only the type of the exception being handled, unless
    this is a stacked exception. *)
Theorem C66_current : forall gnu e es ind, is_stacked e = false -> members gnu e es ->
  exists t, current_exception_to_string gnu (Some e) ind = Ok t /\ lists ind (NameOnly (type_shown gnu (type_name e)) :: tl es) t.
Proof. exact current_complete. Qed.
Print Assumptions C66_current.
Theorem C66_no_current : forall gnu ind, current_exception_to_string gnu None ind = Throw LogicError.
Proof. reflexivity. Qed.
Print Assumptions C66_no_current.
(** C66: stacked_exception::to_string and what list the whole chain. *)
Theorem C66_stacked : forall gnu name nesting e es ind, members gnu (Stacked name nesting (Some e) NoNested) es ->
  (exists t, method_of (printers_of gnu (Stacked name nesting (Some e) NoNested)) ind = Ok t /\ lists ind es t) /\
  (exists t, what_of (printers_of gnu (Stacked name nesting (Some e) NoNested)) = Ok (zstr "exception stack:" ++ line_feed ++ t) /\
     lists (zstr "- ") es t).
Proof. exact stacked_complete. Qed.
Print Assumptions C66_stacked.
(** C66: a chain either has all its members or is broken, and a broken one terminates the program. *)
Theorem C66_cases : forall gnu e, chain e -> broken e \/ exists es, members gnu e es.
Proof. exact chain_cases. Qed.
Print Assumptions C66_cases.
Theorem C66_broken : forall gnu e, chain e -> broken e ->
  (is_std e = true -> forall ind, to_string_of (printers_of gnu e) ind = Terminate) /\
  (is_utki e = true -> is_own e = false -> forall ind, method_of (printers_of gnu e) ind = Terminate) /\
  (is_stacked e = false -> forall ind, current_of (printers_of gnu e) ind = Terminate).
Proof. exact broken_terminates. Qed.
Print Assumptions C66_broken.
(** C66: any number of exceptions thrown with throw_with_nested, each from the handler of the one
    before, makes the chain of all of them, the last thrown first. *)
Theorem C66_throw : forall gnu stacked_name dbg es e l, members gnu e l -> is_own e = false -> Forall single es ->
  exists e', rethrow stacked_name dbg e es = Ok e' /\ members gnu e' (rev (map full_entry es) ++ l).
Proof. exact rethrow_members. Qed.
Print Assumptions C66_throw.
(** C66: outside of a handler a debug build stops at the assertion; a release build throws an exception with nothing
    nested in it, which ends the program when it is printed. *)
Theorem C66_throw_outside : forall gnu stacked_name e, single e ->
  throw_with_nested stacked_name true None e = Abort /\
  exists e', throw_with_nested stacked_name false None e = Ok e' /\ what_of (printers_of gnu e') = Terminate /\ forall ind, method_of (printers_of gnu e') ind = Terminate.
Proof. exact throw_outside. Qed.
Print Assumptions C66_throw_outside.
(** C66: an exception whose class overrides to_string is printed by its own to_string at the end of a stack
    of exceptions. What this throws leaves to_string, but not what(). *)
Theorem C66_own : forall gnu name what own base e l, over gnu (Own name what own base) e l -> forall ind,
  exists t, lists ind l t /\ method_of (printers_of gnu e) ind = (r <- own ind ;; Ok (t ++ line_feed ++ r)).
Proof. exact over_own. Qed.
Print Assumptions C66_own.
Theorem C66_own_what : forall gnu name what own base e l, over gnu (Own name what own base) e l ->
  (forall r, own (zstr "- ") = Ok r -> exists t, lists (zstr "- ") l t /\
     what_of (printers_of gnu e) = Ok (zstr "exception stack:" ++ line_feed ++ t ++ line_feed ++ r)) /\
  (own (zstr "- ") = Throw BadAlloc -> what_of (printers_of gnu e) = Ok (zstr "std::bad_alloc")) /\
  (forall x, own (zstr "- ") = Throw x -> x <> BadAlloc -> what_of (printers_of gnu e) = Ok (zstr "error")).
Proof. exact over_what. Qed.
Print Assumptions C66_own_what.
Theorem C66_own_throw : forall gnu stacked_name dbg o es, Forall single es -> es <> [] ->
  exists e, rethrow stacked_name dbg o es = Ok e /\ over gnu o e (rev (map full_entry es)).
Proof. exact rethrow_over. Qed.
Print Assumptions C66_own_throw.
(** C66: what() never throws, whatever is in the chain. *)
Theorem C66_noexcept : forall gnu e x, what_of (printers_of gnu e) <> Throw x.
Proof. exact what_noexcept. Qed.
Print Assumptions C66_noexcept.
(** C66, findings: the chain is lost by current_exception_to_string of a stacked exception; by
    throw_with_nested of a stacked exception, which throws the copy of the argument and forgets the
    exception being handled; and by the printing of a stacked exception which holds another stacked one
    that was itself wrapped by std::throw_with_nested. With other compilers than GCC and clang the
    type of an exception not derived from std::exception is lost. *)
Theorem C66_current_refuted : forall gnu name nesting e ind,
  current_exception_to_string gnu (Some (Stacked name nesting e NoNested)) ind = Ok (ind ++ type_shown gnu name).
Proof. intros. cbn. rewrite app_nil_r. reflexivity. Qed.
Print Assumptions C66_current_refuted.
Theorem C66_throw_refuted : forall stacked_name dbg cur name nesting nested base,
  throw_with_nested stacked_name dbg (Some cur) (Stacked name nesting nested base) = Ok (Stacked name nesting nested base).
Proof. intros. unfold throw_with_nested, assert_. cbn [negb]. rewrite Bool.andb_false_r. reflexivity. Qed.
Print Assumptions C66_throw_refuted.
Theorem C66_wrapped_refuted : forall gnu name nesting n1 nesting1 e1 base ind,
  method_of (printers_of gnu (Stacked name nesting (Some (Stacked n1 nesting1 e1 base)) NoNested)) ind =
  method_of (printers_of gnu (Stacked name nesting (Some (Stacked n1 nesting1 e1 NoNested)) NoNested)) ind.
Proof. reflexivity. Qed.
Print Assumptions C66_wrapped_refuted.
Theorem C66_type_refuted : forall n1 n2 what ind,
  current_exception_to_string false (Some (Obj Foreign n1 what NoNested)) ind =
  current_exception_to_string false (Some (Obj Foreign n2 what NoNested)) ind.
Proof. reflexivity. Qed.
Print Assumptions C66_type_refuted.

Definition file_error := Obj Std (zstr "io::error") (zstr "no such file") NoNested.
Definition load_error := Obj Std (zstr "std::runtime_error") (zstr "could not load") NoNested.
Definition start_error := Obj Utki (zstr "app::error") (zstr "could not start") NoNested.
Definition int_thrown := Obj Foreign (zstr "int") [] NoNested.
Definition gcc_name (n : text) : text := zstr "utki::stacked_exception<" ++ n ++ zstr ">".
Example C66_case_stack : forall gnu, exists e, rethrow gcc_name true file_error [load_error; start_error] = Ok e /\
  what_of (printers_of gnu e) = Ok (zstr "exception stack:" ++ line_feed ++ zstr "- app::error: could not start" ++ line_feed ++
    zstr "- std::runtime_error: could not load" ++ line_feed ++ zstr "- io::error: no such file") /\
  members gnu e [Full (zstr "app::error") (zstr "could not start"); Full (zstr "std::runtime_error") (zstr "could not load");
    Full (zstr "io::error") (zstr "no such file")].
Proof.
  intro gnu. eexists. split; [reflexivity|]. split; [reflexivity|].
  apply (members_stacked _ _ _ _ [_] [_; _]); [reflexivity|reflexivity|apply (members_last _ Utki)|].
  apply (members_stacked _ _ _ _ [_] [_]); [reflexivity|reflexivity|apply (members_last _ Std)|apply (members_last _ Std)].
Qed.
Example C66_case_nested : to_string_of (printers_of true (Obj Std (zstr "a") (zstr "x") (Nested (Obj Foreign (zstr "b") [] (Nested file_error))))) (zstr "* ")
  = Ok (zstr "* a: x" ++ line_feed ++ zstr "* b" ++ line_feed ++ zstr "* io::error: no such file").
Proof. reflexivity. Qed.
Example C66_case_current : current_exception_to_string true (Some (Obj Std (zstr "a") (zstr "x") (Nested int_thrown))) (zstr "  ")
  = Ok (zstr "  a" ++ line_feed ++ zstr "  int").
Proof. reflexivity. Qed.
Example C66_case_broken : exists e, throw_with_nested gcc_name false None load_error = Ok e /\ chain e /\ broken e /\
  what_of (printers_of true e) = Terminate /\ throw_with_nested gcc_name true None load_error = Abort.
Proof. eexists. split; [reflexivity|]. split; [cbn; auto|]. split; [constructor|]. split; reflexivity. Qed.
Example C66_case_embedded : to_string_of (printers_of true (Obj Std (zstr "outer") (zstr "o") (Nested (Stacked (zstr "S") load_error (Some int_thrown) NoNested)))) []
  = Ok (zstr "outer: o" ++ line_feed ++ zstr "S: exception stack:" ++ line_feed ++ zstr "- std::runtime_error: could not load" ++ line_feed ++ zstr "- int").
Proof. reflexivity. Qed.

Example C66_case_own : forall own,
  let o := Own (zstr "app::error") (zstr "w") own NoNested in
  exists e, rethrow gcc_name true o [load_error; start_error] = Ok e /\
  (own (zstr "- ") = Ok (zstr "my text") -> what_of (printers_of true e) = Ok (zstr "exception stack:" ++ line_feed ++
    zstr "- app::error: could not start" ++ line_feed ++ zstr "- std::runtime_error: could not load" ++ line_feed ++ zstr "my text")) /\
  (own (zstr "- ") = Throw LogicError -> what_of (printers_of true e) = Ok (zstr "error") /\ method_of (printers_of true e) (zstr "- ") = Throw LogicError) /\
  to_string_of (printers_of true o) (zstr "* ") = Ok (zstr "* app::error: w").
Proof. intros own o. eexists. split; [reflexivity|]. split; [|split; [|reflexivity]]; cbn; intros ->; repeat split. Qed.
Example C66_case_msvc : to_string_of (printers_of false (Obj Std (zstr "class a") (zstr "x") (Nested int_thrown))) (zstr "* ")
  = Ok (zstr "* class a: x" ++ line_feed ++ zstr "* unknown exception").
Proof. reflexivity. Qed.

(** C67: chains of std::throw_with_nested have every line indented. *)
Theorem C67_plain : forall gnu e, plain e -> exists es, members gnu e es /\ forall ind,
  (is_std e = true -> exists t, to_string_of (printers_of gnu e) ind = Ok t /\ lists_indented ind es t) /\
  (exists t, current_of (printers_of gnu e) ind = Ok t /\ lists_indented ind (NameOnly (type_shown gnu (type_name e)) :: tl es) t) /\
  (is_std e = false -> es = NameOnly (type_shown gnu (type_name e)) :: tl es).
Proof. exact plain_indented. Qed.
Print Assumptions C67_plain.
(** C67: so do chains of utki::throw_with_nested over an exception which is no utki::exception. *)
Theorem C67_stack : forall gnu e, stack e -> exists es, members gnu e es /\ forall ind,
  exists t, method_of (printers_of gnu e) ind = Ok t /\ lists_indented ind es t.
Proof. exact stack_indented. Qed.
Print Assumptions C67_stack.
Theorem C67_throw : forall stacked_name dbg e, is_utki e = false -> plain e -> forall es, Forall single es -> es <> [] ->
  exists e', rethrow stacked_name dbg e es = Ok e' /\ stack e'.
Proof. exact rethrow_stack. Qed.
Print Assumptions C67_throw.
(** C67, finding: a utki::exception at the end of the chain is printed without the indentation. *)
Theorem C67_utki_refuted : forall gnu name c n w n1 w1 ind, c <> Foreign ->
  method_of (printers_of gnu (Stacked name (Obj c n w NoNested) (Some (Obj Utki n1 w1 NoNested)) NoNested)) ind
  = Ok (ind ++ (n ++ zstr ": " ++ w) ++ line_feed ++ n1 ++ zstr ": " ++ w1).
Proof. intros. rewrite stacked_method, obj_to_string. cbn [rest_of bind app tail_of is_utki].
  rewrite obj_method, obj_to_string. cbn [rest_of bind app]. rewrite !app_nil_r. reflexivity.
Qed.
Print Assumptions C67_utki_refuted.
Example C67_case : method_of (printers_of true (Stacked (zstr "S") load_error (Some (Obj Std (zstr "a") (zstr "x") (Nested int_thrown))) NoNested)) (zstr "> ")
  = Ok (zstr "> std::runtime_error: could not load" ++ line_feed ++ zstr "> a: x" ++ line_feed ++ zstr "> int") /\
  method_of (printers_of true (Stacked (zstr "S") load_error (Some start_error) NoNested)) (zstr "> ")
  = Ok (zstr "> std::runtime_error: could not load" ++ line_feed ++ zstr "app::error: could not start").
Proof. split; reflexivity. Qed.
Example C67_case_stack : stack (Stacked (zstr "S") load_error (Some (Obj Std (zstr "a") (zstr "x") (Nested int_thrown))) NoNested).
Proof. apply stack_top; [discriminate|reflexivity|]. constructor. constructor. Qed.

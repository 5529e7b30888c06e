(** The lifetime of what what() of exceptions returns *)
From Coq Require Import String.
From Verif Require Import Base StrLit ExceptModel ExceptPtrModel ExceptPtrSpec ExceptPtrProofs.
Local Open Scope string_scope. Local Open Scope list_scope. Local Open Scope Z_scope.

(** C120: after any calls the text functions give the texts of C66, and what what() returns can be read. *)
Theorem C120_texts : forall gnu us m x ind, runs gnu us start m -> let c := calls_of gnu x in let p := printers_of gnu (forget x) in
  fst ((q <~ c_what c ;; read_now q) m) = what_of p /\ fst (c_to_string c ind m) = to_string_of p ind /\
  fst (c_method c ind m) = method_of p ind /\ fst (c_current c ind m) = current_of p ind.
Proof. exact texts. Qed.
Print Assumptions C120_texts.
(** C120: it can be read later too, as long as no call has asked the same exception for its what(). *)
Theorem C120_keeps : forall gnu us us' i name nesting nested base m p m1 m2, runs gnu us start m ->
  c_what (calls_of gnu (Stack i name nesting nested base)) m = (Ok p, m1) -> runs gnu us' m1 m2 -> (forall u, In u us' -> ~ asked (use_kind u) (use_object u) i) ->
  read m2 p = what_of (printers_of gnu (forget (Stack i name nesting nested base))).
Proof. exact pointer_keeps. Qed.
Print Assumptions C120_keeps.
(** C120: once a call has, reading it is undefined. *)
Theorem C120_dangles : forall gnu us us' i name nesting nested base m p m1 m2, runs gnu us start m ->
  c_what (calls_of gnu (Stack i name nesting nested base)) m = (Ok p, m1) -> runs gnu us' m1 m2 -> (exists u, In u us' /\ asked (use_kind u) (use_object u) i) ->
  read m2 p = UB UseAfterFree.
Proof. exact pointer_dangles. Qed.
Print Assumptions C120_dangles.
(** C120: a call that returns gives a new buffer to the descriptions of the exceptions that it asks, and of no others. So calls in
    different threads write to the same description, which is a data race, if and only if they ask the same exception. *)
Theorem C120_writes : forall gnu us m u m1, runs gnu us start m -> perform gnu u m = (Ok tt, m1) ->
  forall i, asked (use_kind u) (use_object u) i <-> description m1 i <> description m i.
Proof. exact writes. Qed.
Print Assumptions C120_writes.
(** C120: for what throw_with_nested throws, what() and utki::to_string ask the exception itself only, to_string() asks none. *)
Theorem C120_thrown : forall k i name nesting nested base j, thrown (Stack i name nesting nested base) ->
  asked k (Stack i name nesting nested base) j <-> j = i /\ (k = What \/ k = ToString).
Proof.
  intros k i name nesting nested base j T. split; [exact (thrown_only k i name nesting nested base j T)|]. intros (-> & [->| ->]); [|apply asks_what]; apply asks_itself.
Qed.
Print Assumptions C120_thrown.
(** C120: std::exception promises that the pointer is valid until the exception is destroyed or changed; what() is a const function. *)
Theorem C120_promise_refuted : ~ forall gnu x m p m1 p' m2, runs gnu [] start m -> c_what (calls_of gnu x) m = (Ok p, m1) -> c_what (calls_of gnu x) m1 = (Ok p', m2) ->
  exists t, read m2 p = Ok t.
Proof.
  intros H. specialize (H true (Stack 0 (zstr "S") (Plain Std (zstr "a") (zstr "x") NoNested) (Some (Plain Std (zstr "b") (zstr "y") NoNested)) NoNested) start _ _ _ _ (runs_end _ _) eq_refl eq_refl).
  destruct H as (t & H). discriminate H.
Qed.
Print Assumptions C120_promise_refuted.

Definition inner := Stack 0 (zstr "S") (Plain Std (zstr "a") (zstr "x") NoNested) (Some (Plain Std (zstr "b") (zstr "y") NoNested)) NoNested.
Definition outer := Stack 1 (zstr "S") (Plain Std (zstr "c") (zstr "z") NoNested) (Some inner) NoNested.
Definition holder := Plain Std (zstr "h") (zstr "w") (Nested inner).
Definition of (k : kind) (x : object) : use := {| use_kind := k; use_object := x; use_ind := [] |}.
Example C120_case_thrown : thrown outer.
Proof. repeat constructor. Qed.
Example C120_case_keeps : exists p m1 m2, c_what (calls_of true inner) start = (Ok p, m1) /\ runs true [of What outer; of Method inner; of ToString outer] m1 m2 /\
  read m2 p = Ok (zstr "exception stack:" ++ [10] ++ zstr "- a: x" ++ [10] ++ zstr "- b: y").
Proof.
  do 3 eexists. split; [reflexivity|]. split; [repeat (eapply runs_call; [reflexivity|]); apply runs_end|reflexivity].
Qed.
Example C120_case_dangles : exists p m1 m2, c_what (calls_of true inner) start = (Ok p, m1) /\ runs true [of ToString holder] m1 m2 /\
  asked ToString holder 0 /\ read m2 p = UB UseAfterFree.
Proof.
  do 3 eexists. split; [reflexivity|]. split; [repeat (eapply runs_call; [reflexivity|]); apply runs_end|]. split; [|reflexivity].
  eapply asks_base; [reflexivity|]. apply asks_what. apply asks_itself.
Qed.

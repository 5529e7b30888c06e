(** Exception texts in a process that runs out of memory *)
From Coq Require Import String.
From Verif Require Import Base StrLit ExceptModel ExceptSpec ExceptProofs ExceptAllocModel ExceptAllocSpec ExceptAllocProofs.
Local Open Scope string_scope. Local Open Scope list_scope. Local Open Scope Z_scope.

(** C119: whichever allocations fail, the text functions throw std::bad_alloc or return what they return with enough memory, or what is
    left of it. They do not make the program end that does not end with enough memory. *)
Theorem C119_to_string : forall gnu mangled e ind f, no_worse mangled (fst (a_to_string (alloc_printers_of gnu mangled e) ind f)) (to_string_of (printers_of gnu e) ind).
Proof. intros. apply rel_no_worse. apply all_fine. Qed.
Print Assumptions C119_to_string.
Theorem C119_method : forall gnu mangled e ind f, no_worse mangled (fst (a_method (alloc_printers_of gnu mangled e) ind f)) (method_of (printers_of gnu e) ind).
Proof. intros. apply rel_no_worse. apply all_fine. Qed.
Print Assumptions C119_method.
Theorem C119_current : forall gnu mangled e ind f, no_worse mangled (fst (a_current (alloc_printers_of gnu mangled e) ind f)) (current_of (printers_of gnu e) ind).
Proof. intros. apply rel_no_worse. apply all_fine. Qed.
Print Assumptions C119_current.
Theorem C119_what : forall gnu mangled e f, no_worse mangled (fst (a_what (alloc_printers_of gnu mangled e) f)) (what_of (printers_of gnu e)) /\
  forall x, fst (a_what (alloc_printers_of gnu mangled e) f) <> Throw x.
Proof. intros. split; [apply rel_no_worse; apply all_fine|apply what_no_throw]. Qed.
Print Assumptions C119_what.
(** C119: so for a complete chain what() of a stacked_exception gives a text always, and to_string gives a text or throws std::bad_alloc. *)
Theorem C119_complete : forall gnu mangled name nesting e es f, members gnu (Stacked name nesting (Some e) NoNested) es ->
  let a := alloc_printers_of gnu mangled (Stacked name nesting (Some e) NoNested) in
  (exists t t', fst (a_what a f) = Ok t' /\ lists (zstr "- ") es t /\ damaged mangled t' (zstr "exception stack:" ++ line_feed ++ t)) /\
  forall ind, fst (a_method a ind f) = Throw BadAlloc \/ exists t t', fst (a_method a ind f) = Ok t' /\ lists ind es t /\ damaged mangled t' t.
Proof.
  intros gnu mangled name nesting e es f M a. split.
  - destruct (stacked_complete gnu name nesting e es [] M) as (_ & t & E & L). destruct (C119_what gnu mangled (Stacked name nesting (Some e) NoNested) f) as [W N].
    rewrite E in W. apply no_worse_ok in W. destruct W as [W|(t' & W & D)]; [destruct (N _ W)|]. exists t, t'. auto.
  - intros ind. destruct (stacked_complete gnu name nesting e es ind M) as ((t & E & L) & _).
    pose proof (C119_method gnu mangled (Stacked name nesting (Some e) NoNested) ind f) as W. rewrite E in W. apply no_worse_ok in W.
    destruct W as [W|(t' & W & D)]; [left; exact W|right; exists t, t'; auto].
Qed.
Print Assumptions C119_complete.
(** C119: without faults there is no damage. *)
Theorem C119_memory : forall gnu mangled e, let a := alloc_printers_of gnu mangled e in let p := printers_of gnu e in
  a_what a [] = (what_of p, []) /\ (forall ind, a_to_string a ind [] = (to_string_of p ind, [])) /\
  (forall ind, a_method a ind [] = (method_of p ind, [])) /\ (forall ind, a_current a ind [] = (current_of p ind, [])).
Proof. intros gnu mangled e. exact (all_same gnu mangled e). Qed.
Print Assumptions C119_memory.
(** C119: the damage is silent: one failure can make any of the functions return a text with exceptions of the chain missing. *)
Definition ab := Obj Std (zstr "a") (zstr "x") (Nested (Obj Std (zstr "b") (zstr "y") NoNested)).
Theorem C119_silent_refuted : ~ forall gnu mangled e ind f t, fst (a_to_string (alloc_printers_of gnu mangled e) ind f) = Ok t -> to_string_of (printers_of gnu e) ind = Ok t.
Proof. intros H. specialize (H true (fun n => n) ab [] [None; None; None; None; None; None; Some 0%nat] (zstr "a: x") eq_refl). discriminate H. Qed.
Print Assumptions C119_silent_refuted.

Definition stacked_ab := Stacked (zstr "S") (Obj Std (zstr "a") (zstr "x") NoNested) (Some (Obj Std (zstr "b") (zstr "y") NoNested)) NoNested.
Definition underlined (n : text) : text := zstr "_" ++ n.
Example C119_case :
  let a := alloc_printers_of true underlined stacked_ab in
  fst (a_what a []) = Ok (zstr "exception stack:" ++ [10] ++ zstr "- a: x" ++ [10] ++ zstr "- b: y") /\
  (* the name of the first type *)
  fst (a_what a [None; None; Some 0%nat]) = Ok (zstr "exception stack:" ++ [10] ++ zstr "- _a: x" ++ [10] ++ zstr "- b: y") /\
  (* the insertion of the text of the first exception *)
  fst (a_what a [None; None; None; None; None; None; None; None; Some 2%nat]) = Ok (zstr "exception stack:" ++ [10] ++ zstr "- a:") /\
  (* the string of the demangled name *)
  fst (a_what a [None; None; None; Some 0%nat]) = Ok (zstr "std::bad_alloc") /\
  fst (a_method a [] [None; None; None; Some 0%nat]) = Throw BadAlloc.
Proof. repeat split. Qed.
Example C119_case_damaged : damaged underlined (zstr "_a: ") (zstr "a: x").
Proof.
  change (zstr "_a: ") with (underlined (zstr "a") ++ firstn 2 (zstr ": x")). change (zstr "a: x") with (zstr "a" ++ zstr ": x").
  apply parts; [apply name_mangled|apply beginning; apply whole].
Qed.
(** C119: nothing is invented: every byte of a damaged text comes from the text, a mangled name or the name of the problem. *)
Theorem C119_bytes : forall mangled t t', damaged mangled t t' -> forall b, In b t -> In b t' \/ In b (zstr "std::bad_alloc") \/ exists n, In b (mangled n) /\ ~ In b n.
Proof. exact damaged_bytes. Qed.
Print Assumptions C119_bytes.

(** Property C116. *)
From Coq Require Import String.
From Verif Require Import Base StrLit TextModel LogModel StringModel MiscModel DebugModel PlatformModel PlatformSpec PlatformProofs.
Local Open Scope string_scope. Local Open Scope list_scope.

(** utki::log with the same function on Android and elsewhere: the program goes on alike. Elsewhere the text is written to
    standard output as far as the function got; on Android it becomes one entry of the system log, up to the first zero,
    and nothing is logged when the function throws. *)
Theorem C116_log : forall (F X : Type) (print : printing F X) out fmt (d : device X) (w : world F X),
  appends print out -> cout w = Stream (st_text (cout w)) fmt true -> rest w = others d ->
  let '(o, f', g, x', r) := out fmt (others d) in
  (exists fl, log (Some (to_cout print)) w = (World (Stream (st_text (cout w) ++ o) f' g) fl x', r)) /\
  exists es, log_android fmt (Some print) d = (Device (system_log d ++ es) x', r) /\
    match r with
    | Ok _ => exists t, up_to_zero 0%N o t /\ es = [Entry Info "utki" t]
    | _ => es = []
    end.
Proof. exact @log_compare. Qed.
Print Assumptions C116_log.
Theorem C116_empty : forall (F X : Type) (fmt : F) (d : device X), log_android fmt None d = (d, Ok tt).
Proof. reflexivity. Qed.
Print Assumptions C116_empty.

(** logcat: every call starts with the default formatting, unlike on other platforms (C78); the text is that of cat (C77). *)
Theorem C116_logcat : forall (F X : Type) (default : F) args (d : device X), exists t,
  logcat_android default args d = (Device (system_log d ++ [Entry Info "utki" t]) (others d), Ok tt) /\
  up_to_zero 0%N (cat default args) t.
Proof. exact @logcat_android_ok. Qed.
Print Assumptions C116_logcat.
(** The function given to log by logcat is one of those of C116_log. *)
Theorem C116_logcat_appends : forall (F X : Type) (args : list (arg F)),
  appends (fun (s : stream F) (x : X) => (fold_left insert_arg args s, x, Ok tt))
    (fun f x => let s := fold_left insert_arg args (Stream [] f true) in (st_text s, st_format s, st_good s, x, Ok tt)).
Proof. exact @cat_appends. Qed.
Print Assumptions C116_logcat_appends.

(** assert_always ends alike; what is a line of standard error elsewhere (C69) is one entry of the system log. *)
Theorem C116_assert : forall terminal condition print loc,
  let '(text, e) := assert_always terminal condition print loc in
  let '(entries, e') := assert_always_android terminal condition print loc in
  e' = e /\
  match e with
  | Aborted => exists s t, text = s ++ [10%Z] /\ up_to_zero 0%Z s t /\ entries = [Entry Fatal "utki" (zstr "Assertion failed: " ++ t)]
  | _ => entries = []
  end.
Proof. exact assert_compare. Qed.
Print Assumptions C116_assert.

(** demangle with the Microsoft compiler takes off one "class " at the front, and nothing else. *)
Theorem C116_demangle : forall cpp20 name, (N.of_nat (length name) < npos)%N ->
  (forall r, name = str "class " ++ r -> demangle_msvc cpp20 name = Ok r) /\
  ((forall r, name <> str "class " ++ r) -> demangle_msvc cpp20 name = Ok name).
Proof. exact demangle_msvc_ok. Qed.
Print Assumptions C116_demangle.

(** Printing "ab", then a zero and "c"; printing "ab" and failing. *)
Definition with_zero : printing unit nat := fun s x => (fold_left insert_arg [fun f => (str "ab" ++ [0%N], f, true); fun f => (str "c", f, true)] s, S x, Ok tt).
Definition failing : printing unit nat := fun s x => (insert_arg s (fun f => (str "ab", f, true)), S x, Throw RuntimeError).
Example C116_case :
  log_android tt (Some with_zero) (Device [] 0) = (Device [Entry Info "utki" (str "ab")] 1, Ok tt) /\
  log_android tt (Some failing) (Device [] 0) = (Device [] 1, Throw RuntimeError) /\
  log (Some (to_cout failing)) (World (Stream (str "x") tt true) 1 0) = (World (Stream (str "xab") tt true) 1 1, Throw RuntimeError) /\
  (* a function that prints nothing makes an empty entry *)
  log_android tt (Some (fun s x => (s, x, Ok tt))) (Device [] 0) = (Device [Entry Info "utki" []] 0, Ok tt) /\
  assert_always_android false false (Some (zstr "no", None)) {| file := Some (zstr "a.cpp"); line := 7 |} =
    ([Entry Fatal "utki" (zstr "Assertion failed: a.cpp:7: error: assertion failed:" ++ [10%Z] ++ zstr "  no")], Aborted) /\
  demangle_msvc false (str "class a<class b>") = Ok (str "a<class b>") /\
  demangle_msvc true (str "struct a") = Ok (str "struct a") /\
  appends failing (fun f x => (str "ab", f, true, S x, Throw RuntimeError)).
Proof. repeat split; try (intros t f x; reflexivity); vm_compute; reflexivity. Qed.

(** Properties of logging and of demangle. *)
From Coq Require Import String.
From Verif Require Import Base StrLit TextModel TextSpec LogModel LogSpec LogProofs.
Local Open Scope string_scope.
Local Open Scope list_scope.

(** ** C78 *)
(** log: nothing for an empty function; otherwise the function runs once and standard output is flushed, unless the
    function throws, which leaves log without flushing. *)
Theorem C78_log : forall (F X : Type) (w : world F X),
  log None w = (w, Ok tt) /\
  (forall (print : action F X) w', print w = (w', Ok tt) -> log (Some print) w = (flush w', Ok tt)) /\
  (forall (print : action F X) w' r, print w = (w', r) -> is_ok r = false -> log (Some print) w = (w', r)).
Proof. intros F X w. split; [reflexivity|]. split; [exact (fun p => log_ok p w)|exact (fun p => log_fails p w)]. Qed.
Print Assumptions C78_log.

(** logcat appends the texts of its arguments to standard output, under the formatting standard output already has. *)
Theorem C78_logcat : forall (F X : Type) args (w : world F X), st_good (cout w) = true ->
  let w' := fst (logcat args w) in
  snd (logcat args w) = Ok tt /\
  st_text (cout w') = st_text (cout w) ++ concat (texts (st_format (cout w)) args) /\
  (st_good (cout w') = true -> flushed w' = length (st_text (cout w'))) /\
  rest w' = rest w.
Proof. exact @logcat_ok. Qed.
Print Assumptions C78_logcat.

Theorem C78_logcat_bad : forall (F X : Type) args (w : world F X), st_good (cout w) = false ->
  logcat args w = (w, Ok tt).
Proof. exact @logcat_bad. Qed.
Print Assumptions C78_logcat_bad.

(** The debug forms are the plain ones in a debug build.  In a release build the LOG macro does not even evaluate its
    argument, while the functions evaluate it and drop the value. *)
Theorem C78_debug : forall (F X : Type) (e : expr F X (option (action F X))) (a : expr F X (list (arg F))) w,
  LOG true e w = eval e log w /\ LOG false e w = (w, Ok tt) /\
  log_debug true e w = eval e log w /\ log_debug false e w = eval e (fun _ => nothing) w /\
  logcat_debug true a w = eval a logcat w /\ logcat_debug false a w = eval a (fun _ => nothing) w /\
  run_debug true e w = eval e (fun p => match p with Some p => p | None => nothing end) w /\
  run_debug false e w = eval e (fun _ => nothing) w.
Proof.
  intros F X e a w. unfold LOG, log_debug, logcat_debug, run_debug, eval.
  destruct (e w) as [w1 [p| | | | |]], (a w) as [w2 [q| | | | |]]; repeat split; destruct p; reflexivity.
Qed.
Print Assumptions C78_debug.

(** Formatting left behind in standard output changes what later calls print. *)
Theorem C78_logcat_is_cat_refuted : ~ forall (F X : Type) (default : F) args more (w : world F X),
  st_good (cout w) = true -> st_format (cout w) = default ->
  let w' := fst (logcat args w) in
  st_text (cout (fst (logcat more w'))) = st_text (cout w') ++ cat default more.
Proof.
  intro H.
  pose (hex := (fun _ => ([], true, true)) : arg bool).
  pose (number := (fun f => (if f then str "ff" else str "255", f, true)) : arg bool).
  specialize (H bool unit false [hex] [number] (World (Stream [] false true) 0 tt) eq_refl eq_refl).
  discriminate H.
Qed.
Print Assumptions C78_logcat_is_cat_refuted.

Example C78_case :
  let text t : arg bool := fun f => (t, f, true) in
  let w := World (Stream (str "> ") false true) 0 3 in
  logcat [text (str "a"); text (str "bc")] w = (World (Stream (str "> abc") false true) 5 3, Ok tt) /\
  (let counted : expr bool nat _ := fun w => (World (cout w) (flushed w) (rest w + 1), Ok [text (str "a")]) in
   logcat_debug true counted w = (World (Stream (str "> a") false true) 3 4, Ok tt) /\
   logcat_debug false counted w = (World (Stream (str "> ") false true) 0 4, Ok tt)) /\
  (let throwing : action bool nat := fun w => (World (insert_arg (cout w) (text (str "a"))) (flushed w) (rest w), Throw LogicError) in
   log (Some throwing) w = (World (Stream (str "> a") false true) 0 3, Throw LogicError)).
Proof. repeat split. Qed.

(** ** C79 *)
(** The demangled name, or the mangled one if it cannot be demangled; nothing is leaked or freed twice, also when
    there is no memory for the resulting string. *)
Theorem C79_demangle : forall alloc demangled cxa name h, cxa_contract demangled cxa ->
  demangle alloc cxa name h =
    (new_string alloc (match demangled name with Some t => t | None => name end), h).
Proof. exact demangle_ok. Qed.
Print Assumptions C79_demangle.

Definition sample_cxa (name : list N) (h : heap) : Z * option nat * heap :=
  if list_eq_dec N.eq_dec name (str "i") then
    let b := S (fold_right Nat.max 0 (map fst h)) in (0%Z, Some b, (b, str "int") :: h)
  else ((-2)%Z, None, h).
Example C79_case :
  demangle (fun _ => true) sample_cxa (str "i") [(4, [])] = (Ok (str "int"), [(4, [])]) /\
  demangle (fun _ => false) sample_cxa (str "i") [(4, [])] = (Throw RuntimeError, [(4, [])]) /\
  demangle (fun _ => true) sample_cxa (str "?") [(4, [])] = (Ok (str "?"), [(4, [])]) /\
  cxa_contract (fun n => if list_eq_dec N.eq_dec n (str "i") then Some (str "int") else None) sample_cxa.
Proof.
  do 3 (split; [reflexivity|]). intros name h. unfold sample_cxa.
  destruct (list_eq_dec N.eq_dec name (str "i")).
  - eexists. split; [|reflexivity]. intros x Hx. assert (fst x <= fold_right Nat.max 0 (map fst h)); [|lia].
    induction h as [|y h IH]; [contradiction|]. cbn [map fold_right]. destruct Hx as [->|Hx]; [lia|]. specialize (IH Hx). lia.
  - exists (-2)%Z. split; [discriminate|reflexivity].
Qed.

(** Properties of the conversions between spans, containers and texts. *)
From Coq Require Import String.
From Verif Require Import Base StrLit TextModel TextSpec TextProofs.
Local Open Scope string_scope.
Local Open Scope list_scope.

(** ** C76 *)
(** Iterating forwards (range for) and backwards runs the body on the elements in order and in reverse order, up to the
    first exception of the body. *)
Theorem C76_iterate : forall (A S : Type) (mem : list A) s (body : S -> A -> S * outcome unit) st, sp_valid mem s ->
  for_span mem s body st = run body (elements mem s) st /\
  for_span_rev mem s body st = run body (rev (elements mem s)) st.
Proof. intros. split; [apply for_span_ok|apply for_span_rev_ok]; assumption. Qed.
Print Assumptions C76_iterate.

Theorem C76_make_vector : forall (A : Type) (mem : list A) s, sp_valid mem s ->
  make_vector mem s = Ok (elements mem s) /\ length (elements mem s) = s_size s.
Proof. intros. split; [apply make_vector_ok|apply elements_length]; assumption. Qed.
Print Assumptions C76_make_vector.

(** make_span of a container gives its elements whatever data() of an empty container is; then the span is null. *)
Theorem C76_make_span : forall (A : Type) (mem : list A) c, cont_valid mem c ->
  sp_valid mem (make_span c) /\ s_size (make_span c) = c_size c /\ elements mem (make_span c) = cont_elements mem c /\
  (c_size c = 0 -> s_data (make_span c) = None) /\ (c_size c <> 0 -> s_data (make_span c) = c_data c).
Proof. exact @make_span_ok. Qed.
Print Assumptions C76_make_span.

(** The constructors and make_span of an initializer list keep data() also for an empty container. *)
Theorem C76_constructors : forall (A : Type) (mem : list A) c,
  s_data (span_of c) = c_data c /\ s_size (span_of c) = c_size c /\ elements mem (span_of c) = cont_elements mem c /\
  make_span_init c = span_of c /\
  (c_size c <> 0 -> span_of c = make_span c).
Proof. exact @span_of_ok. Qed.
Print Assumptions C76_constructors.

Theorem C76_convert : forall s, span_convert s = s.
Proof. exact convert_same. Qed.
Print Assumptions C76_convert.

Theorem C76_round_trip : forall (A : Type) (mem : list A) c, cont_valid mem c ->
  make_vector mem (make_span c) = Ok (cont_elements mem c).
Proof.
  intros A mem c V. destruct (make_span_ok mem c V) as [V' [_ [E _]]]. rewrite make_vector_ok by exact V'.
  rewrite E. reflexivity.
Qed.
Print Assumptions C76_round_trip.

(** A zero-terminated string gives the span of the characters before its first zero. *)
Theorem C76_cstr : forall mem i t rest, skipn i mem = t ++ 0%N :: rest -> ~ In 0%N t ->
  make_span_cstr mem (Some i) = Ok (Sp (Some i) (length t)) /\ span_cstr mem (Some i) = Ok (Sp (Some i) (length t)) /\
  sp_valid mem (Sp (Some i) (length t)) /\ elements mem (Sp (Some i) (length t)) = t.
Proof. exact cstr_ok. Qed.
Print Assumptions C76_cstr.

Theorem C76_cstr_unterminated : forall mem i, ~ In 0%N (skipn i mem) -> make_span_cstr mem (Some i) = UB OutOfBounds.
Proof. exact cstr_unterminated. Qed.
Print Assumptions C76_cstr_unterminated.

(** size_bytes is the product as long as that is below 2^64. *)
Theorem C76_size_bytes : forall s k, (N.of_nat (s_size s) * k < 2 ^ 64)%N ->
  size_bytes s k = (N.of_nat (s_size s) * k)%N.
Proof. exact size_bytes_ok. Qed.
Print Assumptions C76_size_bytes.

(** operator<< writes the elements one after the other; what was written before an exception stays written. *)
Theorem C76_print : forall (A : Type) (mem : list A) put out s, sp_valid mem s ->
  (forall a, In a (elements mem s) -> exists t, put a = Ok t) ->
  print_span mem put out s = (out ++ written put (elements mem s), Ok tt).
Proof. exact @print_ok. Qed.
Print Assumptions C76_print.

Theorem C76_print_throw : forall (A : Type) (mem : list A) put out s l1 a l2 e, sp_valid mem s ->
  elements mem s = l1 ++ a :: l2 -> (forall b, In b l1 -> exists t, put b = Ok t) -> put a = Throw e ->
  print_span mem put out s = (out ++ written put l1, Throw e).
Proof. exact @print_throw. Qed.
Print Assumptions C76_print_throw.

Example C76_case :
  let mem := str "xabc" ++ [0%N] ++ str "de" in
  make_vector mem (make_span (Cont (Some 1) 3)) = Ok (str "abc") /\
  make_span_cstr mem (Some 1) = Ok (Sp (Some 1) 3) /\
  make_span_cstr mem (Some 4) = Ok (Sp (Some 4) 0) /\
  make_span_cstr mem (Some 5) = UB OutOfBounds /\ make_span_cstr mem None = UB NullDeref /\
  (* an empty vector whose data() is not null *)
  make_span (Cont (Some 7) 0) = Sp None 0 /\ span_of (Cont (Some 7) 0) = Sp (Some 7) 0 /\
  fst (for_span_rev mem (Sp (Some 1) 3) (fun l a => (l ++ [a], Ok tt)) []) = str "cba" /\
  (* a span that sticks out of memory *)
  snd (for_span mem (Sp (Some 5) 3) (fun l a => (l ++ [a], Ok tt)) []) = UB BadPointer /\
  snd (for_span mem (Sp None 1) (fun l a => (l ++ [a], Ok tt)) []) = UB BadPointer /\
  print_span mem (fun a => if N.eqb a 0 then Throw RuntimeError else Ok [a; 45%N]) (str ">") (Sp (Some 2) 4) =
    (str ">b-c-", Throw RuntimeError).
Proof. repeat split. Qed.

(** ** C77 *)
(** Strings of spans of char and of uint8_t have exactly the bytes of the span, zero bytes included; the string_view
    refers to the same bytes. *)
Theorem C77_make_string : forall mem s, sp_valid mem s ->
  make_string_char mem s = Ok (elements mem s) /\ make_string_uint8 mem s = Ok (elements mem s) /\
  cont_elements mem (make_string_view s) = elements mem s /\ c_size (make_string_view s) = s_size s /\
  (s_size s <> 0 -> make_span (make_string_view s) = s).
Proof. exact make_string_ok. Qed.
Print Assumptions C77_make_string.

Theorem C77_make_string_container : forall mem c, cont_valid mem c ->
  make_string_cont_char mem c = Ok (cont_elements mem c) /\ make_string_cont_uint8 mem c = Ok (cont_elements mem c).
Proof. exact make_string_cont_ok. Qed.
Print Assumptions C77_make_string_container.

(** to_uint8_t and to_char denote the same memory, and a byte is read as a char and as a uint8_t of the same
    value modulo 256, so either view determines the other. *)
Theorem C77_casts : forall s, to_uint8_t s = s /\ to_char s = s.
Proof. exact casts. Qed.
Print Assumptions C77_casts.

(** [sg]: whether char is signed *)
Theorem C77_bytes : forall sg b, (b < 256)%N ->
  (as_uint8 b = Z.of_N b /\ as_char sg b mod 256 = as_uint8 b /\ (if sg then -128 <= as_char sg b < 128 else 0 <= as_char sg b < 256))%Z.
Proof. exact as_char_uint8. Qed.
Print Assumptions C77_bytes.

(** cat gives the texts of its arguments one after the other; formatting set by an argument is in force for the next
    ones only, and an argument that makes the stream bad silently drops everything after it. *)
Theorem C77_cat : forall (F : Type) (f : F) args, cat f args = concat (texts f args).
Proof. exact @cat_ok. Qed.
Print Assumptions C77_cat.

Theorem C77_cat_texts : forall (F : Type) (f : F) ts,
  cat f (map (fun t (f : F) => (t, f, true)) ts) = concat ts.
Proof. exact @cat_simple. Qed.
Print Assumptions C77_cat_texts.

Theorem C77_cat_truncates : forall (F : Type) (f : F) a x args,
  cat f (map (fun t (f : F) => (t, f, true)) a ++ (fun f => (x, f, false)) :: args) = concat a ++ x.
Proof. exact @cat_bad. Qed.
Print Assumptions C77_cat_truncates.

Example C77_case :
  let mem := [104; 0; 200; 105]%N in
  make_string_char mem (Sp (Some 0) 4) = Ok mem /\
  make_string_uint8 mem (Sp (Some 1) 2) = Ok [0; 200]%N /\
  make_string_char mem (Sp None 0) = Ok [] /\ make_string_char mem (Sp None 1) = UB NullDeref /\
  as_char true 200 = (-56)%Z /\ as_char false 200 = 200%Z /\ as_uint8 200 = 200%Z /\
  (let text t : arg bool := fun f => (t, f, true) in
   let hex : arg bool := fun _ => ([], true, true) in
   let number : arg bool := fun f => (if f then str "ff" else str "255", f, true) in
   let null : arg bool := fun f => ([], f, false) in
   cat false [number; text (str " "); hex; number; text (str "!")] = str "255 ff!" /\
   cat false [text (str "a"); null; text (str "b")] = str "a").
Proof. repeat split. Qed.

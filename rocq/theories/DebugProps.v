(** C69: assertions, and the agreement of debug and release builds. *)
From Coq Require Import String.
From Verif Require Import Base StrLit DebugModel DebugSpec DebugProofs.
From Verif Require SpanModel SerialModel DeserModel Base64Model UnicodeModel TreeModel FlagsModel RefModel ParserModel
  FormatModel StringModel UtilModel RaiiModel SignalModel WrapModel EnumModel ExceptModel.
Local Open Scope string_scope. Local Open Scope list_scope. Local Open Scope Z_scope.

(** C69: assert_always has no effect if the condition holds. *)
Theorem C69_true : forall terminal print loc, assert_always terminal true print loc = ([], Returned).
Proof. exact assert_always_true. Qed.
Print Assumptions C69_true.
(** C69: otherwise it prints the location and the message, if any, and aborts; an exception thrown by the
    function which prints the message leaves it, before anything was printed. *)
Theorem C69_false : forall terminal print f n, 0 <= n < 2 ^ 64 ->
  exists m, match print with
    | Some (_, Some e) => assert_always terminal false print {| file := Some f; line := n |} = ([], Raised (OfUser e))
    | _ => assert_always terminal false print {| file := Some f; line := n |} = (m, Aborted) /\
           message terminal f n (match print with Some (t, _) => Some t | None => None end) m
    end.
Proof. exact assert_always_false. Qed.
Print Assumptions C69_false.
(** C69, finding: so a failed assertion does not always abort. *)
Theorem C69_abort_refuted : forall terminal text e f n,
  snd (assert_always terminal false (Some (text, Some e)) {| file := Some f; line := n |}) <> Aborted.
Proof. discriminate. Qed.
Print Assumptions C69_abort_refuted.
(** C69: utki::assert in a debug build returns quietly if and only if its condition holds, the failed
    ones being those for which assert_always is called with false. *)
Theorem C69_assert : forall terminal a print loc,
  (assert true terminal a print loc = ([], Returned) <-> holds a) /\
  (fails a -> assert true terminal a print loc = assert_always terminal false print loc) /\
  assert false terminal a print loc = ([], Returned).
Proof. intros. split; [apply assert_quiet|split; [apply assert_fails|apply assert_release]]. Qed.
Print Assumptions C69_assert.
(** C69: the macro evaluates nothing in a release build; in a debug build it evaluates the condition once.
    A direct call of utki::assert evaluates its argument in both builds. *)
Theorem C69_macro : forall (S : Type) terminal (arg : S -> S * argument) print loc s,
  ASSERT false terminal arg print loc s = (s, ([], Returned)) /\
  ASSERT true terminal arg print loc s = (fst (arg s), assert true terminal (snd (arg s)) print loc) /\
  assert_call false terminal arg print loc s = (fst (arg s), ([], Returned)).
Proof. intros. split; [apply macro_release|split; [apply macro_debug|apply call_release]]. Qed.
Print Assumptions C69_macro.
(** C69: so builds agree on an assertion which holds and whose condition has no side effects. *)
Theorem C69_macro_agree : forall (S : Type) terminal (arg : S -> S * argument) print loc s,
  fst (arg s) = s -> holds (snd (arg s)) -> ASSERT true terminal arg print loc s = ASSERT false terminal arg print loc s.
Proof. exact @macro_agree. Qed.
Print Assumptions C69_macro_agree.

(** C69: the operations of the library. If the debug build neither aborts nor does anything undefined, then
    the release build has the same result (value or exception). The programs of [run] and the like are
    any sequences of calls. *)
Theorem C69_span : forall (A : Type) (arr : list A) s i c,
  agree (SpanModel.span_index true arr s i) (SpanModel.span_index false arr s i) /\
  agree (SpanModel.span_front true arr s) (SpanModel.span_front false arr s) /\
  agree (SpanModel.span_back true arr s) (SpanModel.span_back false arr s) /\
  agree (SpanModel.subspan true arr s i c) (SpanModel.subspan false arr s i c).
Proof. intros. auto using span_index_agree, span_front_agree, span_back_agree, subspan_agree. Qed.
Print Assumptions C69_span.
Theorem C69_serialize : forall w v out m rs,
  agree (SerialModel.serialize_be true w v out m) (SerialModel.serialize_be false w v out m) /\
  agree (SerialModel.deserialize_be true w out m) (SerialModel.deserialize_be false w out m) /\
  agree (DeserModel.write_all true rs out m) (DeserModel.write_all false rs out m).
Proof. intros. auto using serialize_be_agree, deserialize_be_agree, write_all_agree. Qed.
Print Assumptions C69_serialize.
Theorem C69_deserializer : forall buf ops d, Forall sound (fst (DeserModel.run true buf d ops)) ->
  DeserModel.run false buf d ops = DeserModel.run true buf d ops.
Proof. exact deser_run_agree. Qed.
Print Assumptions C69_deserializer.
Theorem C69_base64 : forall sc s, agree (Base64Model.base64_decode sc true s) (Base64Model.base64_decode sc false s).
Proof. exact base64_agree. Qed.
Print Assumptions C69_base64.
Theorem C69_utf8 : forall cs, agree (UnicodeModel.to_utf8 true cs) (UnicodeModel.to_utf8 false cs).
Proof. exact to_utf8_agree. Qed.
Print Assumptions C69_utf8.
Theorem C69_tree : forall (A : Type) (f : list (TreeModel.tree A)) it index,
  agree (TreeModel.incr true f it) (TreeModel.incr false f it) /\
  agree (TreeModel.decr true f it) (TreeModel.decr false f it) /\
  agree (TreeModel.index true f it) (TreeModel.index false f it) /\
  agree (TreeModel.at_index true f index) (TreeModel.at_index false f index) /\
  agree (TreeModel.forward true f) (TreeModel.forward false f) /\
  agree (TreeModel.backward true f) (TreeModel.backward false f).
Proof.
  intros. repeat split; [apply incr_agree|apply decr_agree|apply index_agree|apply at_index_agree|apply forward_agree|apply backward_agree].
Qed.
Print Assumptions C69_tree.
Theorem C69_flags : forall n p s, agree (FlagsModel.run true n s p) (FlagsModel.run false n s p).
Proof. exact flags_run_agree. Qed.
Print Assumptions C69_flags.
Theorem C69_references : forall derives h s g u,
  agree (RefModel.run derives true h s) (RefModel.run derives false h s) /\
  agree (RefModel.urun true g u) (RefModel.urun false g u).
Proof. intros. split; [apply ref_run_agree|apply uref_run_agree]. Qed.
Print Assumptions C69_references.
Theorem C69_parser : forall cs s, Forall sound (snd (ParserModel.perform_all true cs s)) ->
  ParserModel.perform_all false cs s = ParserModel.perform_all true cs s.
Proof. exact parser_agree. Qed.
Print Assumptions C69_parser.
Theorem C69_to_string : forall t v b, agree (ParserModel.to_string true t v b) (ParserModel.to_string false t v b).
Proof. exact to_string_agree. Qed.
Print Assumptions C69_to_string.
Theorem C69_string : forall fmt fuel garbage (A : Type) (l : list (list A)) d n c cpp20 s w,
  agree (FormatModel.make_string fmt fuel true garbage) (FormatModel.make_string fmt fuel false garbage) /\
  agree (StringModel.join fuel true l d) (StringModel.join fuel false l d) /\
  agree (UtilModel.skip_front_iterate fuel true n (c : list A)) (UtilModel.skip_front_iterate fuel false n c) /\
  agree (WrapModel.word_wrap true cpp20 s w) (WrapModel.word_wrap false cpp20 s w).
Proof. intros. repeat split; [apply make_string_agree|apply join_agree|apply skip_front_agree|apply word_wrap_agree]. Qed.
Print Assumptions C69_string.
Theorem C69_others : forall l s (F A W : Type) (sig : @SignalModel.state F A W) (B : Type) (a : list B) i v stacked_name cur e,
  agree (RaiiModel.sg_run true l s) (RaiiModel.sg_run false l s) /\
  agree (SignalModel.destroy true sig) (SignalModel.destroy false sig) /\
  agree (EnumModel.array_get true a i) (EnumModel.array_get false a i) /\
  agree (EnumModel.array_set true a i v) (EnumModel.array_set false a i v) /\
  agree (ExceptModel.throw_with_nested stacked_name true cur e) (ExceptModel.throw_with_nested stacked_name false cur e).
Proof.
  intros. split; [apply sg_run_agree|]. split; [apply signal_destroy_agree|].
  destruct (array_agree a i v). split; [assumption|]. split; [assumption|]. apply throw_with_nested_agree.
Qed.
Print Assumptions C69_others.
(** The relation is not trivial: it relates no two different results. *)
Example agree_discriminates : ~ agree (Ok 1) (Ok 2) /\ ~ agree (Ok 1) (Throw OutOfRange) /\ ~ agree (Throw OutOfRange) (Ok 1).
Proof. repeat split; intro H; discriminate (H I). Qed.

Example C69_case : let loc := {| file := Some (zstr "a.cpp"); line := 42 |} in
  assert true false (Bool false) (Some (zstr "x=3", None)) loc
    = (zstr "a.cpp:42: error: assertion failed:" ++ [10] ++ zstr "  x=3" ++ [10], Aborted) /\
  assert true false (Pointer true) None loc = (zstr "a.cpp:42: error: assertion failed" ++ [10], Aborted) /\
  assert true false (Checker None) None loc = ([], Raised BadFunctionCall) /\
  (* a condition with a side effect *)
  ASSERT true false (fun n : Z => (n + 1, Bool (n =? 6))) None loc 6 = (7, ([], Returned)) /\
  ASSERT false false (fun n : Z => (n + 1, Bool (n =? 6))) None loc 6 = (6, ([], Returned)) /\
  EnumModel.array_get true [10; 11; 12] 1 = Ok 11 /\ EnumModel.array_get false [10; 11; 12] 1 = Ok 11 /\
  EnumModel.array_get true [10; 11; 12] 3 = Abort /\ EnumModel.array_get false [10; 11; 12] 3 = UB OutOfBounds.
Proof. vm_compute. repeat split. Qed.

From Coq Require Import String.
From Verif Require Import Base StrLit MiscModel MiscSpec MiscProofs DebugModel DebugSpec.
From Verif Require SpanModel SerialModel DeserModel Base64Model UnicodeModel TreeModel FlagsModel RefModel ParserModel
  FormatModel StringModel UtilModel RaiiModel SignalModel WrapModel EnumModel ExceptModel.
Local Open Scope string_scope. Local Open Scope list_scope. Local Open Scope Z_scope.

(** ** assert_always *)
Lemma assert_always_true terminal print loc : assert_always terminal true print loc = ([], Returned).
Proof. reflexivity. Qed.
Lemma message_ok (terminal : bool) f n (user : option (list Z)) m : 0 <= n < 2 ^ 64 ->
  m = (((f ++ zstr ":" ++ digits n ++ zstr ": ") ++ (if terminal then colored_error_string else uncolored_error_string)) ++ zstr ": assertion failed")
      ++ match user with None => endl | Some t => zstr ":" ++ endl ++ zstr "  " ++ t ++ endl end ->
  message terminal f n user m.
Proof.
  intros H ->. exists (digits n). destruct (digits_spec n H) as (A & B & C & _). repeat (split; [assumption|]).
  destruct terminal, user; cbn [colored_error_string uncolored_error_string]; rewrite <- !app_assoc; reflexivity.
Qed.
Lemma assert_always_false terminal print f n : 0 <= n < 2 ^ 64 ->
  exists m, match print with
    | Some (_, Some e) => assert_always terminal false print {| file := Some f; line := n |} = ([], Raised (OfUser e))
    | _ => assert_always terminal false print {| file := Some f; line := n |} = (m, Aborted) /\
           message terminal f n (match print with Some (t, _) => Some t | None => None end) m
    end.
Proof.
  intro H. unfold assert_always. cbn [file line]. destruct print as [[t [e|]]|].
  - exists []. reflexivity.
  - eexists. split; [reflexivity|]. apply message_ok; [assumption|reflexivity].
  - eexists. split; [reflexivity|]. apply message_ok; [assumption|reflexivity].
Qed.
Lemma assert_holds dbg terminal a print loc : holds a -> assert dbg terminal a print loc = ([], Returned).
Proof. intros [->|[->| ->]]; destruct dbg; reflexivity. Qed.
Lemma assert_fails terminal a print loc : fails a -> assert true terminal a print loc = assert_always terminal false print loc.
Proof. intros [->|[->| ->]]; reflexivity. Qed.
Lemma assert_quiet terminal a print loc : assert true terminal a print loc = ([], Returned) <-> holds a.
Proof.
  split; [|apply assert_holds]. unfold holds.
  assert (F : assert_always terminal false print loc <> ([], Returned)).
  { unfold assert_always. destruct (file loc); [|discriminate]. destruct print as [[t [e|]]|]; discriminate. }
  destruct a as [[]|[]|[[[]|]|]]; cbn [assert negb]; intro E; try discriminate; try (exfalso; exact (F E)); auto.
Qed.
Lemma assert_release terminal a print loc : assert false terminal a print loc = ([], Returned).
Proof. reflexivity. Qed.

Lemma macro_release {S} terminal (arg : S -> S * argument) print loc s : ASSERT false terminal arg print loc s = (s, ([], Returned)).
Proof. reflexivity. Qed.
Lemma macro_debug {S} terminal (arg : S -> S * argument) print loc s :
  ASSERT true terminal arg print loc s = (fst (arg s), assert true terminal (snd (arg s)) print loc).
Proof. unfold ASSERT, assert_call. destruct (arg s). reflexivity. Qed.
Lemma macro_agree {S} terminal (arg : S -> S * argument) print loc s : fst (arg s) = s -> holds (snd (arg s)) ->
  ASSERT true terminal arg print loc s = ASSERT false terminal arg print loc s.
Proof. intros E H. rewrite macro_debug, macro_release, E, assert_holds by assumption. reflexivity. Qed.
Lemma call_release {S} terminal (arg : S -> S * argument) print loc s :
  assert_call false terminal arg print loc s = (fst (arg s), ([], Returned)).
Proof. unfold assert_call. destruct (arg s). reflexivity. Qed.

(** ** Agreement of the builds *)
Lemma agree_refl {A} (m : outcome A) : agree m m.
Proof. intro. reflexivity. Qed.
Lemma agree_bind {A B} (m m' : outcome A) (k k' : A -> outcome B) :
  agree m m' -> (forall a, agree (k a) (k' a)) -> agree (bind m k) (bind m' k').
Proof.
  intros H K S. destruct m as [a|e|r| | |]; cbn in S; try contradiction; (rewrite H by exact I); cbn; auto.
  apply K. exact S.
Qed.
Lemma agree_assert c : agree (assert_ true c) (assert_ false c).
Proof. destruct c; intro S; [reflexivity|destruct S]. Qed.
Lemma agree_unsound {A} (m m' : outcome A) : ~ sound m -> agree m m'.
Proof. intros N S. contradiction. Qed.

(** Values of unit type: a debug-only check *)
Definition check (m : outcome unit) : Prop := sound m -> m = Ok tt.
Definition quiet {A} (m : outcome A) : Prop := sound m -> exists a, m = Ok a.
Lemma quiet_check (m : outcome unit) : quiet m -> agree m (Ok tt).
Proof. intros Q S. destruct (Q S) as [[] ->]. reflexivity. Qed.
Lemma quiet_bind {A B} (m : outcome A) (k : A -> outcome B) : quiet m -> (forall a, quiet (k a)) -> quiet (bind m k).
Proof.
  intros Q K S. destruct m as [a|e|r| | |]; cbn in *; try contradiction; try (destruct (Q I); discriminate).
  apply K. exact S.
Qed.
Lemma quiet_ok {A} (a : A) : quiet (Ok a).
Proof. intros _. eauto. Qed.
Lemma quiet_ub {A} r : quiet (@UB A r).
Proof. intros []. Qed.
Lemma quiet_assert d c : quiet (assert_ d c).
Proof. unfold assert_. destruct (d && negb c); [intros []|apply quiet_ok]. Qed.

Ltac quiet_step :=
  match goal with
  | |- quiet (Ok _) => apply quiet_ok
  | |- quiet (UB _) => apply quiet_ub
  | |- quiet (assert_ _ _) => apply quiet_assert
  | |- quiet (bind _ _) => apply quiet_bind; [|intros]
  | |- quiet (match ?x with _ => _ end) => destruct x
  end.
Ltac agree_step :=
  match goal with
  | |- agree ?x ?x => apply agree_refl
  | |- agree (bind _ _) (bind _ _) => apply agree_bind; [|intros]
  | |- agree (assert_ true _) (assert_ false _) => apply agree_assert
  | |- agree (match ?x with _ => _ end) (match ?x with _ => _ end) => destruct x
  | _ => solve [eauto with agree]
  end.
Create HintDb agree.

(** *** span *)
Import SpanModel.
Lemma span_index_agree {A} (arr : list A) s i : agree (span_index true arr s i) (span_index false arr s i).
Proof. unfold span_index. repeat agree_step. Qed.
#[local] Hint Resolve span_index_agree : agree.
Lemma span_front_agree {A} (arr : list A) s : agree (span_front true arr s) (span_front false arr s).
Proof. unfold span_front. repeat agree_step. Qed.
Lemma span_back_agree {A} (arr : list A) s : agree (span_back true arr s) (span_back false arr s).
Proof. unfold span_back. repeat agree_step. Qed.
Lemma subspan_agree {A} (arr : list A) s o c : agree (subspan true arr s o c) (subspan false arr s o c).
Proof.
  unfold subspan. destruct (_ <? _)%N; [apply agree_refl|]. apply agree_bind; [apply agree_assert|]. intros _.
  apply agree_bind; [|intro; apply agree_refl]. cbn [andb].
  destruct (_ <? _)%N; [apply agree_unsound; intros []|]. apply agree_assert.
Qed.
#[local] Hint Resolve span_front_agree subspan_agree : agree.

(** *** serialisation *)
Lemma serialize_be_agree w v out m : agree (SerialModel.serialize_be true w v out m) (SerialModel.serialize_be false w v out m).
Proof.
  unfold SerialModel.serialize_be. apply agree_bind; [|intro; apply agree_refl].
  generalize (N.of_nat w) at 1 3 as b. generalize (N.of_nat w) as i. revert out m.
  generalize w as n. induction n as [|n IH]; intros out m i b; cbn [SerialModel.serialize_be_loop]; [apply agree_refl|].
  repeat agree_step; apply IH.
Qed.
Lemma deserialize_be_agree w p m : agree (SerialModel.deserialize_be true w p m) (SerialModel.deserialize_be false w p m).
Proof.
  unfold SerialModel.deserialize_be. generalize (N.of_nat w) at 1 3 as b. generalize (N.of_nat w) as i. generalize 0%N as r. revert p m.
  generalize w as n. induction n as [|n IH]; intros p m r i b; cbn [SerialModel.deserialize_be_loop]; [apply agree_refl|].
  repeat agree_step; apply IH.
Qed.
#[local] Hint Resolve serialize_be_agree deserialize_be_agree : agree.
Lemma call_agree buf d o : agree (DeserModel.call true buf d o) (DeserModel.call false buf d o).
Proof.
  destruct o; cbn [DeserModel.call]; try apply agree_refl;
    unfold DeserModel.read_view, DeserModel.read_uint8, DeserModel.read_uint16_le, DeserModel.read_uint32_le, DeserModel.read_uint64_le,
      DeserModel.read_float_le, DeserModel.read_uint16_be, DeserModel.read_uint32_be, DeserModel.read_uint64_be, DeserModel.read_float_be,
      DeserModel.skip, DeserModel.read_fixed, DeserModel.as_int, DeserModel.as_float, SerialModel.deserialize_float_be;
    repeat agree_step.
Qed.
Lemma step_agree buf d o : sound (fst (DeserModel.step true buf d o)) -> DeserModel.step false buf d o = DeserModel.step true buf d o.
Proof.
  pose proof (call_agree buf d o) as C. unfold agree, DeserModel.step in *.
  destruct (DeserModel.call true buf d o) as [[r d']|e|r| | |]; cbn in *; intro S; try contradiction; rewrite C by exact I; reflexivity.
Qed.
Lemma deser_run_agree buf ops : forall d, Forall sound (fst (DeserModel.run true buf d ops)) ->
  DeserModel.run false buf d ops = DeserModel.run true buf d ops.
Proof.
  induction ops as [|o ops IH]; intros d; [reflexivity|]. cbn [DeserModel.run].
  pose proof (step_agree buf d o) as C. destruct (DeserModel.step true buf d o) as [r d1] eqn:E1.
  pose proof (IH d1) as K. destruct (DeserModel.run true buf d1 ops) as [rs d2] eqn:E2. cbn [fst] in *. intro F.
  inversion F; subst. rewrite C by assumption. rewrite K by assumption. reflexivity.
Qed.
Lemma write_all_agree rs : forall out m, agree (DeserModel.write_all true rs out m) (DeserModel.write_all false rs out m).
Proof.
  induction rs as [|r rs IH]; intros out m; cbn [DeserModel.write_all]; [apply agree_refl|].
  apply agree_bind; [|intro; apply IH]. destruct r; cbn [DeserModel.write]; unfold SerialModel.serialize_float_be; repeat agree_step.
Qed.

(** *** base64, unicode *)
Lemma base64_agree sc s : agree (Base64Model.base64_decode sc true s) (Base64Model.base64_decode sc false s).
Proof.
  assert (Q : forall n i, agree (Base64Model.quad_loop sc true n i) (Base64Model.quad_loop sc false n i)).
  { induction n as [|n IH]; intro i; cbn [Base64Model.quad_loop]; [apply agree_refl|]. repeat agree_step; apply IH. }
  assert (T : forall i, agree (Base64Model.tail sc true i) (Base64Model.tail sc false i)).
  { intro i. unfold Base64Model.tail. repeat agree_step. }
  unfold Base64Model.base64_decode. destruct s as [|c s]; [apply agree_refl|]. apply agree_bind; [apply agree_refl|]. intros [n s'].
  apply agree_bind; [apply Q|]. intros [ret i]. repeat agree_step; apply T.
Qed.
Lemma to_utf8_char_agree c : agree (UnicodeModel.to_utf8_char true c) (UnicodeModel.to_utf8_char false c).
Proof.
  unfold UnicodeModel.to_utf8_char. destruct (_ <=? _)%N; [apply agree_refl|].
  destruct (UnicodeModel.num_bytes c) as [[|[|[|[|[|[|[|n]]]]]]]|]; repeat agree_step.
Qed.
Lemma to_utf8_agree cs : agree (UnicodeModel.to_utf8 true cs) (UnicodeModel.to_utf8 false cs).
Proof.
  induction cs as [|c cs IH]; cbn [UnicodeModel.to_utf8]; [apply agree_refl|].
  apply agree_bind; [apply to_utf8_char_agree|]. intro. repeat agree_step; apply IH.
Qed.

(** *** tree *)
Section Tree.
Context {A : Type}.
Variable f : list (TreeModel.tree A).
Lemma deref_list_quiet c : quiet (TreeModel.deref_list f c).
Proof. unfold TreeModel.deref_list. repeat quiet_step. Qed.
Lemma back_quiet {B} (l : list B) : quiet (TreeModel.back l).
Proof. unfold TreeModel.back. repeat quiet_step. Qed.
Lemma cend_quiet c : quiet (TreeModel.cend f c).
Proof. unfold TreeModel.cend. apply quiet_bind; [apply deref_list_quiet|intro; apply quiet_ok]. Qed.
Lemma cbegin_quiet c : quiet (TreeModel.cbegin f c).
Proof. unfold TreeModel.cbegin. apply quiet_bind; [apply deref_list_quiet|intro; apply quiet_ok]. Qed.
Lemma ceq_quiet a b : quiet (TreeModel.ceq a b).
Proof. unfold TreeModel.ceq. repeat quiet_step. Qed.
Lemma cderef_quiet i : quiet (TreeModel.cderef f i).
Proof. unfold TreeModel.cderef. apply quiet_bind; [apply deref_list_quiet|intro; repeat quiet_step]. Qed.
Lemma incr_agree it : agree (TreeModel.incr true f it) (TreeModel.incr false f it).
Proof.
  unfold TreeModel.incr. do 2 (apply agree_bind; [apply agree_assert|intro]). apply agree_bind; [apply agree_refl|intro i].
  apply agree_bind.
  - apply quiet_check. apply quiet_bind; [apply back_quiet|intro c]. apply quiet_bind; [apply cend_quiet|intro e].
    apply quiet_bind; [apply ceq_quiet|intro b]. apply quiet_assert.
  - intros _. repeat agree_step.
Qed.
Lemma descend_agree fuel : forall it, agree (TreeModel.descend true f fuel it) (TreeModel.descend false f fuel it).
Proof.
  induction fuel as [|fuel IH]; intro it; cbn [TreeModel.descend]; [apply agree_refl|].
  apply agree_bind; [apply agree_refl|intro i]. apply agree_bind.
  - apply quiet_check. apply quiet_bind; [apply back_quiet|intro c]. apply quiet_bind; [apply cbegin_quiet|intro e].
    apply quiet_bind; [apply ceq_quiet|intro b]. apply quiet_assert.
  - intros _. repeat agree_step; apply IH.
Qed.
Lemma decr_agree it : agree (TreeModel.decr true f it) (TreeModel.decr false f it).
Proof.
  unfold TreeModel.decr. do 2 (apply agree_bind; [apply agree_assert|intro]). repeat agree_step. apply descend_agree.
Qed.
Lemma index_agree it : agree (TreeModel.index true f it) (TreeModel.index false f it).
Proof. unfold TreeModel.index. repeat agree_step. Qed.
Lemma valid_loop_quiet index : forall li, quiet (TreeModel.valid_loop f li index).
Proof.
  induction index as [|i index IH]; intro li; cbn [TreeModel.valid_loop]; [apply quiet_ok|].
  apply quiet_bind; [apply deref_list_quiet|intro l]. destruct (Nat.leb _ _); [apply quiet_ok|].
  apply quiet_bind; [apply cderef_quiet|intro; apply IH].
Qed.
Lemma at_index_agree index : agree (TreeModel.at_index true f index) (TreeModel.at_index false f index).
Proof.
  unfold TreeModel.at_index. apply agree_bind; [|intro; apply agree_refl]. apply quiet_check.
  apply quiet_bind; [|intro; apply quiet_assert]. unfold TreeModel.is_valid. destruct index; [apply quiet_ok|apply valid_loop_quiet].
Qed.
Lemma forward_agree : agree (TreeModel.forward true f) (TreeModel.forward false f).
Proof.
  unfold TreeModel.forward. do 2 (apply agree_bind; [apply agree_refl|intro]). generalize a.
  induction (S (TreeModel.size f)) as [|fuel IH]; intro it; cbn [TreeModel.forward_loop]; [apply agree_refl|].
  repeat first [apply IH|apply incr_agree|agree_step].
Qed.
Lemma backward_agree : agree (TreeModel.backward true f) (TreeModel.backward false f).
Proof.
  unfold TreeModel.backward. do 2 (apply agree_bind; [apply agree_refl|intro]). generalize a0.
  induction (S (TreeModel.size f)) as [|fuel IH]; intro it; cbn [TreeModel.backward_loop]; [apply agree_refl|].
  repeat first [apply IH|apply decr_agree|agree_step].
Qed.
End Tree.

(** *** flags *)
Lemma swallow_agree b m : agree (FlagsModel.swallow true b m) (FlagsModel.swallow false b m).
Proof. destruct m; cbn [FlagsModel.swallow]; repeat agree_step. Qed.
Lemma flags_step_agree n s i : agree (FlagsModel.step true n s i) (FlagsModel.step false n s i).
Proof.
  destruct i; cbn [FlagsModel.step]; try apply agree_refl;
    unfold FlagsModel.store, FlagsModel.query, FlagsModel.flags_set, FlagsModel.flags_clear, FlagsModel.flags_get, FlagsModel.flags_or_enum, FlagsModel.flags_set;
    repeat first [apply swallow_agree|agree_step].
Qed.
Lemma flags_run_agree n p : forall s, agree (FlagsModel.run true n s p) (FlagsModel.run false n s p).
Proof.
  induction p as [|i p IH]; intro s; cbn [FlagsModel.run]; [apply agree_refl|].
  apply agree_bind; [apply flags_step_agree|]. intros [s' o]. apply agree_bind; [apply IH|]. intros [s'' os]. apply agree_refl.
Qed.

(** *** shared_ref, unique_ref *)
Lemma ref_get_agree p : agree (RefModel.ref_get true p) (RefModel.ref_get false p).
Proof. unfold RefModel.ref_get. repeat agree_step. Qed.
Lemma ref_step_agree derives a s : agree (RefModel.step derives true a s) (RefModel.step derives false a s).
Proof.
  assert (C : forall t r, agree (RefModel.dyn_ref_cast derives true t r s) (RefModel.dyn_ref_cast derives false t r s)).
  { intros t r. unfold RefModel.dyn_ref_cast. apply agree_bind; [|intro; repeat agree_step].
    destruct (RefModel.is_null _); [|apply agree_refl]. apply agree_bind; [apply ref_get_agree|intro; apply agree_refl]. }
  destruct a; cbn [RefModel.step]; unfold RefModel.fresh_var, RefModel.with_var; try apply agree_refl;
    repeat first [apply ref_get_agree|agree_step].
  specialize (C t p). unfold agree in *. destruct (RefModel.dyn_ref_cast derives true t p s); cbn in *; intro K; try contradiction; rewrite C by exact I; reflexivity.
Qed.
Lemma ref_run_agree derives h : forall s, agree (RefModel.run derives true h s) (RefModel.run derives false h s).
Proof.
  induction h as [|a h IH]; intro s; cbn [RefModel.run]; [apply agree_refl|].
  apply agree_bind; [apply ref_step_agree|]. intros [s' o]. apply agree_bind; [apply IH|]. intros [s'' os]. apply agree_refl.
Qed.
Lemma uref_run_agree h : forall s, agree (RefModel.urun true h s) (RefModel.urun false h s).
Proof.
  induction h as [|a h IH]; intro s; cbn [RefModel.urun]; [apply agree_refl|].
  apply agree_bind; [|intros [s' o]; apply agree_bind; [apply IH|]; intros [s'' os]; apply agree_refl].
  destruct a; cbn [RefModel.ustep]; unfold RefModel.ufresh_var, RefModel.uwith_var; repeat first [apply ref_get_agree|agree_step].
Qed.

(** *** string_parser, to_string *)
Lemma andthen_agree {A B} (m m' : ParserModel.op A) (k k' : A -> ParserModel.op B) s :
  (sound (snd (m s)) -> m' s = m s) ->
  (forall a s, sound (snd (k a s)) -> k' a s = k a s) ->
  sound (snd (ParserModel.andthen m k s)) -> ParserModel.andthen m' k' s = ParserModel.andthen m k s.
Proof.
  intros H K. unfold ParserModel.andthen. destruct (m s) as [s1 [a|e|r| | |]]; cbn in *; intro S; try contradiction; rewrite H by exact I; auto.
Qed.
Lemma finish_agree {V} (z : V) r s : sound (snd (ParserModel.finish_number true z r s)) ->
  ParserModel.finish_number false z r s = ParserModel.finish_number true z r s.
Proof.
  unfold ParserModel.finish_number. destruct (ParserModel.fc_ec r); try (intro; reflexivity);
    (apply andthen_agree; [|intros; reflexivity]); unfold ParserModel.fail; cbn [snd];
    destruct (0 <? ParserModel.fc_len r)%N; cbn; intro S; try contradiction; reflexivity.
Qed.
Lemma perform_agree c s : sound (snd (ParserModel.perform true c s)) -> ParserModel.perform false c s = ParserModel.perform true c s.
Proof.
  destruct c; cbn [ParserModel.perform]; try (intro; reflexivity); unfold ParserModel.with_value;
    (apply andthen_agree; [|intros; reflexivity]).
  - unfold ParserModel.read_number. apply andthen_agree; [intro; reflexivity|]. intros a s0.
    apply andthen_agree; [intro; reflexivity|]. intros [base|] s1; [|intro; reflexivity].
    apply andthen_agree; [intro; reflexivity|]. intros b s2. apply finish_agree.
  - unfold ParserModel.read_float. apply andthen_agree; [intro; reflexivity|]. intros a s0.
    apply andthen_agree; [intro; reflexivity|]. intros b s2. apply finish_agree.
Qed.
Lemma parser_agree cs : forall s, Forall sound (snd (ParserModel.perform_all true cs s)) ->
  ParserModel.perform_all false cs s = ParserModel.perform_all true cs s.
Proof.
  induction cs as [|c cs IH]; intro s; [reflexivity|]. cbn [ParserModel.perform_all].
  pose proof (perform_agree c s) as C. destruct (ParserModel.perform true c s) as [s1 r].
  pose proof (IH s1) as K. destruct (ParserModel.perform_all true cs s1) as [s2 rs]. cbn [snd] in *. intro F.
  inversion F; subst. rewrite C, K by assumption. reflexivity.
Qed.
Lemma to_string_agree t v b : agree (ParserModel.to_string true t v b) (ParserModel.to_string false t v b).
Proof. unfold ParserModel.to_string. repeat agree_step. Qed.

(** *** the rest *)
Lemma skip_front_agree {A} fuel n (c : list A) : agree (UtilModel.skip_front_iterate fuel true n c) (UtilModel.skip_front_iterate fuel false n c).
Proof. unfold UtilModel.skip_front_iterate, UtilModel.skip_front_begin. repeat agree_step. Qed.
Lemma join_agree {A} fuel (l : list (list A)) d : agree (StringModel.join fuel true l d) (StringModel.join fuel false l d).
Proof. unfold StringModel.join. destruct l; [apply agree_refl|]. apply agree_bind; [apply skip_front_agree|intro; apply agree_refl]. Qed.
Lemma sg_run_agree l : forall s, agree (RaiiModel.sg_run true l s) (RaiiModel.sg_run false l s).
Proof.
  induction l as [|o l IH]; intro s; cbn [RaiiModel.sg_run]; [apply agree_refl|].
  apply agree_bind; [|intros [s' x]; apply agree_bind; [apply IH|]; intros [s'' xs]; apply agree_refl].
  destruct o; cbn [RaiiModel.sg_step]; unfold RaiiModel.base_destroy, RaiiModel.inst; repeat agree_step.
Qed.
Lemma signal_destroy_agree {F A W} (s : @SignalModel.state F A W) : agree (SignalModel.destroy true s) (SignalModel.destroy false s).
Proof. apply agree_assert. Qed.
Lemma word_wrap_agree cpp20 s w : agree (WrapModel.word_wrap true cpp20 s w) (WrapModel.word_wrap false cpp20 s w).
Proof.
  unfold WrapModel.word_wrap. destruct (_ =? _)%N; [apply agree_refl|]. apply agree_bind; [|intro; apply agree_refl].
  generalize (WrapModel.State [] 0 0 false) as st. generalize 0%nat as i. generalize (S (length s)) as fuel.
  induction fuel as [|fuel IH]; intros i st; cbn [WrapModel.loop]; [apply agree_refl|].
  destruct (Nat.eqb _ _); [apply agree_refl|]. apply agree_bind; [|intro; repeat agree_step; apply IH].
  unfold WrapModel.wrap. repeat agree_step.
Qed.
Lemma array_agree {A} (a : list A) i v :
  agree (EnumModel.array_get true a i) (EnumModel.array_get false a i) /\
  agree (EnumModel.array_set true a i v) (EnumModel.array_set false a i v).
Proof. unfold EnumModel.array_get, EnumModel.array_set. split; repeat agree_step. Qed.
Lemma throw_with_nested_agree stacked_name cur e : agree (ExceptModel.throw_with_nested stacked_name true cur e) (ExceptModel.throw_with_nested stacked_name false cur e).
Proof. unfold ExceptModel.throw_with_nested. repeat agree_step. Qed.
Lemma make_string_agree fmt fuel garbage : agree (FormatModel.make_string fmt fuel true garbage) (FormatModel.make_string fmt fuel false garbage).
Proof.
  unfold FormatModel.make_string. apply agree_bind; [|intro; apply agree_refl]. unfold FormatModel.make_string_va_list.
  apply agree_bind; [apply agree_refl|intro cur]. generalize 0%nat as i, garbage as buf, (Z.of_nat FormatModel.kilobyte) as size. revert cur.
  induction fuel as [|fuel IH]; intros cur i buf size; cbn [FormatModel.loop]; [apply agree_refl|]. repeat agree_step; apply IH.
Qed.

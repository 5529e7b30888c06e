From Verif Require Import Base ListLemmas SpanModel.
Local Open Scope N_scope.
Ltac Zify.zify_post_hook ::= Z.div_mod_to_equations.

Section P.
Context {A : Type}.
Variable arr : list A.
Hypothesis Hlen : N.of_nat (length arr) < 2 ^ 63.

Lemma contents_length s : span_valid arr s -> length (contents arr s) = N.to_nat (s_size s).
Proof using Type. clear Hlen.
  intro V. unfold span_valid in V. unfold contents. rewrite firstn_length, skipn_length. lia.
Qed.

Lemma contents_nth s i : span_valid arr s -> i < s_size s ->
  load_at arr (s_off s + i) = match nth_error (contents arr s) (N.to_nat i) with
                              | Some a => Ok a | None => UB OutOfBounds end.
Proof using Type. clear Hlen.
  intros V Hi. unfold span_valid in V. unfold load_at, arr_len.
  destruct (N.ltb_spec (s_off s + i) (N.of_nat (length arr))); [|lia].
  unfold contents. rewrite nth_error_firstn, nth_error_skipn.
  destruct (Nat.ltb_spec (N.to_nat i) (N.to_nat (s_size s))); [|lia].
  replace (N.to_nat (s_off s) + N.to_nat i)%nat with (N.to_nat (s_off s + i)) by lia. reflexivity.
Qed.

Theorem at_in dbg s i : span_valid arr s -> i < s_size s ->
  exists a, nth_error (contents arr s) (N.to_nat i) = Some a /\
            span_at arr s i = Ok a /\ span_index dbg arr s i = Ok a.
Proof using Type. clear Hlen.
  intros V Hi. pose proof (contents_nth s i V Hi) as L.
  destruct (nth_error (contents arr s) (N.to_nat i)) as [a|] eqn:E.
  2:{ apply nth_error_None in E. rewrite contents_length in E by exact V. lia. }
  exists a. split; [reflexivity|]. unfold span_at, span_index.
  destruct (N.leb_spec (s_size s) i); [lia|]. destruct (N.ltb_spec i (s_size s)); [|lia].
  unfold assert_. cbn [negb]. rewrite andb_false_r. cbn [bind]. rewrite L. auto.
Qed.

Theorem at_out s i : s_size s <= i -> span_at arr s i = Throw OutOfRange.
Proof using Type. clear Hlen. intro H. unfold span_at. destruct (N.leb_spec (s_size s) i); [reflexivity|lia]. Qed.

Theorem index_out_debug s i : s_size s <= i -> span_index true arr s i = Abort.
Proof using Type. clear Hlen.
  intro H. unfold span_index, assert_. destruct (N.ltb_spec i (s_size s)); [lia|reflexivity].
Qed.

Theorem index_out_release s i : N.of_nat (length arr) <= s_off s + i ->
  span_index false arr s i = UB OutOfBounds.
Proof using Type. clear Hlen.
  intro H. unfold span_index, load_at, arr_len. cbn.
  destruct (N.ltb_spec (s_off s + i) (N.of_nat (length arr))); [lia|reflexivity].
Qed.

Theorem subspan_in dbg s o n : span_valid arr s -> o <= s_size s -> n <= s_size s - o ->
  exists s', subspan dbg arr s o n = Ok s' /\ span_valid arr s' /\
             contents arr s' = firstn (N.to_nat n) (skipn (N.to_nat o) (contents arr s)).
Proof.
  intros V Ho Hn. unfold span_valid in V.
  assert (Hm : n =? size_max = false).
  { apply N.eqb_neq. unfold size_max. change (2 ^ 64 - 1) with 18446744073709551615.
    change (2 ^ 63) with 9223372036854775808 in Hlen. lia. }
  exists (Span (s_off s + o) n). split; [|split].
  - unfold subspan, arr_len. rewrite Hm.
    destruct (N.ltb_spec (N.of_nat (length arr)) (s_off s + o)); [lia|].
    destruct (N.leb_spec (s_off s + o) (s_off s + s_size s)); [|lia].
    destruct (N.ltb_spec (N.of_nat (length arr)) (s_off s + o + n)); [lia|].
    destruct (N.leb_spec (s_off s + o + n) (s_off s + s_size s)); [|lia].
    unfold assert_. cbn [negb]. rewrite !andb_false_r. reflexivity.
  - unfold span_valid. cbn. lia.
  - unfold contents. cbn [s_off s_size].
    apply nth_error_ext. intro i.
    rewrite !nth_error_firstn, !nth_error_skipn, nth_error_firstn, nth_error_skipn.
    destruct (Nat.ltb_spec i (N.to_nat n)); [|reflexivity].
    destruct (Nat.ltb_spec (N.to_nat o + i) (N.to_nat (s_size s))); [|lia].
    f_equal. lia.
Qed.

Theorem subspan_rest dbg s o : span_valid arr s -> o <= s_size s ->
  exists s', subspan dbg arr s o size_max = Ok s' /\ span_valid arr s' /\
             contents arr s' = skipn (N.to_nat o) (contents arr s).
Proof.
  intros V Ho. unfold span_valid in V.
  exists (Span (s_off s + o) (s_size s - o)). split; [|split].
  - unfold subspan, arr_len. rewrite N.eqb_refl.
    destruct (N.ltb_spec (N.of_nat (length arr)) (s_off s + o)); [lia|].
    destruct (N.leb_spec (s_off s + o) (s_off s + s_size s)); [|lia].
    assert (E : (s_off s + s_size s + 2 ^ 64 - (s_off s + o)) mod 2 ^ 64 = s_size s - o).
    { replace (s_off s + s_size s + 2 ^ 64 - (s_off s + o)) with (s_size s - o + 1 * 2 ^ 64) by lia.
      rewrite N.mod_add by discriminate. apply N.mod_small.
      change (2 ^ 64) with 18446744073709551616. change (2 ^ 63) with 9223372036854775808 in Hlen. lia. }
    rewrite E.
    destruct (N.ltb_spec (N.of_nat (length arr)) (s_off s + o + (s_size s - o))); [lia|].
    destruct (N.leb_spec (s_off s + o + (s_size s - o)) (s_off s + s_size s)); [|lia].
    unfold assert_. cbn [negb]. rewrite !andb_false_r. reflexivity.
  - unfold span_valid. cbn. lia.
  - unfold contents. cbn [s_off s_size]. apply nth_error_ext. intro i.
    rewrite nth_error_skipn, !nth_error_firstn, !nth_error_skipn.
    destruct (Nat.ltb_spec i (N.to_nat (s_size s - o)));
      destruct (Nat.ltb_spec (N.to_nat o + i) (N.to_nat (s_size s))); try lia; [|reflexivity].
    f_equal. lia.
Qed.

(** Out of bounds: never a normal return in debug. *)
Theorem subspan_out_debug s o n : span_valid arr s -> n <> size_max -> s_size s < o + n ->
  subspan true arr s o n = Abort \/ subspan true arr s o n = UB BadPointer.
Proof using Type. clear Hlen.
  intros V Hm Ho. unfold span_valid in V. unfold subspan, arr_len.
  apply N.eqb_neq in Hm. rewrite Hm.
  destruct (N.ltb_spec (N.of_nat (length arr)) (s_off s + o)); [auto|].
  unfold assert_.
  destruct (N.leb_spec (s_off s + o) (s_off s + s_size s)); cbn [negb andb bind]; [|auto].
  destruct (N.ltb_spec (N.of_nat (length arr)) (s_off s + o + n)); cbn; [auto|].
  destruct (N.leb_spec (s_off s + o + n) (s_off s + s_size s)); [lia|]. cbn. auto.
Qed.

(** In release the returned span just reaches out of the given one. *)
Theorem subspan_out_release s o n : n <> size_max -> s_size s < o + n ->
  s_off s + o <= N.of_nat (length arr) ->
  subspan false arr s o n = Ok (Span (s_off s + o) n).
Proof using Type. clear Hlen.
  intros Hm Ho Hl. unfold subspan, arr_len. apply N.eqb_neq in Hm. rewrite Hm.
  destruct (N.ltb_spec (N.of_nat (length arr)) (s_off s + o)); [lia|]. reflexivity.
Qed.

Theorem front_in dbg s : span_valid arr s -> s_size s <> 0 ->
  exists a l, contents arr s = a :: l /\ span_front dbg arr s = Ok a.
Proof using Type. clear Hlen.
  intros V H. destruct (at_in dbg s 0 V ltac:(lia)) as [a [E [_ I]]].
  destruct (contents arr s) as [|x l]; [discriminate|]. cbn in E. injection E as ->.
  exists a, l. split; [reflexivity|]. unfold span_front, span_empty.
  destruct (N.eqb_spec (s_size s) 0); [contradiction|]. unfold assert_. cbn [negb].
  rewrite andb_false_r. cbn [bind]. exact I.
Qed.

Theorem back_in dbg s : span_valid arr s -> s_size s <> 0 ->
  exists a l, contents arr s = l ++ [a] /\ span_back dbg arr s = Ok a.
Proof.
  intros V H. assert (V' := V). unfold span_valid in V'.
  destruct (at_in dbg s (s_size s - 1) V ltac:(lia)) as [a [E [_ I]]].
  pose proof (contents_length s V) as L.
  destruct (contents arr s) as [|x l _] using rev_ind; [simpl in L; lia|].
  rewrite app_length in L. cbn [length] in L.
  rewrite nth_error_app2 in E by lia. replace (_ - _)%nat with O in E by lia. injection E as ->.
  exists a, l. split; [reflexivity|]. unfold span_back, span_empty.
  destruct (N.eqb_spec (s_size s) 0); [contradiction|]. unfold assert_. cbn [negb].
  rewrite andb_false_r. cbn [bind].
  replace (s_size s + 2 ^ 64 - 1) with (s_size s - 1 + 1 * 2 ^ 64) by lia.
  rewrite N.mod_add by discriminate. rewrite N.mod_small; [exact I|].
  change (2 ^ 64) with 18446744073709551616. change (2 ^ 63) with 9223372036854775808 in Hlen. lia.
Qed.

Theorem empty_front_back_debug s : s_size s = 0 ->
  span_front true arr s = Abort /\ span_back true arr s = Abort.
Proof using Type. clear Hlen. intro H. unfold span_front, span_back, span_empty. rewrite H. auto. Qed.

Theorem overlaps_iff s p : s_size s <> 0 ->
  overlaps s p = Ok true /\ (exists i, i < s_size s /\ p = s_off s + i) \/
  overlaps s p = Ok false /\ ~ (exists i, i < s_size s /\ p = s_off s + i).
Proof using Type. clear Hlen.
  intro H. unfold overlaps, span_empty. destruct (N.eqb_spec (s_size s) 0); [contradiction|].
  destruct (N.leb_spec (s_off s) p); cbn [andb].
  - destruct (N.leb_spec p (s_off s + s_size s - 1)).
    + left. split; [reflexivity|]. exists (p - s_off s). lia.
    + right. split; [reflexivity|]. intros [i Hi]. lia.
  - right. split; [reflexivity|]. intros [i Hi]. lia.
Qed.

Theorem overlaps_empty s p : s_size s = 0 -> overlaps s p = UB BadPointer.
Proof using Type. clear Hlen. intro H. unfold overlaps, span_empty. rewrite H. reflexivity. Qed.

End P.

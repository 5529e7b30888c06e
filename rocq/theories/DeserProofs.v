From Verif Require Import Base BitLemmas ListLemmas SerialModel SerialSpec SerialProofs SpanModel DeserModel DeserSpec.
Local Open Scope N_scope.
Ltac Zify.zify_post_hook ::= Z.div_mod_to_equations.

Section P.
Variable dbg : bool.
Variable buf : list N.
Hypothesis Hbytes : bytes_ok buf = true.
Hypothesis Hlen : N.of_nat (length buf) < 2 ^ 63.

(** The deserializer looks at the unread tail of the buffer. *)
Definition rel (d : span) (r : reader) : Prop :=
  s_off d = pos r /\ s_size d = N.of_nat (length (rest r)) /\
  pos r + N.of_nat (length (rest r)) = N.of_nat (length buf) /\
  rest r = skipn (N.to_nat (pos r)) buf.

Lemma subspan_rest d n : s_off d + s_size d = N.of_nat (length buf) -> n <= s_size d ->
  subspan dbg buf d n size_max = Ok (Span (s_off d + n) (s_size d - n)).
Proof.
  intros Hd Hn. unfold subspan, arr_len.
  destruct (N.ltb_spec (N.of_nat (length buf)) (s_off d + n)); [lia|].
  destruct (N.leb_spec (s_off d + n) (s_off d + s_size d)); [|lia].
  unfold assert_. cbn [negb]. rewrite andb_false_r. cbn [bind].
  rewrite N.eqb_refl.
  assert (E : (s_off d + s_size d + 2 ^ 64 - (s_off d + n)) mod 2 ^ 64 = s_size d - n).
  { replace (s_off d + s_size d + 2 ^ 64 - (s_off d + n)) with (s_size d - n + 1 * 2 ^ 64) by lia.
    rewrite N.mod_add by discriminate. apply N.mod_small.
    change (2 ^ 64) with 18446744073709551616. change (2 ^ 63) with 9223372036854775808 in Hlen. lia. }
  rewrite E.
  destruct (N.ltb_spec (N.of_nat (length buf)) (s_off d + n + (s_size d - n))); [lia|].
  destruct (N.leb_spec (s_off d + n + (s_size d - n)) (s_off d + s_size d)); [|lia].
  cbn [negb]. rewrite !andb_false_r. cbn [bind]. reflexivity.
Qed.

Lemma subspan_first d n : s_off d + s_size d = N.of_nat (length buf) -> n <= s_size d ->
  subspan dbg buf d 0 n = Ok (Span (s_off d) n).
Proof.
  intros Hd Hn. unfold subspan, arr_len. rewrite N.add_0_r.
  destruct (N.ltb_spec (N.of_nat (length buf)) (s_off d)); [lia|].
  destruct (N.leb_spec (s_off d) (s_off d + s_size d)); [|lia].
  unfold assert_. cbn [negb]. rewrite andb_false_r. cbn [bind].
  assert (E : n =? size_max = false).
  { apply N.eqb_neq. unfold size_max. change (2 ^ 64 - 1) with 18446744073709551615.
    change (2 ^ 63) with 9223372036854775808 in Hlen. lia. }
  rewrite E.
  destruct (N.ltb_spec (N.of_nat (length buf)) (s_off d + n)); [lia|].
  destruct (N.leb_spec (s_off d + n) (s_off d + s_size d)); [|lia].
  cbn [negb]. rewrite !andb_false_r. cbn [bind]. reflexivity.
Qed.

Lemma rel_split d r n : rel d r -> n <= s_size d ->
  buf = firstn (N.to_nat (pos r)) buf ++ firstn (N.to_nat n) (rest r) ++ skipn (N.to_nat n) (rest r) /\
  length (firstn (N.to_nat (pos r)) buf) = N.to_nat (s_off d) /\
  length (firstn (N.to_nat n) (rest r)) = N.to_nat n.
Proof.
  intros [R1 [R2 [R3 R4]]] Hn. rewrite firstn_skipn, R4, firstn_skipn.
  repeat split.
  - rewrite firstn_length. lia.
  - rewrite firstn_length, <- R4. lia.
Qed.

Lemma bytes_firstn l n : bytes_ok l = true -> bytes_ok (firstn n l) = true.
Proof.
  intro H. unfold bytes_ok in *. rewrite <- (firstn_skipn n l), forallb_app in H.
  apply andb_true_iff in H. tauto.
Qed.

Lemma bytes_skipn l n : bytes_ok l = true -> bytes_ok (skipn n l) = true.
Proof.
  intro H. unfold bytes_ok in *. rewrite <- (firstn_skipn n l), forallb_app in H.
  apply andb_true_iff in H. tauto.
Qed.

Lemma rel_advance d r n : rel d r -> n <= s_size d ->
  rel (Span (s_off d + n) (s_size d - n)) (Reader (pos r + n) (skipn (N.to_nat n) (rest r))).
Proof.
  intros [R1 [R2 [R3 R4]]] Hn. unfold rel. cbn [s_off s_size pos rest].
  rewrite skipn_length. repeat split; try lia.
  rewrite R4, skipn_skipn. f_equal. lia.
Qed.

Lemma get_le d r w : rel d r -> (w <= 8)%nat -> N.of_nat w <= s_size d ->
  deserialize_le w (N.to_nat (s_off d)) buf = Ok (le_value (firstn w (rest r))).
Proof.
  intros R Hw Hs. destruct (rel_split d r (N.of_nat w) R Hs) as [E [L1 L2]].
  rewrite Nat2N.id in *. rewrite E, <- L1. rewrite <- L2 at 1.
  apply deserialize_le_spec.
  - apply bytes_firstn. destruct R as [_ [_ [_ ->]]]. apply bytes_skipn, Hbytes.
  - rewrite L2. exact Hw.
Qed.

Lemma get_be d r w : rel d r -> (w <= 8)%nat -> N.of_nat w <= s_size d ->
  deserialize_be dbg w (N.to_nat (s_off d)) buf = Ok (be_value (firstn w (rest r))).
Proof.
  intros R Hw Hs. destruct (rel_split d r (N.of_nat w) R Hs) as [E [L1 L2]].
  rewrite Nat2N.id in *. rewrite E, <- L1. rewrite <- L2 at 1.
  apply deserialize_be_spec.
  - apply bytes_firstn. destruct R as [_ [_ [_ ->]]]. apply bytes_skipn, Hbytes.
  - rewrite L2. exact Hw.
Qed.

Lemma front_spec d r : rel d r -> 1 <= s_size d ->
  span_front dbg buf d = Ok (le_value (firstn 1 (rest r))).
Proof.
  intros R Hs. pose proof R as [R1 [R2 [R3 R4]]].
  unfold span_front, span_index, span_empty, load_at, arr_len.
  destruct (N.eqb_spec (s_size d) 0); [lia|]. destruct (N.ltb_spec 0 (s_size d)); [|lia].
  unfold assert_. cbn [negb]. rewrite !andb_false_r. cbn [bind]. rewrite N.add_0_r.
  destruct (N.ltb_spec (s_off d) (N.of_nat (length buf))); [|lia].
  destruct (rest r) as [|b l] eqn:E; [simpl in R2; lia|].
  assert (nth_error buf (N.to_nat (s_off d)) = Some b) as ->.
  { rewrite R1. rewrite <- (firstn_skipn (N.to_nat (pos r)) buf), <- R4.
    rewrite nth_error_app2; rewrite firstn_length; [|lia].
    replace (_ - _)%nat with O by lia. reflexivity. }
  cbn [firstn le_value]. f_equal. lia.
Qed.

Lemma step_spec d r o : rel d r -> op_ok o ->
  let '(x, d') := step dbg buf d o in
  let '(y, r') := spec_step r o in
  x = y /\ rel d' r'.
Proof.
  intros R Ho. pose proof R as [R1 [R2 [R3 R4]]].
  assert (Hend : s_off d + s_size d = N.of_nat (length buf)) by lia.
  unfold step, spec_step. rewrite <- R2.
  destruct (N.leb_spec (need o) (s_size d)) as [Hn|Hn].
  - assert (R' := rel_advance d r (need o) R Hn).
    destruct o; cbn [need] in *; cbn [call];
      unfold read_view, read_uint8, read_uint16_le, read_uint32_le, read_uint64_le, read_float_le,
             read_uint16_be, read_uint32_be, read_uint64_be, read_float_be, skip, read_fixed,
             as_int, as_float, deserialize_float_le, deserialize_float_be;
      try (match goal with |- context [s_size d <? ?n] => destruct (N.ltb_spec (s_size d) n); [lia|] end);
      rewrite ?subspan_first by assumption; cbn [bind];
      rewrite ?(front_spec d r R) by lia;
      rewrite ?(get_le d r _ R) by lia; rewrite ?(get_be d r _ R) by lia; cbn [bind];
      rewrite ?subspan_rest by assumption; cbn [bind value_of];
      (split; [rewrite ?R1; try reflexivity|exact R' || idtac]).
    + rewrite N.add_0_r. change (N.to_nat 0) with 0%nat. cbn [skipn]. destruct r; exact R.
    + rewrite N.add_0_r. change (N.to_nat 0) with 0%nat. cbn [skipn]. destruct r; exact R.
  - destruct o; cbn [need] in *; cbn [call];
      unfold read_view, read_uint8, read_uint16_le, read_uint32_le, read_uint64_le, read_float_le,
             read_uint16_be, read_uint32_be, read_uint64_be, read_float_be, skip, read_fixed;
      try (match goal with |- context [s_size d <? ?n] => destruct (N.ltb_spec (s_size d) n); [|lia] end);
      try lia; split; try reflexivity; exact R.
Qed.

Lemma run_spec ops : forall d r, rel d r -> Forall op_ok ops ->
  let '(xs, d') := run dbg buf d ops in
  let '(ys, r') := spec_run r ops in
  xs = ys /\ rel d' r'.
Proof.
  induction ops as [|o ops IH]; intros d r R Ho; cbn [run spec_run]; [auto|].
  inversion Ho; subst.
  pose proof (step_spec d r o R H1) as S.
  destruct (step dbg buf d o) as [x d1]. destruct (spec_step r o) as [y r1]. destruct S as [-> R1].
  specialize (IH d1 r1 R1 H2).
  destruct (run dbg buf d1 ops) as [xs d2]. destruct (spec_run r1 ops) as [ys r2].
  destruct IH as [-> R2]. auto.
Qed.

Lemma rel_make : rel (make buf) (Reader 0 buf).
Proof. unfold rel, make. cbn. repeat split; lia. Qed.

Theorem run_make ops : Forall op_ok ops ->
  let '(xs, d') := run dbg buf (make buf) ops in
  let '(ys, r') := spec_run (Reader 0 buf) ops in
  xs = ys /\ d' = Span (pos r') (N.of_nat (length (rest r'))) /\
  rest r' = skipn (N.to_nat (pos r')) buf /\
  pos r' + N.of_nat (length (rest r')) = N.of_nat (length buf).
Proof.
  intro Ho. pose proof (run_spec ops _ _ rel_make Ho) as S.
  destruct (run dbg buf (make buf) ops) as [xs d']. destruct (spec_run _ ops) as [ys r'].
  destruct S as [-> [S1 [S2 [S3 S4]]]]. split; [reflexivity|]. split; [|auto].
  destruct d'; cbn in *; congruence.
Qed.

(** A view returned at position [p] of length [n] shows exactly these bytes of the buffer. *)
Lemma view_contents r n : rest r = skipn (N.to_nat (pos r)) buf ->
  contents buf (Span (pos r) n) = firstn (N.to_nat n) (rest r).
Proof. intros ->. reflexivity. Qed.

End P.


(** ** Writing and reading records *)
Definition enc (r : record) : list N :=
  match r with
  | WU8 v => le_bytes 1 v
  | WU16le v => le_bytes 2 v | WU32le v => le_bytes 4 v | WU64le v => le_bytes 8 v
  | WFloatle f => rev (ieee_bytes (f_sign f) (f_expo f) (f_frac f))
  | WU16be v => be_bytes 2 v | WU32be v => be_bytes 4 v | WU64be v => be_bytes 8 v
  | WFloatbe f => ieee_bytes (f_sign f) (f_expo f) (f_frac f)
  | WString s | WBlock s | WGap s => s
  end.


Lemma enc_length r : length (enc r) = record_size r.
Proof.
  destruct r; cbn [enc record_size]; rewrite ?le_bytes_length, ?be_bytes_length, ?rev_length; reflexivity.
Qed.

Lemma copy_out_spec s : forall pre old post, length old = length s ->
  copy_out s (length pre) (pre ++ old ++ post) = Ok (pre ++ s ++ post, (length pre + length s)%nat).
Proof.
  induction s as [|b s IH]; intros pre old post H.
  - destruct old; [|discriminate]. cbn [copy_out app length]. rewrite Nat.add_0_r. reflexivity.
  - destruct old as [|x old]; [discriminate|]. injection H as H. cbn [copy_out app].
    rewrite store_app. cbn [bind].
    replace (pre ++ b :: old ++ post) with ((pre ++ [b]) ++ old ++ post) by (rewrite <- app_assoc; reflexivity).
    replace (S (length pre)) with (length (pre ++ [b])) by (rewrite app_length; simpl; lia).
    rewrite IH by exact H. rewrite <- app_assoc. cbn [app]. do 2 f_equal.
    rewrite app_length. simpl. lia.
Qed.

Lemma write_spec dbg r pre old post : record_ok r -> length old = record_size r ->
  write dbg r (length pre) (pre ++ old ++ post) =
  Ok (pre ++ enc r ++ post, (length pre + record_size r)%nat).
Proof.
  intros Hr Hl. destruct r; cbn [write enc record_size record_ok] in *;
    first [ apply serialize_le_spec; exact Hl
          | apply serialize_be_spec; [exact Hl|lia]
          | apply serialize_float_le_spec; [exact Hr|exact Hl]
          | apply serialize_float_be_spec; [exact Hr|exact Hl]
          | apply copy_out_spec; exact Hl ].
Qed.

Lemma write_all_spec dbg rs : forall pre old post, Forall record_ok rs -> length old = total rs ->
  write_all dbg rs (length pre) (pre ++ old ++ post) =
  Ok (pre ++ flat_map enc rs ++ post, (length pre + total rs)%nat).
Proof.
  induction rs as [|r rs IH]; intros pre old post Hr Hl.
  - destruct old; [|discriminate]. cbn [write_all flat_map total fold_right app]. rewrite Nat.add_0_r. reflexivity.
  - inversion Hr as [|? ? H1 H2]; subst. cbn [total fold_right] in Hl. fold (total rs) in Hl.
    rewrite <- (firstn_skipn (record_size r) old). rewrite <- app_assoc.
    cbn [write_all]. rewrite write_spec by (auto; rewrite firstn_length; lia). cbn [bind fst snd].
    replace (pre ++ enc r ++ skipn (record_size r) old ++ post)
      with ((pre ++ enc r) ++ skipn (record_size r) old ++ post) by (rewrite <- app_assoc; reflexivity).
    replace (length pre + record_size r)%nat with (length (pre ++ enc r))
      by (rewrite app_length, enc_length; reflexivity).
    rewrite IH by (auto; rewrite skipn_length; lia).
    cbn [flat_map total fold_right]. fold (total rs). rewrite <- !app_assoc. do 2 f_equal.
    rewrite app_length, enc_length. lia.
Qed.

Lemma enc_total rs : length (flat_map enc rs) = total rs.
Proof.
  induction rs as [|r rs IH]; [reflexivity|].
  cbn [flat_map total fold_right]. rewrite app_length, enc_length, IH. reflexivity.
Qed.

Lemma need_reader r : record_ok r -> N.to_nat (need (reader_of r)) = record_size r.
Proof. intros _. destruct r; cbn [reader_of need record_size]; try reflexivity; lia. Qed.

Lemma value_gave m p r tail : record_ok r -> skipn (N.to_nat p) m = enc r ++ tail ->
  gave m (Ok (value_of (reader_of r) p (enc r) (N.of_nat (length (enc r ++ tail))))) r.
Proof.
  intros Hr Hm.
  destruct r; cbn [reader_of value_of gave record_ok enc] in *;
    rewrite ?le_value_bytes, ?be_value_bytes by (cbn in *; exact Hr); try reflexivity; try exact I.
  - unfold float_of_le. change (le_value (rev ?x)) with (be_value x).
    rewrite ieee_be_value, float_of_float_bits by exact Hr. reflexivity.
  - unfold float_of_be. rewrite ieee_be_value, float_of_float_bits by exact Hr. reflexivity.
  - unfold contents. cbn [s_off s_size]. rewrite Hm, Nat2N.id. apply firstn_app_exact.
  - unfold contents. cbn [s_off s_size]. rewrite Hm, Nat2N.id. apply firstn_app_exact.
Qed.

Lemma spec_run_records m rs : forall p tail, Forall record_ok rs ->
  skipn (N.to_nat p) m = flat_map enc rs ++ tail ->
  let '(xs, r') := spec_run (Reader p (flat_map enc rs ++ tail)) (map reader_of rs) in
  Forall2 (gave m) xs rs /\ r' = Reader (p + N.of_nat (total rs)) tail.
Proof.
  induction rs as [|r rs IH]; intros p tail Hr Hm.
  - cbn. rewrite N.add_0_r. auto.
  - inversion Hr as [|? ? H1 H2]; subst. cbn [map spec_run flat_map] in *. rewrite <- app_assoc in *.
    unfold spec_step. cbn [pos rest].
    assert (Hn : need (reader_of r) = N.of_nat (record_size r)) by (rewrite <- (need_reader r) by exact H1; lia).
    rewrite Hn, Nat2N.id.
    destruct (N.leb_spec (N.of_nat (record_size r)) (N.of_nat (length (enc r ++ flat_map enc rs ++ tail)))) as [Hle|Hle].
    2:{ rewrite app_length, enc_length in Hle. lia. }
    rewrite <- enc_length. rewrite firstn_app_exact, skipn_app_exact.
    pose proof (value_gave m p r _ H1 Hm) as G.
    assert (Hm' : skipn (N.to_nat (p + N.of_nat (length (enc r)))) m = flat_map enc rs ++ tail).
    { replace (N.to_nat (p + N.of_nat (length (enc r)))) with (N.to_nat p + length (enc r))%nat by lia.
      rewrite <- skipn_skipn, Hm. apply skipn_app_exact. }
    specialize (IH _ _ H2 Hm').
    destruct (spec_run _ (map reader_of rs)) as [xs r']. destruct IH as [I1 I2].
    split; [constructor; [exact G|exact I1]|].
    rewrite I2. f_equal. rewrite enc_length. cbn [total fold_right]. fold (total rs). lia.
Qed.

Lemma enc_ok r : record_ok r -> bytes_ok (enc r) = true.
Proof.
  intro H. destruct r; cbn [enc record_ok] in *; try apply le_bytes_ok; try apply be_bytes_ok; try exact H.
  - rewrite bytes_ok_rev. apply ieee_bytes_ok, H.
  - apply ieee_bytes_ok, H.
Qed.

Lemma enc_all_ok rs : Forall record_ok rs -> bytes_ok (flat_map enc rs) = true.
Proof.
  induction 1 as [|r rs H _ IH]; [reflexivity|]. cbn [flat_map].
  unfold bytes_ok in *. rewrite forallb_app, IH. apply andb_true_iff. split; [apply enc_ok, H|reflexivity].
Qed.

Theorem write_read dbg rs m : Forall record_ok rs -> bytes_ok m = true ->
  N.of_nat (length m) < 2 ^ 63 -> (total rs <= length m)%nat ->
  exists m', write_all dbg rs 0 m = Ok (m', total rs) /\
    length m' = length m /\ skipn (total rs) m' = skipn (total rs) m /\
    let '(xs, d') := run dbg m' (make m') (map reader_of rs) in
    Forall2 (gave m') xs rs /\
    d' = Span (N.of_nat (total rs)) (N.of_nat (length m - total rs)).
Proof.
  intros Hr Hb Hl Ht.
  exists (flat_map enc rs ++ skipn (total rs) m).
  assert (L : length (flat_map enc rs ++ skipn (total rs) m) = length m)
    by (rewrite app_length, enc_total, skipn_length; lia).
  split; [|split; [|split]].
  - pose proof (write_all_spec dbg rs [] (firstn (total rs) m) (skipn (total rs) m) Hr) as W.
    cbn [app length Nat.add] in W. rewrite firstn_skipn in W. apply W. rewrite firstn_length. lia.
  - exact L.
  - rewrite <- enc_total at 1. apply skipn_app_exact.
  - set (m' := flat_map enc rs ++ skipn (total rs) m) in *.
    assert (Hb' : bytes_ok m' = true).
    { unfold m', bytes_ok. rewrite forallb_app. apply andb_true_iff. split.
      - apply enc_all_ok, Hr.
      - apply bytes_skipn, Hb. }
    assert (Ho : Forall op_ok (map reader_of rs)).
    { apply Forall_forall. intros o Ho. apply in_map_iff in Ho. destruct Ho as [r [<- Hin]].
      assert (Hrr : record_ok r) by (rewrite Forall_forall in Hr; apply Hr, Hin).
      unfold op_ok. assert (record_size r <= total rs)%nat.
      { clear - Hin. induction rs as [|x rs IH]; [destruct Hin|].
        cbn [total fold_right]. fold (total rs). destruct Hin as [->|Hin]; [lia|].
        specialize (IH Hin). lia. }
      pose proof (need_reader r Hrr).
      change (2 ^ 64) with 18446744073709551616. change (2 ^ 63) with 9223372036854775808 in Hl. lia. }
    assert (Hl' : N.of_nat (length m') < 2 ^ 63) by (rewrite L; exact Hl).
    pose proof (run_make dbg m' Hb' Hl' (map reader_of rs) Ho) as R.
    pose proof (spec_run_records m' rs 0 (skipn (total rs) m) Hr eq_refl) as S.
    fold m' in S.
    destruct (run dbg m' (make m') (map reader_of rs)) as [xs d'].
    destruct (spec_run (Reader 0 m') (map reader_of rs)) as [ys r'].
    destruct R as [-> [-> _]]. destruct S as [S1 ->]. split; [exact S1|].
    cbn [pos rest]. rewrite skipn_length. reflexivity.
Qed.

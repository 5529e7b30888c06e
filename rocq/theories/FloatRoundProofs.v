(** Facts about the specification of rounding: values of patterns, uniqueness and monotonicity of the
    nearest pattern, and a way to establish that a pattern is the nearest one. *)
From Verif Require Import Base FloatSpec.
Local Open Scope Z_scope.

Definition good_format (f : format) : Prop := 1 <= mant_bits f /\ 2 <= top_field f /\ 0 <= unit_exp f.
Lemma good_binary32 : good_format binary32.
Proof. repeat split; cbn; lia. Qed.
Lemma good_binary64 : good_format binary64.
Proof. repeat split; cbn; lia. Qed.

Section Fmt.
Context (f : format) (G : good_format f).
Local Notation B := (2 ^ mant_bits f).

Lemma B_pos : 2 <= B.
Proof. destruct G as [H _]. change 2 with (2 ^ 1) at 1. apply Z.pow_le_mono_r; lia. Qed.
Lemma B_even : Z.even B = true.
Proof. destruct G as [H _]. replace (mant_bits f) with (mant_bits f - 1 + 1) by lia. rewrite Z.pow_add_r by lia.
  rewrite Z.even_mul. rewrite orb_true_r. reflexivity. Qed.

(** The pattern made of an exponent step [k] and a significand [m]. *)
Lemma scaled_at (k m : Z) : 0 <= k -> 0 <= m <= 2 * B -> (0 < k -> B <= m) -> scaled f (k * B + m) = m * 2 ^ k.
Proof.
  intros K M L. pose proof B_pos as BP. unfold scaled.
  set (b := 2 ^ mant_bits f) in *.
  assert (C : m < b \/ b <= m < 2 * b \/ m = 2 * b) by lia.
  destruct C as [C|[C|C]].
  - assert (k = 0) by lia. subst k. rewrite Z.mul_0_l, Z.add_0_l.
    rewrite Z.div_small, Z.mod_small by lia. cbn. lia.
  - replace (k * b + m) with (m - b + (k + 1) * b) by ring.
    rewrite Z.div_add, Z.mod_add by lia. rewrite (Z.div_small (m - b)), (Z.mod_small (m - b)) by lia.
    replace (0 + (k + 1) =? 0) with false by lia. replace (0 + (k + 1) - 1) with k by lia. f_equal. lia.
  - subst m. replace (k * b + 2 * b) with (0 + (k + 2) * b) by ring.
    rewrite Z.div_add, Z.mod_add by lia. rewrite (Z.div_small 0), (Z.mod_small 0) by lia.
    replace (0 + (k + 2) =? 0) with false by lia. replace (0 + (k + 2) - 1) with (k + 1) by lia.
    rewrite Z.pow_add_r by lia. ring.
Qed.

(** Every pattern is of that form. *)
Lemma pattern_split (n : Z) : 0 <= n -> exists k m, n = k * B + m /\ 0 <= k /\ 0 <= m < 2 * B /\ (0 < k -> B <= m).
Proof.
  intro H. pose proof B_pos as BP. set (b := 2 ^ mant_bits f) in *.
  pose proof (Z.div_mod n b ltac:(lia)) as E. pose proof (Z.mod_pos_bound n b ltac:(lia)) as R.
  assert (0 <= n / b) by (apply Z.div_pos; lia).
  destruct (Z.eq_dec (n / b) 0) as [Z0|NZ].
  - exists 0, n. rewrite Z0 in E. repeat split; lia.
  - exists (n / b - 1), (n mod b + b). repeat split; try lia.
Qed.

Lemma scaled_step (n : Z) : 0 <= n -> scaled f n < scaled f (n + 1).
Proof.
  intro H. destruct (pattern_split n H) as [k [m [-> [K [M L]]]]].
  rewrite <- Z.add_assoc. rewrite !scaled_at by lia.
  assert (0 < 2 ^ k) by (apply Z.pow_pos_nonneg; lia). nia.
Qed.
Lemma scaled_lt (n n' : Z) : 0 <= n < n' -> scaled f n < scaled f n'.
Proof.
  intros [H L]. replace n' with (n + Z.of_nat (S (Z.to_nat (n' - n - 1)))) by lia.
  induction (Z.to_nat (n' - n - 1)) as [|j IH].
  - apply scaled_step, H.
  - eapply Z.lt_trans; [exact IH|].
    replace (n + Z.of_nat (S (S j))) with (n + Z.of_nat (S j) + 1) by lia. apply scaled_step. lia.
Qed.
Lemma scaled_le (n n' : Z) : 0 <= n <= n' -> scaled f n <= scaled f n'.
Proof.
  intros [H L]. destruct (Z.eq_dec n n') as [->|N]; [lia|]. apply Z.lt_le_incl, scaled_lt. lia.
Qed.
Lemma scaled_0 : scaled f 0 = 0.
Proof. replace 0 with (0 * B + 0) at 1 by lia. rewrite scaled_at; [reflexivity| | |]; pose proof B_pos; lia. Qed.
Lemma scaled_nonneg (n : Z) : 0 <= n -> 0 <= scaled f n.
Proof. intro H. rewrite <- scaled_0. apply scaled_le. lia. Qed.

Definition middle (n : Z) : Z := scaled f n + scaled f (n + 1).
Lemma middle_lt (n n' : Z) : 0 <= n < n' -> middle n < middle n'.
Proof. intro H. unfold middle. pose proof (scaled_lt n n' H). pose proof (scaled_lt (n + 1) (n' + 1) ltac:(lia)). lia. Qed.

Lemma nearest_unfold num den n : nearest f num den n <->
  0 <= n <= infinity f /\
  (0 < n -> middle (n - 1) * den <= 2 * num * 2 ^ unit_exp f /\
            (Z.odd n = true -> middle (n - 1) * den < 2 * num * 2 ^ unit_exp f)) /\
  (n < infinity f -> 2 * num * 2 ^ unit_exp f <= middle n * den /\
            (Z.odd n = true -> 2 * num * 2 ^ unit_exp f < middle n * den)).
Proof. unfold nearest, middle. replace (n - 1 + 1) with n by lia. reflexivity. Qed.

(** The nearest pattern grows with the number; so it is unique. *)
Lemma nearest_mono num den n num' den' n' : 0 < den -> 0 < den' -> 0 <= num -> 0 <= num' ->
  num * den' <= num' * den -> nearest f num den n -> nearest f num' den' n' -> n <= n'.
Proof.
  intros D D' N0 N0' L H H'. apply (proj1 (nearest_unfold _ _ _)) in H; apply (proj1 (nearest_unfold _ _ _)) in H'.
  destruct H as [R [A _]], H' as [R' [_ A']].
  destruct (Z_le_gt_dec n n') as [X|X]; [exact X|exfalso].
  specialize (A ltac:(lia)). specialize (A' ltac:(lia)).
  assert (U : 0 < 2 ^ unit_exp f) by (apply Z.pow_pos_nonneg; destruct G; lia).
  set (u := 2 ^ unit_exp f) in *.
  assert (LE : 2 * num * u * den' <= 2 * num' * u * den) by nia.
  assert (NN : 0 <= middle n') by (unfold middle; pose proof (scaled_nonneg n' ltac:(lia)); pose proof (scaled_nonneg (n' + 1) ltac:(lia)); lia).
  destruct (Z.eq_dec (n - 1) n') as [E|NE].
  - rewrite E in A. destruct A as [A1 A2], A' as [A1' A2'].
    assert (O : Z.odd n = true \/ Z.odd n' = true).
    { rewrite <- E. replace n with (n - 1 + 1) at 1 by lia. rewrite Z.odd_add. cbn.
      destruct (Z.odd (n - 1)); cbn; auto. }
    destruct O as [O|O].
    + specialize (A2 O). nia.
    + specialize (A2' O). nia.
  - pose proof (middle_lt n' (n - 1) ltac:(lia)) as M. destruct A as [A _], A' as [A' _].
    assert (M1 : middle (n - 1) * den * den' <= 2 * num * u * den') by (apply Z.mul_le_mono_nonneg_r; lia).
    assert (M2 : 2 * num' * u * den <= middle n' * den' * den) by (apply Z.mul_le_mono_nonneg_r; lia).
    assert (M3 : middle n' * (den * den') < middle (n - 1) * (den * den')) by (apply Z.mul_lt_mono_pos_r; nia).
    lia.
Qed.
Lemma nearest_unique num den n n' : 0 < den -> 0 <= num -> nearest f num den n -> nearest f num den n' -> n = n'.
Proof.
  intros D N H H'. apply Z.le_antisymm; eapply (nearest_mono num den _ num den); eauto; lia.
Qed.

(** Only the quotient matters. *)
Lemma nearest_scale num den c n : 0 < c -> nearest f (c * num) (c * den) n <-> nearest f num den n.
Proof.
  intro C. rewrite !nearest_unfold.
  set (u := 2 ^ unit_exp f).
  assert (E1 : forall z, z * (c * den) <= 2 * (c * num) * u <-> z * den <= 2 * num * u) by (intro; split; intro; nia).
  assert (E2 : forall z, z * (c * den) < 2 * (c * num) * u <-> z * den < 2 * num * u) by (intro; split; intro; nia).
  assert (E3 : forall z, 2 * (c * num) * u <= z * (c * den) <-> 2 * num * u <= z * den) by (intro; split; intro; nia).
  assert (E4 : forall z, 2 * (c * num) * u < z * (c * den) <-> 2 * num * u < z * den) by (intro; split; intro; nia).
  rewrite E1, E2, E3, E4. tauto.
Qed.
Lemma nearest_eq num den num' den' n : 0 < den -> 0 < den' -> num * den' = num' * den ->
  nearest f num den n -> nearest f num' den' n.
Proof.
  intros D D' E H. apply (nearest_scale _ _ den' n D') in H.
  apply (nearest_scale _ _ den n D). replace (den * num') with (den' * num) by lia.
  rewrite (Z.mul_comm den den'). exact H.
Qed.

(** A number between two numbers with the same nearest pattern has it, too. *)
Lemma nearest_between num1 den1 num den num2 den2 n : 0 < den1 -> 0 < den -> 0 < den2 ->
  num1 * den <= num * den1 -> num * den2 <= num2 * den ->
  nearest f num1 den1 n -> nearest f num2 den2 n -> nearest f num den n.
Proof.
  intros D1 D D2 L1 L2 H1 H2. apply (proj1 (nearest_unfold _ _ _)) in H1; apply (proj1 (nearest_unfold _ _ _)) in H2. apply (proj2 (nearest_unfold _ _ _)).
  destruct H1 as [R [A1 _]], H2 as [_ [_ A2]].
  assert (U : 0 < 2 ^ unit_exp f) by (apply Z.pow_pos_nonneg; destruct G; lia).
  set (u := 2 ^ unit_exp f) in *.
  assert (E1 : 2 * num1 * u * den <= 2 * num * u * den1) by nia.
  assert (E2 : 2 * num * u * den2 <= 2 * num2 * u * den) by nia.
  split; [exact R|split].
  - intro P. specialize (A1 P). destruct A1 as [X Y]. split.
    + nia.
    + intro O. specialize (Y O). nia.
  - intro P. specialize (A2 P). destruct A2 as [X Y]. split.
    + nia.
    + intro O. specialize (Y O). nia.
Qed.

Lemma odd_pattern (k m : Z) : Z.odd (k * B + m) = Z.odd m.
Proof.
  rewrite Z.odd_add, Z.odd_mul. rewrite <- (Z.negb_even B), B_even. cbn.
  rewrite andb_false_r. destruct (Z.odd m); reflexivity.
Qed.
Lemma odd_infinity : Z.odd (infinity f) = false.
Proof. unfold infinity. rewrite Z.odd_mul, <- (Z.negb_even B), B_even. cbn. apply andb_false_r. Qed.

(** The nearest pattern from a rounded significand. *)
Lemma nearest_intro num den k m : 0 < den -> 0 <= k -> 0 <= m <= 2 * B -> (0 < k -> B <= m) ->
  k * B + m <= infinity f ->
  (0 < k * B + m -> (2 * m - 1) * 2 ^ k * den <= 2 * num * 2 ^ unit_exp f) ->
  (Z.odd m = true -> (2 * m - 1) * 2 ^ k * den < 2 * num * 2 ^ unit_exp f) ->
  (0 < k -> 2 * B * 2 ^ k * den <= 2 * num * 2 ^ unit_exp f) ->
  2 * num * 2 ^ unit_exp f <= (2 * m + 1) * 2 ^ k * den ->
  (Z.odd m = true -> 2 * num * 2 ^ unit_exp f < (2 * m + 1) * 2 ^ k * den) ->
  nearest f num den (k * B + m).
Proof.
  intros D K M L I H1 H2 H3 H4 H5. apply (proj2 (nearest_unfold _ _ _)). rewrite odd_pattern.
  pose proof B_pos as BP. assert (PK : 0 < 2 ^ k) by (apply Z.pow_pos_nonneg; lia).
  set (t := 2 * num * 2 ^ unit_exp f) in *.
  split; [nia|]. split.
  - intro P. unfold middle. replace (k * B + m - 1 + 1) with (k * B + m) by lia.
    rewrite (scaled_at k m) by lia.
    destruct (Z_lt_le_dec 0 k) as [KP|KZ]; [destruct (Z.eq_dec m B) as [ME|MN]|].
    + replace (k * B + m - 1) with ((k - 1) * B + (2 * B - 1)) by lia.
      rewrite scaled_at by lia.
      assert (PK' : 0 < 2 ^ (k - 1)) by (apply Z.pow_pos_nonneg; lia).
      assert (E : 2 ^ k = 2 * 2 ^ (k - 1)).
      { replace k with (k - 1 + 1) at 1 by lia. rewrite Z.pow_add_r by lia. lia. }
      specialize (H3 KP). subst m.
      assert (X : ((2 * B - 1) * 2 ^ (k - 1) + B * 2 ^ k) * den < 2 * B * 2 ^ k * den).
      { apply Z.mul_lt_mono_pos_r; [lia|]. rewrite E. nia. }
      split; [lia|intro; lia].
    + replace (k * B + m - 1) with (k * B + (m - 1)) by lia. rewrite scaled_at by lia.
      replace ((m - 1) * 2 ^ k + m * 2 ^ k) with ((2 * m - 1) * 2 ^ k) by ring. auto.
    + assert (k = 0) by lia. subst k.
      replace (0 * B + m - 1) with (0 * B + (m - 1)) by lia. rewrite scaled_at by lia.
      replace ((m - 1) * 2 ^ 0 + m * 2 ^ 0) with ((2 * m - 1) * 2 ^ 0) by ring. auto.
  - intro P. unfold middle. rewrite (scaled_at k m) by lia.
    destruct (Z.eq_dec m (2 * B)) as [ME|MN].
    + replace (k * B + m + 1) with ((k + 1) * B + (B + 1)) by lia. rewrite scaled_at by lia.
      rewrite Z.pow_add_r by lia.
      assert (X : (2 * m + 1) * 2 ^ k * den <= (m * 2 ^ k + (B + 1) * (2 ^ k * 2 ^ 1)) * den).
      { apply Z.mul_le_mono_nonneg_r; [lia|]. subst m. change (2 ^ 1) with 2. nia. }
      split; [lia|]. intro O. specialize (H5 O). lia.
    + replace (k * B + m + 1) with (k * B + (m + 1)) by lia. rewrite scaled_at by lia.
      replace (m * 2 ^ k + (m + 1) * 2 ^ k) with ((2 * m + 1) * 2 ^ k) by ring. auto.
Qed.

(** Infinity, when the number is at least halfway between the last pattern and the next one. *)
Lemma nearest_infinity num den k m : 0 < den -> 0 <= k -> B <= m <= 2 * B ->
  infinity f <= k * B + m ->
  (2 * m - 1) * 2 ^ k * den <= 2 * num * 2 ^ unit_exp f ->
  (0 < k -> 2 * B * 2 ^ k * den <= 2 * num * 2 ^ unit_exp f) ->
  nearest f num den (infinity f).
Proof.
  intros D K M I H H3. apply (proj2 (nearest_unfold _ _ _)). rewrite odd_infinity.
  pose proof B_pos as BP. assert (PK : 0 < 2 ^ k) by (apply Z.pow_pos_nonneg; lia).
  assert (IP : 0 < infinity f) by (unfold infinity; destruct G as [_ [? _]]; nia).
  set (t := 2 * num * 2 ^ unit_exp f) in *.
  split; [lia|]. split; [|lia]. intros _. split; [|discriminate].
  assert (X : middle (infinity f - 1) <= middle (k * B + m - 1)).
  { destruct (Z.eq_dec (infinity f) (k * B + m)) as [->|N]; [lia|]. apply Z.lt_le_incl, middle_lt. lia. }
  apply Z.le_trans with (middle (k * B + m - 1) * den); [apply Z.mul_le_mono_nonneg_r; lia|].
  unfold middle. replace (k * B + m - 1 + 1) with (k * B + m) by lia.
  rewrite (scaled_at k m) by lia.
  destruct (Z_lt_le_dec 0 k) as [KP|KZ]; [destruct (Z.eq_dec m B) as [ME|MN]|].
  + replace (k * B + m - 1) with ((k - 1) * B + (2 * B - 1)) by lia.
    rewrite scaled_at by lia.
    assert (E : 2 ^ k = 2 * 2 ^ (k - 1)).
    { replace k with (k - 1 + 1) at 1 by lia. rewrite Z.pow_add_r by lia. lia. }
    assert (PK' : 0 < 2 ^ (k - 1)) by (apply Z.pow_pos_nonneg; lia).
    specialize (H3 KP). subst m. eapply Z.le_trans; [|exact H3].
    apply Z.mul_le_mono_nonneg_r; [lia|]. rewrite E. nia.
  + replace (k * B + m - 1) with (k * B + (m - 1)) by lia. rewrite scaled_at by lia.
    replace ((m - 1) * 2 ^ k + m * 2 ^ k) with ((2 * m - 1) * 2 ^ k) by ring. auto.
  + assert (k = 0) by lia. subst k.
    replace (0 * B + m - 1) with (0 * B + (m - 1)) by lia. rewrite scaled_at by lia.
    replace ((m - 1) * 2 ^ 0 + m * 2 ^ 0) with ((2 * m - 1) * 2 ^ 0) by ring. auto.
Qed.

(** The nearest pattern is at least as close as any other finite one. *)
Lemma nearest_closest num den n n' : 0 < den -> 0 <= num -> nearest f num den n -> n < infinity f -> 0 <= n' ->
  Z.abs (num * 2 ^ unit_exp f - scaled f n * den) <= Z.abs (num * 2 ^ unit_exp f - scaled f n' * den).
Proof.
  intros D N H F P. apply (proj1 (nearest_unfold _ _ _)) in H. destruct H as [R [A1 A2]].
  specialize (A2 F). destruct A2 as [A2 _].
  set (x := num * 2 ^ unit_exp f) in *.
  replace (2 * num * 2 ^ unit_exp f) with (2 * x) in * by (unfold x; ring).
  destruct (Z.lt_trichotomy n' n) as [C|[->|C]]; [|lia|].
  - specialize (A1 ltac:(lia)). destruct A1 as [A1 _]. unfold middle in A1.
    replace (n - 1 + 1) with n in A1 by lia.
    assert (S : scaled f n' <= scaled f (n - 1)) by (apply scaled_le; lia).
    assert (S' : scaled f n' <= scaled f n) by (apply scaled_le; lia).
    assert (S2 : scaled f n' * den <= scaled f (n - 1) * den) by (apply Z.mul_le_mono_nonneg_r; lia).
    assert (S3 : scaled f n' * den <= scaled f n * den) by (apply Z.mul_le_mono_nonneg_r; lia).
    lia.
  - unfold middle in A2.
    assert (S : scaled f (n + 1) <= scaled f n') by (apply scaled_le; lia).
    assert (S' : scaled f n <= scaled f n') by (apply scaled_le; lia).
    assert (S2 : scaled f (n + 1) * den <= scaled f n' * den) by (apply Z.mul_le_mono_nonneg_r; lia).
    assert (S3 : scaled f n * den <= scaled f n' * den) by (apply Z.mul_le_mono_nonneg_r; lia).
    lia.
Qed.
End Fmt.

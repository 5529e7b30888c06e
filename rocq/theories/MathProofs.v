(** The constants and angle conversions of math.hpp. *)
From Coq Require Import Reals QArith Qreals Lra.
From Verif Require Import Base FloatSpec FloatFastModel FloatRoundProofs FloatFastProofs MathModel MathSpec MathRealProofs.
Local Open Scope Z_scope.

(** *** The error of rounding *)
Section Fmt.
Context (f : format) (G : good_format f).
Local Notation B := (2 ^ mant_bits f).
Local Notation U := (2 ^ unit_exp f).

Lemma U_pos : 0 < U.
Proof. apply Z.pow_pos_nonneg; [lia|]. destruct G. lia. Qed.
(** An error of half a unit at most, or of a fraction 1/(2B) of the number. *)
Lemma nearest_error num den n : 0 <= num -> 0 < den -> nearest f num den n -> n < infinity f ->
  2 * Z.abs (scaled f n * den - num * U) <= den \/ 2 * B * Z.abs (scaled f n * den - num * U) <= num * U.
Proof.
  intros NP DP NR L. apply (proj1 (nearest_unfold f _ _ _)) in NR. destruct NR as (R & A & C). specialize (C L). destruct C as [C _].
  pose proof (B_pos f G) as BP. unfold middle in *. remember (num * U) as x eqn:EX.
  replace (2 * num * U) with (2 * x) in * by (rewrite EX; ring). assert (XP : 0 <= x) by (rewrite EX; pose proof U_pos; nia). clear EX.
  destruct (pattern_split f G n ltac:(lia)) as (k & m & EN & K & M & KM).
  assert (S0 : scaled f n = m * 2 ^ k) by (rewrite EN; apply (scaled_at f G); lia).
  assert (S1 : scaled f (n + 1) = (m + 1) * 2 ^ k).
  { replace (n + 1) with (k * B + (m + 1)) by lia. apply (scaled_at f G); lia. }
  assert (PK : 0 < 2 ^ k) by (apply Z.pow_pos_nonneg; lia).
  destruct (Z_le_gt_dec (scaled f n * den) x) as [GE|LT].
  - rewrite Z.abs_neq by lia. rewrite S0, S1 in *. destruct (Z.eq_dec k 0) as [->|NZ].
    + left. change (2 ^ 0) with 1 in *. nia.
    + right. specialize (KM ltac:(lia)). assert (E1 : 2 * (x - m * 2 ^ k * den) <= 2 ^ k * den) by nia. assert (E2 : B * (2 ^ k * den) <= x) by nia. nia.
  - rewrite Z.abs_eq by lia. assert (N0 : 0 < n).
    { destruct (Z.eq_dec n 0) as [E|]; [|lia]. exfalso. rewrite E in LT. rewrite (scaled_0 f G) in LT. lia. }
    specialize (A N0). destruct A as [A _]. replace (n - 1 + 1) with n in A by lia.
    clear S0 S1 KM EN M K PK k m C. destruct (pattern_split f G (n - 1) ltac:(lia)) as (k & m & EN & K & M & KM).
    assert (S0 : scaled f (n - 1) = m * 2 ^ k) by (rewrite EN; apply (scaled_at f G); lia).
    assert (S1 : scaled f n = (m + 1) * 2 ^ k).
    { replace n with (k * B + (m + 1)) at 1 by lia. apply (scaled_at f G); lia. }
    assert (PK : 0 < 2 ^ k) by (apply Z.pow_pos_nonneg; lia). rewrite S0, S1 in *. destruct (Z.eq_dec k 0) as [->|NZ].
    + left. change (2 ^ 0) with 1 in *. nia.
    + right. specialize (KM ltac:(lia)). assert (E1 : 2 * ((m + 1) * 2 ^ k * den - x) <= 2 ^ k * den) by nia. assert (E2 : B * (2 ^ k * den) <= x) by nia. nia.
Qed.

Local Open Scope R_scope.
Lemma UR_pos : 0 < IZR U.
Proof. apply IZR_lt, U_pos. Qed.
Lemma value_pos n : value f false n = IZR (scaled f n) / IZR U.
Proof. unfold value. ring. Qed.
Lemma value_sign neg n : value f neg n = (if neg then -1 else 1) * value f false n.
Proof. unfold value. ring. Qed.
Lemma value_nonneg n : (0 <= n)%Z -> 0 <= value f false n.
Proof.
  intro N. rewrite value_pos. apply Rmult_le_pos; [apply IZR_le, (scaled_nonneg f G n N)|]. left. apply Rinv_0_lt_compat, UR_pos.
Qed.
Lemma value_le n m : (0 <= n <= m)%Z -> value f false n <= value f false m.
Proof.
  intro N. rewrite !value_pos. apply Rmult_le_compat_r; [left; apply Rinv_0_lt_compat, UR_pos|]. apply IZR_le, (scaled_le f G); lia.
Qed.
(** The same over the reals. [x] is [num / den]. *)
Definition close (x : R) (n : Z) : Prop := Rabs (value f false n - x) <= smallest f / 2 \/ Rabs (value f false n - x) <= roundoff f * x.
Lemma nearest_close num den n : (0 <= num -> 0 < den -> nearest f num den n -> n < infinity f -> close (IZR num / IZR den) n)%Z.
Proof.
  intros NP DP NR L. pose proof UR_pos as UP. assert (DR : 0 < IZR den) by (apply IZR_lt; exact DP).
  assert (E : value f false n - IZR num / IZR den = IZR (scaled f n * den - num * U) / (IZR U * IZR den)).
  { rewrite value_pos, minus_IZR, !mult_IZR. field. lra. }
  assert (UD : 0 < IZR U * IZR den) by (apply Rmult_lt_0_compat; assumption).
  assert (EA : Rabs (value f false n - IZR num / IZR den) = IZR (Z.abs (scaled f n * den - num * U)) / (IZR U * IZR den)).
  { rewrite E, abs_IZR. unfold Rdiv. rewrite Rabs_mult. f_equal. apply Rabs_right. left. apply Rinv_0_lt_compat. exact UD. }
  unfold close. rewrite EA. clear E EA. destruct (nearest_error num den n NP DP NR L) as [H|H]; [left|right]; apply IZR_le in H; rewrite !mult_IZR in H.
  - apply (Rmult_le_reg_r (IZR U * IZR den)); [exact UD|]. unfold Rdiv at 1. rewrite Rmult_assoc, Rinv_l, Rmult_1_r by lra. unfold smallest.
    replace (/ IZR U / 2 * (IZR U * IZR den)) with (IZR den / 2) by (field; lra). lra.
  - assert (BP : 0 < IZR B) by (apply IZR_lt; pose proof (B_pos f G); lia).
    apply (Rmult_le_reg_r (IZR U * IZR den)); [exact UD|]. unfold Rdiv at 1. rewrite Rmult_assoc, Rinv_l, Rmult_1_r by lra. unfold roundoff.
    rewrite Z.pow_add_r by (destruct G; lia). rewrite mult_IZR. change (IZR (2 ^ 1)) with 2.
    replace (/ (IZR B * 2) * (IZR num / IZR den) * (IZR U * IZR den)) with (IZR num * IZR U / (IZR B * 2)) by (field; lra).
    apply (Rmult_le_reg_r (IZR B * 2)); [lra|]. replace (IZR num * IZR U / (IZR B * 2) * (IZR B * 2)) with (IZR num * IZR U) by (field; lra). lra.
Qed.
Lemma roundoff_pos : 0 < roundoff f.
Proof. apply Rinv_0_lt_compat, IZR_lt, Z.pow_pos_nonneg; destruct G; lia. Qed.
Lemma smallest_pos : 0 < smallest f.
Proof. apply Rinv_0_lt_compat, UR_pos. Qed.
Lemma close_sum x n : 0 <= x -> close x n -> Rabs (value f false n - x) <= smallest f / 2 + roundoff f * x.
Proof.
  intros X [H|H]; pose proof smallest_pos; pose proof roundoff_pos; [|lra]. assert (0 <= roundoff f * x) by (apply Rmult_le_pos; lra). lra.
Qed.
Lemma fmul_close a b : (0 <= a)%Z -> (0 <= b)%Z -> (fmul f ToNearest a b < infinity f)%Z ->
  Rabs (value f false (fmul f ToNearest a b) - value f false a * value f false b) <= smallest f / 2 + roundoff f * (value f false a * value f false b).
Proof.
  intros A N L. assert (E : value f false a * value f false b = IZR (scaled f a * scaled f b) / IZR (2 ^ (2 * unit_exp f))).
  { rewrite !value_pos, mult_IZR. replace (2 * unit_exp f)%Z with (unit_exp f + unit_exp f)%Z by lia. rewrite Z.pow_add_r by (destruct G; lia). rewrite mult_IZR.
    pose proof UR_pos. field. lra. }
  apply close_sum; [apply Rmult_le_pos; apply value_nonneg; assumption|]. rewrite E.
  pose proof (scaled_nonneg f G a A). pose proof (scaled_nonneg f G b N).
  assert (0 < 2 ^ (2 * unit_exp f))%Z by (apply Z.pow_pos_nonneg; destruct G; lia).
  apply nearest_close; [nia|assumption| |exact L]. apply (round_nearest f G); [nia|assumption].
Qed.
Lemma value_nonzero b : (0 < b)%Z -> 0 < value f false b.
Proof.
  intro P. rewrite value_pos. apply Rmult_lt_0_compat; [|apply Rinv_0_lt_compat, UR_pos]. apply IZR_lt. rewrite <- (scaled_0 f G). apply (scaled_lt f G). lia.
Qed.
Lemma fdiv_close a b : (0 <= a)%Z -> (0 < b)%Z -> (fdiv f ToNearest a b < infinity f)%Z ->
  Rabs (value f false (fdiv f ToNearest a b) - value f false a / value f false b) <= smallest f / 2 + roundoff f * (value f false a / value f false b).
Proof.
  intros A N L. assert (SB : (0 < scaled f b)%Z) by (rewrite <- (scaled_0 f G); apply (scaled_lt f G); lia).
  assert (SR : 0 < IZR (scaled f b)) by (apply IZR_lt; exact SB).
  assert (E : value f false a / value f false b = IZR (scaled f a) / IZR (scaled f b)).
  { rewrite !value_pos. pose proof UR_pos. field. lra. }
  apply close_sum.
  - apply Rmult_le_pos; [apply value_nonneg; assumption|]. left. apply Rinv_0_lt_compat, value_nonzero, N.
  - rewrite E. pose proof (scaled_nonneg f G a A). apply nearest_close; [assumption|exact SB| |exact L]. apply (round_nearest f G); assumption.
Qed.
(** Two roundings. *)
Lemma chain (h u A c m r : R) : 0 <= h -> 0 <= u -> 0 <= A -> 0 < c -> Rabs (m - A) <= h + u * A -> Rabs (r - m / c) <= h + u * (m / c) ->
  Rabs (r - A / c) <= h + h / c + u * (h / c) + u * (2 + u) * (A / c).
Proof.
  intros H0 U0 A0 C H1 H2. set (a := A / c). set (mu := m / c) in *. set (eta := h / c).
  assert (CI : 0 < / c) by (apply Rinv_0_lt_compat; exact C).
  assert (H1' : Rabs (mu - a) <= eta + u * a).
  { unfold mu, a, eta, Rdiv. replace (m * / c - A * / c) with ((m - A) * / c) by ring. rewrite Rabs_mult, (Rabs_right (/ c)) by lra.
    replace (h * / c + u * (A * / c)) with ((h + u * A) * / c) by ring. apply Rmult_le_compat_r; lra. }
  assert (MU : mu <= a + eta + u * a) by (pose proof (Rle_abs (mu - a)); lra).
  assert (UM : u * mu <= u * (a + eta + u * a)) by (apply Rmult_le_compat_l; assumption).
  replace (r - a) with ((r - mu) + (mu - a)) by ring. pose proof (Rabs_triang (r - mu) (mu - a)). nra.
Qed.
End Fmt.

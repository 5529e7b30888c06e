(** The angle conversions of math.hpp for integral types. *)
From Verif Require Import Base MiscModel MiscSpec MiscProofs MathModel.
Local Open Scope Z_scope.

Lemma quot_60 x : Z.quot (3 * x) 180 = Z.quot x 60.
Proof. change 180 with (3 * 60). apply Z.quot_mul_cancel_l; lia. Qed.
Lemma quot_3 x : Z.quot (180 * x) 3 = 60 * x.
Proof. replace (180 * x) with ((60 * x) * 3) by ring. apply Z.quot_mul. lia. Qed.
Lemma quot_small a b : 0 < b -> Z.abs (Z.quot a b) <= Z.abs a.
Proof.
  intro B. rewrite <- Z.quot_abs by lia. rewrite Z.quot_div_nonneg by lia. apply Z.div_le_upper_bound; nia.
Qed.
Lemma pow_at_least b n : n <= b -> 0 <= n -> 2 ^ n <= 2 ^ b.
Proof. intros. apply Z.pow_le_mono_r; lia. Qed.
Lemma quot_value t a b : is_signed t = true -> 0 < b -> is_value t a -> is_value t (Z.quot a b).
Proof.
  intros S B. unfold is_value. rewrite S. intro V.
  destruct (Z_le_gt_dec 0 a) as [P|P].
  - rewrite Z.quot_div_nonneg by lia. pose proof (Z.div_pos a b P B). pose proof (Z.div_le_upper_bound a b a B ltac:(nia)). lia.
  - replace a with (- (- a)) by lia. rewrite Z.quot_opp_l by lia. rewrite Z.quot_div_nonneg by lia.
    pose proof (Z.div_pos (- a) b ltac:(lia) B). pose proof (Z.div_le_upper_bound (- a) b (- a) B ltac:(nia)). lia.
Qed.

Lemma deg_signed t x : is_signed t = true -> 32 <= bits t -> is_value t x ->
  (is_value t (3 * x) -> deg_to_rad_int t x = Ok (Z.quot x 60)) /\ (~ is_value t (3 * x) -> deg_to_rad_int t x = UB SignedOverflow).
Proof.
  intros S B V. pose proof (pow_at_least (bits t - 1) 31 ltac:(lia) ltac:(lia)) as P31. change (2 ^ 31) with 2147483648 in P31.
  unfold deg_to_rad_int, mul, div, int_pi, pi_degrees. assert (PT : promote t = t) by (unfold promote; rewrite (proj2 (Z.ltb_ge _ _)) by lia; reflexivity).
  rewrite PT, S. split; intro H.
  - rewrite (proj2 (fits_spec t _) H). cbn [bind]. rewrite (convert_id t 180) by (unfold good, is_value; rewrite ?S; lia). change (180 =? 0) with false. cbv iota.
    rewrite quot_60. assert (VQ : is_value t (Z.quot x 60)) by (apply quot_value; [assumption|lia|assumption]).
    rewrite (proj2 (fits_spec t _) VQ). cbn [bind]. rewrite convert_id by (unfold good; (assumption || lia)). reflexivity.
  - destruct (fits t (3 * x)) eqn:F; [exfalso; apply H, fits_spec, F|reflexivity].
Qed.
Lemma rad_signed t x : is_signed t = true -> 32 <= bits t -> is_value t x ->
  (is_value t (180 * x) -> rad_to_deg_int t x = Ok (60 * x)) /\ (~ is_value t (180 * x) -> rad_to_deg_int t x = UB SignedOverflow).
Proof.
  intros S B V. pose proof (pow_at_least (bits t - 1) 31 ltac:(lia) ltac:(lia)) as P31. change (2 ^ 31) with 2147483648 in P31.
  unfold rad_to_deg_int, mul, div, int_pi, pi_degrees. assert (PT : promote t = t) by (unfold promote; rewrite (proj2 (Z.ltb_ge _ _)) by lia; reflexivity).
  rewrite PT, S. split; intro H.
  - rewrite (proj2 (fits_spec t _) H). cbn [bind]. change (3 =? 0) with false. cbv iota. rewrite quot_3.
    assert (VQ : is_value t (60 * x)) by (unfold is_value in *; rewrite S in *; lia).
    rewrite (proj2 (fits_spec t _) VQ). cbn [bind]. rewrite convert_id by (unfold good; (assumption || lia)). reflexivity.
  - destruct (fits t (180 * x)) eqn:F; [exfalso; apply H, fits_spec, F|reflexivity].
Qed.
Lemma convert_unsigned t v : is_signed t = false -> convert t v = v mod 2 ^ bits t.
Proof. intro S. unfold convert, min_value. rewrite S. rewrite Z.sub_0_r, Z.add_0_r. reflexivity. Qed.
Lemma deg_unsigned t x : is_signed t = false -> 32 <= bits t -> deg_to_rad_int t x = Ok ((3 * x) mod 2 ^ bits t / 180).
Proof.
  intros S B. pose proof (pow_at_least (bits t) 32 ltac:(lia) ltac:(lia)) as P. change (2 ^ 32) with 4294967296 in P.
  unfold deg_to_rad_int, mul, div, int_pi, pi_degrees. assert (PT : promote t = t) by (unfold promote; rewrite (proj2 (Z.ltb_ge _ _)) by lia; reflexivity).
  rewrite PT, S, !convert_unsigned by assumption. rewrite !(Z.mod_small 180) by lia. cbn [bind]. change (180 =? 0) with false. cbv iota.
  cbn [bind]. rewrite ?convert_unsigned by assumption. rewrite Z.mod_small; [reflexivity|].
  pose proof (Z.mod_pos_bound (3 * x) (2 ^ bits t) ltac:(lia)). split; [apply Z.div_pos; lia|]. apply Z.div_lt_upper_bound; lia.
Qed.
Lemma rad_unsigned t x : is_signed t = false -> 32 <= bits t -> rad_to_deg_int t x = Ok ((180 * x) mod 2 ^ bits t / 3).
Proof.
  intros S B. pose proof (pow_at_least (bits t) 32 ltac:(lia) ltac:(lia)) as P. change (2 ^ 32) with 4294967296 in P.
  unfold rad_to_deg_int, mul, div, int_pi, pi_degrees. assert (PT : promote t = t) by (unfold promote; rewrite (proj2 (Z.ltb_ge _ _)) by lia; reflexivity).
  rewrite PT, S, !convert_unsigned by assumption. cbn [bind]. change (3 =? 0) with false. cbv iota.
  rewrite ?(Z.mod_small 3) by lia. cbn [bind]. rewrite ?convert_unsigned by assumption. rewrite ?(Z.mod_small 3) by lia. rewrite Z.mod_small; [reflexivity|].
  pose proof (Z.mod_pos_bound (180 * x) (2 ^ bits t) ltac:(lia)). split; [apply Z.div_pos; lia|]. apply Z.div_lt_upper_bound; lia.
Qed.
(** Types narrower than int *)
Lemma narrow_bound t x : 0 < bits t <= 16 -> is_value t x -> - 65536 < x < 65536.
Proof.
  intros B V. pose proof (pow_at_least 16 (bits t) ltac:(lia) ltac:(lia)). change (2 ^ 16) with 65536 in *. unfold is_value in V. destruct (is_signed t); [|lia].
  pose proof (pow2_half (bits t) ltac:(lia)). lia.
Qed.
Lemma fits_int v : - 2147483648 <= v <= 2147483647 -> fits int_type v = true.
Proof. intro V. unfold fits, min_value, max_value. cbn. lia. Qed.
Lemma deg_narrow t x : 0 < bits t <= 16 -> is_value t x -> is_value t 180 -> deg_to_rad_int t x = Ok (Z.quot x 60).
Proof.
  intros B V V180. pose proof (narrow_bound t x ltac:(lia) V) as NB. unfold deg_to_rad_int, mul, div, int_pi, pi_degrees.
  assert (PT : promote t = int_type) by (unfold promote; rewrite (proj2 (Z.ltb_lt _ _)) by lia; reflexivity). rewrite PT. cbn [is_signed int_type].
  rewrite fits_int by lia. cbn [bind]. rewrite (convert_id t 180) by (unfold good; (assumption || lia)). change (180 =? 0) with false. cbv iota. rewrite quot_60.
  rewrite fits_int by (pose proof (quot_small x 60 ltac:(lia)); lia). cbn [bind]. rewrite convert_id; [reflexivity|unfold good; lia|].
  destruct (is_signed t) eqn:S; [apply quot_value; auto; lia|]. unfold is_value in *. rewrite S in *. rewrite Z.quot_div_nonneg by lia.
  split; [apply Z.div_pos; lia|apply Z.div_lt_upper_bound; lia].
Qed.
Lemma rad_narrow t x : 0 < bits t <= 16 -> is_value t x -> rad_to_deg_int t x = Ok (convert t (60 * x)).
Proof.
  intros B V. pose proof (narrow_bound t x ltac:(lia) V) as NB. unfold rad_to_deg_int, mul, div, int_pi, pi_degrees.
  assert (PT : promote t = int_type) by (unfold promote; rewrite (proj2 (Z.ltb_lt _ _)) by lia; reflexivity). rewrite PT. cbn [is_signed int_type].
  rewrite fits_int by lia. cbn [bind]. change (3 =? 0) with false. cbv iota. rewrite quot_3, fits_int by lia. reflexivity.
Qed.
(** In int8_t the 180 is -76. *)
Definition int8 : ity := {| is_signed := true; bits := 8 |}.
Lemma deg_int8 x : -128 <= x < 128 -> deg_to_rad_int int8 x = Ok (- Z.quot (3 * x) 76).
Proof.
  intros V. unfold deg_to_rad_int, mul, div, int_pi, pi_degrees. change (promote int8) with int_type. change (convert int8 180) with (-76). cbn [is_signed int_type].
  rewrite fits_int by lia. cbn [bind]. change (-76 =? 0) with false. cbv iota. change (-76) with (- (76)). rewrite Z.quot_opp_r by lia.
  assert (Q : -5 <= Z.quot (3 * x) 76 <= 5).
  { destruct (Z_le_gt_dec 0 x) as [P|P].
    - rewrite Z.quot_div_nonneg by lia. split; [pose proof (Z.div_pos (3 * x) 76 ltac:(lia) ltac:(lia)); lia|]. assert (3 * x / 76 < 6) by (apply Z.div_lt_upper_bound; lia). lia.
    - replace (3 * x) with (- (3 * - x)) by lia. rewrite Z.quot_opp_l by lia. rewrite Z.quot_div_nonneg by lia. pose proof (Z.div_pos (3 * - x) 76 ltac:(lia) ltac:(lia)).
      assert (3 * - x / 76 < 6) by (apply Z.div_lt_upper_bound; lia). lia. }
  rewrite fits_int by lia. cbn [bind]. rewrite convert_id; [reflexivity|reflexivity|]. unfold is_value. cbn [is_signed bits int8]. change (2 ^ (8 - 1)) with 128. lia.
Qed.

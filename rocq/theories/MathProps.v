(** Properties of the constants, the angle conversions and the powers of math.hpp. *)
From Coq Require Import Reals Lra.
From Coq Require QArith_base.
From Verif Require Import Base FloatSpec FloatFastModel MiscModel MiscSpec MathModel MathSpec MathProofs MathAngleProofs MathConstProofs MathIntProofs MathPowProofs MathDirectedProofs.
Local Open Scope Z_scope.

(** ** C93: the constants *)
(** pi, two_pi and log_2 are the doubles nearest to the numbers they are named after. *)
Theorem C93_constants :
  (exists n, pi = Num false n /\ nearest_real binary64 PI n) /\
  (exists n, two_pi = Num false n /\ nearest_real binary64 (2 * PI) n) /\
  (exists n, log_2 = Num false n /\ nearest_real binary64 (ln 2) n).
Proof.
  split; [|split]; eexists; (split; [vm_compute; reflexivity|]); [apply pi_nearest|apply two_pi_nearest|apply ln2_nearest].
Qed.
Print Assumptions C93_constants.
(** Converted to float they are the nearest floats, in spite of the two roundings. *)
Theorem C93_float :
  (exists n, fp_convert binary64 binary32 ToNearest pi = Num false n /\ nearest_real binary32 PI n) /\
  (exists n, fp_convert binary64 binary32 ToNearest two_pi = Num false n /\ nearest_real binary32 (2 * PI) n) /\
  (exists n, fp_convert binary64 binary32 ToNearest log_2 = Num false n /\ nearest_real binary32 (ln 2) n).
Proof.
  split; [|split]; eexists; (split; [vm_compute; reflexivity|]); [apply pi_nearest_float|apply two_pi_nearest_float|apply ln2_nearest_float].
Qed.
Print Assumptions C93_float.
(** Converted to long double pi is not the nearest one. *)
Theorem C93_long_double_refuted : ~ exists n, fp_convert binary64 binary80 ToNearest pi = Num false n /\ nearest_real binary80 PI n.
Proof.
  intros (n & E & H). rewrite (pi_pattern_of binary80 modelled_long) in E. injection E as <-. exact (pi_not_nearest_long H).
Qed.
Print Assumptions C93_long_double_refuted.
Example C93_patterns : pi = Num false 0x400921fb54442d18 /\ two_pi = Num false 0x401921fb54442d18 /\ log_2 = Num false 0x3fe62e42fefa39ef.
Proof. vm_compute. auto. Qed.

(** ** C94: the conversions of floating point numbers, in the nearest mode *)
(** What float, double and long double are here, in the terms of <cfloat>: the digits, the largest and the least exponent determine the
    largest, the least positive and the least normal number, and the number after 1. *)
Theorem C94_formats : forall f digits max_exp min_exp,
  In (f, digits, max_exp, min_exp) [(binary32, 24, 128, -125); (binary64, 53, 1024, -1021); (binary80, 64, 16384, -16381)] ->
  value f false (infinity f - 1) = ((1 - powerRZ 2 (- digits)) * powerRZ 2 max_exp)%R /\
  value f false 1 = powerRZ 2 (min_exp - digits) /\ value f false (2 ^ (digits - 1)) = powerRZ 2 (min_exp - 1) /\
  exists n, value f false n = 1%R /\ value f false (n + 1) = (1 + powerRZ 2 (1 - digits))%R.
Proof.
  intros f p hi lo F. assert (G : FloatRoundProofs.good_format f /\ p = mant_bits f + 1 /\ hi = top_field f - 1 + mant_bits f - unit_exp f /\ lo = mant_bits f - unit_exp f + 1 /\ mant_bits f < unit_exp f).
  { destruct F as [F|[F|[F|[]]]]; injection F as <- <- <- <-; (split; [first [apply FloatRoundProofs.good_binary32|apply FloatRoundProofs.good_binary64|apply good_binary80]|]); repeat split; reflexivity. }
  destruct G as (G & -> & -> & -> & L). split; [exact (value_largest f G)|].
  split; [rewrite (value_smallest f G); f_equal; lia|]. replace (mant_bits f + 1 - 1) with (mant_bits f) by lia.
  split; [rewrite (value_normal f G); f_equal; lia|]. exists ((unit_exp f - mant_bits f + 1) * 2 ^ mant_bits f). destruct (value_unit f G L) as [V W].
  split; [exact V|]. rewrite W. do 2 f_equal. lia.
Qed.
Print Assumptions C94_formats.
(** The sign is kept and the error is at most 5/2 roundoffs of the exact angle, plus the smallest positive number. *)
Theorem C94_deg_to_rad : forall f neg n, f = binary32 \/ f = binary64 -> finite f n ->
  exists r, deg_to_rad f ToNearest (Num neg n) = Num neg r /\ 0 <= r <= infinity f /\
    (r < infinity f -> let exact := (value f neg n * PI / 180)%R in
     (Rabs (value f neg r - exact) <= 5 / 2 * roundoff f * Rabs exact + smallest f)%R).
Proof.
  intros f neg n F N. assert (M : modelled f) by (destruct F as [-> | ->]; constructor). exists (d2r f n). split; [apply deg_to_rad_num; assumption|].
  split; [apply d2r_range; unfold finite in N; (assumption || lia)|]. intro L. cbv zeta.
  pose proof (d2r_error f M n (proj1 N) L) as E. cbv zeta in E. pose proof (value_nonneg f (modelled_good f M) n (proj1 N)). pose proof PI_RGT_0.
  set (X := (value f false n * PI / 180)%R) in *. assert (X0 : (0 <= X)%R) by (unfold X; apply Rmult_le_pos; [apply Rmult_le_pos|]; lra).
  assert (EX : (value f neg n * PI / 180 = (if neg then -1 else 1) * X)%R) by (rewrite value_sign; unfold X; field).
  assert (EQ : forall k : R, (Rabs ((if neg then -1 else 1) * k) = Rabs k)%R) by (apply sign_abs).
  rewrite EX, value_sign, <- Rmult_minus_distr_l, !EQ, (Rabs_right X) by lra.
  eapply Rle_trans; [exact E|]. apply Rplus_le_compat_r, Rmult_le_compat_r; [exact X0|]. unfold pi_error, roundoff.
  destruct F as [-> | ->]; cbn [mant_bits binary32 binary64 Z.eqb Pos.eqb].
  - change (2 ^ (23 + 1)) with 16777216. lra.
  - change (2 ^ (52 + 1)) with 9007199254740992. lra.
Qed.
Print Assumptions C94_deg_to_rad.
Theorem C94_rad_to_deg : forall f neg n, f = binary32 \/ f = binary64 -> finite f n ->
  exists r, rad_to_deg f ToNearest (Num neg n) = Num neg r /\ 0 <= r <= infinity f /\
    (r < infinity f -> let exact := (value f neg n * 180 / PI)%R in
     (Rabs (value f neg r - exact) <= 5 / 2 * roundoff f * Rabs exact + smallest f)%R).
Proof.
  intros f neg n F N. assert (M : modelled f) by (destruct F as [-> | ->]; constructor). exists (r2d f n). split; [apply rad_to_deg_num; assumption|].
  split; [apply r2d_range; unfold finite in N; (assumption || lia)|]. intro L. cbv zeta.
  pose proof (r2d_error f M n (proj1 N) L) as E. cbv zeta in E. pose proof (value_nonneg f (modelled_good f M) n (proj1 N)). pose proof PI_RGT_0.
  set (X := (value f false n * 180 / PI)%R) in *. assert (X0 : (0 <= X)%R) by (unfold X; apply Rmult_le_pos; [lra|left; apply Rinv_0_lt_compat; lra]).
  assert (EX : (value f neg n * 180 / PI = (if neg then -1 else 1) * X)%R) by (rewrite value_sign; unfold X; field; lra).
  assert (EQ : forall k : R, (Rabs ((if neg then -1 else 1) * k) = Rabs k)%R) by (apply sign_abs).
  rewrite EX, value_sign, <- Rmult_minus_distr_l, !EQ, (Rabs_right X) by lra.
  eapply Rle_trans; [exact E|]. apply Rplus_le_compat_r, Rmult_le_compat_r; [exact X0|]. unfold pi_error, roundoff.
  destruct F as [-> | ->]; cbn [mant_bits binary32 binary64 Z.eqb Pos.eqb].
  - change (2 ^ (23 + 1)) with 16777216. lra.
  - change (2 ^ (52 + 1)) with 9007199254740992. lra.
Qed.
Print Assumptions C94_rad_to_deg.
(** 180 degrees are pi, 90 are half of it. *)
Example C94_values :
  deg_to_rad binary64 ToNearest (Num false 0x4066800000000000) = pi /\
  deg_to_rad binary32 ToNearest (fp_of_int binary32 ToNearest 180) = fp_convert binary64 binary32 ToNearest pi /\
  deg_to_rad binary32 ToNearest (fp_of_int binary32 ToNearest (-90)) = Num true 0x3fc90fdb /\
  rad_to_deg binary32 ToNearest (Num false 0x40490fdb) = fp_of_int binary32 ToNearest 180 /\
  rad_to_deg binary32 ToNearest (Num false 0x40c90fdb) = fp_of_int binary32 ToNearest 360.
Proof. vm_compute. auto 10. Qed.

(** long double: the error is below 2^-54 of the exact angle ... *)
Theorem C94_long_double : forall neg n, finite binary80 n ->
  (exists r, deg_to_rad binary80 ToNearest (Num neg n) = Num neg r /\ (r < infinity binary80 -> let exact := (value binary80 neg n * PI / 180)%R in
     (Rabs (value binary80 neg r - exact) <= / IZR (2 ^ 54) * Rabs exact + smallest binary80)%R)) /\
  (exists r, rad_to_deg binary80 ToNearest (Num neg n) = Num neg r /\ (r < infinity binary80 -> let exact := (value binary80 neg n * 180 / PI)%R in
     (Rabs (value binary80 neg r - exact) <= / IZR (2 ^ 54) * Rabs exact + smallest binary80)%R)).
Proof.
  intros neg n N. pose proof modelled_long as M. pose proof (value_nonneg binary80 good_binary80 n (proj1 N)). pose proof PI_RGT_0.
  assert (EQ : forall k : R, (Rabs ((if neg then -1 else 1) * k) = Rabs k)%R) by (apply sign_abs).
  split.
  - exists (d2r binary80 n). split; [apply deg_to_rad_num; assumption|]. intro L. cbv zeta.
    pose proof (d2r_error binary80 M n (proj1 N) L) as E. cbv zeta in E.
    set (X := (value binary80 false n * PI / 180)%R) in *. assert (X0 : (0 <= X)%R) by (unfold X; apply Rmult_le_pos; [apply Rmult_le_pos|]; lra).
    assert (EX : (value binary80 neg n * PI / 180 = (if neg then -1 else 1) * X)%R) by (rewrite value_sign; unfold X; field).
    rewrite EX, value_sign, <- Rmult_minus_distr_l, !EQ, (Rabs_right X) by lra.
    eapply Rle_trans; [exact E|]. apply Rplus_le_compat_r, Rmult_le_compat_r; [exact X0|]. unfold pi_error, roundoff. cbn [mant_bits binary80 Z.eqb Pos.eqb].
    change (2 ^ (63 + 1)) with 18446744073709551616. change (2 ^ 54) with 18014398509481984. lra.
  - exists (r2d binary80 n). split; [apply rad_to_deg_num; assumption|]. intro L. cbv zeta.
    pose proof (r2d_error binary80 M n (proj1 N) L) as E. cbv zeta in E.
    set (X := (value binary80 false n * 180 / PI)%R) in *. assert (X0 : (0 <= X)%R) by (unfold X; apply Rmult_le_pos; [lra|left; apply Rinv_0_lt_compat; lra]).
    assert (EX : (value binary80 neg n * 180 / PI = (if neg then -1 else 1) * X)%R) by (rewrite value_sign; unfold X; field; lra).
    rewrite EX, value_sign, <- Rmult_minus_distr_l, !EQ, (Rabs_right X) by lra.
    eapply Rle_trans; [exact E|]. apply Rplus_le_compat_r, Rmult_le_compat_r; [exact X0|]. unfold pi_error, roundoff. cbn [mant_bits binary80 Z.eqb Pos.eqb].
    change (2 ^ (63 + 1)) with 18446744073709551616. change (2 ^ 54) with 18014398509481984. lra.
Qed.
Print Assumptions C94_long_double.
(** ... and not within 5/2, or even 500, roundoffs of the type. The angle is 180 degrees. *)
Theorem C94_long_double_refuted : exists n r, finite binary80 n /\ value binary80 false n = 180%R /\
  deg_to_rad binary80 ToNearest (Num false n) = Num false r /\ r < infinity binary80 /\
  ~ (Rabs (value binary80 false r - value binary80 false n * PI / 180) <= 500 * roundoff binary80 * Rabs (value binary80 false n * PI / 180) + smallest binary80)%R.
Proof.
  exists (degrees_of binary80), (pi_of binary80). pose proof modelled_long as M. pose proof (degrees_range binary80 M). pose proof (pi_range binary80 M).
  pose proof (degrees_value binary80 M) as V. split; [unfold finite; lia|]. split; [exact V|]. split; [rewrite (deg_to_rad_num binary80 M) by (unfold finite; lia); rewrite half_turn_long; reflexivity|]. split; [lia|].
  rewrite V. replace (180 * PI / 180)%R with PI by field. pose proof PI_RGT_0. rewrite (Rabs_right PI) by lra.
  assert (E1 : (value binary80 false (pi_of binary80) = 884279719003555 / 281474976710656)%R) by (apply value_ratio; [apply good_binary80|lia|vm_compute; reflexivity]).
  rewrite E1. pose proof (pi_between 1 ltac:(lra)) as B. rewrite Rabs_left by lra.
  assert (SM : (smallest binary80 <= / 1000000000000000000000)%R).
  { unfold smallest. apply Rinv_le_contravar; [lra|]. apply IZR_le. vm_compute. discriminate. }
  unfold roundoff. cbn [mant_bits binary80]. change (2 ^ (63 + 1)) with 18446744073709551616. lra.
Qed.
Print Assumptions C94_long_double_refuted.

(** NaN, the infinities and the zeros are kept, and the sign only changes the sign of the result. *)
Theorem C94_special : forall f, f = binary32 \/ f = binary64 \/ f = binary80 ->
  deg_to_rad f ToNearest NaN = NaN /\ rad_to_deg f ToNearest NaN = NaN /\
  (forall neg, deg_to_rad f ToNearest (Num neg (infinity f)) = Num neg (infinity f) /\ rad_to_deg f ToNearest (Num neg (infinity f)) = Num neg (infinity f) /\
               deg_to_rad f ToNearest (Num neg 0) = Num neg 0 /\ rad_to_deg f ToNearest (Num neg 0) = Num neg 0) /\
  (forall n, 0 <= n <= infinity f -> exists r, deg_to_rad f ToNearest (Num false n) = Num false r /\ deg_to_rad f ToNearest (Num true n) = Num true r) /\
  (forall n, 0 <= n <= infinity f -> exists r, rad_to_deg f ToNearest (Num false n) = Num false r /\ rad_to_deg f ToNearest (Num true n) = Num true r).
Proof.
  intros f F. assert (M : modelled f) by (destruct F as [-> | [-> | ->]]; constructor). assert (Z0 : finite f 0) by (destruct M; vm_compute; split; congruence).
  split; [unfold deg_to_rad; rewrite (pi_pattern_of f M); reflexivity|]. split; [unfold rad_to_deg; rewrite (degrees_pattern_of f M); reflexivity|].
  split; [|split].
  - intro neg. split; [apply deg_to_rad_inf, M|]. split; [apply rad_to_deg_inf, M|]. rewrite (deg_to_rad_num f M neg 0 Z0), (rad_to_deg_num f M neg 0 Z0), (d2r_zero f M), (r2d_zero f M). auto.
  - intros n N. destruct (Z.eq_dec n (infinity f)) as [->|NE]; [exists (infinity f); split; apply deg_to_rad_inf, M|].
    exists (d2r f n). split; apply deg_to_rad_num; unfold finite; (assumption || lia).
  - intros n N. destruct (Z.eq_dec n (infinity f)) as [->|NE]; [exists (infinity f); split; apply rad_to_deg_inf, M|].
    exists (r2d f n). split; apply rad_to_deg_num; unfold finite; (assumption || lia).
Qed.
Print Assumptions C94_special.

(** The conversions are monotone. *)
Theorem C94_monotone : forall f s n t m, f = binary32 \/ f = binary64 \/ f = binary80 -> 0 <= n <= infinity f -> 0 <= m <= infinity f ->
  order_key s n <= order_key t m ->
  (exists n' m', deg_to_rad f ToNearest (Num s n) = Num s n' /\ deg_to_rad f ToNearest (Num t m) = Num t m' /\ order_key s n' <= order_key t m') /\
  (exists n' m', rad_to_deg f ToNearest (Num s n) = Num s n' /\ rad_to_deg f ToNearest (Num t m) = Num t m' /\ order_key s n' <= order_key t m').
Proof.
  intros f s n t m F N N' O. assert (M : modelled f) by (destruct F as [-> | [-> | ->]]; constructor).
  assert (gen : forall conv g, (forall neg n, finite f n -> conv (Num neg n) = Num neg (g n)) -> (forall neg, conv (Num neg (infinity f)) = Num neg (infinity f)) ->
    (forall a b, 0 <= a <= b -> g a <= g b) -> (forall a, 0 <= a -> 0 <= g a <= infinity f) -> g 0 = 0 ->
    exists n' m', conv (Num s n) = Num s n' /\ conv (Num t m) = Num t m' /\ order_key s n' <= order_key t m').
  { intros conv g C I MO R G0. set (h := fun a => if a =? infinity f then infinity f else g a).
    assert (H : forall neg a, 0 <= a <= infinity f -> conv (Num neg a) = Num neg (h a)).
    { intros neg a A. unfold h. destruct (Z.eqb_spec a (infinity f)) as [->|NE]; [apply I|apply C; unfold finite; lia]. }
    assert (HM : forall a b, 0 <= a <= b -> b <= infinity f -> h a <= h b).
    { intros a b A B. unfold h. destruct (Z.eqb_spec a (infinity f)), (Z.eqb_spec b (infinity f)); first [lia|apply R; lia|apply MO; lia]. }
    assert (HR : forall a, 0 <= a -> 0 <= h a).
    { intros a A. unfold h. destruct (Z.eqb_spec a (infinity f)); [lia|apply R, A]. }
    assert (H0 : n = 0 \/ m = 0 -> h 0 = 0).
    { intros _. unfold h. replace (0 =? infinity f) with false by (destruct M; reflexivity). exact G0. }
    exists (h n), (h m). split; [apply H; lia|]. split; [apply H; lia|]. unfold order_key in *. pose proof (HR n ltac:(lia)). pose proof (HR m ltac:(lia)).
    destruct s, t.
    - pose proof (HM m n ltac:(lia) ltac:(lia)). lia.
    - lia.
    - assert (n = 0 /\ m = 0) as [-> ->] by lia. rewrite H0 by auto. lia.
    - apply HM; lia. }
  split.
  - apply (gen (deg_to_rad f ToNearest) (d2r f)); [apply deg_to_rad_num, M|apply deg_to_rad_inf, M|apply d2r_mono, M|apply d2r_range, M|apply d2r_zero, M].
  - apply (gen (rad_to_deg f ToNearest) (r2d f)); [apply rad_to_deg_num, M|apply rad_to_deg_inf, M|apply r2d_mono, M|apply r2d_range, M|apply r2d_zero, M].
Qed.
Print Assumptions C94_monotone.

(** Overflow: the product overflows before the quotient is taken. The bounds are the largest number divided by pi and by 180, rounded down or so. *)
Theorem C94_overflow : forall neg n, finite binary64 n ->
  (deg_to_rad binary64 ToNearest (Num neg n) = Num neg (infinity binary64) <-> 0x7fd45f306dc9c882 < n) /\
  (rad_to_deg binary64 ToNearest (Num neg n) = Num neg (infinity binary64) <-> 0x7f76c16c16c16c16 < n).
Proof.
  intros neg n N. pose proof modelled_double as M. rewrite (deg_to_rad_num _ M), (rad_to_deg_num _ M) by assumption.
  pose proof (d2r_range _ M n (proj1 N)). pose proof (r2d_range _ M n (proj1 N)). pose proof (pi_range _ M). pose proof (degrees_range _ M).
  assert (T1 : d2r binary64 n < infinity binary64 <-> n <= 0x7fd45f306dc9c882).
  { unfold d2r. apply (muldiv_threshold binary64 FloatRoundProofs.good_binary64); [lia|apply degrees_one, M|lia|vm_compute; reflexivity|vm_compute; reflexivity|apply N]. }
  assert (T2 : r2d binary64 n < infinity binary64 <-> n <= 0x7f76c16c16c16c16).
  { unfold r2d. apply (muldiv_threshold binary64 FloatRoundProofs.good_binary64); [lia|apply pi_one, M|lia|vm_compute; reflexivity|vm_compute; reflexivity|apply N]. }
  assert (EQ : forall r, Num neg r = Num neg (infinity binary64) <-> r = infinity binary64) by (intro r; split; congruence). rewrite !EQ. lia.
Qed.
Print Assumptions C94_overflow.
Theorem C94_overflow_float : forall neg n, finite binary32 n ->
  (deg_to_rad binary32 ToNearest (Num neg n) = Num neg (infinity binary32) <-> 0x7ea2f982 < n) /\
  (rad_to_deg binary32 ToNearest (Num neg n) = Num neg (infinity binary32) <-> 0x7bb60b60 < n).
Proof.
  intros neg n N. pose proof modelled_float as M. rewrite (deg_to_rad_num _ M), (rad_to_deg_num _ M) by assumption.
  pose proof (d2r_range _ M n (proj1 N)). pose proof (r2d_range _ M n (proj1 N)). pose proof (pi_range _ M). pose proof (degrees_range _ M).
  assert (T1 : d2r binary32 n < infinity binary32 <-> n <= 0x7ea2f982).
  { unfold d2r. apply (muldiv_threshold binary32 FloatRoundProofs.good_binary32); [lia|apply degrees_one, M|lia|vm_compute; reflexivity|vm_compute; reflexivity|apply N]. }
  assert (T2 : r2d binary32 n < infinity binary32 <-> n <= 0x7bb60b60).
  { unfold r2d. apply (muldiv_threshold binary32 FloatRoundProofs.good_binary32); [lia|apply pi_one, M|lia|vm_compute; reflexivity|vm_compute; reflexivity|apply N]. }
  assert (EQ : forall r, Num neg r = Num neg (infinity binary32) <-> r = infinity binary32) by (intro r; split; congruence). rewrite !EQ. lia.
Qed.
Print Assumptions C94_overflow_float.
(** So the result is infinite for numbers whose angle in radians is far below the largest double. *)
Theorem C94_finite_refuted : exists n m, finite binary64 n /\ finite binary64 m /\ (value binary64 false n * PI / 180 <= value binary64 false m / 40)%R /\
  deg_to_rad binary64 ToNearest (Num false n) = Num false (infinity binary64).
Proof.
  exists (infinity binary64 - 1), (infinity binary64 - 1). assert (F : finite binary64 (infinity binary64 - 1)) by (vm_compute; split; congruence).
  split; [exact F|]. split; [exact F|]. split; [|apply (proj2 (proj1 (C94_overflow false _ F))); vm_compute; reflexivity].
  pose proof (value_nonneg binary64 FloatRoundProofs.good_binary64 _ (proj1 F)) as V. pose proof (pi_between 1 ltac:(lra)).
  set (x := value binary64 false (infinity binary64 - 1)) in *. assert (x * PI <= x * (18 / 4))%R by (apply Rmult_le_compat_l; lra). lra.
Qed.
Print Assumptions C94_finite_refuted.

(** Converting to radians and back: within 9/2 roundoffs. *)
Theorem C94_round_trip : forall f neg n r d, f = binary32 \/ f = binary64 \/ f = binary80 -> finite f n ->
  deg_to_rad f ToNearest (Num neg n) = Num neg r -> r < infinity f -> rad_to_deg f ToNearest (Num neg r) = Num neg d -> d < infinity f ->
  (Rabs (value f neg d - value f neg n) <= 9 / 2 * roundoff f * Rabs (value f neg n) + 32 * smallest f)%R.
Proof.
  intros f neg n r d F N D L D' L'. assert (M : modelled f) by (destruct F as [-> | [-> | ->]]; constructor).
  rewrite (deg_to_rad_num f M neg n N) in D. injection D as <-. destruct (d2r_range f M n (proj1 N)) as [R0 _].
  rewrite (rad_to_deg_num f M neg _ (conj R0 L)) in D'. injection D' as <-. pose proof (d2r_r2d f M n (proj1 N) L L') as E. cbv zeta in E.
  pose proof (value_nonneg f (modelled_good f M) n (proj1 N)).
  rewrite (value_sign f neg n), (value_sign f neg (r2d f _)), <- Rmult_minus_distr_l.
  assert (EQ : forall k : R, (Rabs ((if neg then -1 else 1) * k) = Rabs k)%R) by (apply sign_abs).
  rewrite !EQ, (Rabs_right (value f false n)) by lra. exact E.
Qed.
Print Assumptions C94_round_trip.
(** It is not the identity: 11 degrees. *)
Theorem C94_round_trip_refuted : exists n d, finite binary64 n /\ Num false n = fp_of_int binary64 ToNearest 11 /\
  rad_to_deg binary64 ToNearest (deg_to_rad binary64 ToNearest (Num false n)) = Num false d /\ d <> n.
Proof. exists 0x4026000000000000, 0x4025ffffffffffff. vm_compute. repeat split; congruence. Qed.
Print Assumptions C94_round_trip_refuted.

(** In the directed modes: rounding down, the angle in radians of a double that is not negative is not above the exact one; rounding
    up, the angle in degrees is not below. *)
Theorem C94_enclosure : forall n, finite binary64 n ->
  (exists r, deg_to_rad binary64 Downward (Num false n) = Num false r /\ finite binary64 r /\ (value binary64 false r <= value binary64 false n * PI / 180)%R) /\
  (exists r, rad_to_deg binary64 Upward (Num false n) = Num false r /\ 0 <= r <= infinity binary64 /\
    (r < infinity binary64 -> (value binary64 false n * 180 / PI <= value binary64 false r)%R)).
Proof. intros n N. split; [apply deg_to_rad_down, N|apply rad_to_deg_up, N]. Qed.
Print Assumptions C94_enclosure.
(** The other bounds do not hold, because pi is below the real number: one degree, and one radian. *)
Theorem C94_enclosure_refuted : exists n up down, value binary64 false n = 1%R /\
  deg_to_rad binary64 Upward (Num false n) = Num false up /\ (value binary64 false up < PI / 180)%R /\
  rad_to_deg binary64 Downward (Num false n) = Num false down /\ (180 / PI < value binary64 false down)%R.
Proof.
  exists 0x3ff0000000000000, 0x3f91df46a2529d39, 0x404ca5dc1a63c1f8. pose proof MathRealProofs.pi_bounds as [L H]. unfold MathRealProofs.pi_low, MathRealProofs.pi_high, Q2R in L, H.
  cbn [QArith_base.Qnum QArith_base.Qden] in L, H. change (10 ^ 19)%positive with 10000000000000000000%positive in L, H.
  split; [rewrite (value_ratio binary64 _ 1 1 FloatRoundProofs.good_binary64); [lra|lia|vm_compute; reflexivity]|]. split; [vm_compute; reflexivity|]. split; [|split; [vm_compute; reflexivity|]].
  - rewrite (value_ratio binary64 _ 5030569068109113 288230376151711744 FloatRoundProofs.good_binary64); [lra|lia|vm_compute; reflexivity].
  - rewrite (value_ratio binary64 _ 1007958012753983 17592186044416 FloatRoundProofs.good_binary64); [|lia|vm_compute; reflexivity].
    apply Rmult_lt_reg_r with PI; [lra|]. unfold Rdiv at 1. rewrite Rmult_assoc, Rinv_l by lra. lra.
Qed.
Print Assumptions C94_enclosure_refuted.
(** ** C95: the conversions of integral types, for which pi is 3 *)
(** Signed types from int on: a sixtieth, truncated; 60 times; or a signed overflow. *)
Theorem C95_signed : forall t x, is_signed t = true -> 32 <= bits t -> is_value t x ->
  (is_value t (3 * x) -> deg_to_rad_int t x = Ok (Z.quot x 60)) /\ (~ is_value t (3 * x) -> deg_to_rad_int t x = UB SignedOverflow) /\
  (is_value t (180 * x) -> rad_to_deg_int t x = Ok (60 * x)) /\ (~ is_value t (180 * x) -> rad_to_deg_int t x = UB SignedOverflow).
Proof. intros t x S B V. destruct (deg_signed t x S B V), (rad_signed t x S B V). auto. Qed.
Print Assumptions C95_signed.
(** Unsigned types from unsigned int on: the product is calculated modulo 2^bits. *)
Theorem C95_unsigned : forall t x, is_signed t = false -> 32 <= bits t -> is_value t x ->
  deg_to_rad_int t x = Ok ((3 * x) mod 2 ^ bits t / 180) /\ rad_to_deg_int t x = Ok ((180 * x) mod 2 ^ bits t / 3) /\
  (3 * x < 2 ^ bits t -> deg_to_rad_int t x = Ok (x / 60)) /\ (180 * x < 2 ^ bits t -> rad_to_deg_int t x = Ok (60 * x)).
Proof.
  intros t x S B V. rewrite (deg_unsigned t x S B), (rad_unsigned t x S B). unfold is_value in V. rewrite S in V. split; [reflexivity|]. split; [reflexivity|].
  split; intro L; rewrite Z.mod_small by lia.
  - change 180 with (3 * 60). rewrite Z.div_mul_cancel_l by lia. reflexivity.
  - replace (180 * x) with (60 * x * 3) by ring. rewrite Z.div_mul by lia. reflexivity.
Qed.
Print Assumptions C95_unsigned.
(** Types narrower than int *)
Theorem C95_narrow : forall t x, 0 < bits t <= 16 -> is_value t x ->
  (is_value t 180 -> deg_to_rad_int t x = Ok (Z.quot x 60)) /\
  (exists v, rad_to_deg_int t x = Ok v /\ is_value t v /\ congruent (bits t) v (60 * x)).
Proof.
  intros t x B V. split; [apply deg_narrow; assumption|]. exists (convert t (60 * x)). split; [apply rad_narrow; assumption|].
  split; [apply MiscProofs.convert_value|apply MiscProofs.convert_congruent]; unfold MiscProofs.good; lia.
Qed.
Print Assumptions C95_narrow.
(** int8_t does not represent 180: the angle in radians has the wrong sign. *)
Theorem C95_int8 : forall x, is_value {| is_signed := true; bits := 8 |} x -> deg_to_rad_int {| is_signed := true; bits := 8 |} x = Ok (- Z.quot (3 * x) 76).
Proof. intros x V. unfold is_value in V. cbn [is_signed bits] in V. change (2 ^ (8 - 1)) with 128 in V. apply deg_int8. lia. Qed.
Print Assumptions C95_int8.
Theorem C95_sign_refuted : exists t x v, is_value t x /\ 0 < x /\ deg_to_rad_int t x = Ok v /\ v < 0.
Proof. exists {| is_signed := true; bits := 8 |}, 100, (-3). unfold is_value. cbn [is_signed bits]. repeat split; try lia; vm_compute; reflexivity. Qed.
Print Assumptions C95_sign_refuted.
(** Not monotone for unsigned int either. *)
Theorem C95_monotone_refuted : exists x y a b, is_value {| is_signed := false; bits := 32 |} x /\ is_value {| is_signed := false; bits := 32 |} y /\ x < y /\
  deg_to_rad_int {| is_signed := false; bits := 32 |} x = Ok a /\ deg_to_rad_int {| is_signed := false; bits := 32 |} y = Ok b /\ b < a.
Proof. exists 1431655765, 1431655766, 23860929, 0. unfold is_value. cbn [is_signed bits]. repeat split; try lia; vm_compute; reflexivity. Qed.
Print Assumptions C95_monotone_refuted.
(** One radian is 57 degrees, not 60. *)
Example C95_values : deg_to_rad_int int_type 360 = Ok 6 /\ deg_to_rad_int int_type 59 = Ok 0 /\ rad_to_deg_int int_type 1 = Ok 60 /\ rad_to_deg_int int_type (-3) = Ok (-180).
Proof. vm_compute. auto. Qed.

(** ** C96: pow2 to pow6 and sign of floating point numbers *)
(** The sign is that of the power. With [k - 1] roundings the result is within [(1 + roundoff)^(k - 1)] of the exact power, plus three
    times the smallest positive number. *)
Theorem C96_accuracy : forall k power f neg n, fp_pow k = Some power -> f = binary32 \/ f = binary64 \/ f = binary80 -> finite f n ->
  exists r, power f ToNearest (Num neg n) = Num (neg && Z.odd k) r /\ 0 <= r <= infinity f /\
    (r < infinity f -> let exact := (value f neg n ^ Z.to_nat k)%R in
     (Rabs (value f (neg && Z.odd k) r - exact) <= ((1 + roundoff f) ^ Z.to_nat (k - 1) - 1) * Rabs exact + 3 * smallest f /\
      (IZR (2 ^ mant_bits f) * smallest f <= Rabs exact ->
       Rabs (value f (neg && Z.odd k) r - exact) <= ((1 + roundoff f) ^ Z.to_nat (k - 1) - 1) * Rabs exact))%R).
Proof.
  intros k power f neg n E F N. assert (M : modelled f) by (destruct F as [-> | [-> | ->]]; constructor). pose proof (fp_pow_range k power E) as K.
  exists (pw f k n). split; [apply (pow_num f M); [exact E|unfold finite in N; lia]|]. split; [apply (pw_range f M), N|]. intros L exact.
  pose proof (value_nonneg f (modelled_good f M) n (proj1 N)) as V.
  assert (SG : exact = ((if neg && Z.odd k then -1 else 1) * value f false n ^ Z.to_nat k)%R).
  { unfold exact. rewrite (value_sign f neg n). destruct neg; cbn [andb]; [|replace (1 * value f false n)%R with (value f false n) by ring; ring].
    destruct (exponents k K) as [-> | [-> | [-> | [-> | ->]]]]; cbn [Z.odd]; unfold Z.to_nat, Pos.to_nat; cbn [Pos.iter_op Nat.add pow]; ring. }
  rewrite SG, (value_sign f (neg && Z.odd k)), <- Rmult_minus_distr_l, !sign_abs. assert (P0 : (0 <= value f false n ^ Z.to_nat k)%R) by (apply pow_le, V).
  rewrite (Rabs_right (value f false n ^ Z.to_nat k)) by lra. split; [apply (pw_error f M k n K (proj1 N) L)|]. intro Nm.
  destruct (pw_rel f M k n K (proj1 N) L Nm) as (_ & _ & B). unfold steps, expo in B. lra.
Qed.
Print Assumptions C96_accuracy.
(** The result is finite if the exact power, times [(1 + roundoff)^(k - 2)], is at most the largest finite number. *)
Theorem C96_finite : forall k power f neg n, fp_pow k = Some power -> f = binary32 \/ f = binary64 \/ f = binary80 -> finite f n ->
  ((1 + roundoff f) ^ Z.to_nat (k - 2) * Rabs (value f neg n) ^ Z.to_nat k <= value f false (infinity f - 1))%R ->
  exists s r, power f ToNearest (Num neg n) = Num s r /\ r < infinity f.
Proof.
  intros k power f neg n E F N H. assert (M : modelled f) by (destruct F as [-> | [-> | ->]]; constructor). pose proof (fp_pow_range k power E) as K.
  exists (neg && Z.odd k), (pw f k n). split; [apply (pow_num f M); [exact E|unfold finite in N; lia]|]. apply (pw_fits f M k n K N).
  rewrite (value_sign f neg n), sign_abs, Rabs_right in H by (apply Rle_ge, (value_nonneg f (modelled_good f M)), N).
  replace (expo k - 2)%nat with (Z.to_nat (k - 2)) by (unfold expo; lia). exact H.
Qed.
Print Assumptions C96_finite.
(** Powers of integers are exact in every rounding mode as long as they have at most as many bits as the format. *)
Theorem C96_integers : forall k power f rm v, fp_pow k = Some power -> f = binary32 \/ f = binary64 \/ f = binary80 -> Z.abs v ^ k <= 2 ^ (mant_bits f + 1) ->
  power f rm (fp_of_int f rm v) = fp_of_int f rm (v ^ k) /\ forall neg n, fp_of_int f rm (v ^ k) = Num neg n -> (value f neg n = IZR (v ^ k))%R.
Proof.
  intros k power f rm v E F H. assert (M : modelled f) by (destruct F as [-> | [-> | ->]]; constructor). split; [apply (pow_int f M k power rm v E H)|].
  intros neg n I. unfold fp_of_int in I. rewrite <- Z.abs_pow in H. destruct (int_pattern f M (Z.abs (v ^ k)) ltac:(lia)) as (m & _ & S & _ & O). rewrite O in I. injection I as <- <-.
  rewrite value_sign, (value_ratio f m (Z.abs (v ^ k)) 1 (modelled_good f M)) by lia. rewrite abs_IZR. unfold Rdiv. rewrite Rinv_1, Rmult_1_r.
  destruct (Z.ltb_spec (v ^ k) 0) as [L|L]; [apply IZR_lt in L; rewrite Rabs_left by exact L|apply IZR_le in L; rewrite Rabs_right by lra]; ring.
Qed.
Print Assumptions C96_integers.
(** The powers are monotone: the odd ones on all numbers, the even ones in the absolute value. NaN stays NaN, infinities have infinite powers. *)
Theorem C96_monotone : forall k power f, fp_pow k = Some power -> f = binary32 \/ f = binary64 \/ f = binary80 ->
  power f ToNearest NaN = NaN /\ (forall neg, power f ToNearest (Num neg (infinity f)) = Num (neg && Z.odd k) (infinity f)) /\
  (forall neg n t m n' m', 0 <= n <= m -> m <= infinity f -> power f ToNearest (Num neg n) = Num (neg && Z.odd k) n' -> power f ToNearest (Num t m) = Num (t && Z.odd k) m' -> n' <= m') /\
  (Z.odd k = true -> forall s n t m, 0 <= n <= infinity f -> 0 <= m <= infinity f -> order_key s n <= order_key t m ->
    exists n' m', power f ToNearest (Num s n) = Num s n' /\ power f ToNearest (Num t m) = Num t m' /\ order_key s n' <= order_key t m').
Proof.
  intros k power f E F. assert (M : modelled f) by (destruct F as [-> | [-> | ->]]; constructor). pose proof (fp_pow_range k power E) as K. pose proof (inf_pos f M) as IP.
  split; [|split; [|split]].
  - destruct (exponents k K) as [-> | [-> | [-> | [-> | ->]]]]; injection E as <-; reflexivity.
  - intro neg. rewrite (pow_num f M k power neg _ E) by lia. f_equal.
    assert (X : mulp f ToNearest (infinity f) (infinity f) = infinity f) by apply mulp_inf.
    destruct (exponents k K) as [-> | [-> | [-> | [-> | ->]]]]; cbn [pw]; rewrite ?X; reflexivity.
  - intros neg n t m n' m' N L P P'. rewrite (pow_num f M k power _ _ E) in P by lia. rewrite (pow_num f M k power _ _ E) in P' by lia. injection P as <-. injection P' as <-. apply (pw_mono f M). lia.
  - intros O s n t m N L H. exists (pw f k n), (pw f k m). rewrite !(pow_num f M k power _ _ E), O, !andb_true_r by lia. split; [reflexivity|]. split; [reflexivity|].
    pose proof (pw_range f M k n (proj1 N)). pose proof (pw_range f M k m (proj1 L)). unfold order_key in *. destruct s, t.
    + pose proof (pw_mono f M k m n ltac:(lia)). lia.
    + lia.
    + assert (n = 0 /\ m = 0) as [-> ->] by lia. pose proof (pw_zero f M k). lia.
    + apply (pw_mono f M). lia.
Qed.
Print Assumptions C96_monotone.
(** The result need not be the nearest number: 0.3 cubed. *)
Theorem C96_nearest_refuted : exists n r, finite binary64 n /\ fp_pow3 binary64 ToNearest (Num false n) = Num false r /\
  ~ nearest binary64 (scaled binary64 n ^ 3) (2 ^ (3 * unit_exp binary64)) r.
Proof.
  exists 0x3fd3333333333333, 0x3f9ba5e353f7ced9. split; [vm_compute; split; congruence|]. split; [vm_compute; reflexivity|]. intro H.
  assert (N : 0 <= scaled binary64 0x3fd3333333333333 ^ 3) by (vm_compute; congruence). assert (D : 0 < 2 ^ (3 * unit_exp binary64)) by (apply Z.pow_pos_nonneg; cbn; lia).
  pose proof (FloatRoundProofs.nearest_unique binary64 FloatRoundProofs.good_binary64 _ _ _ _ D N H (FloatFastProofs.round_nearest binary64 FloatRoundProofs.good_binary64 _ _ N D)) as U.
  vm_compute in U. discriminate.
Qed.
Print Assumptions C96_nearest_refuted.
(** In the directed modes the powers of numbers that are not negative enclose the exact power. *)
Theorem C96_enclosure : forall k power f n, fp_pow k = Some power -> f = binary32 \/ f = binary64 \/ f = binary80 -> finite f n ->
  exists lo hi, power f Downward (Num false n) = Num false lo /\ finite f lo /\ power f Upward (Num false n) = Num false hi /\ 0 <= hi <= infinity f /\
    let exact := (value f false n ^ Z.to_nat k)%R in ((value f false lo <= exact)%R /\ (hi < infinity f -> (exact <= value f false hi)%R)).
Proof.
  intros k power f n E F N. assert (M : modelled f) by (destruct F as [-> | [-> | ->]]; constructor).
  destruct (low_pow f M k power n E N) as (lo & P & L & B). destruct (high_pow f M k power n E N) as (hi & P' & L' & B').
  exists lo, hi. split; [exact P|]. split; [exact L|]. split; [exact P'|]. split; [exact L'|]. split; [exact B|]. intro I. apply B', I.
Qed.
Print Assumptions C96_enclosure.
(** For negative numbers they do not: the square is rounded away from zero and the product towards it. The cube of -0.1, rounded up, is
    below the exact one. *)
Theorem C96_enclosure_refuted : exists n r, finite binary64 n /\ fp_pow3 binary64 Upward (Num true n) = Num true r /\ (value binary64 true r < value binary64 true n ^ 3)%R.
Proof.
  exists 0x3fb999999999999a, 0x3f50624dd2f1a9fd. split; [vm_compute; split; congruence|]. split; [vm_compute; reflexivity|].
  rewrite !(value_sign binary64 true), (value_ratio binary64 0x3fb999999999999a 3602879701896397 36028797018963968 FloatRoundProofs.good_binary64), (value_ratio binary64 0x3f50624dd2f1a9fd 4611686018427389 4611686018427387904 FloatRoundProofs.good_binary64);
    [lra|lia|vm_compute; reflexivity|lia|vm_compute; reflexivity].
Qed.
Print Assumptions C96_enclosure_refuted.
(** sign: -1 for the numbers below zero and 1 for all others, NaN and the negative zero included. *)
Theorem C96_sign : forall f rm, f = binary32 \/ f = binary64 \/ f = binary80 ->
  (exists m p, fp_of_int f rm (-1) = Num true m /\ value f true m = (-1)%R /\ fp_of_int f rm 1 = Num false p /\ value f false p = 1%R) /\
  (forall neg n, finite f n -> (value f neg n < 0)%R -> fp_sign f rm (Num neg n) = fp_of_int f rm (-1)) /\
  (forall neg n, finite f n -> (0 <= value f neg n)%R -> fp_sign f rm (Num neg n) = fp_of_int f rm 1) /\
  fp_sign f rm (Num true (infinity f)) = fp_of_int f rm (-1) /\ fp_sign f rm (Num false (infinity f)) = fp_of_int f rm 1 /\ fp_sign f rm NaN = fp_of_int f rm 1.
Proof.
  intros f rm F. assert (M : modelled f) by (destruct F as [-> | [-> | ->]]; constructor). pose proof (modelled_good f M) as G. pose proof (inf_pos f M) as IP.
  split; [|split; [|split; [|split; [|split]]]].
  - destruct (int_pattern f M 1) as (m & _ & S & _ & O); [pose proof (FloatRoundProofs.B_pos f G); rewrite Z.pow_add_r by (destruct G; lia); lia|].
    assert (V : (value f false m = 1)%R) by (rewrite (value_ratio f m 1 1 G) by lia; lra).
    exists m, m. unfold fp_of_int. cbn [Z.ltb Z.compare Z.abs]. rewrite !O. rewrite (value_sign f true m), V. repeat split; lra.
  - intros neg n N H. rewrite value_sign in H. pose proof (value_nonneg f G n (proj1 N)). destruct neg; [|lra]. cbn [fp_sign].
    destruct (Z.ltb_spec 0 n) as [P|P]; [reflexivity|]. assert (n = 0) as -> by (unfold finite in N; lia). rewrite value_pos, (FloatRoundProofs.scaled_0 f G) in H. unfold Rdiv in H. lra.
  - intros neg n N H. rewrite value_sign in H. destruct neg; [|reflexivity]. cbn [fp_sign]. destruct (Z.ltb_spec 0 n) as [P|P]; [|reflexivity].
    pose proof (value_nonzero f G n P). lra.
  - cbn [fp_sign]. rewrite (proj2 (Z.ltb_lt 0 (infinity f)) IP). reflexivity.
  - reflexivity.
  - reflexivity.
Qed.
Print Assumptions C96_sign.
Example C96_values :
  fp_pow5 binary32 ToNearest (fp_of_int binary32 ToNearest (-3)) = fp_of_int binary32 ToNearest (-243) /\
  fp_pow6 binary32 Upward (fp_of_int binary32 Upward 11) = fp_of_int binary32 Upward 1771561 /\
  fp_pow2 binary32 ToNearest (Num true 0x7f000000) = Num false (infinity binary32) /\ fp_sign binary32 ToNearest (Num true 0) = Num false 0x3f800000.
Proof. vm_compute. auto. Qed.

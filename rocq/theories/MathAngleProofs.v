(** The angle conversions of math.hpp for floating point types, in the nearest mode. *)
From Coq Require Import Reals QArith Qreals Lra.
From Verif Require Import Base FloatSpec FloatFastModel FloatRoundProofs FloatFastProofs MathModel MathSpec MathRealProofs MathProofs.
Local Open Scope Z_scope.

Lemma good_binary80 : good_format binary80.
Proof. repeat split; cbn; lia. Qed.
(** *** Monotony of the operations *)
Section Ops.
Context (f : format) (G : good_format f).
Lemma round_exact_near n : 0 <= n < infinity f -> nearest f (scaled f n) (2 ^ unit_exp f) n.
Proof.
  intro N. assert (UP := U_pos f G). assert (S := scaled_nonneg f G n ltac:(lia)).
  rewrite <- (round_exact f G ToNearest (scaled f n) (2 ^ unit_exp f) n S UP N ltac:(lia)) at 2. apply (round_nearest f G); assumption.
Qed.
Lemma round_mono num num' den : 0 <= num <= num' -> 0 < den -> round_positive f ToNearest num den <= round_positive f ToNearest num' den.
Proof.
  intros N D. apply (nearest_mono f G num den _ num' den); try lia; [apply Z.mul_le_mono_nonneg_r; lia| |]; apply (round_nearest f G); lia.
Qed.
Lemma fmul_mono a b c : 0 <= a -> 0 <= b <= c -> fmul f ToNearest a b <= fmul f ToNearest a c.
Proof.
  intros A B. pose proof (scaled_nonneg f G a A). pose proof (scaled_le f G b c B). pose proof (scaled_nonneg f G b ltac:(lia)).
  apply round_mono; [nia|]. apply Z.pow_pos_nonneg; destruct G; lia.
Qed.
Lemma fdiv_mono a b c : 0 <= a <= b -> 0 < c -> fdiv f ToNearest a c <= fdiv f ToNearest b c.
Proof.
  intros A C. pose proof (scaled_nonneg f G a ltac:(lia)). pose proof (scaled_le f G a b A). apply round_mono; [lia|].
  rewrite <- (scaled_0 f G); apply (scaled_lt f G); lia.
Qed.
(** Dividing by a number above 1 does not overflow. *)
Lemma fdiv_le a c : 0 <= a < infinity f -> 2 ^ unit_exp f <= scaled f c -> fdiv f ToNearest a c <= a.
Proof.
  intros A C. pose proof (scaled_nonneg f G a ltac:(lia)). pose proof (U_pos f G).
  apply (nearest_mono f G (scaled f a) (scaled f c) _ (scaled f a) (2 ^ unit_exp f)); try lia; [nia| |apply round_exact_near, A].
  apply (round_nearest f G); lia.
Qed.
Lemma round_range num den : 0 <= num -> 0 < den -> 0 <= round_positive f ToNearest num den <= infinity f.
Proof. intros N D. apply (proj1 (nearest_unfold f _ _ _) (round_nearest f G num den N D)). Qed.
Lemma fmul_range a b : 0 <= a -> 0 <= b -> 0 <= fmul f ToNearest a b <= infinity f.
Proof.
  intros A B. pose proof (scaled_nonneg f G a A). pose proof (scaled_nonneg f G b B). apply round_range; [nia|]. apply Z.pow_pos_nonneg; destruct G; lia.
Qed.
Lemma fdiv_range a c : 0 <= a -> 0 < c -> 0 <= fdiv f ToNearest a c <= infinity f.
Proof.
  intros A C. pose proof (scaled_nonneg f G a A). apply round_range; [assumption|]. rewrite <- (scaled_0 f G); apply (scaled_lt f G); lia.
Qed.
(** [a * n / c] with two roundings *)
Definition muldiv (a c n : Z) : Z := let m := fmul f ToNearest a n in if infinity f <=? m then infinity f else fdiv f ToNearest m c.
Lemma muldiv_fp a c neg n : 0 < a < infinity f -> 0 < c < infinity f -> 0 <= n < infinity f ->
  fp_div f ToNearest (fp_mul f ToNearest (Num false a) (Num neg n)) (Num false c) = Num neg (muldiv a c n).
Proof.
  intros A C N. unfold fp_mul, is_inf. cbn [xorb]. rewrite !(proj2 (Z.leb_gt _ _)) by lia. rewrite !andb_false_r. cbn [andb orb].
  unfold fp_div, muldiv, is_inf. cbv zeta. replace (c =? 0) with false by lia. rewrite (proj2 (Z.leb_gt _ c)) by lia. rewrite !andb_false_r. cbn [orb].
  rewrite xorb_false_r. destruct neg; cbn [magnitude_mode xorb]; destruct (_ <=? _); reflexivity.
Qed.
Lemma muldiv_range a c n : 0 <= a -> 0 < c -> 0 <= n -> 0 <= muldiv a c n <= infinity f.
Proof.
  intros A C N. unfold muldiv. cbv zeta. pose proof (fmul_range a n A N). destruct (Z.leb_spec (infinity f) (fmul f ToNearest a n)); [lia|]. apply fdiv_range; lia.
Qed.
Lemma round_zero rm den : 0 < den -> round_positive f rm 0 den = 0.
Proof.
  intro D. apply (round_exact f G); [lia|exact D|split; [lia|unfold infinity; pose proof (B_pos f G); destruct G as [_ [? _]]; nia]|]. rewrite (scaled_0 f G). ring.
Qed.
Lemma muldiv_zero a c : 0 <= a -> 0 < c -> muldiv a c 0 = 0.
Proof.
  intros A C. unfold muldiv, fmul, fdiv. assert (SC : 0 < scaled f c) by (rewrite <- (scaled_0 f G); apply (scaled_lt f G); lia).
  rewrite (scaled_0 f G), Z.mul_0_r, round_zero by (apply Z.pow_pos_nonneg; destruct G; lia). cbv zeta. rewrite (scaled_0 f G), (round_zero _ _ SC).
  rewrite (proj2 (Z.leb_gt _ _)); [reflexivity|]. unfold infinity; pose proof (B_pos f G); destruct G as [_ [? _]]; nia.
Qed.
Lemma muldiv_mono a c n n' : 0 <= a -> 0 < c -> 0 <= n <= n' -> muldiv a c n <= muldiv a c n'.
Proof.
  intros A C N. unfold muldiv. cbv zeta. pose proof (fmul_mono a n n' A N). pose proof (fmul_range a n A ltac:(lia)). pose proof (fmul_range a n' A ltac:(lia)).
  destruct (Z.leb_spec (infinity f) (fmul f ToNearest a n)); destruct (Z.leb_spec (infinity f) (fmul f ToNearest a n')); try lia.
  - apply fdiv_range; lia.
  - apply fdiv_mono; lia.
Qed.
Lemma muldiv_finite a c n : 0 <= a -> 0 <= n -> 2 ^ unit_exp f <= scaled f c -> muldiv a c n < infinity f <-> fmul f ToNearest a n < infinity f.
Proof.
  intros A N C. unfold muldiv. cbv zeta. pose proof (fmul_range a n A N). destruct (Z.leb_spec (infinity f) (fmul f ToNearest a n)) as [L|L]; [lia|].
  pose proof (fdiv_le _ c (conj (proj1 H) L) C). lia.
Qed.
(** The largest number that does not overflow *)
Lemma muldiv_threshold a c n0 n : 0 <= a -> 2 ^ unit_exp f <= scaled f c -> 0 <= n0 -> fmul f ToNearest a n0 < infinity f -> fmul f ToNearest a (n0 + 1) = infinity f ->
  0 <= n -> muldiv a c n < infinity f <-> n <= n0.
Proof.
  intros A C N0 L0 L1 N. rewrite muldiv_finite by assumption. split; intro H.
  - destruct (Z_le_gt_dec n n0); [assumption|]. pose proof (fmul_mono a (n0 + 1) n A ltac:(lia)). lia.
  - pose proof (fmul_mono a n n0 A ltac:(lia)). lia.
Qed.
Lemma muldiv_error a c n : 0 <= a -> 0 <= n -> 0 < c -> 2 ^ unit_exp f <= scaled f c -> muldiv a c n < infinity f ->
  (let h := smallest f / 2 in let u := roundoff f in let x := value f false a * value f false n / value f false c in
   Rabs (value f false (muldiv a c n) - x) <= h + h / value f false c + u * (h / value f false c) + u * (2 + u) * x)%R.
Proof.
  intros A N C CU L h u x. pose proof (proj1 (muldiv_finite a c n A N CU) L) as L'. unfold muldiv in L |- *. cbv zeta in L |- *.
  rewrite (proj2 (Z.leb_gt _ _) L') in L |- *. pose proof (fmul_range a n A N).
  apply chain with (m := value f false (fmul f ToNearest a n)).
  - unfold h. pose proof (smallest_pos f G). lra.
  - left. apply (roundoff_pos f G).
  - apply Rmult_le_pos; apply (value_nonneg f G); assumption.
  - apply (value_nonzero f G c C).
  - apply (fmul_close f G); assumption.
  - apply (fdiv_close f G); lia.
Qed.
End Ops.

(** *** The constants in the three formats *)
Inductive modelled : format -> Prop := modelled_float : modelled binary32 | modelled_double : modelled binary64 | modelled_long : modelled binary80.
Lemma modelled_good f : modelled f -> good_format f.
Proof. intros []; [apply good_binary32|apply good_binary64|apply good_binary80]. Qed.
Definition pi_of (f : format) : Z := if mant_bits f =? 23 then 0x40490fdb else if mant_bits f =? 52 then 0x400921fb54442d18 else 151120992118707946307584.
Definition degrees_of (f : format) : Z := if mant_bits f =? 23 then 0x43340000 else if mant_bits f =? 52 then 0x4066800000000000 else 151174814678939747745792.
Lemma pi_pattern : pi = Num false 0x400921fb54442d18.
Proof. vm_compute. reflexivity. Qed.
Lemma pi_pattern_of f : modelled f -> fp_convert binary64 f ToNearest pi = Num false (pi_of f).
Proof.
  intros [].
  - vm_compute; reflexivity.
  - vm_compute; reflexivity.
  - rewrite pi_pattern. unfold fp_convert. replace (is_inf binary64 0x400921fb54442d18) with false by (vm_compute; reflexivity).
    cut (round_positive binary80 (magnitude_mode ToNearest false) (scaled binary64 0x400921fb54442d18) (2 ^ unit_exp binary64) = pi_of binary80); [intros ->; reflexivity|].
    apply (round_exact binary80 good_binary80); [vm_compute; congruence|apply Z.pow_pos_nonneg; cbn; lia|vm_compute; split; congruence|].
    change (pi_of binary80) with 151120992118707946307584. replace (scaled binary64 0x400921fb54442d18) with (884279719003555 * 2 ^ 1026) by (vm_compute; reflexivity).
    replace (scaled binary80 151120992118707946307584) with (884279719003555 * 2 ^ 16397) by (vm_compute; reflexivity).
    cbn [unit_exp binary80 binary64]. rewrite <- !Z.mul_assoc, <- !Z.pow_add_r by lia. reflexivity.
Qed.
Lemma degrees_pattern_of f : modelled f -> fp_of_int f ToNearest pi_degrees = Num false (degrees_of f).
Proof.
  intros [].
  - vm_compute; reflexivity.
  - vm_compute; reflexivity.
  - unfold fp_of_int, of_uint. change (pi_degrees <? 0) with false. change (Z.abs pi_degrees) with 180.
    cut (round_positive binary80 (magnitude_mode ToNearest false) 180 1 = degrees_of binary80); [intros ->; reflexivity|].
    apply (round_exact binary80 good_binary80); [lia|lia|vm_compute; split; congruence|]. vm_compute; reflexivity.
Qed.
Lemma pi_range f : modelled f -> 0 < pi_of f < infinity f.
Proof. intros []; vm_compute; auto. Qed.
Lemma degrees_range f : modelled f -> 0 < degrees_of f < infinity f.
Proof. intros []; vm_compute; auto. Qed.
Lemma value_ratio f n num den : good_format f -> 0 < den -> scaled f n * den = num * 2 ^ unit_exp f -> (value f false n = IZR num / IZR den)%R.
Proof.
  intros G D E. rewrite value_pos. apply (f_equal IZR) in E. rewrite !mult_IZR in E. pose proof (UR_pos f G). apply IZR_lt in D.
  apply (Rmult_eq_reg_r (IZR (2 ^ unit_exp f) * IZR den)); [|apply Rgt_not_eq, Rmult_lt_0_compat; assumption]. field_simplify; lra.
Qed.
Lemma degrees_value f : modelled f -> (value f false (degrees_of f) = 180)%R.
Proof.
  intro M. rewrite (value_ratio f _ 180 1 (modelled_good f M)); [lra|lia|]. destruct M; vm_compute; reflexivity.
Qed.
(** The relative error of number_type(pi) *)
Definition pi_error (f : format) : R := (if mant_bits f =? 63 then 3 / 4 * / IZR (2 ^ 54) else 47 / 100 * roundoff f)%R.
Lemma pi_value f : modelled f -> (3 <= value f false (pi_of f) /\ Rabs (value f false (pi_of f) - PI) <= pi_error f * PI)%R.
Proof.
  intro M. pose proof pi_bounds as [L H]. unfold pi_low, pi_high, Q2R in L, H. cbn [Qnum Qden] in L, H. change (10 ^ 19)%positive with 10000000000000000000%positive in L, H.
  assert (E : exists num den, value f false (pi_of f) = (IZR num / IZR den)%R /\ (num, den) = if mant_bits f =? 23 then (13176795, 4194304) else (884279719003555, 281474976710656)).
  { destruct M.
    - exists 13176795, 4194304. split; [|reflexivity]. apply value_ratio; [apply good_binary32|lia|vm_compute; reflexivity].
    - exists 884279719003555, 281474976710656. split; [|reflexivity]. apply value_ratio; [apply good_binary64|lia|vm_compute; reflexivity].
    - exists 884279719003555, 281474976710656. split; [|reflexivity]. apply value_ratio; [apply good_binary80|lia|vm_compute; reflexivity]. }
  destruct E as (num & den & E & V). rewrite E. clear E. unfold pi_error, roundoff.
  destruct M; cbn [mant_bits binary32 binary64 binary80 Z.eqb Pos.eqb] in V |- *; injection V as -> ->.
  - change (2 ^ (23 + 1)) with 16777216. split; [lra|]. apply Rabs_le. lra.
  - change (2 ^ (52 + 1)) with 9007199254740992. split; [lra|]. apply Rabs_le. lra.
  - change (2 ^ 54) with 18014398509481984. split; [lra|]. apply Rabs_le. lra.
Qed.
Lemma above_one f n : good_format f -> (1 <= value f false n)%R -> 2 ^ unit_exp f <= scaled f n.
Proof.
  intros G H. rewrite value_pos in H. pose proof (UR_pos f G) as U. apply le_IZR. apply (Rmult_le_compat_r (IZR (2 ^ unit_exp f))) in H; [|lra].
  unfold Rdiv in H. rewrite Rmult_assoc, Rinv_l, Rmult_1_l, Rmult_1_r in H by lra. exact H.
Qed.

(** *** The conversions *)
Section Angle.
Context (f : format) (M : modelled f).
Let G : good_format f := modelled_good f M.
Definition d2r (n : Z) : Z := muldiv f (pi_of f) (degrees_of f) n.
Definition r2d (n : Z) : Z := muldiv f (degrees_of f) (pi_of f) n.
Lemma deg_to_rad_num neg n : finite f n -> deg_to_rad f ToNearest (Num neg n) = Num neg (d2r n).
Proof.
  intro N. unfold deg_to_rad. rewrite (pi_pattern_of f M), (degrees_pattern_of f M). apply muldiv_fp; [apply pi_range, M|apply degrees_range, M|exact N].
Qed.
Lemma rad_to_deg_num neg n : finite f n -> rad_to_deg f ToNearest (Num neg n) = Num neg (r2d n).
Proof.
  intro N. unfold rad_to_deg. rewrite (pi_pattern_of f M), (degrees_pattern_of f M). apply muldiv_fp; [apply degrees_range, M|apply pi_range, M|exact N].
Qed.
Lemma inf_mul a neg : 0 < a < infinity f -> fp_mul f ToNearest (Num false a) (Num neg (infinity f)) = Num neg (infinity f).
Proof.
  intro A. unfold fp_mul, is_inf. cbn [xorb]. rewrite (proj2 (Z.leb_gt _ _)) by lia. replace (a =? 0) with false by lia. cbn [andb orb]. rewrite Z.leb_refl. destruct neg; reflexivity.
Qed.
Lemma inf_div c neg : 0 < c < infinity f -> fp_div f ToNearest (Num neg (infinity f)) (Num false c) = Num neg (infinity f).
Proof.
  intro C. unfold fp_div, is_inf. rewrite Z.leb_refl, (proj2 (Z.leb_gt _ c)) by lia. replace (c =? 0) with false by lia. rewrite !andb_false_r, xorb_false_r. reflexivity.
Qed.
Lemma deg_to_rad_inf neg : deg_to_rad f ToNearest (Num neg (infinity f)) = Num neg (infinity f).
Proof.
  unfold deg_to_rad. rewrite (pi_pattern_of f M), (degrees_pattern_of f M), inf_mul, inf_div; [reflexivity|apply degrees_range, M|apply pi_range, M].
Qed.
Lemma rad_to_deg_inf neg : rad_to_deg f ToNearest (Num neg (infinity f)) = Num neg (infinity f).
Proof.
  unfold rad_to_deg. rewrite (pi_pattern_of f M), (degrees_pattern_of f M), inf_mul, inf_div; [reflexivity|apply pi_range, M|apply degrees_range, M].
Qed.
Lemma pi_one : 2 ^ unit_exp f <= scaled f (pi_of f).
Proof. apply (above_one f _ G). pose proof (pi_value f M). lra. Qed.
Lemma degrees_one : 2 ^ unit_exp f <= scaled f (degrees_of f).
Proof. apply (above_one f _ G). rewrite (degrees_value f M). lra. Qed.
Lemma d2r_mono n n' : 0 <= n <= n' -> d2r n <= d2r n'.
Proof. intro N. pose proof (pi_range f M). pose proof (degrees_range f M). apply (muldiv_mono f G); lia. Qed.
Lemma r2d_mono n n' : 0 <= n <= n' -> r2d n <= r2d n'.
Proof. intro N. pose proof (pi_range f M). pose proof (degrees_range f M). apply (muldiv_mono f G); lia. Qed.
Lemma d2r_zero : d2r 0 = 0.
Proof. apply (muldiv_zero f (modelled_good f M)); [pose proof (pi_range f M); lia|apply degrees_range, M]. Qed.
Lemma r2d_zero : r2d 0 = 0.
Proof. apply (muldiv_zero f (modelled_good f M)); [pose proof (degrees_range f M); lia|apply pi_range, M]. Qed.
Lemma d2r_range n : 0 <= n -> 0 <= d2r n <= infinity f.
Proof. intro N. pose proof (pi_range f M). pose proof (degrees_range f M). apply (muldiv_range f G); lia. Qed.
Lemma r2d_range n : 0 <= n -> 0 <= r2d n <= infinity f.
Proof. intro N. pose proof (pi_range f M). pose proof (degrees_range f M). apply (muldiv_range f G); lia. Qed.

Local Open Scope R_scope.
Notation e := (pi_error f).
Notation u := (roundoff f).
Notation s := (smallest f).
Notation p := (value f false (pi_of f)).
Lemma small_u : 0 < u <= / 16777216.
Proof.
  unfold roundoff. destruct M; cbn [mant_bits binary32 binary64 binary80].
  - change (2 ^ (23 + 1))%Z with 16777216%Z. lra.
  - change (2 ^ (52 + 1))%Z with 9007199254740992%Z. lra.
  - change (2 ^ (63 + 1))%Z with 18446744073709551616%Z. lra.
Qed.
Lemma small_e : 0 <= e <= / 1000000.
Proof.
  pose proof small_u. unfold pi_error. change (2 ^ 54)%Z with 18014398509481984%Z. destruct (_ =? _)%Z; lra.
Qed.
(** With the rounded pi *)
Lemma d2r_rounded n : (0 <= n)%Z -> (d2r n < infinity f)%Z -> let x := value f false n in
  Rabs (value f false (d2r n) - p * x / 180) <= s * (51 / 100) + u * (2 + u) * (p * x / 180).
Proof.
  intros N L x. pose proof (pi_range f M). pose proof (degrees_range f M).
  pose proof (muldiv_error f G (pi_of f) (degrees_of f) n ltac:(lia) N ltac:(lia) degrees_one L) as E. cbv zeta in E. rewrite (degrees_value f M) in E.
  pose proof (smallest_pos f G). pose proof small_u. fold x in E. unfold d2r. eapply Rle_trans; [exact E|]. apply Rplus_le_compat_r. nra.
Qed.
Lemma r2d_rounded n : (0 <= n)%Z -> (r2d n < infinity f)%Z -> let x := value f false n in
  Rabs (value f false (r2d n) - 180 * x / p) <= s * (7 / 10) + u * (2 + u) * (180 * x / p).
Proof.
  intros N L x. pose proof (pi_range f M). pose proof (degrees_range f M).
  pose proof (muldiv_error f G (degrees_of f) (pi_of f) n ltac:(lia) N ltac:(lia) pi_one L) as E. cbv zeta in E. rewrite (degrees_value f M) in E.
  pose proof (smallest_pos f G). pose proof small_u. fold x in E. unfold r2d. eapply Rle_trans; [exact E|]. apply Rplus_le_compat_r.
  destruct (pi_value f M) as [P3 _]. assert (D : s / 2 / p <= s / 6).
  { unfold Rdiv. rewrite Rmult_assoc. apply Rmult_le_compat_l; [lra|]. replace (/ 6) with (/ 2 * / 3) by lra. apply Rmult_le_compat_l; [lra|]. apply Rinv_le_contravar; lra. }
  assert (D0 : 0 <= s / 2 / p) by (apply Rmult_le_pos; [lra|left; apply Rinv_0_lt_compat; lra]). nra.
Qed.
Lemma d2r_error n : (0 <= n)%Z -> (d2r n < infinity f)%Z -> let X := value f false n * PI / 180 in
  Rabs (value f false (d2r n) - X) <= (e + u * (2 + u) * (1 + e)) * X + s.
Proof.
  intros N L X. pose proof (d2r_rounded n N L) as E. cbv zeta in E. destruct (pi_value f M) as [_ PE]. pose proof (value_nonneg f G n N) as V.
  pose proof small_u. pose proof small_e. pose proof (smallest_pos f G) as S. pose proof PI_RGT_0.
  set (x := value f false n) in *. set (y := p * x / 180) in *.
  assert (Y : Rabs (y - X) <= e * X).
  { unfold y, X. replace (p * x / 180 - x * PI / 180) with ((p - PI) * (x / 180)) by field. rewrite Rabs_mult, (Rabs_right (x / 180)) by lra.
    replace (e * (x * PI / 180)) with (e * PI * (x / 180)) by field. apply Rmult_le_compat_r; lra. }
  assert (YL : y <= X + e * X) by (pose proof (Rle_abs (y - X)); lra).
  assert (W : u * (2 + u) * y <= u * (2 + u) * (X + e * X)) by (apply Rmult_le_compat_l; [nra|exact YL]).
  replace (value f false (d2r n) - X) with (value f false (d2r n) - y + (y - X)) by ring. eapply Rle_trans; [apply Rabs_triang|]. lra.
Qed.
Lemma r2d_error n : (0 <= n)%Z -> (r2d n < infinity f)%Z -> let Y := value f false n * 180 / PI in
  Rabs (value f false (r2d n) - Y) <= (e + u * (2 + u)) * / (1 - e) * Y + s.
Proof.
  intros N L Y. pose proof (r2d_rounded n N L) as E. cbv zeta in E. destruct (pi_value f M) as [P3 PE]. pose proof (value_nonneg f G n N) as V.
  pose proof small_u. pose proof small_e. pose proof (smallest_pos f G) as S. pose proof PI_RGT_0.
  set (x := value f false n) in *. set (y := 180 * x / p) in *. set (k := / (1 - e)).
  assert (K : k * (1 - e) = 1) by (unfold k; field; lra). assert (KP : 0 < k) by (apply Rinv_0_lt_compat; lra).
  assert (Y0 : 0 <= Y) by (apply Rmult_le_pos; [lra|left; apply Rinv_0_lt_compat; lra]).
  assert (PL : (1 - e) * PI <= p) by (pose proof (Rle_abs (PI - p)); rewrite Rabs_minus_sym in PE; lra).
  assert (YY : y * p = Y * PI) by (unfold y, Y; field; lra). assert (y0 : 0 <= y) by (apply Rmult_le_pos; [lra|left; apply Rinv_0_lt_compat; lra]).
  assert (YL : y <= k * Y).
  { assert (y * ((1 - e) * PI) <= Y * PI) by (rewrite <- YY; apply Rmult_le_compat_l; assumption).
    assert (y * (1 - e) <= Y) by (apply (Rmult_le_reg_r PI); lra). apply (Rmult_le_reg_r (1 - e)); [lra|]. replace (k * Y * (1 - e)) with (k * (1 - e) * Y) by ring. rewrite K. lra. }
  assert (W : u * (2 + u) * y <= u * (2 + u) * (k * Y)) by (apply Rmult_le_compat_l; [nra|exact YL]).
  assert (D : Rabs (y - Y) <= e * (k * Y)).
  { replace (y - Y) with ((PI - p) * / PI * y).
    2:{ apply (Rmult_eq_reg_r PI); [|lra]. replace ((y - Y) * PI) with (y * PI - Y * PI) by ring. rewrite <- YY. field. lra. }
    rewrite !Rabs_mult, (Rabs_right y), (Rabs_right (/ PI)) by (try apply Rle_ge; try lra; left; apply Rinv_0_lt_compat; lra).
    rewrite Rabs_minus_sym. assert (Rabs (p - PI) * / PI <= e).
    { apply (Rmult_le_reg_r PI); [lra|]. rewrite Rmult_assoc, Rinv_l, Rmult_1_r by lra. exact PE. }
    apply Rmult_le_compat; try lra. apply Rmult_le_pos; [apply Rabs_pos|]. left. apply Rinv_0_lt_compat. lra. }
  replace (value f false (r2d n) - Y) with (value f false (r2d n) - y + (y - Y)) by ring. eapply Rle_trans; [apply Rabs_triang|]. lra.
Qed.
(** There and back *)
Lemma d2r_r2d n : (0 <= n)%Z -> (d2r n < infinity f)%Z -> (r2d (d2r n) < infinity f)%Z -> let x := value f false n in
  Rabs (value f false (r2d (d2r n)) - x) <= 9 / 2 * u * x + 32 * s.
Proof.
  intros N L L' x. pose proof (d2r_rounded n N L) as E. cbv zeta in E. destruct (d2r_range n N) as [R0 _]. pose proof (r2d_rounded (d2r n) R0 L') as E'. cbv zeta in E'.
  destruct (pi_value f M) as [P3 _]. pose proof (value_nonneg f G n N) as V. pose proof (value_nonneg f G _ R0) as V'.
  pose proof small_u. pose proof (smallest_pos f G) as S. fold x in E, V. set (y := value f false (d2r n)) in *. set (z := value f false (r2d (d2r n))) in *.
  set (w := 180 * y / p) in *.
  assert (W : Rabs (w - x) <= 60 * (s * (51 / 100)) + u * (2 + u) * x).
  { replace (w - x) with ((y - p * x / 180) * (180 / p)) by (unfold w; field; lra).
    assert (0 < 180 / p <= 60).
    { split; [apply Rmult_lt_0_compat; [lra|apply Rinv_0_lt_compat; lra]|]. replace 60 with (180 * / 3) by lra. apply Rmult_le_compat_l; [lra|]. apply Rinv_le_contravar; lra. }
    rewrite Rabs_mult, (Rabs_right (180 / p)) by lra.
    eapply Rle_trans; [apply Rmult_le_compat_r; [lra|exact E]|].
    replace ((s * (51 / 100) + u * (2 + u) * (p * x / 180)) * (180 / p)) with (180 / p * (s * (51 / 100)) + u * (2 + u) * x) by (field; lra).
    apply Rplus_le_compat_r. apply Rmult_le_compat_r; lra. }
  assert (WL : w <= x + 60 * (s * (51 / 100)) + u * (2 + u) * x) by (pose proof (Rle_abs (w - x)); lra).
  assert (U2 : 0 <= u * (2 + u) <= 21 / 10 * u) by nra.
  assert (T : u * (2 + u) * w <= u * (2 + u) * (x + 60 * (s * (51 / 100)) + u * (2 + u) * x)) by (apply Rmult_le_compat_l; lra).
  replace (z - x) with (z - w + (w - x)) by ring. eapply Rle_trans; [apply Rabs_triang|].
  set (q := u * (2 + u)) in *.
  assert (Q1 : q <= / 1000000) by lra. assert (QS : q * s <= / 1000000 * s) by (apply Rmult_le_compat_r; lra).
  assert (QX : q * x <= 21 / 10 * u * x) by (apply Rmult_le_compat_r; lra). assert (QQ : q * (q * x) <= / 1000000 * (q * x)) by (apply Rmult_le_compat_r; [apply Rmult_le_pos; lra|lra]).
  assert (0 <= q * x) by (apply Rmult_le_pos; lra). nra.
Qed.
End Angle.
(** 180 degrees in the extended format, exact *)
Lemma half_turn_product x y z : z = y * y -> 884279719003555 * x * (180 * y) * y = 159170349420639900 * x * z.
Proof. intros ->. ring. Qed.
Lemma half_turn_quotient x y : 159170349420639900 * x * y = 884279719003555 * x * (180 * y).
Proof. ring. Qed.
Lemma half_turn_long : d2r binary80 (degrees_of binary80) = pi_of binary80.
Proof.
  unfold d2r, muldiv. assert (D : scaled binary80 (degrees_of binary80) = 180 * 2 ^ 16445) by (vm_compute; reflexivity).
  assert (P : scaled binary80 (pi_of binary80) = 884279719003555 * 2 ^ 16397) by (vm_compute; reflexivity).
  assert (E : fmul binary80 ToNearest (pi_of binary80) (degrees_of binary80) = 151190477958449551222528).
  { unfold fmul. rewrite D, P. assert (Q : scaled binary80 151190477958449551222528 = 159170349420639900 * 2 ^ 16397) by (vm_compute; reflexivity).
    apply (round_exact binary80 good_binary80); [apply Z.mul_nonneg_nonneg; (apply Z.mul_nonneg_nonneg; [discriminate|apply Z.pow_nonneg; discriminate])|apply Z.pow_pos_nonneg; [reflexivity|discriminate]|vm_compute; split; congruence|].
    rewrite Q. apply half_turn_product. exact (Z.pow_twice_r 2 16445). }
  rewrite E. cbv zeta. assert (I : 151190477958449551222528 < infinity binary80) by (vm_compute; reflexivity). rewrite (proj2 (Z.leb_gt _ _) I).
  unfold fdiv. rewrite D. assert (Q : scaled binary80 151190477958449551222528 = 159170349420639900 * 2 ^ 16397) by (vm_compute; reflexivity). rewrite Q.
  apply (round_exact binary80 good_binary80); [apply Z.mul_nonneg_nonneg; [discriminate|apply Z.pow_nonneg; discriminate]|apply Z.mul_pos_pos; [reflexivity|apply Z.pow_pos_nonneg; [reflexivity|discriminate]]|vm_compute; split; congruence|].
  rewrite P. apply half_turn_quotient.
Qed.

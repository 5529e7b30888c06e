(** compute_float returns the pattern nearest to w * 10^q, for all w and q. *)
From Verif Require Import Base FloatSpec FloatTable FloatComputeModel FloatTableChecks FloatTableProofs FloatRoundProofs FloatComputeProofs FloatTieProofs.
Local Open Scope Z_scope.

(** The two formats: the constants of the code and of the specification. *)
Inductive supported : binary -> format -> Prop :=
| sup_double : supported double_format binary64
| sup_float : supported float_format binary32.
Lemma supported_good b f : supported b f -> good_format f.
Proof. intros []; [apply good_binary64|apply good_binary32]. Qed.

(** The pattern an adjusted mantissa stands for. *)
Definition am_pattern (b : binary) (am : adjusted_mantissa) (n : Z) : Prop :=
  let m := 2 ^ mantissa_explicit_bits b in
  (0 <= mantissa am < m /\ 0 <= power2 am <= infinite_power b /\ n = power2 am * m + mantissa am) \/
  (mantissa am = m /\ power2 am = 1 /\ n = m).

Lemma precise_from j q w : 137 <= j -> -342 <= q <= 308 -> 0 <= w < 2 ^ 64 ->
  w * exact_num q / (exact_den q * 2 ^ j) = w * entry q / 2 ^ j.
Proof.
  intros J Q W. pose proof (entry_bounds q Q) as [_ [_ [_ [DP _]]]].
  assert (PJ : 2 ^ j = 2 ^ 137 * 2 ^ (j - 137)) by (rewrite <- Z.pow_add_r by lia; f_equal; lia).
  assert (P1 : 0 < 2 ^ 137) by (apply Z.pow_pos_nonneg; lia).
  assert (P2 : 0 < 2 ^ (j - 137)) by (apply Z.pow_pos_nonneg; lia).
  rewrite PJ, (Z.mul_assoc (exact_den q)).
  rewrite <- (Z.div_div (w * exact_num q)), <- (Z.div_div (w * entry q)) by (try apply Z.neq_sym, Z.lt_neq; nia).
  rewrite entry_precise by assumption. reflexivity.
Qed.

Lemma normal_w w lz : 0 < w < 2 ^ 64 -> lz = 63 - Z.log2 w -> 0 <= lz < 64 /\ 2 ^ 63 <= w * 2 ^ lz < 2 ^ 64.
Proof.
  intros W E. pose proof (Z.log2_spec w ltac:(lia)) as [A B]. pose proof (Z.log2_nonneg w) as C.
  assert (Z.log2 w < 64) by (apply Z.log2_lt_pow2; lia).
  split; [lia|]. subst lz.
  assert (D : 2 ^ 63 = 2 ^ Z.log2 w * 2 ^ (63 - Z.log2 w)) by (rewrite <- Z.pow_add_r by lia; f_equal; lia).
  assert (D' : 2 ^ 64 = 2 ^ Z.succ (Z.log2 w) * 2 ^ (63 - Z.log2 w)) by (rewrite <- Z.pow_add_r by lia; f_equal; lia).
  assert (P : 0 < 2 ^ (63 - Z.log2 w)) by (apply Z.pow_pos_nonneg; lia).
  rewrite D, D'. split; [apply Z.mul_le_mono_nonneg_r; lia|apply Z.mul_lt_mono_pos_r; lia].
Qed.

Lemma leading_shift w lz : 0 < w < 2 ^ 64 -> lz = 63 - Z.log2 w -> shl64 w lz = Ok (w * 2 ^ lz).
Proof.
  intros W E. destruct (normal_w w lz W E) as [A B]. unfold shl64.
  replace ((0 <=? lz) && (lz <? 64)) with true by lia. rewrite Z.shiftl_mul_pow2 by lia. rewrite u64_small by lia. reflexivity.
Qed.

(** Relation of the exact product to the number in halves of the smallest positive one. *)
Lemma scale_relation (w q lz upper mb minexp E p s : Z) :
  0 <= lz -> 0 <= E -> 0 <= 128 + s -> E = mb - 1 - minexp -> s = upper + 61 - mb -> p = lg10 q + 63 + upper - lz - minexp ->
  2 * dec_num w q * 2 ^ E * (exact_den q * 2 ^ (128 + s) * 2 ^ Z.max (1 - p) 0) =
  w * 2 ^ lz * exact_num q * dec_den q * 2 ^ Z.max (p - 1) 0.
Proof.
  intros LZ EP SP EE SE PE. unfold dec_num, dec_den, exact_num, exact_den.
  assert (X : 2 ^ 1 * 2 ^ E * 2 ^ Z.max (lg10 q - 127) 0 * 2 ^ (128 + s) * 2 ^ Z.max (1 - p) 0 =
              2 ^ lz * 2 ^ Z.max (127 - lg10 q) 0 * 2 ^ Z.max (p - 1) 0).
  { rewrite <- !Z.pow_add_r by lia. f_equal. lia. }
  change (2 ^ 1) with 2 in X.
  set (a := 10 ^ Z.max q 0). set (b := 10 ^ Z.max (- q) 0).
  transitivity (w * a * b * (2 * 2 ^ E * 2 ^ Z.max (lg10 q - 127) 0 * 2 ^ (128 + s) * 2 ^ Z.max (1 - p) 0)).
  - generalize (2 ^ E) (2 ^ Z.max (lg10 q - 127) 0) (2 ^ (128 + s)) (2 ^ Z.max (1 - p) 0). intros. ring.
  - rewrite X. generalize (2 ^ lz) (2 ^ Z.max (127 - lg10 q) 0) (2 ^ Z.max (p - 1) 0). intros. ring.
Qed.

Lemma cmp_le t y yn den K c : 0 < y -> 0 < den * K -> t * y = yn * (den * K) -> (c * y <= yn <-> c * (den * K) <= t).
Proof. intros Y D E. split; intro H; nia. Qed.
Lemma cmp_lt t y yn den K c : 0 < y -> 0 < den * K -> t * y = yn * (den * K) -> (c * y < yn <-> c * (den * K) < t).
Proof. intros Y D E. split; intro H; nia. Qed.
Lemma cmp_ge t y yn den K c : 0 < y -> 0 < den * K -> t * y = yn * (den * K) -> (yn <= c * y <-> t <= c * (den * K)).
Proof. intros Y D E. split; intro H; nia. Qed.
Lemma cmp_gt t y yn den K c : 0 < y -> 0 < den * K -> t * y = yn * (den * K) -> (yn < c * y <-> t < c * (den * K)).
Proof. intros Y D E. split; intro H; nia. Qed.

Lemma dec_den_pos e : 0 < dec_den e.
Proof. unfold dec_den. apply Z.pow_pos_nonneg; lia. Qed.

(** Rounding of the significand [x = yn / y], given in halves. *)
Definition rounds_to (yn y m : Z) : Prop :=
  (2 * m - 1) * y <= yn <= (2 * m + 1) * y /\ (Z.odd m = true -> (2 * m - 1) * y < yn < (2 * m + 1) * y).

Lemma land1 m : Z.land m 1 = m mod 2.
Proof. change 1 with (Z.ones 1) at 1. rewrite Z.land_ones by lia. reflexivity. Qed.

(** Half up, from the integer part. *)
Lemma round_up yn y M m : 0 < y -> M = yn / y -> 0 <= M < 2 ^ 63 ->
  (yn = M * y -> M mod 4 <> 1) ->
  m = Z.shiftr (u64 (M + Z.land M 1)) 1 -> rounds_to yn y m /\ 2 * m = M + M mod 2.
Proof.
  intros Y ME MB T E. rewrite land1 in E. pose proof (Z.mod_pos_bound M 2 ltac:(lia)) as R.
  rewrite u64_small in E by lia. rewrite Z.shiftr_div_pow2 in E by lia. change (2 ^ 1) with 2 in E.
  pose proof (Z.div_mod M 2 ltac:(lia)) as D.
  assert (E2 : 2 * m = M + M mod 2) by lia.
  pose proof (Z.div_mod yn y ltac:(lia)) as DY. rewrite <- ME in DY.
  pose proof (Z.mod_pos_bound yn y Y) as RY.
  split; [|exact E2]. unfold rounds_to.
  assert (M mod 2 = 0 \/ M mod 2 = 1) as [X|X] by lia.
  - assert (M = 2 * m) by lia. subst M. split; [nia|]. intros _. nia.
  - assert (ME' : M = 2 * m - 1) by lia. rewrite ME' in DY. split; [nia|]. intro O.
    assert (NE : yn <> M * y).
    { intro C. apply T; [exact C|]. rewrite ME'. apply Z.odd_spec in O. destruct O as [c ->].
      replace (2 * (2 * c + 1) - 1) with (1 + c * 4) by ring. rewrite Z.mod_add by lia. reflexivity. }
    rewrite ME' in NE. nia.
Qed.
(** An exact tie with an even lower neighbour goes down. *)
Lemma round_tie yn y M m : 0 < y -> yn = M * y -> M mod 4 = 1 -> 2 * m = M - 1 -> rounds_to yn y m.
Proof.
  intros Y E F H. unfold rounds_to. assert (M = 2 * m + 1) by lia. subst M. subst yn. split; [nia|].
  intro O. exfalso. apply Z.odd_spec in O. destruct O as [c ->].
  replace (2 * (2 * c + 1) + 1) with (3 + c * 4) in F by ring. rewrite Z.mod_add in F by lia. discriminate.
Qed.

Section Supported.
Context (b : binary) (f : format) (SUP : supported b f).
Local Notation mb := (mantissa_explicit_bits b).

Lemma consts : mant_bits f = mb /\ unit_exp f = mb - 1 - minimum_exponent b /\ top_field f = infinite_power b /\
  (mb = 52 \/ mb = 23) /\ -342 <= smallest_power_of_ten b /\ largest_power_of_ten b <= 308 /\
  -17 <= min_exponent_round_to_even b /\ max_exponent_round_to_even b <= 23 /\
  minimum_exponent b < 0 /\ -1023 <= minimum_exponent b /\ 255 <= infinite_power b <= 2047 /\ 
  smallest_power_of_ten b < 0 /\ 0 < largest_power_of_ten b.
Proof. destruct SUP; cbn; lia. Qed.

Lemma too_small w q : 0 <= w < 2 ^ 64 -> w = 0 \/ q < smallest_power_of_ten b -> nearest_decimal f w q 0.
Proof.
  intros W C. pose proof (supported_good b f SUP) as G. unfold nearest_decimal.
  apply (proj2 (nearest_unfold f _ _ _)). split; [|split].
  - split; [lia|]. unfold infinity. destruct G as [? [? ?]]. assert (0 < 2 ^ mant_bits f) by (apply Z.pow_pos_nonneg; lia). nia.
  - lia.
  - intros _. split; [|discriminate].
    assert (M : middle f 0 = 1) by (destruct SUP; reflexivity). rewrite M, Z.mul_1_l.
    destruct C as [->|C].
    + unfold dec_num. pose proof (dec_den_pos q). lia.
    + unfold dec_num, dec_den. rewrite Z.max_r, Z.max_l by (destruct SUP; cbn in C; lia).
      change (10 ^ 0) with 1. rewrite Z.mul_1_r.
      apply Z.le_trans with (2 * 2 ^ 64 * 2 ^ unit_exp f).
      { apply Z.mul_le_mono_nonneg_r; [apply Z.pow_nonneg; lia|lia]. }
      destruct SUP; cbn [smallest_power_of_ten double_format float_format] in C.
      * apply Z.le_trans with (10 ^ 343); [apply Z.leb_le; vm_compute; reflexivity|apply Z.pow_le_mono_r; lia].
      * apply Z.le_trans with (10 ^ 65); [apply Z.leb_le; vm_compute; reflexivity|apply Z.pow_le_mono_r; lia].
Qed.

Lemma too_large w q : 0 < w -> largest_power_of_ten b < q -> nearest_decimal f w q (infinity f).
Proof.
  intros W C. pose proof (supported_good b f SUP) as G. unfold nearest_decimal.
  apply (proj2 (nearest_unfold f _ _ _)). rewrite (odd_infinity f G). split; [|split; [|lia]].
  - split; [|lia]. destruct SUP; vm_compute; discriminate.
  - intros _. split; [|discriminate].
    unfold dec_num, dec_den. rewrite Z.max_r, Z.max_l by (destruct SUP; cbn in C; lia).
    change (10 ^ 0) with 1. rewrite Z.mul_1_r.
    set (h := largest_power_of_ten b + 1).
    apply Z.le_trans with (2 * (1 * 10 ^ h) * 2 ^ unit_exp f).
    + unfold h. destruct SUP; apply Z.leb_le; vm_compute; reflexivity.
    + apply Z.mul_le_mono_nonneg_r; [apply Z.pow_nonneg; lia|].
      apply Z.mul_le_mono_nonneg_l; [lia|].
      assert (0 < 10 ^ h) by (apply Z.pow_pos_nonneg; unfold h; destruct SUP; cbn; lia).
      assert (10 ^ h <= 10 ^ q) by (apply Z.pow_le_mono_r; unfold h; lia). nia.
Qed.

(** The situation after the multiplication. *)
Record situation (q w lz L H u s M : Z) : Prop := {
  si_u : u = 0 \/ u = 1;
  si_s : s = u + 61 - mb;
  si_M : M = H / 2 ^ s;
  si_bounds : 2 ^ (mb + 1) <= M < 2 ^ (mb + 2);
  si_floor : M = w * 2 ^ lz * exact_num q / (exact_den q * 2 ^ (128 + s));
  si_ok : product_ok (mb + 3) q (w * 2 ^ lz) L H
}.

Lemma reach {lw : platform} q w lz : -342 <= q <= 308 -> 0 < w < 2 ^ 64 -> lz = 63 - Z.log2 w ->
  exists L H, compute_product_approximation (mb + 3) q (w * 2 ^ lz) = Ok (L, H) /\
  let u := Z.shiftr H 63 in
  situation q w lz L H u (u + 64 - mb - 3) (Z.shiftr H (u + 64 - mb - 3)).
Proof.
  intros Q W LZ. destruct (normal_w w lz W LZ) as [LB WB].
  destruct consts as (_ & _ & _ & MB & _).
  destruct (product_spec (mb + 3) q (w * 2 ^ lz) Q WB ltac:(lia)) as (L & H & E & OK).
  exists L, H. split; [exact E|]. cbv zeta.
  pose proof OK as [HL [HH C]].
  assert (U : Z.shiftr H 63 = 0 /\ H < 2 ^ 63 \/ Z.shiftr H 63 = 1 /\ 2 ^ 63 <= H).
  { rewrite Z.shiftr_div_pow2 by lia. pose proof (Z.div_mod H (2 ^ 63) ltac:(lia)) as D.
    pose proof (Z.mod_pos_bound H (2 ^ 63) ltac:(lia)) as R. nia. }
  set (u := Z.shiftr H 63) in *.
  assert (UB : u = 0 \/ u = 1) by lia.
  replace (u + 64 - mb - 3) with (u + 61 - mb) by lia.
  set (s := u + 61 - mb).
  assert (SB : 9 <= s <= 39) by (unfold s; lia).
  assert (SP : 0 < 2 ^ s) by (apply Z.pow_pos_nonneg; lia).
  split.
  - exact UB.
  - reflexivity.
  - rewrite Z.shiftr_div_pow2 by lia. reflexivity.
  - rewrite Z.shiftr_div_pow2 by lia.
    assert (2 ^ (mb + 1) * 2 ^ s = 2 ^ (62 + u)) by (rewrite <- Z.pow_add_r by lia; f_equal; unfold s; lia).
    assert (2 ^ (mb + 2) * 2 ^ s = 2 ^ (63 + u)) by (rewrite <- Z.pow_add_r by lia; f_equal; unfold s; lia).
    assert (2 ^ (62 + u) <= H < 2 ^ (63 + u)).
    { destruct U as [[U1 U2]|[U1 U2]]; rewrite U1; cbn; lia. }
    split; [apply Z.div_le_lower_bound; lia|apply Z.div_lt_upper_bound; lia].
  - rewrite Z.shiftr_div_pow2 by lia.
    replace (2 ^ s) with (2 ^ (64 - (mb + 3)) * 2 ^ u) by (rewrite <- Z.pow_add_r by lia; f_equal; unfold s; lia).
    rewrite <- Z.div_div by (try apply Z.pow_pos_nonneg; try apply Z.pow_nonzero; lia).
    rewrite (product_upper (mb + 3) q (w * 2 ^ lz) L H) by (try assumption; lia).
    rewrite Z.div_div by (try apply Z.pow_pos_nonneg; try apply Z.pow_nonzero; lia).
    rewrite <- Z.pow_add_r by lia.
    replace (192 - (mb + 3) + u) with (128 + s) by (unfold s; lia).
    symmetry. apply precise_from; [lia|exact Q|lia].
  - exact OK.
Qed.

(** Exact values of the significand only occur for small exponents. *)
Lemma exact_range q w s M : -342 <= q <= 308 -> 0 < w < 2 ^ 64 -> 0 <= s -> 2 ^ (mb + 1) <= M < 2 ^ (mb + 2) ->
  Z.odd M = true -> w * exact_num q = M * (exact_den q * 2 ^ (128 + s)) ->
  min_exponent_round_to_even b <= q <= max_exponent_round_to_even b.
Proof.
  intros Q W S MB O E.
  assert (MP : 0 < 2 ^ (mb + 1)) by (apply Z.pow_pos_nonneg; destruct SUP; cbn; lia).
  destruct (Z_lt_ge_dec q 0) as [N|N].
  - pose proof (exact_neg q w M s ltac:(lia) ltac:(lia) ltac:(lia) S O E) as A.
    split; [|destruct SUP; cbn; lia].
    apply Z.nlt_ge. intro C.
    assert (A2 : 2 ^ (mb + 1) * 5 ^ (- min_exponent_round_to_even b + 1) <= M * 5 ^ (- q)).
    { apply Z.mul_le_mono_nonneg; [lia|lia|apply Z.pow_nonneg; lia|apply Z.pow_le_mono_r; lia]. }
    assert (A3 : 2 ^ 64 <= 2 ^ (mb + 1) * 5 ^ (- min_exponent_round_to_even b + 1)).
    { destruct SUP; apply Z.leb_le; vm_compute; reflexivity. }
    lia.
  - pose proof (exact_pos q w M s ltac:(lia) ltac:(lia) S E) as A.
    split; [destruct SUP; cbn; lia|].
    apply Z.nlt_ge. intro C.
    assert (A2 : 5 ^ (max_exponent_round_to_even b + 1) <= 5 ^ q) by (apply Z.pow_le_mono_r; lia).
    assert (A3 : 2 ^ (mb + 2) <= 5 ^ (max_exponent_round_to_even b + 1)).
    { destruct SUP; apply Z.leb_le; vm_compute; reflexivity. }
    lia.
Qed.

Lemma lg10_low q : -342 <= q -> -1137 <= lg10 q.
Proof. intro Q. unfold lg10. rewrite Z.shiftr_div_pow2 by lia. apply Z.div_le_lower_bound; lia. Qed.
Lemma lg10_high q : q <= 308 -> lg10 q <= 1024.
Proof. intro Q. unfold lg10. rewrite Z.shiftr_div_pow2 by lia. assert ((152170 + 65536) * q / 2 ^ 16 < 1025); [|lia].
  apply Z.div_lt_upper_bound; lia. Qed.
Lemma lg10_27 q : -27 <= q -> -90 <= lg10 q.
Proof. intro Q. unfold lg10. rewrite Z.shiftr_div_pow2 by lia. apply Z.div_le_lower_bound; lia. Qed.

Lemma exact_not_small q w lz u s M p : -342 <= q <= 308 -> 0 < w < 2 ^ 64 -> 0 <= lz < 64 -> 0 <= u -> 0 <= s -> 0 < M ->
  w * 2 ^ lz < 2 ^ 64 ->
  w * 2 ^ lz * exact_num q = M * (exact_den q * 2 ^ (128 + s)) ->
  p = lg10 q + 63 + u - lz - minimum_exponent b -> 0 < p.
Proof.
  intros Q W LZ U S MP WB E P. apply Z.nle_gt. intro C.
  assert (N : q < -27).
  { apply Z.nle_gt. intro D. pose proof (lg10_27 q D).
    assert (minimum_exponent b <= -127) by (destruct SUP; cbn; lia). lia. }
  assert (P2 : 0 < 2 ^ lz) by (apply Z.pow_pos_nonneg; lia).
  pose proof (exact_neg' q (w * 2 ^ lz) M s ltac:(lia) ltac:(apply Z.mul_pos_pos; lia) MP S E) as A.
  assert (5 ^ 28 <= 5 ^ (- q)) by (apply Z.pow_le_mono_r; lia).
  assert (2 ^ 64 <= 5 ^ 28) by (apply Z.leb_le; vm_compute; reflexivity). lia.
Qed.

Lemma clear_bit m : 2 ^ mb <= m < 2 * 2 ^ mb -> Z.land m (2 ^ 64 - 1 - Z.shiftl 1 mb) = m - 2 ^ mb.
Proof.
  intro H. rewrite Z.shiftl_1_l.
  assert (MB : 0 <= mb < 63) by (destruct SUP; cbn; lia).
  assert (X : 2 ^ 64 - 1 - 2 ^ mb = Z.ldiff (Z.ones 64) (2 ^ mb)).
  { rewrite <- Z.sub_nocarry_ldiff; [rewrite Z.ones_equiv; lia|].
    apply Z.bits_inj'. intros n Hn. rewrite Z.ldiff_spec, Z.bits_0, Z.pow2_bits_eqb by lia.
    destruct (Z.eqb_spec mb n) as [<-|]; [|reflexivity]. rewrite Z.ones_spec_low by lia. reflexivity. }
  rewrite X.
  assert (Y : Z.land m (Z.ldiff (Z.ones 64) (2 ^ mb)) = Z.ldiff m (2 ^ mb)).
  { apply Z.bits_inj'. intros n Hn. rewrite Z.land_spec, !Z.ldiff_spec.
    destruct (Z_lt_ge_dec n 64) as [L|L].
    - rewrite Z.ones_spec_low by lia. destruct (Z.testbit m n), (Z.testbit (2 ^ mb) n); reflexivity.
    - rewrite Z.bits_above_log2; [reflexivity|lia|]. apply Z.log2_lt_pow2; [lia|].
      apply Z.lt_le_trans with (2 * 2 ^ mb); [lia|]. replace (2 * 2 ^ mb) with (2 ^ (mb + 1)) by (rewrite Z.pow_add_r by lia; lia).
      apply Z.pow_le_mono_r; lia. }
  rewrite Y. rewrite <- Z.sub_nocarry_ldiff; [reflexivity|].
  apply Z.bits_inj'. intros n Hn. rewrite Z.ldiff_spec, Z.bits_0, Z.pow2_bits_eqb by lia.
  destruct (Z.eqb_spec mb n) as [<-|]; [|reflexivity]. cbn [andb].
  replace (Z.testbit m mb) with true; [reflexivity|]. symmetry.
  apply Z.testbit_true; [lia|].
  replace (m / 2 ^ mb) with 1; [reflexivity|]. apply Z.div_unique with (m - 2 ^ mb); lia.
Qed.

Lemma clear_low m : 0 <= m < 2 ^ 63 -> Z.land m (2 ^ 64 - 1 - 1) = m - m mod 2.
Proof.
  intro H. apply Z.bits_inj'. intros n Hn. rewrite Z.land_spec.
  assert (D : m - m mod 2 = m / 2 * 2 ^ 1) by (pose proof (Z.div_mod m 2 ltac:(lia)); lia).
  rewrite D, <- Z.shiftl_mul_pow2, Z.shiftl_spec by lia.
  change (2 ^ 64 - 1 - 1) with (Z.shiftl (Z.ones 63) 1). rewrite Z.shiftl_spec by lia.
  destruct (Z.eq_dec n 0) as [->|N].
  - rewrite !(Z.testbit_neg_r _ (0 - 1)) by lia. apply andb_false_r.
  - change (m / 2) with (m / 2 ^ 1). rewrite <- Z.shiftr_div_pow2, Z.shiftr_spec by lia.
    replace (n - 1 + 1) with n by lia.
    destruct (Z_lt_ge_dec n 64) as [L|L].
    + rewrite Z.ones_spec_low by lia. apply andb_true_r.
    + rewrite Z.bits_above_log2; [reflexivity|lia|].
      destruct (Z.eq_dec m 0) as [->|]; [cbn; lia|].
      apply Z.lt_le_trans with 63; [apply Z.log2_lt_pow2; lia|lia].
Qed.

Lemma power_value q : -342 <= q <= 308 -> power (i32 q) = lg10 q + 63.
Proof. intro Q. rewrite i32_small by lia. reflexivity. Qed.

(** Conclusion from the rounded significand. *)
Lemma conclude w q k m y yn : 0 < y -> 0 <= k ->
  2 * dec_num w q * 2 ^ unit_exp f * y = yn * (dec_den q * 2 ^ k) ->
  0 <= m <= 2 * 2 ^ mb -> (0 < k -> 2 ^ mb <= m) -> (0 < k -> 2 * 2 ^ mb * y <= yn) -> 0 <= yn ->
  rounds_to yn y m ->
  (k * 2 ^ mb + m <= infinity f -> nearest_decimal f w q (k * 2 ^ mb + m)) /\
  (2 ^ mb <= m -> infinity f <= k * 2 ^ mb + m -> nearest_decimal f w q (infinity f)).
Proof.
  intros Y K R MB1 MB2 MB3 YN [[R1 R2] R3].
  pose proof (supported_good b f SUP) as G. destruct consts as (EB & _). 
  pose proof (dec_den_pos q) as DP. assert (KP : 0 < 2 ^ k) by (apply Z.pow_pos_nonneg; lia).
  assert (DK : 0 < dec_den q * 2 ^ k) by (apply Z.mul_pos_pos; lia).
  pose proof (fun c => proj1 (cmp_le _ _ _ _ _ c Y DK R)) as CLE.
  pose proof (fun c => proj1 (cmp_lt _ _ _ _ _ c Y DK R)) as CLT.
  pose proof (fun c => proj1 (cmp_ge _ _ _ _ _ c Y DK R)) as CGE.
  pose proof (fun c => proj1 (cmp_gt _ _ _ _ _ c Y DK R)) as CGT.
  assert (A : forall c, c * 2 ^ k * dec_den q = c * (dec_den q * 2 ^ k)) by (intro; ring).
  assert (B3 : 0 < k -> 2 * 2 ^ mb * 2 ^ k * dec_den q <= 2 * dec_num w q * 2 ^ unit_exp f).
  { intro C. rewrite A. apply CLE, MB3, C. }
  split.
  - intro I. unfold nearest_decimal. rewrite <- EB. apply (nearest_intro f G); rewrite ?EB; try assumption.
    + intros _. rewrite A. apply CLE, R1.
    + intro O. rewrite A. apply CLT, R3, O.
    + rewrite A. apply CGE, R2.
    + intro O. rewrite A. apply CGT, R3, O.
  - intros ML I. unfold nearest_decimal. apply (nearest_infinity f G _ _ k m); rewrite ?EB; try assumption; try lia.
    rewrite A. apply CLE, R1.
Qed.

(** The two ends of compute_float. *)
Definition finish_small (m p : Z) : outcome adjusted_mantissa :=
  if 64 <=? - p + 1 then Ok {| mantissa := 0; power2 := 0 |}
  else
    m <- shr64 m (- p + 1) ;;
    let m := Z.shiftr (u64 (m + Z.land m 1)) 1 in
    Ok {| mantissa := m; power2 := if m <? Z.shiftl 1 mb then 0 else 1 |}.
Definition finish_normal (m p : Z) : outcome adjusted_mantissa :=
  let m := Z.shiftr (u64 (m + Z.land m 1)) 1 in
  let '(m, p) := if Z.shiftl 2 mb <=? m then (Z.shiftl 1 mb, p + 1) else (m, p) in
  let m := Z.land m (2 ^ 64 - 1 - Z.shiftl 1 mb) in
  if infinite_power b <=? p then Ok {| mantissa := 0; power2 := infinite_power b |}
  else Ok {| mantissa := m; power2 := p |}.

Lemma B_bounds : 1 <= 2 ^ mb <= 4503599627370496.
Proof. destruct SUP; cbn; lia. Qed.
Lemma infinity_value : infinity f = infinite_power b * 2 ^ mb.
Proof. destruct SUP; reflexivity. Qed.
Lemma infinite_bounds : 255 <= infinite_power b <= 2047.
Proof. destruct SUP; cbn; lia. Qed.
Lemma mb_bounds : 0 <= mb.
Proof. destruct SUP; cbn; lia. Qed.

Lemma half_bound c m B : m < 4 * B -> 2 <= c -> 0 <= m -> 0 <= B -> 0 <= m / c <= 2 * B.
Proof.
  intros H C M0 B0. split; [apply Z.div_pos; lia|]. apply Z.div_le_upper_bound; [lia|].
  apply Z.le_trans with (2 * (2 * B)); [lia|]. apply Z.mul_le_mono_nonneg_r; lia.
Qed.

Lemma finish_small_spec w q p M Yn Yd : 0 < Yd -> 0 <= Yn -> M = Yn / Yd -> 0 <= M < 4 * 2 ^ mb -> p <= 0 ->
  2 * dec_num w q * 2 ^ unit_exp f * (Yd * 2 ^ (1 - p)) = Yn * dec_den q ->
  (forall M', 0 < M' -> Yn = M' * (Yd * 2 ^ (1 - p)) -> False) ->
  exists am n, finish_small M p = Ok am /\ am_pattern b am n /\ nearest_decimal f w q n.
Proof.
  intros YD YN SF MB CP SC NT. pose proof B_bounds as BB. pose proof infinite_bounds as IB.
  assert (PP : 2 <= 2 ^ (1 - p)).
  { change 2 with (2 ^ 1) at 1. apply Z.pow_le_mono_r; lia. }
  set (Y' := Yd * 2 ^ (1 - p)) in *.
  assert (Y'P : 0 < Y') by (apply Z.mul_pos_pos; lia).
  assert (M'E : M / 2 ^ (1 - p) = Yn / Y').
  { rewrite SF. unfold Y'. rewrite Z.div_div by (clear - YD PP; lia). reflexivity. }
  assert (SC0 : 2 * dec_num w q * 2 ^ unit_exp f * Y' = Yn * (dec_den q * 2 ^ 0)).
  { rewrite SC. change (2 ^ 0) with 1. ring. }
  clear SC.
  assert (INF : 2 * 2 ^ mb <= infinity f) by (rewrite infinity_value; apply Z.mul_le_mono_nonneg_r; lia).
  assert (CONC : forall m, 0 <= m <= 2 * 2 ^ mb -> rounds_to Yn Y' m -> nearest_decimal f w q m).
  { intros m M1 R. pose proof (conclude w q 0 m Y' Yn Y'P (Z.le_refl 0) SC0 M1) as A.
    destruct A as [A _]; [discriminate|discriminate|exact YN|exact R|].
    rewrite Z.mul_0_l, Z.add_0_l in A. apply A. clear - M1 INF. lia. }
  clear SC0 INF. unfold finish_small. destruct (64 <=? - p + 1) eqn:C64.
  - exists {| mantissa := 0; power2 := 0 |}, 0. split; [reflexivity|]. split; [left; cbn [mantissa power2]; clear - BB IB; lia|].
    apply CONC; [clear - BB; lia|]. unfold rounds_to. split; [|discriminate].
    assert (Z0 : Yn / Y' = 0).
    { rewrite <- M'E. apply Z.div_small. assert (2 ^ 64 <= 2 ^ (1 - p)) by (apply Z.pow_le_mono_r; clear - C64; lia).
      change (2 ^ 64) with 18446744073709551616 in *. clear - MB BB H. lia. }
    pose proof (Z.mod_pos_bound Yn Y' Y'P) as RB. pose proof (Z.div_mod Yn Y' ltac:(clear - Y'P; lia)) as DM.
    rewrite Z0 in DM. clear - RB DM YN Y'P. lia.
  - unfold shr64. replace ((0 <=? - p + 1) && (- p + 1 <? 64)) with true by (clear - C64 CP; lia). cbn [bind].
    rewrite (Z.shiftr_div_pow2 M (- p + 1)) by (clear - CP; lia). replace (- p + 1) with (1 - p) by lia.
    pose proof (half_bound _ M (2 ^ mb) ltac:(clear - MB; lia) PP ltac:(clear - MB; lia) ltac:(clear - BB; lia)) as M'B.
    remember (M / 2 ^ (1 - p)) as M' eqn:M'D. clear M'D.
    remember (Z.shiftr (u64 (M' + Z.land M' 1)) 1) as m eqn:ME.
    destruct (round_up Yn Y' M' m Y'P M'E) as [RT R2]; [clear - M'B BB; lia| |exact ME|].
    { intros EX MO. apply (NT M'); [|exact EX].
      destruct (Z.eq_dec M' 0) as [E0|]; [rewrite E0 in MO; discriminate|clear - n M'B; lia]. }
    assert (MR : 0 <= m <= 2 ^ mb).
    { pose proof (Z.mod_pos_bound M' 2 ltac:(clear; lia)) as RB.
      destruct (Z.eq_dec M' (2 * 2 ^ mb)) as [E2|]; [|clear - n RB R2 M'B; lia].
      assert (X : M' mod 2 = 0) by (rewrite E2, Z.mul_comm; apply Z.mod_mul; clear; lia). clear - X E2 R2 BB. lia. }
    rewrite Z.shiftl_1_l. destruct (m <? 2 ^ mb) eqn:CM.
    + exists {| mantissa := m; power2 := 0 |}, m. split; [reflexivity|].
      split; [left; cbn [mantissa power2]; clear - CM MR IB; lia|]. apply CONC; [clear - MR BB; lia|exact RT].
    + exists {| mantissa := m; power2 := 1 |}, m. split; [reflexivity|].
      split; [right; cbn [mantissa power2]; clear - CM MR IB; lia|]. apply CONC; [clear - MR BB; lia|exact RT].
Qed.

Lemma finish_normal_spec w q p M M' Yn Yd : 0 < Yd -> 0 <= Yn -> M = Yn / Yd -> 2 * 2 ^ mb <= M < 4 * 2 ^ mb -> 0 < p ->
  2 * dec_num w q * 2 ^ unit_exp f * Yd = Yn * (dec_den q * 2 ^ (p - 1)) ->
  (M' = M /\ (Yn = M * Yd -> M mod 4 <> 1) \/ M' = Z.land M (2 ^ 64 - 1 - 1) /\ Yn = M * Yd /\ M mod 4 = 1) ->
  exists am n, finish_normal M' p = Ok am /\ am_pattern b am n /\ nearest_decimal f w q n.
Proof.
  intros YD YN SF SB CP SC TIE. pose proof B_bounds as BB. pose proof infinite_bounds as IB. unfold finish_normal.
  remember (Z.shiftr (u64 (M' + Z.land M' 1)) 1) as m eqn:ME.
  pose proof (Z.mod_pos_bound M 2 ltac:(clear; lia)) as MM.
  assert (RND : rounds_to Yn Yd m /\ 2 * m <= M + M mod 2 /\ M - 1 <= 2 * m).
  { destruct TIE as [[-> T]|[E [EX MO]]].
    - destruct (round_up Yn Yd M m YD SF ltac:(clear - SB BB; lia) T ME) as [R1 R2]. split; [exact R1|clear - R2 MM; lia].
    - assert (O : M mod 2 = 1).
      { rewrite (Z.div_mod M 4), MO by lia. replace (4 * (M / 4) + 1) with (1 + (2 * (M / 4)) * 2) by ring.
        rewrite Z.mod_add by lia. reflexivity. }
      rewrite clear_low, O in E by (clear - SB BB; lia). subst M'. rewrite land1 in ME.
      assert (O1 : (M - 1) mod 2 = 0) by (rewrite Zminus_mod, O; reflexivity).
      rewrite O1, u64_small, Z.add_0_r, Z.shiftr_div_pow2 in ME by (clear - SB BB; lia).
      assert (2 * m = M - 1).
      { pose proof (Z.div_mod (M - 1) 2 ltac:(clear; lia)) as D. change (2 ^ 1) with 2 in ME. clear - D O1 ME. lia. }
      split; [apply (round_tie Yn Yd M); assumption|clear - H MM; lia]. }
  destruct RND as [RND [MU ML]]. clear TIE ME.
  assert (MBND : 2 ^ mb <= m <= 2 * 2 ^ mb).
  { clear - MU ML SB MM. assert (E4 : 4 * 2 ^ mb = 2 * (2 * 2 ^ mb)) by ring.
    generalize dependent (2 ^ mb). intros B E1 E2. split; lia. }
  assert (KB : 2 * 2 ^ mb * Yd <= Yn).
  { apply Z.le_trans with (M * Yd); [apply Z.mul_le_mono_nonneg_r; [clear - YD; lia|clear - SB; lia]|].
    rewrite SF, Z.mul_comm. apply Z.mul_div_le. exact YD. }
  destruct (conclude w q (p - 1) m Yd Yn YD ltac:(clear - CP; lia) SC) as [N1 N2];
    [clear - MBND BB; lia|clear - MBND; lia|intros _; exact KB|exact YN|exact RND|].
  rewrite infinity_value in N1, N2.
  rewrite Z.shiftl_mul_pow2 by apply mb_bounds.
  clear SC KB RND SF MU ML MM SB.
  destruct (2 * 2 ^ mb <=? m) eqn:CM.
  + assert (m = 2 * 2 ^ mb) by (clear - CM MBND; lia). subst m. clear CM MBND.
    assert (CB : Z.land (Z.shiftl 1 mb) (2 ^ 64 - 1 - Z.shiftl 1 mb) = 0).
    { rewrite Z.shiftl_1_l at 1. rewrite clear_bit by (clear - BB; lia). apply Z.sub_diag. }
    rewrite CB.
    replace ((p - 1) * 2 ^ mb + 2 * 2 ^ mb) with ((p + 1) * 2 ^ mb) in N1, N2 by ring.
    destruct (infinite_power b <=? p + 1) eqn:CI.
    * exists {| mantissa := 0; power2 := infinite_power b |}, (infinite_power b * 2 ^ mb). split; [reflexivity|].
      split; [left; cbn [mantissa power2]; clear - BB IB; lia|]. rewrite <- infinity_value in *. apply N2; [clear - BB; lia|].
      rewrite infinity_value. apply Z.mul_le_mono_nonneg_r; [clear - BB; lia|clear - CI; lia].
    * exists {| mantissa := 0; power2 := p + 1 |}, ((p + 1) * 2 ^ mb). split; [reflexivity|].
      split; [left; cbn [mantissa power2]; clear - BB CP CI; lia|]. apply N1.
      apply Z.mul_le_mono_nonneg_r; [clear - BB; lia|clear - CI; lia].
  + rewrite clear_bit by (clear - CM MBND; lia).
    assert (EN : (p - 1) * 2 ^ mb + m = p * 2 ^ mb + (m - 2 ^ mb)) by ring.
    rewrite EN in N1, N2.
    destruct (infinite_power b <=? p) eqn:CI.
    * exists {| mantissa := 0; power2 := infinite_power b |}, (infinite_power b * 2 ^ mb). split; [reflexivity|].
      split; [left; cbn [mantissa power2]; clear - BB IB; lia|]. rewrite <- infinity_value in *. apply N2; [clear - MBND; lia|].
      rewrite infinity_value. assert (infinite_power b * 2 ^ mb <= p * 2 ^ mb) by (apply Z.mul_le_mono_nonneg_r; [clear - BB; lia|clear - CI; lia]).
      clear - H MBND. lia.
    * exists {| mantissa := m - 2 ^ mb; power2 := p |}, (p * 2 ^ mb + (m - 2 ^ mb)). split; [reflexivity|].
      split; [left; cbn [mantissa power2]; clear - CM MBND CP CI; lia|]. apply N1.
      assert ((p + 1) * 2 ^ mb <= infinite_power b * 2 ^ mb) by (apply Z.mul_le_mono_nonneg_r; [clear - BB; lia|clear - CI; lia]).
      clear - H MBND CM. lia.
Qed.

Lemma shl_back H s M : 0 <= H < 2 ^ 64 -> 0 <= s < 64 -> M = H / 2 ^ s -> shl64 M s = Ok (M * 2 ^ s).
Proof.
  intros HB S SM. unfold shl64. replace ((0 <=? s) && (s <? 64)) with true by (clear - S; lia).
  rewrite Z.shiftl_mul_pow2 by (clear - S; lia).
  assert (P : 0 < 2 ^ s) by (apply Z.pow_pos_nonneg; clear - S; lia).
  pose proof (Z.mul_div_le H (2 ^ s) P) as X. rewrite <- SM, Z.mul_comm in X.
  rewrite u64_small; [reflexivity|]. split; [|clear - X HB; lia].
  apply Z.mul_nonneg_nonneg; [|clear - P; lia]. rewrite SM. apply Z.div_pos; [clear - HB; lia|exact P].
Qed.
Lemma mod4 M : M mod 4 = 1 -> Z.odd M = true.
Proof.
  intro MO. rewrite (Z.div_mod M 4), MO by lia. rewrite Z.add_comm. rewrite Z.odd_add_mul_even; [reflexivity|exists 2; reflexivity].
Qed.

Theorem compute_float_spec {lw : platform} q w : 0 <= w < 2 ^ 64 ->
  exists am n, compute_float b q w = Ok am /\ am_pattern b am n /\ nearest_decimal f w q n.
Proof.
  intro W. destruct consts as (EB & EE & ET & MB & QL & QH & QE1 & QE2 & MN & MN2 & IP & QS & QB).
  pose proof B_bounds as BB. unfold compute_float.
  destruct (((w =? 0) || (q <? smallest_power_of_ten b))%bool) eqn:C1.
  { exists {| mantissa := 0; power2 := 0 |}, 0. split; [reflexivity|]. split.
    - left. cbn [mantissa power2]. clear - BB IP. lia.
    - apply too_small; [exact W|clear - C1 W; lia]. }
  destruct (largest_power_of_ten b <? q) eqn:C2.
  { exists {| mantissa := 0; power2 := infinite_power b |}, (infinity f). split; [reflexivity|]. split.
    - left. cbn [mantissa power2]. rewrite infinity_value. clear - BB IP. lia.
    - apply too_large; [clear - C1 W; lia|clear - C2; lia]. }
  assert (Q : -342 <= q <= 308) by (clear - C1 C2 QL QH; lia).
  assert (W' : 0 < w < 2 ^ 64) by (clear - W C1; lia).
  rewrite leading_zeroes_ok by exact W'. cbn [bind].
  remember (63 - Z.log2 w) as lz eqn:LZ.
  destruct (normal_w w lz W' LZ) as [LB WB].
  rewrite (leading_shift w lz W' LZ). cbn [bind].
  destruct (reach q w lz Q W' LZ) as (L & H & E & SI). cbv zeta in SI.
  rewrite E. cbn [bind]. clear E.
  set (u := Z.shiftr H 63) in *. set (s := u + 64 - mb - 3) in *. set (M := Z.shiftr H s) in *.
  destruct SI as [SU SS SM SB SF SO].
  pose proof (entry_bounds q Q) as [_ [_ [NP [DP _]]]].
  assert (SR : 9 <= s <= 39) by (clear - SU SS MB; lia).
  unfold shr64 at 1. replace ((0 <=? s) && (s <? 64)) with true by (clear - SR; lia). cbn [bind]. fold M.
  rewrite power_value by exact Q.
  clearbody u s M.
  assert (LG1 : -1137 <= lg10 q) by (apply lg10_low; clear - Q; lia).
  assert (LG2 : lg10 q <= 1024) by (apply lg10_high; clear - Q; lia).
  rewrite i32_small by (clear - LG1 LG2 SU LB MN MN2; lia).
  remember (lg10 q + 63 + u - lz - minimum_exponent b) as p eqn:P.
  assert (SC : 2 * dec_num w q * 2 ^ unit_exp f * (exact_den q * 2 ^ (128 + s) * 2 ^ Z.max (1 - p) 0) =
    w * 2 ^ lz * exact_num q * dec_den q * 2 ^ Z.max (p - 1) 0).
  { apply (scale_relation w q lz u mb (minimum_exponent b)); try assumption; clear - LB EE MN MB SR; lia. }
  assert (PS : 0 < 2 ^ (128 + s)) by (apply Z.pow_pos_nonneg; clear - SR; lia).
  assert (YD : 0 < exact_den q * 2 ^ (128 + s)) by (apply Z.mul_pos_pos; assumption).
  assert (WP : 0 < w * 2 ^ lz) by (clear - WB; lia).
  assert (YN : 0 <= w * 2 ^ lz * exact_num q) by (apply Z.mul_nonneg_nonneg; [clear - WP; lia|clear - NP; lia]).
  assert (M2 : 2 ^ (mb + 1) = 2 * 2 ^ mb) by (clear - MB; rewrite Z.pow_add_r by lia; lia).
  assert (M4 : 2 ^ (mb + 2) = 4 * 2 ^ mb) by (clear - MB; rewrite Z.pow_add_r by lia; lia).
  rewrite M2, M4 in SB.
  assert (MP : 0 < M) by (clear - SB BB; lia).
  destruct (p <=? 0) eqn:CP.
  - apply (finish_small_spec w q p M (w * 2 ^ lz * exact_num q) (exact_den q * 2 ^ (128 + s)));
      [exact YD|exact YN|exact SF|clear - SB BB; lia|clear - CP; lia| |].
    + rewrite (Z.max_l (1 - p)), (Z.max_r (p - 1)) in SC by (clear - CP; lia).
      change (2 ^ 0) with 1 in SC. rewrite Z.mul_1_r in SC. exact SC.
    + intros M' M'P EX. assert (0 < p); [|clear - H0 CP; lia].
      apply (exact_not_small q w lz u (s + (1 - p)) M' p Q W' LB ltac:(clear - SU; lia) ltac:(clear - SR CP; lia) M'P
        (proj2 WB)); [|exact P].
      rewrite EX, <- (Z.mul_assoc (exact_den q)), <- Z.pow_add_r by (clear - CP SR; lia).
      do 3 f_equal. clear. lia.
  - assert (HB : 0 <= H < 2 ^ 64) by (destruct SO as [_ [SO _]]; clear - SO; lia).
    rewrite (shl_back H s M HB ltac:(clear - SR; lia) SM). cbn [bind].
    set (flag := (_ && _)%bool).
    assert (L3 : Z.land M 3 = M mod 4).
    { change 3 with (Z.ones 2). rewrite Z.land_ones by (clear; lia). reflexivity. }
    apply (finish_normal_spec w q p M _ (w * 2 ^ lz * exact_num q) (exact_den q * 2 ^ (128 + s)));
      [exact YD|exact YN|exact SF|exact SB|clear - CP; lia| |].
    + rewrite (Z.max_r (1 - p)), (Z.max_l (p - 1)) in SC by (clear - CP; lia).
      change (2 ^ 0) with 1 in SC. rewrite (Z.mul_1_r (exact_den q * _)) in SC. rewrite SC. ring.
    + destruct flag eqn:F; unfold flag in F; rewrite L3 in F.
      * right. split; [reflexivity|]. repeat (apply andb_true_iff in F; destruct F as [F ?]).
        split; [|clear - H1; lia]. apply (tie_sound (mb + 3) q (w * 2 ^ lz) L H); try assumption.
        all: clear - MB QE1 QE2 F H3 H2 H0 SR; lia.
      * left. split; [reflexivity|]. intros EX MO.
        assert (QR : min_exponent_round_to_even b <= q <= max_exponent_round_to_even b).
        { apply (exact_range q (w * 2 ^ lz) s M); try assumption; [clear - WP WB; lia|clear - SR; lia| |apply mod4, MO].
          rewrite M2, M4. exact SB. }
        destruct (tie_complete (mb + 3) q (w * 2 ^ lz) L H M s) as [L1 MH]; try assumption.
        1-3: clear - MB QR QE1 QE2 SS SU; lia.
        rewrite MO, MH, Z.eqb_refl in F. clear - F L1 QR. lia.
Qed.

Lemma lor_add a b' k : 0 <= k -> 0 <= a < 2 ^ k -> Z.lor a (b' * 2 ^ k) = b' * 2 ^ k + a.
Proof.
  intros K A. assert (L0 : Z.land a (b' * 2 ^ k) = 0).
  { apply Z.bits_inj'. intros n N. rewrite Z.land_spec, Z.bits_0, Z.mul_pow2_bits by lia.
    destruct (Z_lt_ge_dec n k) as [L|L].
    + rewrite (Z.testbit_neg_r _ (n - k)) by lia. apply andb_false_r.
    + destruct (Z.eq_dec a 0) as [->|]; [rewrite Z.bits_0; reflexivity|].
      rewrite Z.bits_above_log2; [reflexivity|lia|].
      apply Z.lt_le_trans with k; [apply Z.log2_lt_pow2; lia|lia]. }
  rewrite <- Z.lxor_lor, <- Z.add_nocarry_lxor by exact L0. lia.
Qed.

(** to_float assembles the pattern. *)
Lemma to_float_pattern am n neg : am_pattern b am n -> to_float b neg am = signed_pattern f neg n.
Proof.
  intros H. unfold to_float.
  assert (W : mb + 1 <= sign_index b /\ word_bits b = sign_index b + 1 /\ sign_bit f = sign_index b /\
              infinite_power b * 2 ^ mb + 2 ^ mb = 2 ^ sign_index b).
  { destruct SUP; cbn; lia. }
  destruct W as (W1 & W2 & W3 & W4). rewrite W2.
  pose proof B_bounds as BB. pose proof mb_bounds as MB. pose proof infinite_bounds as IB.
  assert (PW : 2 ^ (sign_index b + 1) = 2 * 2 ^ sign_index b) by (rewrite Z.pow_add_r by lia; lia).
  assert (SGN : Z.shiftl (Z.b2z neg) (sign_index b) mod 2 ^ (sign_index b + 1) = Z.b2z neg * 2 ^ sign_index b).
  { rewrite Z.shiftl_mul_pow2 by lia. apply Z.mod_small. rewrite PW. destruct neg; cbn [Z.b2z]; nia. }
  assert (N : 0 <= n < 2 ^ sign_index b /\ Z.lor (mantissa am mod 2 ^ (sign_index b + 1))
     ((Z.shiftl (power2 am mod 2 ^ (sign_index b + 1)) mb) mod 2 ^ (sign_index b + 1)) = n).
  { destruct H as [(M & P & ->)|(M & P & ->)].
    - assert (PB : power2 am * 2 ^ mb <= infinite_power b * 2 ^ mb) by (apply Z.mul_le_mono_nonneg_r; lia).
      assert (PA : 0 <= power2 am * 2 ^ mb) by (apply Z.mul_nonneg_nonneg; lia).
      assert (PC : power2 am <= power2 am * 2 ^ mb) by (clear - P BB; nia).
      split; [lia|].
      rewrite (Z.mod_small (mantissa am)), (Z.mod_small (power2 am)) by lia.
      rewrite Z.shiftl_mul_pow2 by lia. rewrite Z.mod_small by lia.
      apply lor_add; lia.
    - rewrite M, P. split; [nia|].
      rewrite (Z.mod_small 1) by nia. rewrite Z.shiftl_1_l. rewrite Z.mod_small by nia. apply Z.lor_diag. }
  destruct N as [N1 N2]. rewrite N2, SGN. rewrite lor_add by (try exact N1; clear - W1 MB; lia). unfold signed_pattern. rewrite W3.
  destruct neg; cbn [Z.b2z]; lia.
Qed.
End Supported.

(** The slow path of fast_float gives the nearest pattern. *)
From Verif Require Import Base FloatSpec FloatTextSpec FloatComputeModel FloatParseModel FloatBigintModel FloatDigitModel
  FloatRoundProofs FloatComputeProofs FloatEiselProofs FloatLexProofs FloatBigintProofs FloatMantissaProofs FloatDecideProofs FloatErrorProofs.
Local Open Scope Z_scope.
Local Notation len l := (Z.of_nat (length l)).

(** *** scientific_exponent *)
Lemma scale_loop_spec base step : 1 < base -> 0 <= step <= 4 -> forall fuel m e, 0 < m < base ^ Z.of_nat fuel -> - 2 ^ 20 <= e -> e + step * Z.of_nat fuel <= 2 ^ 20 ->
  exists j, 0 <= j <= Z.of_nat fuel /\ scale_loop fuel base step m e = Ok (m / base ^ j, e + step * j) /\ 0 < m / base ^ j < base.
Proof.
  intros BB SB. induction fuel as [|fuel IH]; intros m e M E1 E2.
  - change (base ^ Z.of_nat 0) with 1 in M. lia.
  - rewrite Nat2Z.inj_succ, Z.pow_succ_r in M by lia. rewrite Nat2Z.inj_succ in E2. cbn [scale_loop]. destruct (Z.leb_spec base m) as [L|L].
    + rewrite int32_ok by nia. cbn [bind]. destruct (IH (m / base) (e + step)) as (j & JB & -> & R).
      * split; [apply Z.div_str_pos; lia|apply Z.div_lt_upper_bound; lia].
      * lia.
      * lia.
      * assert (PJ : 0 < base ^ j) by (apply Z.pow_pos_nonneg; lia).
        assert (ED : m / base / base ^ j = m / base ^ (j + 1)).
        { rewrite Z.div_div by lia. f_equal. rewrite Z.pow_add_r, Z.pow_1_r by lia. apply Z.mul_comm. }
        rewrite ED in *. exists (j + 1). split; [lia|]. split; [do 2 f_equal; ring|exact R].
    + exists 0. change (base ^ 0) with 1. rewrite Z.div_1_r, Z.mul_0_r, Z.add_0_r. repeat split; lia.
Qed.
Lemma scientific_exponent_spec num : 10 ^ 18 <= num_mantissa num < 10 ^ 19 -> -2000 <= exponent num <= 2000 ->
  scientific_exponent num = Ok (exponent num + 18).
Proof.
  intros M E. unfold scientific_exponent. rewrite i32_small by lia. remember (num_mantissa num) as m eqn:EM. clear EM. remember (exponent num) as e eqn:EE. clear EE num.
  assert (LG : 0 <= Z.log2 m < 64). { split; [apply Z.log2_nonneg|]. apply Z.log2_lt_pow2; lia. }
  set (fuel := S (Z.to_nat (Z.log2 m))). assert (FB : Z.of_nat fuel = Z.log2 m + 1) by lia.
  assert (MF : m < 2 ^ Z.of_nat fuel) by (rewrite FB; apply Z.log2_spec; lia).
  assert (POW : forall base, 2 <= base -> 2 ^ Z.of_nat fuel <= base ^ Z.of_nat fuel) by (intros; apply Z.pow_le_mono_l; lia).
  clearbody fuel.
  destruct (scale_loop_spec 10000 4 ltac:(lia) ltac:(lia) fuel m e) as (j & JB & -> & R1); [pose proof (POW 10000); lia|lia|lia|]. cbn [bind fst snd].
  assert (D1 : m / 10000 ^ j <= m) by (apply Z.div_le_upper_bound; [apply Z.pow_pos_nonneg; lia|]; pose proof (Z.pow_pos_nonneg 10000 j); nia).
  destruct (scale_loop_spec 100 2 ltac:(lia) ltac:(lia) fuel (m / 10000 ^ j) (e + 4 * j)) as (i & IB & -> & R2); [pose proof (POW 100); lia|lia|lia|]. cbn [bind fst snd].
  assert (D2 : m / 10000 ^ j / 100 ^ i <= m / 10000 ^ j) by (apply Z.div_le_upper_bound; [apply Z.pow_pos_nonneg; lia|]; pose proof (Z.pow_pos_nonneg 100 i); nia).
  destruct (scale_loop_spec 10 1 ltac:(lia) ltac:(lia) fuel (m / 10000 ^ j / 100 ^ i) (e + 4 * j + 2 * i)) as (h & HB & -> & R3); [pose proof (POW 10); lia|lia|lia|]. cbn [bind fst snd].
  f_equal.
  assert (P1 : 0 < 10000 ^ j) by (apply Z.pow_pos_nonneg; lia). assert (P2 : 0 < 100 ^ i) by (apply Z.pow_pos_nonneg; lia).
  assert (P3 : 0 < 10 ^ h) by (apply Z.pow_pos_nonneg; lia).
  rewrite (Z.div_div m) in R3 by lia. rewrite Z.div_div in R3 by nia. clear P1 P2 P3 D1 D2 R1 R2 POW MF.
  change 10000 with (10 ^ 4) in R3. change 100 with (10 ^ 2) in R3. rewrite <- !Z.pow_mul_r, <- !Z.pow_add_r in R3 by lia.
  remember (4 * j + 2 * i + h) as k eqn:EK. assert (K : k = 18); [|lia]. assert (0 <= k) by lia.
  assert (PK : 0 < 10 ^ k) by (apply Z.pow_pos_nonneg; lia).
  assert (A : 10 ^ k <= m). { pose proof (Z.mul_div_le m (10 ^ k) PK). nia. }
  assert (B : m < 10 * 10 ^ k). { pose proof (Z.mul_succ_div_gt m (10 ^ k) PK). nia. }
  assert (k < 19) by (apply (Z.pow_lt_mono_r_iff 10); lia).
  assert (18 < Z.succ k) by (apply (Z.pow_lt_mono_r_iff 10); [lia|lia|]; rewrite Z.pow_succ_r by lia; lia). lia.
Qed.

(** *** Scaling decimals *)
Lemma dec_cross a c e j : 0 <= j -> exists K, 0 < K /\ dec_num a (e + j) * dec_den e = a * 10 ^ j * K /\ dec_num c e * dec_den (e + j) = c * K.
Proof.
  intro J. exists (10 ^ (Z.max e 0 + Z.max (- (e + j)) 0)). split; [apply Z.pow_pos_nonneg; lia|]. unfold dec_num, dec_den.
  split; rewrite <- !Z.mul_assoc, <- !Z.pow_add_r by lia; f_equal; f_equal; lia.
Qed.

Section Digit.
Context {lw : platform} (b : binary) (f : format) (SUP : supported b f).
Local Notation mb := (mantissa_explicit_bits b).
Local Notation B := (2 ^ mb).

(** *** to_extended_halfway *)
Lemma masks : mantissa_mask b = Z.ones mb /\ exponent_mask b = Z.shiftl (Z.ones (word_bits b - 1 - mb)) mb /\ hidden_bit_mask b = 2 ^ mb /\
  infinite_power b < 2 ^ (word_bits b - 1 - mb) /\ 0 <= word_bits b - 1 - mb /\ 0 <= mb.
Proof. destruct SUP; vm_compute; repeat split; discriminate. Qed.

Lemma land_field n : 0 <= n <= infinity f -> Z.land n (exponent_mask b) = n / B * B.
Proof.
  intro N. destruct masks as (_ & -> & _ & IP & WB & MB). pose proof (infinity_value b f SUP) as IV. pose proof (B_bounds b f SUP) as BB.
  rewrite <- (Z.shiftl_mul_pow2 _ mb MB), <- Z.shiftr_div_pow2 by exact MB.
  assert (FB : 0 <= Z.shiftr n mb < 2 ^ (word_bits b - 1 - mb)).
  { rewrite Z.shiftr_div_pow2 by exact MB. split; [apply Z.div_pos; lia|]. apply Z.le_lt_trans with (infinite_power b); [|exact IP].
    apply Z.div_le_upper_bound; lia. }
  assert (E : Z.shiftr n mb = Z.land (Z.shiftr n mb) (Z.ones (word_bits b - 1 - mb))) by (rewrite Z.land_ones, Z.mod_small by assumption; reflexivity).
  rewrite E. rewrite Z.shiftl_land. apply Z.bits_inj'. intros i I. rewrite !Z.land_spec, Z.shiftl_spec by exact I.
  destruct (Z_lt_ge_dec i mb) as [L|L].
  - rewrite (Z.shiftl_spec_low (Z.shiftr n mb)) by exact L. rewrite (Z.testbit_neg_r (Z.ones _)) by lia. rewrite !andb_false_r. reflexivity.
  - rewrite (Z.shiftl_spec_high (Z.shiftr n mb)) by lia. rewrite Z.shiftr_spec by lia. replace (i - mb + mb) with i by lia. reflexivity.
Qed.

Lemma halfway_spec n : 0 <= n <= infinity f ->
  exists k m, n = k * B + m /\ 0 <= k <= infinite_power b /\ 0 <= m < 2 * B /\ (0 < k -> B <= m) /\ middle f n = (2 * m + 1) * 2 ^ k /\
    to_extended_halfway b n = Ok {| mantissa := 2 * m + 1; power2 := k - unit_exp f - 1 |}.
Proof.
  intro N. destruct (decide_consts b f SUP) as (EB & MB & UE & BB & IB & IV & _). pose proof (supported_good b f SUP) as G.
  destruct (pattern_split f G n (proj1 N)) as (k & m & EN & K & M & L). rewrite EB in *.
  exists k, m. split; [exact EN|].
  assert (KB : k <= infinite_power b) by (clear - EN N IV BB M K; nia).
  split; [lia|]. split; [exact M|]. split; [exact L|]. split; [rewrite EN; apply (middle_at b f SUP); assumption|].
  unfold to_extended_halfway, to_extended. rewrite land_field by exact N. destruct masks as (-> & _ & -> & _ & _ & MB0).
  rewrite Z.land_ones by exact MB0.
  assert (MN : -1023 <= minimum_exponent b <= 0) by (clear - SUP; destruct SUP; cbn; lia).
  assert (FIELD : n / B = (if m <? B then k else k + 1) /\ n mod B = if m <? B then m else m - B).
  { destruct (Z.ltb_spec m B) as [LT|GE].
    - assert (E : n = B * k + m) by lia. split; symmetry; [apply (Z.div_unique_pos _ _ _ m)|apply (Z.mod_unique_pos _ _ k)]; lia.
    - assert (E : n = B * (k + 1) + (m - B)) by lia. split; symmetry; [apply (Z.div_unique_pos _ _ _ (m - B))|apply (Z.mod_unique_pos _ _ (k + 1))]; lia. }
  destruct FIELD as [-> ->].
  assert (FIN : forall m0 p0, m0 = m -> p0 = k - unit_exp f -> 
    (m1 <- shl64 m0 1 ;; p <- int32 (p0 - 1) ;; Ok {| mantissa := u64 (m1 + 1); power2 := p |}) = Ok {| mantissa := 2 * m + 1; power2 := k - unit_exp f - 1 |}).
  { intros m0 p0 -> ->. rewrite shl64_ok by (try change (2 ^ 1) with 2; lia). cbn [bind]. rewrite int32_ok by lia. cbn [bind].
    change (2 ^ 1) with 2. rewrite u64_small by lia. do 2 f_equal. lia. }
  destruct (Z.ltb_spec m B) as [LT|GE].
  - assert (k = 0) as -> by lia. rewrite Z.mul_0_l. change (0 =? 0) with true. cbv iota. rewrite int32_ok by lia. cbn [bind mantissa power2]. apply FIN; [reflexivity|lia].
  - replace ((k + 1) * B =? 0) with false by (symmetry; apply Z.eqb_neq; clear - K BB; nia). rewrite Z.shiftr_div_pow2, Z.div_mul by lia.
    rewrite int32_ok by lia. cbn [bind]. rewrite int32_ok by lia. cbn [bind mantissa power2].
    apply FIN; [|lia]. rewrite Z.lor_comm. change (2 ^ mb) with B. replace (2 ^ mb) with (1 * 2 ^ mb) at 1 by lia. rewrite lor_sum by lia. lia.
Qed.

(** *** negative_digit_comp *)
Lemma middle_triple n : 0 < n -> middle f n <= 3 * middle f (n - 1).
Proof.
  intro N. pose proof (supported_good b f SUP) as G. destruct (decide_consts b f SUP) as (EB & _ & _ & BB & _).
  destruct (pattern_split f G n ltac:(lia)) as (k & m & EN & K & M & L). rewrite EB in *.
  assert (SN : scaled f n = m * 2 ^ k) by (rewrite EN; rewrite <- EB in *; apply (scaled_at f G); lia).
  assert (MM : middle f n = (2 * m + 1) * 2 ^ k) by (rewrite EN; apply (middle_at b f SUP); assumption).
  rewrite MM. unfold middle. replace (n - 1 + 1) with n by lia. rewrite SN. pose proof (scaled_nonneg f G (n - 1) ltac:(lia)).
  assert (1 <= m) by (destruct (Z.eq_dec k 0) as [->|]; [lia|specialize (L ltac:(lia)); lia]).
  assert (0 < 2 ^ k) by (apply Z.pow_pos_nonneg; lia). nia.
Qed.

Lemma sgn_mul c z : 0 < c -> Z.sgn (c * z) = Z.sgn z.
Proof. intro C. rewrite Z.sgn_mul, (Z.sgn_pos c C). lia. Qed.

Lemma five_two k : 0 <= k -> 10 ^ k = 5 ^ k * 2 ^ k.
Proof. intro K. rewrite <- Z.pow_mul_l. reflexivity. Qed.
Lemma room_real D x : 0 <= D < 10 ^ 770 -> 0 <= x <= 1074 -> D * 2 ^ x < room.
Proof.
  intros DB X. assert (2 ^ x <= 2 ^ 1074) by (apply Z.pow_le_mono_r; lia). apply Z.lt_le_trans with (10 ^ 770 * 2 ^ 1074); [|vm_compute; discriminate].
  assert (0 < 2 ^ x) by (apply Z.pow_pos_nonneg; lia). nia.
Qed.
Lemma room_theor T E : 0 <= T < 2 ^ 54 -> 0 <= E <= 1093 -> T * 5 ^ E * 2 ^ 18 < room.
Proof.
  intros TB X. assert (5 ^ E <= 5 ^ 1093) by (apply Z.pow_le_mono_r; lia). apply Z.lt_le_trans with (2 ^ 54 * 5 ^ 1093 * 2 ^ 18); [|vm_compute; discriminate].
  assert (0 < 5 ^ E) by (apply Z.pow_pos_nonneg; lia). apply Z.mul_lt_mono_pos_r; [reflexivity|]. nia.
Qed.

Lemma room_least g x : 0 <= g <= 1093 -> 0 <= x <= 943 -> (2 * 0 + 1) * 5 ^ g * 2 ^ x < room.
Proof.
  intros GB X. assert (5 ^ g <= 5 ^ 1093) by (apply Z.pow_le_mono_r; lia). assert (2 ^ x <= 2 ^ 943) by (apply Z.pow_le_mono_r; lia).
  apply Z.le_lt_trans with (5 ^ 1093 * 2 ^ 943); [|vm_compute; reflexivity]. replace ((2 * 0 + 1) * 5 ^ g) with (5 ^ g) by ring.
  apply Z.mul_le_mono_nonneg; try assumption; apply Z.pow_nonneg; lia.
Qed.

(** The comparison of [D / 10^g] with the middle above the pattern [n]. *)
Lemma compare_halfway v n g T F : wf v -> 0 < big v < 10 ^ 770 -> 1 <= g <= 1093 -> 0 <= n <= infinity f ->
  (0 < n -> middle f (n - 1) * 10 ^ g < 2 * big v * 2 ^ unit_exp f) ->
  to_extended_halfway b n = Ok {| mantissa := T; power2 := F |} ->
  exists r1 r2,
    (r <- (if g =? 0 then Ok (true, bigint_of T) else pow5 (bigint_of T) g) ;;
     (if 0 <? F + g then r <- pow2 (snd r) (F + g) ;; Ok (v, snd r)
      else if F + g <? 0 then r2 <- pow2 v (- (F + g)) ;; Ok (snd r2, snd r)
      else Ok (v, snd r))) = Ok (r1, r2) /\
    compare r1 r2 = Z.sgn (2 * big v * 2 ^ unit_exp f - middle f n * 10 ^ g).
Proof.
  intros WV VB GB N LOW TE. destruct (decide_consts b f SUP) as (EB & MB & UE & BB & IB & IV & _).
  destruct (halfway_spec n N) as (k & m & EN & K & M & L & MM & HS). rewrite HS in TE.
  assert (ET : 2 * m + 1 = T) by congruence. assert (EF : k - unit_exp f - 1 = F) by congruence.
  assert (UB : 149 <= unit_exp f <= 1074) by (clear - SUP; destruct SUP; cbn; lia).
  assert (TB : 0 < T < 2 ^ 54) by (clear - ET M BB; lia).
  assert (TL : 0 <= T < 2 ^ 64) by (clear - TB; lia).
  assert (MID : middle f n = T * 2 ^ k) by (rewrite MM, ET; reflexivity).
  destruct (bigint_of_spec T TL) as [TW TV].
  replace (g =? 0) with false by (clear - GB; lia).
  assert (P5 : 0 < 5 ^ g) by (apply Z.pow_pos_nonneg; clear - GB; lia).
  pose proof (room_theor T g ltac:(clear - TB; lia) ltac:(clear - GB; lia)) as RT.
  assert (RT1 : T * 5 ^ g < room) by (clear - RT TB P5; nia).
  destruct (pow5_spec (bigint_of T) g TW) as (t5 & -> & W5 & V5); [rewrite TV; clear - TB; lia|clear - GB; lia|rewrite TV; exact RT1|].
  cbn [bind snd]. rewrite TV in V5.
  assert (V5P : 0 < big t5) by (rewrite V5; clear - TB P5; nia).
  assert (PG : 0 < 2 ^ g) by (apply Z.pow_pos_nonneg; clear - GB; lia).
  assert (PK : 0 < 2 ^ k) by (apply Z.pow_pos_nonneg; clear - K; lia).
  assert (PUP : 0 < 2 ^ unit_exp f) by (apply Z.pow_pos_nonneg; clear - UB; lia).
  rewrite MID, (five_two g) by (clear - GB; lia).
  assert (ORD : forall r1 r2 c, wf r1 -> wf r2 -> 0 < c ->
    2 * big v * 2 ^ unit_exp f - T * 2 ^ k * (5 ^ g * 2 ^ g) = c * (big r1 - big r2) ->
    compare r1 r2 = Z.sgn (2 * big v * 2 ^ unit_exp f - T * 2 ^ k * (5 ^ g * 2 ^ g))).
  { intros r1 r2 c W1 W2 C E. rewrite E, sgn_mul, compare_spec by assumption. reflexivity. }
  destruct (Z.ltb_spec 0 (F + g)) as [X|X]; [|destruct (Z.ltb_spec (F + g) 0) as [Y|Y]].
  - (* the theoretical digits are shifted *)
    assert (EX : T * 2 ^ k * (5 ^ g * 2 ^ g) = 2 * 2 ^ unit_exp f * (big t5 * 2 ^ (F + g))).
    { rewrite V5. transitivity (T * 5 ^ g * (2 ^ k * 2 ^ g)); [ring|]. transitivity (T * 5 ^ g * (2 ^ 1 * 2 ^ unit_exp f * 2 ^ (F + g))); [|change (2 ^ 1) with 2; ring].
      f_equal. rewrite <- !Z.pow_add_r by (clear - UB X K GB; lia). f_equal. clear - EF. lia. }
    assert (SH : big t5 * 2 ^ (F + g) < room).
    { destruct (Z.eq_dec n 0) as [N0|N0].
      - assert (k = 0 /\ m = 0) as [K0 M0] by (clear - N0 EN K M L BB; nia). rewrite V5, <- ET, M0.
        apply room_least; clear - K0 EF X GB UB; lia.
      - specialize (LOW ltac:(clear - N0 N; lia)). pose proof (middle_triple n ltac:(clear - N0 N; lia)) as MT. rewrite MID in MT.
        rewrite (five_two g) in LOW by (clear - GB; lia).
        assert (PGG : 0 < 5 ^ g * 2 ^ g) by (clear - P5 PG; nia).
        assert (T * 2 ^ k * (5 ^ g * 2 ^ g) < 3 * (2 * big v * 2 ^ unit_exp f)) by (clear - LOW MT PGG; nia).
        rewrite EX in H. assert (big t5 * 2 ^ (F + g) < 3 * big v) by (clear - H PUP; nia).
        apply Z.lt_le_trans with (3 * big v); [assumption|]. apply Z.le_trans with (3 * 10 ^ 770); [clear - VB; lia|]. vm_compute. discriminate. }
    unfold pow2. destruct (shl_spec t5 (F + g) W5 V5P ltac:(clear - X; lia) SH) as (t2 & -> & W2 & V2). cbn [bind snd].
    exists v, t2. split; [reflexivity|]. apply (ORD v t2 (2 * 2 ^ unit_exp f) WV W2); [clear - PUP; lia|]. rewrite EX, V2. ring.
  - (* the real digits are shifted *)
    assert (EX : 2 * 2 ^ unit_exp f = 2 ^ k * 2 ^ g * 2 ^ (- (F + g))).
    { change 2 with (2 ^ 1) at 1. rewrite <- !Z.pow_add_r by (clear - UB Y K GB; lia). f_equal. clear - EF. lia. }
    assert (SX : - (F + g) <= 1074) by (clear - EF UB K GB; lia).
    unfold pow2. destruct (shl_spec v (- (F + g)) WV ltac:(clear - VB; lia) ltac:(clear - Y; lia)) as (v2 & -> & W2 & V2);
      [apply room_real; [clear - VB; lia|clear - SX Y; lia]|]. cbn [bind snd].
    exists v2, t5. split; [reflexivity|]. apply (ORD v2 t5 (2 ^ k * 2 ^ g) W2 W5); [clear - PK PG; nia|]. rewrite V2, V5.
    replace (2 * big v * 2 ^ unit_exp f) with (2 * 2 ^ unit_exp f * big v) by ring. rewrite EX. ring.
  - exists v, t5. split; [reflexivity|]. apply (ORD v t5 (2 ^ k * 2 ^ g) WV W5); [clear - PK PG; nia|]. rewrite V5.
    assert (EX : 2 * 2 ^ unit_exp f = 2 ^ k * 2 ^ g).
    { change 2 with (2 ^ 1) at 1. rewrite <- !Z.pow_add_r by (clear - UB K GB; lia). f_equal. clear - EF X Y. lia. }
    replace (2 * big v * 2 ^ unit_exp f) with (2 * 2 ^ unit_exp f * big v) by ring. rewrite EX. ring.
Qed.

Lemma am_pattern_min H p : 2 ^ 63 <= H < 2 ^ 64 -> 0 <= floor_n b H p.
Proof.
  intro HB. destruct (floor_split b f SUP H p HB) as (k & s & -> & K & _ & _ & M & _). pose proof (B_bounds b f SUP). nia.
Qed.

Lemma negative_spec v H p g : wf v -> 0 < big v < 10 ^ 770 -> 1 <= g <= 1093 -> 2 ^ 63 <= H < 2 ^ 64 -> -2000 <= p <= 3000 ->
  (exists J, 0 <= J /\ 0 <= p - 1 + J /\
    2 * (H - 1) * 2 ^ (p - 1 + J) * 10 ^ g < 2 * big v * 2 ^ unit_exp f * 2 ^ J < 2 * (H + 256) * 2 ^ (p - 1 + J) * 10 ^ g) ->
  exists am n, negative_digit_comp b v {| mantissa := H; power2 := p |} (- g) = Ok am /\ am_pattern b am n /\ nearest f (big v) (10 ^ g) n.
Proof.
  intros WV VB GB HB PB (J & J1 & J2 & CL). pose proof (supported_good b f SUP) as G.
  assert (PB' : - 2 ^ 20 <= p <= 2 ^ 20) by (clear - PB; lia).
  assert (PG : 0 < 10 ^ g) by (apply Z.pow_pos_nonneg; clear - GB; lia).
  destruct (near_floor b f SUP H p J (big v) (10 ^ g) HB PG J1 J2 CL) as [LOW UP].
  remember (floor_n b H p) as n eqn:EN. assert (N0 : 0 <= n) by (rewrite EN; apply am_pattern_min, HB).
  assert (IP : 0 < infinity f) by (clear - SUP; destruct SUP; reflexivity).
  unfold negative_digit_comp.
  destruct (round_spec b f SUP H p round_down false HB PB' (round_down_ok b f SUP H p HB PB')) as (amb & -> & PAT). cbn [bind].
  rewrite (to_float_pattern b f SUP amb _ false PAT). cbn [Z.b2z signed_pattern]. rewrite Z.add_0_r, <- EN.
  remember (Z.min n (infinity f)) as n1 eqn:EN1. assert (N1 : 0 <= n1 <= infinity f) by (clear - EN1 N0 IP; lia).
  assert (LOW1 : 0 < n1 -> middle f (n1 - 1) * 10 ^ g < 2 * big v * 2 ^ unit_exp f).
  { intro NP. specialize (LOW ltac:(clear - NP EN1; lia)). eapply Z.le_lt_trans; [|exact LOW]. apply Z.mul_le_mono_nonneg_r; [clear - PG; lia|].
    apply (middle_le b f SUP). clear - NP EN1. lia. }
  destruct (halfway_spec n1 N1) as (k & m & _ & K & _ & _ & _ & HS). rewrite HS. cbn [bind mantissa power2].
  assert (UB : 149 <= unit_exp f <= 1074) by (clear - SUP; destruct SUP; cbn; lia).
  assert (IB : infinite_power b <= 2047) by (clear - SUP; destruct SUP; cbn; lia).
  rewrite int32_ok by (clear - UB IB K GB; lia). cbn [bind].
  replace (k - unit_exp f - 1 - - g) with (k - unit_exp f - 1 + g) by (clear; ring). rewrite Z.opp_involutive.
  destruct (compare_halfway v n1 g (2 * m + 1) (k - unit_exp f - 1) WV VB GB N1 LOW1 HS) as (r1 & r2 & CE & ORD).
  remember (if g =? 0 then Ok (true, bigint_of (2 * m + 1)) else pow5 (bigint_of (2 * m + 1)) g) as o5 eqn:E5.
  destruct o5 as [r5| | | | |]; cbn [bind] in CE |- *; try discriminate. rewrite CE. cbn [bind fst snd]. rewrite ORD.
  remember (Z.sgn (2 * big v * 2 ^ unit_exp f - middle f n1 * 10 ^ g)) as ord eqn:EO.
  set (cb := fun is_odd _ _ : bool => if 0 <? ord then true else if ord <? 0 then false else is_odd).
  pose proof (round_tie_ok b f SUP cb H p HB PB') as RT. cbv zeta in RT.
  destruct (round_spec b f SUP H p _ _ HB PB' RT) as (am & -> & PAT2). clear RT. rewrite <- EN in PAT2.
  eexists _, _. split; [reflexivity|]. split; [exact PAT2|].
  assert (ODD : Z.odd (H / 2 ^ field_shift b p) = Z.odd n).
  { destruct (floor_split b f SUP H p HB) as (k' & s' & FE & _ & _ & _ & _ & _ & MF & _). rewrite EN, FE, MF.
    destruct (decide_consts b f SUP) as (EB & _). rewrite <- EB. symmetry. apply (odd_pattern f G). }
  unfold cb. rewrite ODD. clear cb PAT2 ODD.
  destruct (Z_lt_ge_dec n (infinity f)) as [LT|GE].
  - assert (n1 = n) as -> by (clear - LT EN1; lia).
    apply (near_decide b f SUP); [exact PG|exact N0|exact LOW|exact UP|]. rewrite EO.
    remember (2 * big v * 2 ^ unit_exp f) as t. remember (middle f n * 10 ^ g) as c. clear.
    destruct (Z.ltb_spec c t); destruct (Z.eqb_spec t c); cbn [orb andb];
      destruct (Z.ltb_spec 0 (Z.sgn (t - c))); destruct (Z.ltb_spec (Z.sgn (t - c)) 0); try reflexivity; lia.
  - rewrite Z.min_r by (destruct (if 0 <? ord then _ else _); cbn [Z.b2z]; clear - GE; lia).
    pose proof (near_decide b f SUP (big v) (10 ^ g) n _ PG N0 LOW UP eq_refl) as ND.
    rewrite Z.min_r in ND by (destruct (_ || _)%bool; cbn [Z.b2z]; clear - GE; lia). exact ND.
Qed.

(** *** positive_digit_comp *)
Lemma positive_spec v e : wf v -> 0 < big v -> 0 <= e -> big v * 10 ^ e < room -> 2 ^ 63 <= big v * 10 ^ e ->
  exists am n, positive_digit_comp b v e = Ok am /\ am_pattern b am n /\ nearest f (big v * 10 ^ e) 1 n.
Proof.
  intros WV VP E RM BIG. unfold positive_digit_comp. destruct (pow10_spec v e WV VP E RM) as (r & -> & WR & VR). cbn [bind snd].
  rewrite <- VR in *. remember (big r) as V eqn:EV.
  assert (RP : 0 < big r) by (rewrite <- EV; clear - BIG; lia).
  pose proof (hi64_spec r WR RP) as HS. pose proof (bit_length_spec r WR RP) as BL. cbv zeta in HS. rewrite <- EV in HS, BL. destruct HS as (h & t & -> & HB & HV).
  cbn [bind fst snd]. rewrite BL. cbn [bind].
  destruct (floor_integer b f SUP V BIG) as [_ FI]. pose proof (integer_scale V BIG) as IS. cbv zeta in IS. destruct IS as (C0 & PC & HB').
  remember (Z.log2 V - 63) as c eqn:EC.
  assert (HE : h = V / 2 ^ c /\ t = negb (V mod 2 ^ c =? 0)).
  { destruct (Z.leb_spec c 0) as [L|L]; [|exact HV]. destruct HV as [-> ->]. assert (c = 0) as -> by (clear - L C0; lia).
    change (2 ^ - 0) with 1. change (2 ^ 0) with 1. rewrite Z.div_1_r, Z.mod_1_r. split; [clear; lia|reflexivity]. }
  destruct HE as [-> ->]. clear HV HB.
  assert (MN : -1023 <= minimum_exponent b < 0 /\ 0 <= mb <= 52) by (clear - SUP; destruct SUP; cbn; lia).
  assert (LB : Z.log2 V < 3968). { apply Z.log2_lt_pow2; [clear - BIG; lia|exact RM]. }
  replace (Z.log2 V + 1 - 64 + (mb - minimum_exponent b)) with (c + mb - minimum_exponent b) by (clear - EC; lia).
  remember (c + mb - minimum_exponent b) as p eqn:EP.
  assert (PB : - 2 ^ 20 <= p <= 2 ^ 20) by (clear - EP MN LB EC C0; lia).
  rewrite int32_ok by (clear - PB; lia). cbn [bind].
  set (cb := fun is_odd is_halfway is_above : bool => (is_above || (is_halfway && negb (V mod 2 ^ c =? 0)) || (is_odd && is_halfway))%bool).
  pose proof (round_tie_ok b f SUP cb _ p HB' PB) as RT. cbv zeta in RT.
  destruct (round_spec b f SUP _ p _ _ HB' PB RT) as (am & -> & PAT). eexists _, _. split; [reflexivity|]. split; [exact PAT|].
  apply FI. reflexivity.
Qed.

(** *** Cutting off digits *)
Lemma cut_bound : 2 ^ 2 * B * 5 ^ unit_exp f <= 2 * 10 ^ (max_digits b - 1).
Proof. destruct SUP; vm_compute; discriminate. Qed.
(** No middle lies strictly between neighbouring numbers of max_digits digits. *)
Lemma no_middle a g n : 10 ^ (max_digits b - 1) <= a -> 0 <= g -> 0 <= n ->
  a * (2 * 2 ^ unit_exp f) < middle f n * 10 ^ g < (a + 1) * (2 * 2 ^ unit_exp f) -> False.
Proof.
  intros AB GB N [LO HI]. pose proof (supported_good b f SUP) as G. destruct (decide_consts b f SUP) as (EB & _ & _ & BB & _).
  destruct (pattern_split f G n N) as (k & m & EN & K & M & L). rewrite EB in *.
  assert (MM : middle f n = (2 * m + 1) * 2 ^ k) by (rewrite EN; apply (middle_at b f SUP); assumption).
  assert (UB : 0 <= unit_exp f) by (clear - SUP; destruct SUP; cbn; lia).
  rewrite MM, (five_two g GB) in LO, HI.
  replace ((2 * m + 1) * 2 ^ k * (5 ^ g * 2 ^ g)) with ((2 * m + 1) * 5 ^ g * (2 ^ k * 2 ^ g)) in LO, HI by ring.
  rewrite <- Z.pow_add_r in LO, HI by (clear - K GB; lia). change (2 * 2 ^ unit_exp f) with (2 ^ 1 * 2 ^ unit_exp f) in LO, HI.
  rewrite <- Z.pow_add_r in LO, HI by (clear - UB; lia).
  destruct (Z_le_gt_dec (1 + unit_exp f) (k + g)) as [C|C].
  - assert (EP : 2 ^ (k + g) = 2 ^ (k + g - (1 + unit_exp f)) * 2 ^ (1 + unit_exp f)).
    { rewrite <- Z.pow_add_r by (clear - C UB; lia). f_equal. clear. ring. }
    rewrite EP, Z.mul_assoc in LO, HI.
    assert (P : 0 < 2 ^ (1 + unit_exp f)) by (apply Z.pow_pos_nonneg; clear - UB; lia).
    apply Z.mul_lt_mono_pos_r in LO, HI; try exact P. clear - LO HI. lia.
  - remember (1 + unit_exp f - (k + g)) as r eqn:ER. replace (1 + unit_exp f) with (r + (k + g)) in LO by (clear - ER; lia).
    rewrite (Z.pow_add_r 2 r (k + g)), Z.mul_assoc in LO by (clear - C ER K GB; lia).
    assert (P : 0 < 2 ^ (k + g)) by (apply Z.pow_pos_nonneg; clear - K GB; lia). apply Z.mul_lt_mono_pos_r in LO; [|exact P].
    assert (R2 : 2 ^ 1 <= 2 ^ r) by (apply Z.pow_le_mono_r; clear - C ER; lia). change (2 ^ 1) with 2 in R2.
    assert (F5 : 5 ^ g <= 5 ^ unit_exp f) by (apply Z.pow_le_mono_r; clear - C ER K; lia).
    assert (P5 : 0 < 5 ^ g) by (apply Z.pow_pos_nonneg; clear - GB; lia). pose proof cut_bound as CB. change (2 ^ 2) with 4 in CB.
    assert (AP : 0 <= a). { assert (0 <= 10 ^ (max_digits b - 1)) by (apply Z.pow_nonneg; clear; lia). clear - H AB. lia. }
    assert (X1 : a * 2 <= a * 2 ^ r) by (clear - AP R2; nia).
    assert (X2 : (2 * m + 1) * 5 ^ g <= 4 * B * 5 ^ unit_exp f) by (clear - M F5 P5; nia). clear - X1 X2 LO CB AB. lia.
Qed.

Lemma cut_nearest a g num1 den1 num2 den2 n : 10 ^ (max_digits b - 1) <= a -> 0 <= g -> 0 < den1 -> 0 < den2 ->
  a * den1 < num1 * 10 ^ g < (a + 1) * den1 -> a * den2 < num2 * 10 ^ g < (a + 1) * den2 ->
  nearest f num1 den1 n -> nearest f num2 den2 n.
Proof.
  intros AB GB D1 D2 I1 I2 H. apply (proj1 (nearest_unfold f _ _ _)) in H. apply (proj2 (nearest_unfold f _ _ _)).
  assert (U : 0 < 2 * 2 ^ unit_exp f) by (assert (0 < 2 ^ unit_exp f) by (apply Z.pow_pos_nonneg; clear - SUP; destruct SUP; cbn; lia); lia).
  assert (PG : 0 < 10 ^ g) by (apply Z.pow_pos_nonneg; clear - GB; lia).
  destruct H as (R & LO & HI). split; [exact R|]. split.
  - intro NP. destruct (LO NP) as [X _]. pose proof (no_middle a g (n - 1) AB GB ltac:(clear - NP; lia)) as NM.
    remember (middle f (n - 1)) as z. remember (2 * 2 ^ unit_exp f) as u.
    replace (2 * num1 * 2 ^ unit_exp f) with (num1 * u) in X by (subst u; ring). replace (2 * num2 * 2 ^ unit_exp f) with (num2 * u) by (subst u; ring).
    assert (A1 : z * 10 ^ g < (a + 1) * u).
    { apply (Z.mul_lt_mono_pos_r den1); [exact D1|]. apply Z.le_lt_trans with (num1 * u * 10 ^ g); [clear - X PG; nia|]. clear - I1 U. nia. }
    assert (A2 : z * 10 ^ g <= a * u) by (clear - A1 NM; lia).
    assert (A3 : z * den2 < num2 * u).
    { apply (Z.mul_lt_mono_pos_r (10 ^ g)); [exact PG|]. apply Z.le_lt_trans with (a * u * den2); [clear - A2 D2; nia|]. clear - I2 U. nia. }
    split; [clear - A3; lia|]. intros _. exact A3.
  - intro NP. destruct (HI NP) as [X _]. pose proof (no_middle a g n AB GB ltac:(clear - R; lia)) as NM.
    remember (middle f n) as z. remember (2 * 2 ^ unit_exp f) as u.
    replace (2 * num1 * 2 ^ unit_exp f) with (num1 * u) in X by (subst u; ring). replace (2 * num2 * 2 ^ unit_exp f) with (num2 * u) by (subst u; ring).
    assert (A1 : a * u < z * 10 ^ g).
    { apply (Z.mul_lt_mono_pos_r den1); [exact D1|]. apply Z.lt_le_trans with (num1 * u * 10 ^ g); [|clear - X PG; nia]. clear - I1 U. nia. }
    assert (A2 : (a + 1) * u <= z * 10 ^ g) by (clear - A1 NM; lia).
    assert (A3 : num2 * u < z * den2).
    { apply (Z.mul_lt_mono_pos_r (10 ^ g)); [exact PG|]. apply Z.lt_le_trans with ((a + 1) * u * den2); [|clear - A2 D2; nia]. clear - I2 U. nia. }
    split; [clear - A3; lia|]. intros _. exact A3.
Qed.
End Digit.

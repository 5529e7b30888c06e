(** Rounding in the slow path of fast_float: from a floor pattern and a comparison to the nearest pattern. *)
From Verif Require Import Base FloatSpec FloatComputeModel FloatDigitModel FloatRoundProofs FloatComputeProofs FloatEiselProofs FloatBigintProofs.
Local Open Scope Z_scope.

Lemma int32_ok z : - 2 ^ 31 <= z < 2 ^ 31 -> int32 z = Ok z.
Proof. intro H. unfold int32. replace ((- 2 ^ 31 <=? z) && (z <? 2 ^ 31))%bool with true by lia. reflexivity. Qed.
Lemma shl64_ok x n : 0 <= n < 64 -> 0 <= x * 2 ^ n < 2 ^ 64 -> shl64 x n = Ok (x * 2 ^ n).
Proof.
  intros N X. unfold shl64. replace ((0 <=? n) && (n <? 64))%bool with true by lia. rewrite Z.shiftl_mul_pow2 by lia.
  rewrite u64_small by exact X. reflexivity.
Qed.

Section Decide.
Context (b : binary) (f : format) (SUP : supported b f).
Local Notation mb := (mantissa_explicit_bits b).
Local Notation B := (2 ^ mb).
Definition ms : Z := 63 - mb.

Lemma decide_consts : mant_bits f = mb /\ (mb = 52 \/ mb = 23) /\ unit_exp f = mb - 1 - minimum_exponent b /\
  1 <= B <= 2 ^ 52 /\ 255 <= infinite_power b <= 2047 /\ infinity f = infinite_power b * B /\ 11 <= ms <= 40.
Proof. unfold ms. destruct SUP; cbn; lia. Qed.

Lemma middle_at k m : 0 <= k -> 0 <= m < 2 * B -> (0 < k -> B <= m) -> middle f (k * B + m) = (2 * m + 1) * 2 ^ k.
Proof.
  intros K M L. destruct decide_consts as (EB & _). pose proof (supported_good b f SUP) as G. unfold middle.
  rewrite <- EB in *. rewrite <- Z.add_assoc. rewrite !(scaled_at f G) by lia. ring.
Qed.
Lemma middle_le n n' : 0 <= n <= n' -> middle f n <= middle f n'.
Proof.
  intros H. destruct (Z.eq_dec n n') as [->|N]; [lia|]. pose proof (middle_lt f (supported_good b f SUP) n n' ltac:(lia)). lia.
Qed.

(** The decision between a pattern and the next one. *)
Lemma near_decide num den n inc : 0 < den -> 0 <= n ->
  (0 < n -> middle f (n - 1) * den < 2 * num * 2 ^ unit_exp f) ->
  2 * num * 2 ^ unit_exp f < middle f (n + 1) * den ->
  inc = ((middle f n * den <? 2 * num * 2 ^ unit_exp f) || ((2 * num * 2 ^ unit_exp f =? middle f n * den) && Z.odd n))%bool ->
  nearest f num den (Z.min (n + Z.b2z inc) (infinity f)).
Proof.
  intros D N LOW UP INC. pose proof (supported_good b f SUP) as G. apply (proj2 (nearest_unfold f _ _ _)).
  assert (IP : 0 < infinity f) by (destruct SUP; reflexivity).
  remember (2 * num * 2 ^ unit_exp f) as t.
  destruct (Z_le_gt_dec (infinity f) n) as [C|C].
  - rewrite Z.min_r by (destruct inc; cbn; lia). rewrite (odd_infinity f G). split; [lia|]. split; [|lia]. intros _. split; [|discriminate].
    pose proof (middle_le (infinity f - 1) (n - 1) ltac:(lia)). specialize (LOW ltac:(lia)). nia.
  - rewrite Z.min_l by (destruct inc; cbn; lia). split; [destruct inc; cbn; lia|].
    destruct inc; cbn [Z.b2z].
    + symmetry in INC. replace (n + 1 - 1) with n by lia. split.
      * intros _. apply orb_true_iff in INC. destruct INC as [L|L]; [split; lia|]. apply andb_true_iff in L. destruct L as [L O]. split; [lia|].
        intro O'. exfalso. rewrite Z.add_1_r, Z.odd_succ, <- Z.negb_odd, O in O'. discriminate.
      * intros _. split; [lia|]. intros _. exact UP.
    + symmetry in INC. apply orb_false_iff in INC. destruct INC as [L1 L2]. rewrite Z.add_0_r. split.
      * intro P. specialize (LOW P). lia.
      * intros _. split; [lia|]. intro O. rewrite O, andb_true_r in L2. lia.
Qed.

(** *** The floor pattern of a significand H with the exponent p *)
Definition floor_n (H p : Z) : Z := if ms <=? - p then H / 2 ^ (1 - p) else (p + ms - 1) * B + H / 2 ^ ms.
Definition field_shift (p : Z) : Z := if ms <=? - p then Z.min (1 - p) 64 else ms.

Lemma div_big H s : 0 <= H < 2 ^ 64 -> 64 <= s -> H / 2 ^ s = 0.
Proof. intros A S. apply Z.div_small. assert (2 ^ 64 <= 2 ^ s) by (apply Z.pow_le_mono_r; lia). lia. Qed.

Lemma floor_split H p : 2 ^ 63 <= H < 2 ^ 64 -> exists k s, floor_n H p = k * B + H / 2 ^ s /\ 0 <= k /\ s = k + 1 - p /\ 11 <= s /\
  0 <= H / 2 ^ s < 2 * B /\ (0 < k -> B <= H / 2 ^ s) /\ H / 2 ^ field_shift p = H / 2 ^ s /\ (s = field_shift p \/ 64 <= s /\ field_shift p = 64) /\
  (ms <= - p -> k = 0 /\ H / 2 ^ s < B) /\ (- p < ms -> B <= H / 2 ^ s /\ k = p + ms - 1).
Proof.
  intro HB. destruct decide_consts as (_ & MB & _ & BB & _ & _ & MS). unfold floor_n, field_shift.
  assert (EB : 2 ^ 64 = 2 * B * 2 ^ ms) by (unfold ms; change (2 * B) with (2 ^ 1 * B); rewrite <- !Z.pow_add_r by lia; f_equal; lia).
  assert (EB' : 2 ^ 63 = B * 2 ^ ms) by (unfold ms; rewrite <- !Z.pow_add_r by lia; f_equal; lia).
  assert (PM : 0 < 2 ^ ms) by (apply Z.pow_pos_nonneg; lia).
  destruct (Z.leb_spec ms (- p)) as [C|C].
  - exists 0, (1 - p). assert (PS : 2 * 2 ^ ms <= 2 ^ (1 - p)).
    { change (2 * 2 ^ ms) with (2 ^ 1 * 2 ^ ms). rewrite <- Z.pow_add_r by lia. apply Z.pow_le_mono_r; lia. }
    assert (LT : H / 2 ^ (1 - p) < B) by (apply Z.div_lt_upper_bound; [lia|]; clear - EB HB BB PS PM; nia).
    assert (0 <= H / 2 ^ (1 - p)) by (apply Z.div_pos; lia).
    split; [lia|]. split; [lia|]. split; [lia|]. split; [lia|]. split; [lia|]. split; [lia|].
    assert (S : 1 - p = Z.min (1 - p) 64 \/ 64 <= 1 - p /\ Z.min (1 - p) 64 = 64) by lia.
    split; [|split; [exact S|split; lia]]. destruct S as [S|[S ->]]; [rewrite <- S; reflexivity|]. rewrite !div_big by lia. reflexivity.
  - exists (p + ms - 1), ms. assert (B <= H / 2 ^ ms) by (apply Z.div_le_lower_bound; lia).
    assert (H / 2 ^ ms < 2 * B) by (apply Z.div_lt_upper_bound; [lia|]; clear - EB HB; nia).
    repeat split; lia.
Qed.

Lemma clear_hidden m : B <= m < 2 * B -> Z.land m (2 ^ 64 - 1 - B) = m - B.
Proof. intro M. rewrite <- (clear_bit b f SUP m M), Z.shiftl_1_l. reflexivity. Qed.
Lemma shl_hidden : shl64 1 mb = Ok B /\ shl64 2 mb = Ok (2 * B).
Proof. destruct SUP; split; reflexivity. Qed.

Lemma round_spec H p cb inc : 2 ^ 63 <= H < 2 ^ 64 -> - 2 ^ 20 <= p <= 2 ^ 20 ->
  cb {| mantissa := H; power2 := p |} (field_shift p) = Ok {| mantissa := H / 2 ^ field_shift p + Z.b2z inc; power2 := p + field_shift p |} ->
  exists am, round b {| mantissa := H; power2 := p |} cb = Ok am /\ am_pattern b am (Z.min (floor_n H p + Z.b2z inc) (infinity f)).
Proof.
  intros HB P CB. destruct decide_consts as (_ & MB & _ & BB & IB & IV & MS). destruct shl_hidden as [H1 H2]. pose proof clear_hidden as CH.
  destruct (floor_split H p HB) as (k & s & FE & K & SE & SG & MR & ML & MF & SS & DN & NM).
  unfold round. cbn [power2]. replace (64 - mb - 1) with ms by (unfold ms; clear; lia).
  unfold field_shift in CB, MF, SS. rewrite FE, IV. clear FE.
  remember (H / 2 ^ s) as M eqn:EM. assert (I2 : 0 <= Z.b2z inc <= 1) by (destruct inc; cbn; clear; lia).
  remember (Z.b2z inc) as i eqn:Ei. clear Ei EM. remember B as BV eqn:EBV.
  unfold am_pattern. rewrite <- EBV. destruct (Z.leb_spec ms (- p)) as [C|C].
  - rewrite int32_ok by (clear - P; lia). cbn [bind]. replace (- p + 1) with (1 - p) by (clear; lia). rewrite CB. cbn [bind mantissa]. rewrite H1. cbn [bind]. rewrite MF.
    destruct (DN C) as [K0 MLT]. clear DN NM CB.
    eexists. split; [reflexivity|]. cbn [mantissa power2].
    rewrite Z.min_l by (clear - K0 I2 MR MLT BB IB; nia).
    destruct (Z.ltb_spec (M + i) BV) as [L|L]; [left; clear - L K0 I2 MR IB; lia|]. right. clear - L K0 I2 MLT. lia.
  - rewrite CB. cbn [bind mantissa power2]. rewrite H1, H2. cbn [bind]. rewrite MF. destruct (NM ltac:(clear - C; lia)) as [MGE KE]. clear NM DN ML CB.
    destruct (Z.leb_spec (2 * BV) (M + i)) as [C2|C2].
    + rewrite int32_ok by (clear - P MS; lia). cbn [bind]. rewrite CH by (clear - BB; lia).
      destruct (Z.leb_spec (infinite_power b) (p + ms + 1)) as [C3|C3]; eexists; (split; [reflexivity|]); cbn [mantissa power2]; left.
      * rewrite Z.min_r by (clear - KE C3 C2 BB; nia). clear - BB IB. lia.
      * rewrite Z.min_l by (clear - KE C3 C2 BB MR I2; nia). split; [clear - BB; lia|]. split; [clear - C3 KE K; lia|]. assert (X : M + i = 2 * BV) by (clear - C2 MR I2; lia). clear - X KE. nia.
    + cbn [bind]. rewrite CH by (clear - MGE C2 I2; lia).
      destruct (Z.leb_spec (infinite_power b) (p + ms)) as [C3|C3]; eexists; (split; [reflexivity|]); cbn [mantissa power2]; left.
      * rewrite Z.min_r by (clear - KE C3 MGE I2 BB; nia). clear - BB IB. lia.
      * rewrite Z.min_l by (clear - KE C3 C2 BB MR I2; nia). split; [clear - MGE C2 I2; lia|]. split; [clear - C3 KE K; lia|]. clear - KE. nia.
Qed.

Lemma field_shift_range p : 11 <= field_shift p <= 64.
Proof. destruct decide_consts as (_ & _ & _ & _ & _ & _ & MS). unfold field_shift. destruct (Z.leb_spec ms (- p)); lia. Qed.

Lemma round_down_ok H p : 2 ^ 63 <= H < 2 ^ 64 -> - 2 ^ 20 <= p <= 2 ^ 20 ->
  round_down {| mantissa := H; power2 := p |} (field_shift p) = Ok {| mantissa := H / 2 ^ field_shift p + Z.b2z false; power2 := p + field_shift p |}.
Proof.
  intros HB P. pose proof (field_shift_range p) as R. unfold round_down. cbn [mantissa power2].
  destruct (Z.eqb_spec (field_shift p) 64) as [E|E].
  - rewrite E. cbn [bind]. rewrite int32_ok by lia. cbn [bind]. rewrite div_big by lia. reflexivity.
  - rewrite shr64_div by lia. cbn [bind]. rewrite int32_ok by lia. cbn [bind Z.b2z]. rewrite Z.add_0_r. reflexivity.
Qed.

Lemma round_tie_ok cb H p : 2 ^ 63 <= H < 2 ^ 64 -> - 2 ^ 20 <= p <= 2 ^ 20 -> let s := field_shift p in
  round_nearest_tie_even cb {| mantissa := H; power2 := p |} s =
  Ok {| mantissa := H / 2 ^ s + Z.b2z (cb (Z.odd (H / 2 ^ s)) (H mod 2 ^ s =? 2 ^ (s - 1)) (2 ^ (s - 1) <? H mod 2 ^ s)); power2 := p + s |}.
Proof.
  intros HB P s. pose proof (field_shift_range p) as R. fold s in R. unfold round_nearest_tie_even. cbn [mantissa power2].
  assert (HW : shl64 1 (s - 1) = Ok (2 ^ (s - 1))).
  { assert (1 <= 2 ^ (s - 1) <= 2 ^ 63) by (split; [pose proof (Z.pow_pos_nonneg 2 (s - 1)); lia|apply Z.pow_le_mono_r; lia]). rewrite shl64_ok by lia. f_equal. lia. }
  destruct (Z.eqb_spec s 0) as [|_]; [lia|].
  assert (OD : forall m, (Z.land m 1 =? 1) = Z.odd m).
  { intro m. rewrite land1, Zmod_odd. destruct (Z.odd m); reflexivity. }
  assert (SUM : forall q (x : bool), 0 <= q < 2 ^ 63 -> u64 (q + Z.b2z x) = q + Z.b2z x) by (intros q x Q; apply u64_small; destruct x; cbn; lia).
  assert (Q : 0 <= H / 2 ^ s < 2 ^ 63).
  { split; [apply Z.div_pos; [lia|apply Z.pow_pos_nonneg; lia]|]. apply Z.div_lt_upper_bound; [apply Z.pow_pos_nonneg; lia|].
    assert (2 ^ 1 <= 2 ^ s) by (apply Z.pow_le_mono_r; lia). lia. }
  destruct (Z.eqb_spec s 64) as [E|E].
  - cbn [bind]. rewrite HW. cbn [bind]. rewrite int32_ok by lia. cbn [bind]. rewrite OD.
    change 0xFFFFFFFFFFFFFFFF with (Z.ones 64). rewrite Z.land_ones by lia. rewrite E. rewrite (div_big H 64) by lia. rewrite SUM by lia. reflexivity.
  - assert (S1 : shl64 1 s = Ok (2 ^ s)).
    { assert (1 <= 2 ^ s <= 2 ^ 63) by (split; [pose proof (Z.pow_pos_nonneg 2 s); lia|apply Z.pow_le_mono_r; lia]). rewrite shl64_ok by lia. f_equal. lia. }
    rewrite S1. cbn [bind]. rewrite HW. cbn [bind]. rewrite shr64_div by lia. cbn [bind]. rewrite int32_ok by lia. cbn [bind].
    assert (MK : u64 (2 ^ s - 1) = Z.ones s).
    { rewrite Z.ones_equiv. rewrite u64_small; [lia|]. assert (1 <= 2 ^ s <= 2 ^ 63) by (split; [pose proof (Z.pow_pos_nonneg 2 s); lia|apply Z.pow_le_mono_r; lia]). lia. }
    rewrite MK, Z.land_ones by lia. rewrite OD, SUM by lia. reflexivity.
Qed.

(** *** An approximate significand determines the pattern up to the decision *)
Lemma near_floor H p J num den : 2 ^ 63 <= H < 2 ^ 64 -> 0 < den -> 0 <= J -> 0 <= p - 1 + J ->
  2 * (H - 1) * 2 ^ (p - 1 + J) * den < 2 * num * 2 ^ unit_exp f * 2 ^ J < 2 * (H + 256) * 2 ^ (p - 1 + J) * den ->
  (0 < floor_n H p -> middle f (floor_n H p - 1) * den < 2 * num * 2 ^ unit_exp f) /\
  2 * num * 2 ^ unit_exp f < middle f (floor_n H p + 1) * den.
Proof.
  intros HB D JP PJ [LO HI]. pose proof (supported_good b f SUP) as G. destruct decide_consts as (EB & _ & _ & BB & _ & _ & _).
  destruct (floor_split H p HB) as (k & s & FE & K & SE & SG & MR & ML & _). rewrite FE. clear FE.
  remember (2 * num * 2 ^ unit_exp f) as t. remember (H / 2 ^ s) as M eqn:EM.
  assert (PS : 2 ^ 11 <= 2 ^ s) by (apply Z.pow_le_mono_r; lia). change (2 ^ 11) with 2048 in PS.
  assert (EV : 2 ^ k * 2 ^ J = 2 ^ s * 2 ^ (p - 1 + J)) by (rewrite <- !Z.pow_add_r by lia; f_equal; lia).
  assert (PV : 0 < 2 ^ J) by (apply Z.pow_pos_nonneg; lia). assert (PU : 0 < 2 ^ (p - 1 + J)) by (apply Z.pow_pos_nonneg; lia).
  assert (PK : 0 < 2 ^ k) by (apply Z.pow_pos_nonneg; lia).
  pose proof (Z.div_mod H (2 ^ s) ltac:(lia)) as DM. pose proof (Z.mod_pos_bound H (2 ^ s) ltac:(lia)) as RM. rewrite <- EM in DM.
  remember (2 ^ (p - 1 + J)) as u. remember (2 ^ J) as v. clear Hequ Heqv Heqt.
  split.
  - intro NP. assert (MID : 2 * middle f (k * B + M - 1) <= (4 * M - 1) * 2 ^ k).
    { destruct (Z.eq_dec k 0) as [->|KN].
      - replace (0 * B + M - 1) with (0 * B + (M - 1)) by lia. rewrite middle_at by lia. change (2 ^ 0) with 1. lia.
      - specialize (ML ltac:(lia)). destruct (Z.eq_dec M B) as [EM'|NM].
        + rewrite EM'. replace (k * B + B - 1) with ((k - 1) * B + (2 * B - 1)) by lia. rewrite middle_at by lia.
          replace (2 ^ k) with (2 * 2 ^ (k - 1)) by (change (2 * 2 ^ (k - 1)) with (2 ^ 1 * 2 ^ (k - 1)); rewrite <- Z.pow_add_r by lia; f_equal; lia). lia.
        + replace (k * B + M - 1) with (k * B + (M - 1)) by lia. rewrite middle_at by lia. clear - PK. nia. }
    assert (MP : 1 <= M). { destruct (Z.eq_dec k 0) as [->|KN]; [lia|]. specialize (ML ltac:(lia)). lia. }
    assert (X1 : (4 * M - 1) * 2 ^ k * v <= 2 * (2 * (H - 1) * u)).
    { rewrite <- Z.mul_assoc, EV. replace ((4 * M - 1) * (2 ^ s * u)) with ((4 * M - 1) * 2 ^ s * u) by ring.
      rewrite Z.mul_assoc. apply Z.mul_le_mono_nonneg_r; [lia|]. clear - DM RM PS MP. nia. }
    apply (Z.mul_lt_mono_pos_r (2 * v)); [lia|].
    assert (X2 : 2 * middle f (k * B + M - 1) * v * den <= 2 * (2 * (H - 1) * u) * den).
    { apply Z.mul_le_mono_nonneg_r; [lia|]. eapply Z.le_trans; [|exact X1]. apply Z.mul_le_mono_nonneg_r; [lia|exact MID]. }
    clear - X2 LO. nia.
  - assert (MID : (2 * M + 3) * 2 ^ k <= middle f (k * B + M + 1)).
    { rewrite <- Z.add_assoc. destruct (Z.eq_dec (M + 1) (2 * B)) as [E|E].
      - rewrite E. replace (k * B + 2 * B) with ((k + 1) * B + B) by ring. rewrite middle_at by lia. rewrite Z.pow_add_r by lia. change (2 ^ 1) with 2.
        clear - E PK BB. nia.
      - rewrite middle_at by lia. clear - PK. nia. }
    assert (X1 : 2 * (H + 256) * u <= (2 * M + 3) * 2 ^ k * v).
    { rewrite <- (Z.mul_assoc (2 * M + 3)), EV, Z.mul_assoc. apply Z.mul_le_mono_nonneg_r; [lia|]. clear - DM RM PS MR. nia. }
    apply (Z.mul_lt_mono_pos_r v); [lia|].
    assert (X2 : 2 * (H + 256) * u * den <= middle f (k * B + M + 1) * v * den).
    { apply Z.mul_le_mono_nonneg_r; [lia|]. eapply Z.le_trans; [exact X1|]. apply Z.mul_le_mono_nonneg_r; [lia|exact MID]. }
    clear - X2 HI. nia.
Qed.

(** The floor pattern of an integer, and the decision from the bits that are cut off. *)
Lemma cut_compare e M low r h w : 0 < e -> 0 < h -> 0 < w -> 0 <= low < 2 * h -> 0 <= r < w ->
  ((2 * M + 1) * (2 * h * w * e) <? 2 * (M * (2 * h * w) + (low * w + r)) * e) = ((h <? low) || ((low =? h) && negb (r =? 0)))%bool /\
  (2 * (M * (2 * h * w) + (low * w + r)) * e =? (2 * M + 1) * (2 * h * w * e)) = ((low =? h) && (r =? 0))%bool.
Proof.
  intros E HP W L R.
  assert (X : 2 * (M * (2 * h * w) + (low * w + r)) * e - (2 * M + 1) * (2 * h * w * e) = 2 * e * ((low - h) * w + r)) by ring.
  set (a := 2 * (M * (2 * h * w) + (low * w + r)) * e) in *. set (c := (2 * M + 1) * (2 * h * w * e)) in *. clearbody a c.
  assert (D : (h < low -> 0 < (low - h) * w + r) /\ (low < h -> (low - h) * w + r < 0) /\ (low = h -> (low - h) * w + r = r)) by (clear - W R L; split; [nia|split; [nia|intros ->; lia]]).
  remember ((low - h) * w + r) as d eqn:Ed. clear Ed.
  assert (S : (0 < d <-> c < a) /\ (d = 0 <-> a = c)) by (clear - E X; split; split; intro; nia).
  destruct D as (D1 & D2 & D3). destruct S as [S1 S2]. clear X E HP W.
  destruct (Z.ltb_spec h low); destruct (Z.eqb_spec low h); destruct (Z.eqb_spec r 0); cbn [andb orb negb]; split;
    try (apply Z.ltb_lt; lia); try (apply Z.ltb_ge; lia); try (apply Z.eqb_eq; lia); try (apply Z.eqb_neq; lia).
Qed.

Lemma integer_scale V : 2 ^ 63 <= V -> let c := Z.log2 V - 63 in 0 <= c /\ 0 < 2 ^ c /\ 2 ^ 63 <= V / 2 ^ c < 2 ^ 64.
Proof.
  intros VB c. assert (VP : 0 < V) by (clear - VB; lia). pose proof (Z.log2_spec V VP) as LS.
  assert (LG : 63 <= Z.log2 V) by (apply Z.log2_le_pow2; assumption).
  assert (PC : 0 < 2 ^ c) by (apply Z.pow_pos_nonneg; subst c; clear - LG; lia).
  assert (E1 : 2 ^ Z.log2 V = 2 ^ 63 * 2 ^ c) by (subst c; clear - LG; rewrite <- Z.pow_add_r by lia; f_equal; lia).
  assert (E2 : 2 ^ Z.succ (Z.log2 V) = 2 ^ 64 * 2 ^ c) by (subst c; clear - LG; rewrite <- Z.pow_add_r by lia; f_equal; lia).
  split; [subst c; clear - LG; lia|]. split; [exact PC|].
  split; [apply Z.div_le_lower_bound; clear - LS PC E1; lia|apply Z.div_lt_upper_bound; clear - LS PC E2; lia].
Qed.

Lemma floor_bounds n V : 0 <= n -> scaled f n <= V * 2 ^ unit_exp f < scaled f (n + 1) ->
  (0 < n -> middle f (n - 1) * 1 < 2 * V * 2 ^ unit_exp f) /\ 2 * V * 2 ^ unit_exp f < middle f (n + 1) * 1.
Proof.
  intros N F. pose proof (supported_good b f SUP) as G. unfold middle. split.
  - intro NP. replace (n - 1 + 1) with n by (clear; lia). pose proof (scaled_step f G (n - 1) ltac:(clear - NP; lia)) as ST.
    replace (n - 1 + 1) with n in ST by (clear; lia). clear - ST F. lia.
  - pose proof (scaled_step f G (n + 1) ltac:(clear - N; lia)) as ST. clear - ST F. lia.
Qed.

Lemma floor_integer V : 2 ^ 63 <= V -> let c := Z.log2 V - 63 in let H := V / 2 ^ c in let p := c + mb - minimum_exponent b in
  let s := field_shift p in
  - p < ms /\
  (forall inc, inc = (((2 ^ (s - 1) <? H mod 2 ^ s) || ((H mod 2 ^ s =? 2 ^ (s - 1)) && negb (V mod 2 ^ c =? 0))) || (Z.odd (H / 2 ^ s) && (H mod 2 ^ s =? 2 ^ (s - 1))))%bool ->
   nearest f V 1 (Z.min (floor_n H p + Z.b2z inc) (infinity f))).
Proof.
  intros VB c. pose proof (supported_good b f SUP) as G. destruct decide_consts as (EB & MB & UE & BB & _ & _ & MS).
  destruct (integer_scale V VB) as (C0 & PC & HB). fold c in C0, PC, HB. clearbody c. intro H. fold H in HB.
  intro p. assert (PE : p = c + 1 + unit_exp f) by (subst p; clear - UE; lia). clearbody p.
  assert (UP : 0 <= unit_exp f) by (clear - SUP; destruct SUP; cbn; lia).
  intro s. assert (NB : - p < ms) by (clear - PE UP C0 MS; lia). split; [exact NB|]. intros inc INC.
  destruct (floor_split H p HB) as (k & s' & FE & K & SE & SG & MR & ML & MF & SS & _ & NM). destruct (NM NB) as [MGE KE].
  assert (SX : s' = s). { subst s. unfold field_shift in *. destruct (Z.leb_spec ms (- p)) as [L|L]; [clear - L NB; lia|]. clear - KE SE. lia. }
  rewrite SX in *. clear SX s' NM SS MF ML. rewrite FE. clear FE. clearbody s.
  assert (SK : k = s + c + unit_exp f) by (clear - PE SE; lia). clear PE SE KE NB.
  assert (PS : 0 < 2 ^ s) by (apply Z.pow_pos_nonneg; clear - SG; lia). assert (PU : 0 < 2 ^ unit_exp f) by (apply Z.pow_pos_nonneg; clear - UP; lia).
  assert (EK : 2 ^ k = 2 ^ s * 2 ^ c * 2 ^ unit_exp f) by (rewrite <- !Z.pow_add_r by (clear - SG C0 UP; lia); f_equal; exact SK).
  assert (EH : 2 ^ s = 2 * 2 ^ (s - 1)) by (change (2 * 2 ^ (s - 1)) with (2 ^ 1 * 2 ^ (s - 1)); rewrite <- Z.pow_add_r by (clear - SG; lia); f_equal; clear; lia).
  assert (PH : 0 < 2 ^ (s - 1)) by (apply Z.pow_pos_nonneg; clear - SG; lia).
  pose proof (Z.div_mod H (2 ^ s) ltac:(clear - PS; lia)) as DH. pose proof (Z.mod_pos_bound H (2 ^ s) PS) as RH.
  pose proof (Z.div_mod V (2 ^ c) ltac:(clear - PC; lia)) as DV. pose proof (Z.mod_pos_bound V (2 ^ c) PC) as RV. fold H in DV. clearbody H.
  remember (H / 2 ^ s) as M eqn:EM. clear EM.
  remember (H mod 2 ^ s) as low eqn:EL. clear EL. remember (V mod 2 ^ c) as r eqn:ER. clear ER.
  assert (EVM : V = M * (2 ^ s * 2 ^ c) + (low * 2 ^ c + r)) by (rewrite DV, DH; clear; ring). clear DV DH HB VB.
  assert (SN : scaled f (k * B + M) = M * 2 ^ k) by (rewrite <- EB in *; apply (scaled_at f G); clear - K MR MGE; lia).
  assert (SN1 : scaled f (k * B + M + 1) = (M + 1) * 2 ^ k) by (rewrite <- EB in *; rewrite <- Z.add_assoc; apply (scaled_at f G); clear - K MR MGE; lia).
  assert (RR : 0 <= low * 2 ^ c + r < 2 ^ s * 2 ^ c) by (clear - RH RV; nia).
  assert (FL : M * 2 ^ k <= V * 2 ^ unit_exp f < (M + 1) * 2 ^ k).
  { rewrite EK. rewrite EVM. remember (2 ^ s * 2 ^ c) as w. clear - RR PU. nia. }
  assert (NN : 0 <= k * B + M) by (clear - K BB MGE; nia).
  destruct (floor_bounds (k * B + M) V NN) as [LO HI]. { rewrite SN, SN1. exact FL. }
  apply near_decide; [clear; lia|exact NN|exact LO|exact HI|].
  rewrite middle_at by (clear - K MR MGE; lia). rewrite <- EB, (odd_pattern f G), INC, EK, EVM, EH, Z.mul_1_r.
  destruct (cut_compare (2 ^ unit_exp f) M low r (2 ^ (s - 1)) (2 ^ c) PU PH PC) as [Q1 Q2]; [clear - RH EH; lia|exact RV|].
  rewrite Q1, Q2. destruct (2 ^ (s - 1) <? low), (low =? 2 ^ (s - 1)), (r =? 0), (Z.odd M); reflexivity.
Qed.
End Decide.

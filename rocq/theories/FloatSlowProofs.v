(** digit_comp, started from compute_error, gives the nearest pattern of the number in the text. *)
From Verif Require Import Base FloatSpec FloatTextSpec FloatComputeModel FloatParseModel FloatBigintModel FloatDigitModel
  FloatRoundProofs FloatComputeProofs FloatEiselProofs FloatLexProofs FloatBigintProofs FloatMantissaProofs FloatDecideProofs FloatErrorProofs
  FloatDigitProofs.
Local Open Scope Z_scope.
Local Notation len l := (Z.of_nat (length l)).

Lemma leading_bound sig : Forall is_digit sig -> leading sig -> 0 < decimal sig -> 10 ^ (len sig - 1) <= decimal sig < 10 ^ len sig.
Proof.
  intros F L P. split; [|apply decimal_bound, F]. destruct sig as [|c t]; [cbn in P; lia|]. inversion F; subst.
  replace (len (c :: t) - 1) with (len t) by (cbn [length]; lia). apply decimal_leading; assumption.
Qed.
Lemma same_length x i j : 0 <= i -> 10 ^ (i - 1) <= x < 10 ^ i -> 0 <= j -> 10 ^ (j - 1) <= x < 10 ^ j -> i = j.
Proof.
  intros I A J C. assert (i - 1 < j) by (apply (Z.pow_lt_mono_r_iff 10); lia). assert (j - 1 < i) by (apply (Z.pow_lt_mono_r_iff 10); lia). lia.
Qed.

(** The big integer and its exponent, against the text. *)
Lemma scanned_value {lw : platform} max sig v digits d k0 m r : 19 < max -> Forall is_digit sig -> leading sig -> d = decimal sig ->
  1 <= k0 -> 10 ^ 18 <= m < 10 ^ 19 -> d = m * 10 ^ k0 + r -> 0 <= r < 10 ^ k0 -> scanned max sig v digits ->
  wf v /\ 20 <= digits <= max + 1 /\ 10 ^ 19 <= big v < 10 ^ digits /\
  m * 10 ^ (digits - 19) <= big v <= (m + 1) * 10 ^ (digits - 19) /\
  exists L, 0 <= L /\
    ((digits <= max /\ digits + L = 19 + k0 /\ d = big v * 10 ^ L) \/
     (exists a, digits = max + 1 /\ max + L = 19 + k0 /\ big v = 10 * a + 1 /\ 10 ^ (max - 1) <= a /\ a * 10 ^ L < d < (a + 1) * 10 ^ L)).
Proof.
  intros MX F LD ED K0 M DE R (a & q & ES & LA & LQ & WV & C).
  assert (PK : 0 < 10 ^ k0) by (apply Z.pow_pos_nonneg; lia).
  assert (DP : 0 < d) by nia.
  assert (N : len sig = 19 + k0).
  { apply (same_length d); [lia| |lia|].
    - rewrite ED. apply leading_bound; [exact F|exact LD|lia].
    - replace (19 + k0 - 1) with (18 + k0) by lia. rewrite !Z.pow_add_r by lia. split; nia. }
  rewrite ES, app_length, Nat2Z.inj_add in N. rewrite ES in F. apply Forall_app in F. destruct F as [FA FQ].
  assert (AN : 20 <= len a). { destruct q as [|z q]; [cbn [length] in N; lia|]. rewrite LQ by discriminate. lia. }
  assert (LDA : leading a). { destruct a as [|z a]; [exact I|]. rewrite ES in LD. exact LD. }
  assert (DA : d = decimal a * 10 ^ len q + decimal q) by (rewrite ED, ES; apply decimal_app).
  pose proof (decimal_bound q FQ) as QB. assert (PQ : 0 < 10 ^ len q) by (apply Z.pow_pos_nonneg; lia).
  assert (AP : 0 < decimal a).
  { destruct a as [|z a]; [cbn [length] in AN; lia|]. inversion FA; subst. pose proof (decimal_leading z a ltac:(assumption) LDA ltac:(assumption)).
    assert (0 < 10 ^ len a) by (apply Z.pow_pos_nonneg; lia). lia. }
  pose proof (leading_bound a FA LDA AP) as AB. clear LDA LD.
  assert (A19 : 10 ^ 19 <= 10 ^ (len a - 1)) by (apply Z.pow_le_mono_r; lia).
  assert (EK : 10 ^ k0 = 10 ^ (len a - 19) * 10 ^ len q) by (rewrite <- Z.pow_add_r by lia; f_equal; lia).
  remember (10 ^ (len a - 19)) as u eqn:EU. remember (10 ^ len q) as w eqn:EW. remember (decimal a) as da eqn:EDA. remember (decimal q) as dq eqn:EDQ.
  assert (X1 : m * u <= da).
  { apply Z.lt_succ_r. apply (Z.mul_lt_mono_pos_r w); [exact PQ|]. clear - DA DE EK QB R. nia. }
  assert (X2 : da < (m + 1) * u).
  { apply (Z.mul_lt_mono_pos_r w); [exact PQ|]. clear - DA DE EK QB R. nia. }
  split; [exact WV|]. destruct (Z.eqb_spec dq 0) as [Q0|Q0].
  - destruct C as [EB EG]. rewrite EB, EG, <- EU. split; [lia|]. split; [lia|]. split; [lia|].
    exists (len q). split; [lia|]. left. split; [lia|]. split; [lia|]. rewrite <- EW. lia.
  - destruct C as [EB EG]. assert (QN : q <> []) by (intros ->; apply Q0; rewrite EDQ; reflexivity). specialize (LQ QN).
    rewrite EB, EG. replace (len a + 1 - 19) with (1 + (len a - 19)) by lia. rewrite (Z.add_comm (len a) 1), !Z.pow_add_r, <- EU by lia.
    change (10 ^ 1) with 10. split; [lia|]. split; [lia|]. split; [lia|].
    exists (len q). split; [lia|]. right. exists da. rewrite <- LQ, <- EW. split; [lia|]. split; [lia|]. split; [reflexivity|]. split; [lia|]. lia.
Qed.

Section Slow.
Context {lw : platform} (b : binary) (f : format) (SUP : supported b f).

Lemma slow_consts : 19 < max_digits b <= 769 /\ -342 <= smallest_power_of_ten b /\ largest_power_of_ten b <= 308 /\ largest_power_of_ten b + 18 < max_digits b.
Proof. destruct SUP; cbn; lia. Qed.
Lemma power_room E : 0 <= E <= 770 -> 10 ^ E < room.
Proof. intro H. apply Z.le_lt_trans with (10 ^ 770); [apply Z.pow_le_mono_r; lia|]. vm_compute. reflexivity. Qed.

Theorem slow_path_spec num ip fp e : Forall is_digit ip -> Forall is_digit fp -> integer num = ip ->
  (fp = [] /\ fraction num = None) \/ fraction num = Some fp ->
  shortened (decimal (ip ++ fp)) e true (exponent num) (num_mantissa num) ->
  smallest_power_of_ten b <= exponent num <= largest_power_of_ten b ->
  exists am0 am n, compute_error b (exponent num) (num_mantissa num) = Ok am0 /\ power2 am0 < 0 /\
    digit_comp b num am0 = Ok am /\ am_pattern b am n /\ nearest_decimal f (decimal (ip ++ fp)) e n.
Proof.
  intros FI FF EI EF (k0 & r & K0 & EQ & MB & DE & RB) QB. destruct slow_consts as (MX & SQ & LQ & MQ).
  remember (exponent num) as q eqn:Eq. remember (num_mantissa num) as m eqn:Em.
  destruct (compute_error_close b f SUP q m) as (H & p & CE & HB & PB & CLOSE); [lia|lia|].
  rewrite CE. eexists. assert (BIAS : invalid_am_bias = -32768) by reflexivity.
  assert (SE : scientific_exponent num = Ok (q + 18)) by (rewrite Eq; apply scientific_exponent_spec; rewrite <- ?Eq, <- ?Em; lia).
  destruct (split_zeros (ip ++ fp)) as (z & sig & SZ & LD).
  destruct (parse_mantissa_spec (max_digits b) num ip fp z sig) as (v & digits & PM & SC); try assumption; [lia|].
  assert (FS : Forall is_digit sig). { assert (X : Forall is_digit (ip ++ fp)) by (apply Forall_app; auto). rewrite SZ in X. apply Forall_app in X. apply X. }
  assert (ED : decimal (ip ++ fp) = decimal sig) by (rewrite SZ, decimal_app, decimal_zeros; lia).
  remember (decimal (ip ++ fp)) as d eqn:Ed. clear Ed.
  destruct (scanned_value (max_digits b) sig v digits d k0 m r) as (WV & DB & VB & BEG & L & L0 & CASES); try assumption; [lia|].
  clear SC LD SZ ED FS z sig FI FF EI EF.
  assert (DC : digit_comp b num {| mantissa := H; power2 := p + invalid_am_bias |} =
    if 0 <=? q + 19 - digits then positive_digit_comp b v (q + 19 - digits)
    else negative_digit_comp b v {| mantissa := H; power2 := p |} (q + 19 - digits)).
  { unfold digit_comp. cbn [mantissa power2]. rewrite int32_ok by lia. cbn [bind]. rewrite SE. cbn [bind]. rewrite PM. cbn [bind].
    rewrite int32_ok by lia. cbn [bind]. rewrite int32_ok by lia. cbn [bind]. replace (p + invalid_am_bias - invalid_am_bias) with p by lia.
    replace (q + 18 + 1 - digits) with (q + 19 - digits) by lia. reflexivity. }
  rewrite DC. clear DC SE PM.
  assert (NEG : power2 {| mantissa := H; power2 := p + invalid_am_bias |} < 0) by (cbn [power2]; lia).
  cut (exists am n, (if 0 <=? q + 19 - digits then positive_digit_comp b v (q + 19 - digits)
    else negative_digit_comp b v {| mantissa := H; power2 := p |} (q + 19 - digits)) = Ok am /\ am_pattern b am n /\ nearest_decimal f d e n).
  { intros (am & n & X & Y & Z). exists am, n. auto. }
  clear NEG CE. unfold nearest_decimal. pose proof (dec_den_pos e) as DDP.
  remember (q + 19 - digits) as E eqn:EE. destruct (Z.leb_spec 0 E) as [NN|NN].
  - (* positive *)
    destruct CASES as [(DM & DL & DV)|(a & DM & _)]; [|lia].
    assert (PE : 0 < 10 ^ E) by (apply Z.pow_pos_nonneg; lia).
    assert (RM : big v * 10 ^ E < room).
    { apply Z.lt_trans with (10 ^ (digits + E)); [|apply power_room; lia]. rewrite Z.pow_add_r by lia. clear - VB PE. nia. }
    destruct (positive_spec b f SUP v E WV) as (am & n & PD & AP & NR); [lia|lia|exact RM|clear - VB PE; nia|].
    exists am, n. split; [exact PD|]. split; [exact AP|].
    destruct (dec_cross (big v) d e L L0) as (K & KP & C1 & C2).
    assert (EL : e + L = E) by lia. rewrite EL in C1, C2. unfold dec_num in C1. unfold dec_den in C2.
    rewrite Z.max_l in C1 by lia. rewrite Z.max_r in C2 by lia. change (10 ^ 0) with 1 in C2.
    refine (nearest_eq f _ _ _ _ n _ _ _ NR); [lia|exact DDP|]. rewrite C1, C2, DV. ring.
  - (* negative *)
    remember (- E) as g eqn:EG. assert (GB : 1 <= g <= 1093) by lia. replace E with (- g) in * by lia. clear EG.
    assert (PG : 0 < 10 ^ g) by (apply Z.pow_pos_nonneg; lia).
    assert (BG : begins m q (big v) (10 ^ g)).
    { unfold begins. replace q with (- g + (digits - 19)) by lia.
      destruct (dec_cross m (big v) (- g) (digits - 19) ltac:(lia)) as (K & KP & C1 & C2).
      destruct (dec_cross (m + 1) (big v) (- g) (digits - 19) ltac:(lia)) as (K' & KP' & C1' & C2').
      unfold dec_num in C2, C2'. rewrite Z.max_r in C2, C2' by lia. change (10 ^ 0) with 1 in C2, C2'. rewrite Z.mul_1_r in C2, C2'.
      assert (DD : dec_den (- g) = 10 ^ g) by (unfold dec_den; rewrite Z.max_l by lia; f_equal; lia). rewrite DD in C1, C1'.
      rewrite C1, C2. split; [clear - BEG KP; nia|]. rewrite <- C2, C2', C1'. clear - BEG KP'. nia. }
    destruct (negative_spec b f SUP v H p g WV) as (am & n & ND & AP & NR); try assumption.
    { split; [lia|]. apply Z.lt_le_trans with (10 ^ digits); [lia|]. apply Z.pow_le_mono_r; lia. }
    { apply CLOSE; [lia|exact PG|exact BG]. }
    exists am, n. split; [exact ND|]. split; [exact AP|].
    destruct CASES as [(DM & DL & DV)|(a & DM & DL & DV & AB & AD)].
    + destruct (dec_cross (big v) d e L L0) as (K & KP & C1 & C2).
      assert (EL : e + L = - g) by lia. rewrite EL in C1, C2. unfold dec_num in C1. unfold dec_den in C2.
      rewrite Z.max_r in C1 by lia. rewrite Z.max_l in C2 by lia. rewrite Z.opp_involutive in C2. change (10 ^ 0) with 1 in C1. rewrite Z.mul_1_r in C1.
      refine (nearest_eq f _ _ _ _ n _ _ _ NR); [exact PG|exact DDP|]. rewrite C1, C2, DV. reflexivity.
    + destruct (dec_cross a d e L L0) as (K & KP & C1 & C2). destruct (dec_cross (a + 1) d e L L0) as (K' & KP' & C1' & C2').
      assert (EL : e + L = - (g - 1)) by lia. rewrite EL in C1, C2, C1', C2'. unfold dec_num in C1, C1'. unfold dec_den in C2, C2'.
      rewrite Z.max_r in C1, C1' by lia. rewrite Z.max_l in C2, C2' by lia. rewrite Z.opp_involutive in C2, C2'.
      change (10 ^ 0) with 1 in C1, C1'. rewrite Z.mul_1_r in C1, C1'.
      assert (P1 : 10 ^ g = 10 * 10 ^ (g - 1)) by (rewrite <- Z.pow_succ_r by lia; f_equal; lia).
      assert (P2 : 0 < 10 ^ (g - 1)) by (apply Z.pow_pos_nonneg; lia).
      refine (cut_nearest b f SUP a (g - 1) (big v) (10 ^ g) _ _ n AB _ PG DDP _ _ NR); [lia| |].
      * rewrite P1, DV. clear - P2. nia.
      * split; [rewrite C1, C2; clear - AD KP; nia|rewrite C1', C2'; clear - AD KP'; nia].
Qed.
End Slow.

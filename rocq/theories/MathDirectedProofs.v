(** The powers of floating point numbers and the angle conversions of doubles in the directed rounding modes. *)
From Coq Require Import Reals Lra Qreals QArith_base.
From Verif Require Import Base FloatSpec FloatFastModel FloatRoundProofs FloatFastProofs MathModel MathSpec MathRealProofs MathProofs MathAngleProofs MathPowProofs.
Local Open Scope Z_scope.

Section Round.
Context (f : format) (G : good_format f).
Lemma infinity_pos : 0 < infinity f.
Proof. unfold infinity. pose proof (B_pos f G). destruct G as [_ [? _]]. nia. Qed.
Lemma round_down num den : 0 <= num -> 0 < den -> let r := round_positive f Downward num den in
  0 <= r < infinity f /\ scaled f r * den <= num * 2 ^ unit_exp f.
Proof.
  intros N D. unfold round_positive. pose proof (floor_spec f G num den N D) as F. cbv zeta in *. set (n := floor_pattern f num den) in *. destruct F as (P & L & _).
  pose proof infinity_pos as IP. destruct (Z.leb_spec (infinity f) n) as [I|I].
  - split; [lia|]. pose proof (scaled_le f G (infinity f - 1) n ltac:(lia)). nia.
  - destruct (_ =? _); split; lia.
Qed.
Lemma round_up num den : 0 <= num -> 0 < den -> let r := round_positive f Upward num den in
  0 <= r <= infinity f /\ (r < infinity f -> num * 2 ^ unit_exp f <= scaled f r * den).
Proof.
  intros N D. unfold round_positive. pose proof (floor_spec f G num den N D) as F. cbv zeta in *. set (n := floor_pattern f num den) in *. destruct F as (P & L & U).
  pose proof infinity_pos as IP. destruct (Z.leb_spec (infinity f) n) as [I|I]; [split; lia|].
  destruct (Z.eqb_spec (scaled f n * den) (num * 2 ^ unit_exp f)) as [E|E]; split; lia.
Qed.
Local Open Scope R_scope.
Lemma product_value a b : value f false a * value f false b = IZR (scaled f a * scaled f b) / IZR (2 ^ (2 * unit_exp f)).
Proof.
  rewrite !value_pos, mult_IZR. replace (2 * unit_exp f)%Z with (unit_exp f + unit_exp f)%Z by lia. rewrite Z.pow_add_r by (destruct G; lia). rewrite mult_IZR.
  pose proof (UR_pos f G). field. lra.
Qed.
Lemma ratio_le a b c d : (0 < b)%Z -> (0 < d)%Z -> (a * d <= c * b)%Z -> IZR a / IZR b <= IZR c / IZR d.
Proof.
  intros B D H. apply IZR_lt in B. apply IZR_lt in D. apply IZR_le in H. rewrite !mult_IZR in H.
  apply Rmult_le_reg_r with (IZR b * IZR d); [apply Rmult_lt_0_compat; lra|]. replace (IZR a / IZR b * (IZR b * IZR d)) with (IZR a * IZR d) by (field; lra).
  replace (IZR c / IZR d * (IZR b * IZR d)) with (IZR c * IZR b) by (field; lra). exact H.
Qed.
Lemma fmul_down a b : (0 <= a)%Z -> (0 <= b)%Z -> (0 <= fmul f Downward a b < infinity f)%Z /\ value f false (fmul f Downward a b) <= value f false a * value f false b.
Proof.
  intros A B. pose proof (scaled_nonneg f G a A). pose proof (scaled_nonneg f G b B).
  assert (P : (0 < 2 ^ (2 * unit_exp f))%Z) by (apply Z.pow_pos_nonneg; destruct G; lia).
  destruct (round_down (scaled f a * scaled f b) (2 ^ (2 * unit_exp f)) ltac:(nia) P) as [R L]. fold (fmul f Downward a b) in R, L. split; [exact R|].
  rewrite product_value, value_pos. apply ratio_le; [apply (U_pos f G)|exact P|exact L].
Qed.
Lemma fmul_up a b : (0 <= a)%Z -> (0 <= b)%Z -> (0 <= fmul f Upward a b <= infinity f)%Z /\
  ((fmul f Upward a b < infinity f)%Z -> value f false a * value f false b <= value f false (fmul f Upward a b)).
Proof.
  intros A B. pose proof (scaled_nonneg f G a A). pose proof (scaled_nonneg f G b B).
  assert (P : (0 < 2 ^ (2 * unit_exp f))%Z) by (apply Z.pow_pos_nonneg; destruct G; lia).
  destruct (round_up (scaled f a * scaled f b) (2 ^ (2 * unit_exp f)) ltac:(nia) P) as [R L]. fold (fmul f Upward a b) in R, L. split; [exact R|]. intro I.
  rewrite product_value, value_pos. apply ratio_le; [exact P|apply (U_pos f G)|exact (L I)].
Qed.
Lemma quotient_value a b : (0 < b)%Z -> value f false a / value f false b = IZR (scaled f a) / IZR (scaled f b).
Proof.
  intro B. assert (SB : (0 < scaled f b)%Z) by (rewrite <- (scaled_0 f G); apply (scaled_lt f G); lia). apply IZR_lt in SB. rewrite !value_pos. pose proof (UR_pos f G). field. lra.
Qed.
Lemma fdiv_down a b : (0 <= a)%Z -> (0 < b)%Z -> (0 <= fdiv f Downward a b < infinity f)%Z /\ value f false (fdiv f Downward a b) <= value f false a / value f false b.
Proof.
  intros A B. pose proof (scaled_nonneg f G a A). assert (SB : (0 < scaled f b)%Z) by (rewrite <- (scaled_0 f G); apply (scaled_lt f G); lia).
  destruct (round_down (scaled f a) (scaled f b) H SB) as [R L]. fold (fdiv f Downward a b) in R, L. split; [exact R|].
  rewrite quotient_value, value_pos by exact B. apply ratio_le; [apply (U_pos f G)|exact SB|exact L].
Qed.
Lemma fdiv_up a b : (0 <= a)%Z -> (0 < b)%Z -> (0 <= fdiv f Upward a b <= infinity f)%Z /\
  ((fdiv f Upward a b < infinity f)%Z -> value f false a / value f false b <= value f false (fdiv f Upward a b)).
Proof.
  intros A B. pose proof (scaled_nonneg f G a A). assert (SB : (0 < scaled f b)%Z) by (rewrite <- (scaled_0 f G); apply (scaled_lt f G); lia).
  destruct (round_up (scaled f a) (scaled f b) H SB) as [R L]. fold (fdiv f Upward a b) in R, L. split; [exact R|]. intro I.
  rewrite quotient_value, value_pos by exact B. apply ratio_le; [exact SB|apply (U_pos f G)|exact (L I)].
Qed.
End Round.

Section Directed.
Context (f : format) (M : modelled f).
Let G : good_format f := modelled_good f M.
Notation inf := (infinity f).
Notation val := (value f false).
Lemma mulp_zero_rm rm : mulp f rm 0 0 = 0.
Proof. destruct M, rm; vm_compute; reflexivity. Qed.
(** The results below and above *)
Definition low (n : Z) (x : R) : Prop := 0 <= n < inf /\ (val n <= x)%R.
Definition high (n : Z) (x : R) : Prop := 0 <= n <= inf /\ (n < inf -> (0 <= x <= val n)%R).
Lemma low_mul a b x y : low a x -> low b y -> low (mulp f Downward a b) (x * y) /\
  fp_mul f Downward (Num false a) (Num false b) = Num false (mulp f Downward a b).
Proof.
  intros [A X] [B Y]. pose proof (inf_pos f M) as IP. rewrite mulp_fp by lia. cbn [xorb magnitude_mode]. split; [|reflexivity].
  unfold low, mulp, is_inf. destruct (Z.leb_spec inf a), (Z.leb_spec inf b); try lia. cbn [orb].
  destruct (fmul_down f G a b ltac:(lia) ltac:(lia)) as [R L]. split; [exact R|].
  pose proof (value_nonneg f G a ltac:(lia)). pose proof (value_nonneg f G b ltac:(lia)). apply Rle_trans with (val a * val b)%R; [exact L|]. apply Rmult_le_compat; assumption.
Qed.
Lemma high_mul a b x y : high a x -> high b y -> (a = inf -> b <> 0) -> (b = inf -> a <> 0) -> high (mulp f Upward a b) (x * y) /\
  fp_mul f Upward (Num false a) (Num false b) = Num false (mulp f Upward a b).
Proof.
  intros [A X] [B Y] NA NB. pose proof (inf_pos f M) as IP. rewrite mulp_fp by (lia || assumption). cbn [xorb magnitude_mode]. split; [|reflexivity].
  unfold high, mulp, is_inf. destruct (Z.leb_spec inf a), (Z.leb_spec inf b); cbn [orb]; try (split; lia).
  destruct (fmul_up f G a b ltac:(lia) ltac:(lia)) as [R L]. split; [exact R|]. intro I. specialize (L I). specialize (X ltac:(lia)). specialize (Y ltac:(lia)). split; [apply Rmult_le_pos; lra|].
  apply Rle_trans with (val a * val b)%R; [|exact L]. apply Rmult_le_compat; lra.
Qed.
Lemma low_self n : finite f n -> low n (val n).
Proof. intro N. split; [exact N|lra]. Qed.
Lemma high_self n : finite f n -> high n (val n).
Proof. intro N. split; [unfold finite in N; lia|]. intros _. pose proof (value_nonneg f G n (proj1 N)). lra. Qed.
Lemma low_pow k g n : fp_pow k = Some g -> finite f n -> exists r, g f Downward (Num false n) = Num false r /\ low r (val n ^ Z.to_nat k).
Proof.
  intros E N. pose proof (low_self n N) as L1. destruct (low_mul n n _ _ L1 L1) as [L2 E2]. destruct (low_mul _ n _ _ L2 L1) as [L3 E3]. destruct (low_mul _ _ _ _ L2 L2) as [L4 E4].
  destruct (low_mul _ n _ _ L4 L1) as [L5 E5]. destruct (low_mul _ _ _ _ L3 L3) as [L6 E6].
  destruct (exponents k (fp_pow_range k g E)) as [-> | [-> | [-> | [-> | ->]]]]; injection E as <-;
    unfold fp_pow6, fp_pow5, fp_pow4, fp_pow3, fp_pow2; rewrite ?E2, ?E3, ?E4, ?E5, ?E6; eexists; (split; [reflexivity|]);
    [revert L2|revert L3|revert L4|revert L5|revert L6]; unfold Z.to_nat, Pos.to_nat; cbn [Pos.iter_op Nat.add pow]; intros [R L]; (split; [exact R|]); 
    (eapply Rle_trans; [exact L|]); apply Req_le; ring.
Qed.
Lemma high_pow k g n : fp_pow k = Some g -> finite f n -> exists r, g f Upward (Num false n) = Num false r /\ high r (val n ^ Z.to_nat k).
Proof.
  intros E N. pose proof (high_self n N) as L1. pose proof (inf_pos f M) as IP. unfold finite in N.
  assert (Z2 : n = 0 -> mulp f Upward n n = 0) by (intros ->; apply mulp_zero_rm).
  assert (Z4 : n = 0 -> mulp f Upward (mulp f Upward n n) (mulp f Upward n n) = 0) by (intro H; rewrite (Z2 H); apply mulp_zero_rm).
  destruct (high_mul n n _ _ L1 L1) as [L2 E2]; [lia|lia|]. destruct (high_mul _ n _ _ L2 L1) as [L3 E3]; [lia|lia|].
  destruct (high_mul _ _ _ _ L2 L2) as [L4 E4]; [lia|lia|].
  destruct (high_mul _ n _ _ L4 L1) as [L5 E5]; [lia|lia|]. destruct (high_mul _ _ _ _ L3 L3) as [L6 E6]; [lia|lia|].
  destruct (exponents k (fp_pow_range k g E)) as [-> | [-> | [-> | [-> | ->]]]]; injection E as <-;
    unfold fp_pow6, fp_pow5, fp_pow4, fp_pow3, fp_pow2; rewrite ?E2, ?E3, ?E4, ?E5, ?E6; eexists; (split; [reflexivity|]);
    [revert L2|revert L3|revert L4|revert L5|revert L6]; unfold Z.to_nat, Pos.to_nat; cbn [Pos.iter_op Nat.add pow]; intros [R L]; (split; [exact R|]);
    intro I; specialize (L I); (split; [eapply Rle_trans; [exact (proj1 L)|]|eapply Rle_trans; [|exact (proj2 L)]]); apply Req_le; ring.
Qed.
End Directed.

(** *** Angles *)
Definition pi64 : Z := 0x400921fb54442d18.
Lemma pi64_value : (value binary64 false pi64 = 884279719003555 / 281474976710656)%R.
Proof. apply (value_ratio binary64 _ _ _ good_binary64); [lia|]. vm_compute. reflexivity. Qed.
Lemma pi64_below : (0 < value binary64 false pi64 < PI)%R.
Proof.
  rewrite pi64_value. pose proof pi_bounds as [L _]. unfold pi_low, Q2R in L. cbn [Qnum Qden] in L. change (10 ^ 19)%positive with 10000000000000000000%positive in L. split; lra.
Qed.
Lemma degrees64_value : (value binary64 false (degrees_of binary64) = 180)%R.
Proof. apply degrees_value. constructor. Qed.
Lemma pi64_any rm : fp_convert binary64 binary64 rm pi = Num false pi64.
Proof. destruct rm; vm_compute; reflexivity. Qed.
Lemma degrees64_any rm : fp_of_int binary64 rm pi_degrees = Num false (degrees_of binary64).
Proof. destruct rm; vm_compute; reflexivity. Qed.
Lemma fp_div_num f rm a b : 0 <= a < infinity f -> 0 < b < infinity f -> fp_div f rm (Num false a) (Num false b) = Num false (fdiv f rm a b).
Proof.
  intros A B. unfold fp_div, is_inf. cbv zeta. destruct (Z.leb_spec (infinity f) a), (Z.leb_spec (infinity f) b); try lia. cbn [andb orb xorb magnitude_mode].
  destruct (Z.eqb_spec b 0); [lia|]. rewrite andb_false_r. reflexivity.
Qed.
Lemma deg_to_rad_down n : finite binary64 n -> exists r, deg_to_rad binary64 Downward (Num false n) = Num false r /\ finite binary64 r /\
  (value binary64 false r <= value binary64 false n * PI / 180)%R.
Proof.
  intro N. unfold deg_to_rad. rewrite pi64_any, degrees64_any. pose proof good_binary64 as G. assert (M : modelled binary64) by constructor.
  destruct (low_mul binary64 M pi64 n PI (value binary64 false n)) as [[R L] ->].
  { split; [vm_compute; split; congruence|apply Rlt_le, pi64_below]. }
  { apply (low_self binary64 n N). }
  assert (D : 0 < degrees_of binary64 < infinity binary64) by (vm_compute; auto). rewrite fp_div_num by assumption.
  destruct (fdiv_down binary64 G (mulp binary64 Downward pi64 n) (degrees_of binary64) (proj1 R) (proj1 D)) as [R' L']. rewrite degrees64_value in L'.
  eexists. split; [reflexivity|]. split; [exact R'|]. eapply Rle_trans; [exact L'|]. unfold Rdiv. apply Rmult_le_compat_r; [lra|]. rewrite (Rmult_comm (value binary64 false n)). exact L.
Qed.
Lemma rad_to_deg_up n : finite binary64 n -> exists r, rad_to_deg binary64 Upward (Num false n) = Num false r /\ 0 <= r <= infinity binary64 /\
  (r < infinity binary64 -> (value binary64 false n * 180 / PI <= value binary64 false r)%R).
Proof.
  intro N. unfold rad_to_deg. rewrite pi64_any, degrees64_any. pose proof good_binary64 as G. assert (M : modelled binary64) by constructor.
  assert (D : 0 < degrees_of binary64 < infinity binary64) by (vm_compute; auto). assert (P : 0 < pi64 < infinity binary64) by (vm_compute; auto).
  destruct (high_mul binary64 M (degrees_of binary64) n 180 (value binary64 false n)) as [[R L] ->].
  { rewrite <- degrees64_value. apply (high_self binary64 M). unfold finite. lia. }
  { apply (high_self binary64 M n N). }
  { lia. }
  { unfold finite in N. lia. }
  destruct (Z.leb_spec (infinity binary64) (mulp binary64 Upward (degrees_of binary64) n)) as [I|I].
  - replace (mulp binary64 Upward (degrees_of binary64) n) with (infinity binary64) by lia. exists (infinity binary64). split; [reflexivity|]. split; [vm_compute; split; congruence|lia].
  - specialize (L I). rewrite fp_div_num by lia. destruct (fdiv_up binary64 G _ pi64 (proj1 R) (proj1 P)) as [R' L']. eexists. split; [reflexivity|]. split; [exact R'|].
    intro F. eapply Rle_trans; [|exact (L' F)]. pose proof pi64_below as [P0 PB]. pose proof (value_nonneg binary64 G n (proj1 N)) as V.
    unfold Rdiv. rewrite (Rmult_comm (value binary64 false n)). apply Rmult_le_compat; [lra|left; apply Rinv_0_lt_compat; lra|lra|].
    apply Rinv_le_contravar; lra.
Qed.

(** ** What the formats are *)
Lemma power_two k : 0 <= k -> IZR (2 ^ k) = powerRZ 2 k.
Proof. intro K. rewrite <- (Z2Nat.id k K), <- pow_IZR, <- pow_powerRZ. reflexivity. Qed.
Lemma scaled_above f n : good_format f -> 2 ^ mant_bits f <= n ->
  scaled f n = (2 ^ mant_bits f + n mod 2 ^ mant_bits f) * 2 ^ (n / 2 ^ mant_bits f - 1).
Proof.
  intros G L. unfold scaled. pose proof (B_pos f G). pose proof (Z.div_le_mono _ _ (2 ^ mant_bits f) ltac:(lia) L) as D. rewrite Z.div_same in D by lia.
  destruct (Z.eqb_spec (n / 2 ^ mant_bits f) 0); [lia|reflexivity].
Qed.
Lemma value_largest f : good_format f ->
  (value f false (infinity f - 1) = (1 - powerRZ 2 (- (mant_bits f + 1))) * powerRZ 2 (top_field f - 1 + mant_bits f - unit_exp f))%R.
Proof.
  intro G. pose proof (B_pos f G) as B. destruct G as (G1 & G2 & G3). rewrite (value_pos f). set (M := 2 ^ mant_bits f) in *.
  assert (E : infinity f - 1 = (top_field f - 1) * M + (M - 1)) by (unfold infinity, M; lia).
  assert (Q : (infinity f - 1) / M = top_field f - 1) by (symmetry; apply (Z.div_unique _ _ _ (M - 1)); lia).
  assert (R : (infinity f - 1) mod M = M - 1) by (symmetry; apply (Z.mod_unique _ _ (top_field f - 1)); lia).
  rewrite scaled_above; [|split; [|split]; assumption|fold M; nia]. fold M. rewrite Q, R.
  replace (M + (M - 1)) with (2 ^ (mant_bits f + 1) - 1) by (unfold M; rewrite Z.pow_add_r by lia; lia).
  rewrite mult_IZR, minus_IZR, !power_two by lia. unfold Rdiv. rewrite <- powerRZ_neg'.
  replace (top_field f - 1 + mant_bits f - unit_exp f) with ((top_field f - 1 - 1) + ((mant_bits f + 1) + - unit_exp f)) by lia.
  rewrite (powerRZ_add 2 (top_field f - 1 - 1)), (powerRZ_add 2 (mant_bits f + 1)) by lra. rewrite (powerRZ_neg' 2 (mant_bits f + 1)).
  pose proof (powerRZ_lt 2 (mant_bits f + 1) ltac:(lra)). field. lra.
Qed.
Lemma value_smallest f : good_format f -> (value f false 1 = powerRZ 2 (- unit_exp f))%R.
Proof.
  intros (G1 & G2 & G3). rewrite (value_pos f). assert (E : scaled f 1 = 1).
  { assert (1 < 2 ^ mant_bits f) by (apply Z.pow_gt_1; lia). unfold scaled. rewrite Z.div_small, Z.mod_small by lia. reflexivity. }
  rewrite E, power_two, powerRZ_neg' by assumption. unfold Rdiv. lra.
Qed.
Lemma value_normal f : good_format f -> (value f false (2 ^ mant_bits f) = powerRZ 2 (mant_bits f - unit_exp f))%R.
Proof.
  intro G. pose proof (B_pos f G) as B. rewrite (value_pos f), scaled_above by (assumption || lia). destruct G as (G1 & G2 & G3).
  rewrite Z.mod_same, Z.div_same by lia. replace ((2 ^ mant_bits f + 0) * 2 ^ (1 - 1)) with (2 ^ mant_bits f) by (rewrite Z.mul_1_r; lia).
  rewrite !power_two by lia. unfold Rdiv. rewrite <- powerRZ_neg', <- powerRZ_add by lra. f_equal.
Qed.
(** the pattern of 1 *)
Lemma value_unit f : good_format f -> mant_bits f < unit_exp f ->
  (value f false ((unit_exp f - mant_bits f + 1) * 2 ^ mant_bits f) = 1)%R /\
  (value f false ((unit_exp f - mant_bits f + 1) * 2 ^ mant_bits f + 1) = 1 + powerRZ 2 (- mant_bits f))%R.
Proof.
  intros G L. pose proof (B_pos f G) as B. set (M := 2 ^ mant_bits f) in *. set (k := unit_exp f - mant_bits f + 1).
  assert (1 < M) by (unfold M; apply Z.pow_gt_1; destruct G; lia).
  assert (P : forall r, 0 <= r < M -> value f false (k * M + r) = (IZR (M + r) * powerRZ 2 (- mant_bits f))%R).
  { intros r R. rewrite (value_pos f), scaled_above by (assumption || (fold M; unfold k; nia)). fold M. destruct G as (G1 & G2 & G3).
    replace ((k * M + r) / M) with k by (apply (Z.div_unique _ _ _ r); lia). replace ((k * M + r) mod M) with r by (apply (Z.mod_unique _ _ k); lia).
    rewrite mult_IZR, !power_two by (unfold k; lia). unfold Rdiv. rewrite <- powerRZ_neg', Rmult_assoc, <- powerRZ_add by lra. do 2 f_equal. unfold k. lia. }
  assert (Q : (IZR M * powerRZ 2 (- mant_bits f) = 1)%R).
  { unfold M. rewrite power_two by (destruct G; lia). rewrite <- powerRZ_add by lra. replace (mant_bits f + - mant_bits f) with 0 by lia. reflexivity. }
  split; [replace (k * M) with (k * M + 0) by lia|]; rewrite P by lia; [rewrite Z.add_0_r; exact Q|]. rewrite plus_IZR, Rmult_plus_distr_r, Q. lra.
Qed.

(** The portable versions of the leading zero count and of the 64 by 64 bit product; these operations on every platform. *)
From Verif Require Import Base FloatComputeModel.
Local Open Scope Z_scope.

Lemma i32_small z : - 2 ^ 31 <= z < 2 ^ 31 -> i32 z = z.
Proof. intro H. unfold i32. rewrite Z.mod_small; lia. Qed.
Lemma u64_small z : 0 <= z < 2 ^ 64 -> u64 z = z.
Proof. intro H. unfold u64. apply Z.mod_small, H. Qed.

Lemma high_part x k : 0 < k -> 0 <= x < 2 ^ (2 * k) -> (Z.land x (Z.shiftl (Z.ones k) k) =? 0) = (x <? 2 ^ k).
Proof.
  intros K X.
  assert (E : Z.land x (Z.shiftl (Z.ones k) k) = Z.shiftl (Z.shiftr x k) k).
  { apply Z.bits_inj'. intros n N. rewrite Z.land_spec, !Z.shiftl_spec by lia.
    destruct (Z_lt_ge_dec n k) as [L|L].
    - rewrite !(Z.testbit_neg_r _ (n - k)) by lia. apply andb_false_r.
    - rewrite Z.shiftr_spec by lia. replace (n - k + k) with n by lia.
      destruct (Z_lt_ge_dec n (2 * k)) as [L2|L2].
      + rewrite Z.ones_spec_low by lia. apply andb_true_r.
      + rewrite Z.bits_above_log2; [reflexivity|lia|].
        destruct (Z.eq_dec x 0) as [->|]; [cbn; lia|].
        apply Z.lt_le_trans with (2 * k); [apply Z.log2_lt_pow2; lia|lia]. }
  rewrite E, Z.shiftl_mul_pow2, Z.shiftr_div_pow2 by lia.
  assert (P : 0 < 2 ^ k) by (apply Z.pow_pos_nonneg; lia).
  destruct (x <? 2 ^ k) eqn:C.
  - rewrite Z.div_small by lia. reflexivity.
  - assert (1 <= x / 2 ^ k) by (apply Z.div_le_lower_bound; lia). apply Z.eqb_neq. nia.
Qed.

(** One halving: the number left over, with its logarithm reduced. *)
Lemma halve x k c : c = Z.shiftl (Z.ones k) k -> 0 < k -> 0 < x < 2 ^ (2 * k) ->
  (Z.land x c =? 0) = true /\ x < 2 ^ k \/
  (Z.land x c =? 0) = false /\ 0 < Z.shiftr x k < 2 ^ k /\ Z.log2 x = k + Z.log2 (Z.shiftr x k).
Proof.
  intros -> K X. rewrite high_part by lia. destruct (x <? 2 ^ k) eqn:C; [left; lia|right].
  assert (P : 0 < 2 ^ k) by (apply Z.pow_pos_nonneg; lia).
  split; [reflexivity|]. split.
  - rewrite Z.shiftr_div_pow2 by lia. split.
    + assert (1 <= x / 2 ^ k) by (apply Z.div_le_lower_bound; lia). lia.
    + apply Z.div_lt_upper_bound; [lia|]. rewrite <- Z.pow_add_r by lia. replace (k + k) with (2 * k) by lia. lia.
  - rewrite Z.log2_shiftr by lia.
    assert (k <= Z.log2 x) by (apply Z.log2_le_pow2; lia). lia.
Qed.

Theorem leading_zeroes_generic_ok x : 0 < x < 2 ^ 64 -> leading_zeroes_generic x = 63 - Z.log2 x.
Proof.
  intro X. unfold leading_zeroes_generic.
  assert (LAST : forall y l, 0 < y < 2 ^ 2 -> (if Z.land y 2 =? 0 then l else Z.lor l 1) = if Z.log2 y =? 0 then l else Z.lor l 1).
  { intros y l Y. assert (y = 1 \/ y = 2 \/ y = 3) as [-> | [-> | ->]] by lia; reflexivity. }
  assert (LB : forall y, 0 < y < 2 ^ 2 -> Z.log2 y = 0 \/ Z.log2 y = 1).
  { intros y Y. assert (y = 1 \/ y = 2 \/ y = 3) as [-> | [-> | ->]] by lia; auto. }
  destruct (halve x 32 0xffffffff00000000 eq_refl ltac:(lia) X) as [[-> B1]|[-> [B1 E1]]];
  [remember x as x1|remember (Z.shiftr x 32) as x1];
  (destruct (halve x1 16 0xffff0000 eq_refl ltac:(lia) ltac:(change (2 * 16) with 32; lia)) as [[-> B2]|[-> [B2 E2]]];
  [remember x1 as x2|remember (Z.shiftr x1 16) as x2]);
  (destruct (halve x2 8 0xff00 eq_refl ltac:(lia) ltac:(change (2 * 8) with 16; lia)) as [[-> B3]|[-> [B3 E3]]];
  [remember x2 as x3|remember (Z.shiftr x2 8) as x3]);
  (destruct (halve x3 4 0xf0 eq_refl ltac:(lia) ltac:(change (2 * 4) with 8; lia)) as [[-> B4]|[-> [B4 E4]]];
  [remember x3 as x4|remember (Z.shiftr x3 4) as x4]);
  (destruct (halve x4 2 0xc eq_refl ltac:(lia) ltac:(change (2 * 2) with 4; lia)) as [[-> B5]|[-> [B5 E5]]];
  [remember x4 as x5|remember (Z.shiftr x4 2) as x5]);
  (rewrite LAST by lia; destruct (LB x5 ltac:(lia)) as [LG|LG]; rewrite LG; cbn [Z.eqb]; cbn [Z.lor Pos.lor];
   subst; lia).
Qed.

Lemma shiftr32 x : 0 <= x < 2 ^ 64 -> 0 <= Z.shiftr x 32 < 2 ^ 32 /\ x = Z.shiftr x 32 * 2 ^ 32 + u32 x /\ 0 <= u32 x < 2 ^ 32.
Proof.
  intro X. rewrite Z.shiftr_div_pow2 by lia. unfold u32. pose proof (Z.div_mod x (2 ^ 32) ltac:(lia)).
  pose proof (Z.mod_pos_bound x (2 ^ 32) ltac:(lia)). repeat split; lia.
Qed.
Lemma u32_small x : 0 <= x < 2 ^ 32 -> u32 x = x.
Proof. apply Z.mod_small. Qed.
Lemma prod32 a b : 0 <= a < 2 ^ 32 -> 0 <= b < 2 ^ 32 -> 0 <= a * b <= 18446744065119617025.
Proof.
  intros A B. split; [apply Z.mul_nonneg_nonneg; lia|]. change 18446744065119617025 with (4294967295 * 4294967295).
  apply Z.mul_le_mono_nonneg; lia.
Qed.
Lemma emulu_small a b : 0 <= a < 2 ^ 32 -> 0 <= b < 2 ^ 32 -> u64 (a * b) = a * b.
Proof. intros A B. pose proof (prod32 a b A B). apply u64_small. lia. Qed.

Lemma wrap_sum a b : 0 <= a < 2 ^ 64 -> 0 <= b < 2 ^ 64 ->
  a + b = Z.b2z (u64 (a + b) <? a) * 2 ^ 64 + u64 (a + b) /\ 0 <= u64 (a + b) < 2 ^ 64.
Proof.
  intros A B. unfold u64. destruct (Z_lt_ge_dec (a + b) (2 ^ 64)) as [L|L].
  - rewrite Z.mod_small by lia. replace (a + b <? a) with false by lia. cbn [Z.b2z]. lia.
  - replace ((a + b) mod 2 ^ 64) with (a + b - 2 ^ 64) by (apply Z.mod_unique with 1; lia).
    replace (a + b - 2 ^ 64 <? a) with true by lia. cbn [Z.b2z]. lia.
Qed.
Lemma shl32 x : 0 <= x < 2 ^ 64 -> u64 (Z.shiftl x 32) = u32 x * 2 ^ 32.
Proof.
  intro X. unfold u64, u32. rewrite Z.shiftl_mul_pow2 by lia. change (2 ^ 64) with (2 ^ 32 * 2 ^ 32).
  rewrite Z.mul_mod_distr_r by lia. reflexivity.
Qed.

Theorem umul128_generic_ok a b : 0 <= a < 2 ^ 64 -> 0 <= b < 2 ^ 64 ->
  umul128_generic a b = ((a * b) mod 2 ^ 64, (a * b) / 2 ^ 64).
Proof.
  intros A B. unfold umul128_generic, emulu.
  destruct (shiftr32 a A) as [AH [AE AL]]. destruct (shiftr32 b B) as [BH [BE BL]].
  rewrite (u32_small (Z.shiftr a 32)), (u32_small (Z.shiftr b 32)) by assumption.
  remember (Z.shiftr a 32) as ah. remember (u32 a) as al. remember (Z.shiftr b 32) as ch. remember (u32 b) as cl.
  rewrite !emulu_small by assumption.
  pose proof (prod32 ah cl AH BL) as P1. pose proof (prod32 al cl AL BL) as P2.
  pose proof (prod32 al ch AL BH) as P3. pose proof (prod32 ah ch AH BH) as P4.
  assert (V : a * b = ah * ch * 2 ^ 64 + (ah * cl + al * ch) * 2 ^ 32 + al * cl).
  { rewrite AE, BE. change (2 ^ 64) with (2 ^ 32 * 2 ^ 32). ring. }
  clear AE BE Heqah Heqal Heqch Heqcl AH AL BH BL A B.
  generalize dependent (ah * cl). generalize dependent (al * cl). generalize dependent (al * ch). generalize dependent (ah * ch).
  intros hh HH lh LH ll LL hl HL V. generalize dependent (a * b). clear a b ah al ch cl. intros ab V.
  destruct (wrap_sum hl lh ltac:(lia) ltac:(lia)) as [E1 R1].
  remember (u64 (hl + lh)) as adbc. remember (Z.b2z (adbc <? hl)) as carry.
  assert (CB : carry = 0 \/ carry = 1) by (subst carry; destruct (adbc <? hl); auto).
  clear Heqadbc Heqcarry.
  destruct (shiftr32 adbc R1) as [SH [SE SL]]. rewrite shl32 by exact R1.
  destruct (wrap_sum ll (u32 adbc * 2 ^ 32) ltac:(lia) ltac:(lia)) as [E2 R2].
  remember (u64 (ll + u32 adbc * 2 ^ 32)) as lo. remember (Z.b2z (lo <? ll)) as c2.
  assert (C2B : c2 = 0 \/ c2 = 1) by (subst c2; destruct (lo <? ll); auto).
  clear Heqlo Heqc2.
  remember (Z.shiftr adbc 32) as sh. remember (u32 adbc) as sl. clear Heqsh Heqsl.
  assert (CE : u64 (Z.shiftl carry 32) = carry * 2 ^ 32).
  { rewrite Z.shiftl_mul_pow2 by lia. apply u64_small. destruct CB as [->| ->]; lia. }
  rewrite CE.
  assert (T : ab = (hh + sh + carry * 2 ^ 32 + c2) * 2 ^ 64 + lo).
  { rewrite V, E1, SE. transitivity (hh * 2 ^ 64 + carry * 2 ^ 32 * 2 ^ 64 + sh * 2 ^ 64 + (ll + sl * 2 ^ 32)).
    - change (2 ^ 64) with (2 ^ 32 * 2 ^ 32). ring.
    - rewrite E2. ring. }
  assert (U : u64 (hh + sh + carry * 2 ^ 32 + c2) = hh + sh + carry * 2 ^ 32 + c2).
  { apply u64_small. split; [lia|].
    assert (HB : ab < 2 ^ 128) by (rewrite V; change (2 ^ 128) with (2 ^ 64 * 2 ^ 64); lia).
    rewrite T in HB. change (2 ^ 128) with (2 ^ 64 * 2 ^ 64) in HB. clear - HB R2. nia. }
  rewrite U. f_equal.
  - apply Z.mod_unique with (hh + sh + carry * 2 ^ 32 + c2); [left; lia|lia].
  - apply Z.div_unique with lo; [left; lia|lia].
Qed.

(** *** On every platform *)
Lemma leading_zeroes_ok {lw : platform} x : 0 < x < 2 ^ 64 -> leading_zeroes x = Ok (63 - Z.log2 x).
Proof.
  intro X. unfold leading_zeroes. destruct (has_clz choice).
  - replace (x =? 0) with false by lia. reflexivity.
  - rewrite leading_zeroes_generic_ok by exact X. reflexivity.
Qed.
Lemma full_multiplication_spec {lw : platform} a b : 0 <= a < 2 ^ 64 -> 0 <= b < 2 ^ 64 ->
  full_multiplication a b = ((a * b) mod 2 ^ 64, a * b / 2 ^ 64).
Proof.
  intros A B. unfold full_multiplication. destruct (multiplies choice).
  - assert (P : 0 <= a * b < 2 ^ 128) by (change (2 ^ 128) with (2 ^ 64 * 2 ^ 64); nia).
    rewrite (Z.mod_small (a * b)) by exact P. unfold u64. rewrite Z.shiftr_div_pow2 by lia.
    f_equal. apply Z.mod_small. split; [apply Z.div_pos; lia|].
    apply Z.div_lt_upper_bound; [lia|]. change (2 ^ 64 * 2 ^ 64) with (2 ^ 128). lia.
  - rewrite Z.shiftr_div_pow2 by lia. reflexivity.
  - apply umul128_generic_ok; assumption.
Qed.

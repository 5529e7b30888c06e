(** Properties of the arithmetic core of the bundled fast_float. *)
From Verif Require Import Base FloatSpec FloatComputeModel FloatRoundProofs FloatEiselProofs FloatPortableProofs.
Local Open Scope Z_scope.

(** ** C82 *)
(** For every 64-bit w and every q the bits produced from compute_float are those of the double (float)
    nearest to w * 10^q, ties to even, with overflow to infinity and underflow to zero, on every platform. *)
Theorem C82_double_nearest : forall (lw : platform) w q negative, 0 <= w < 2 ^ 64 ->
  exists am n, compute_float double_format q w = Ok am /\ nearest_decimal binary64 w q n /\
    to_float double_format negative am = signed_pattern binary64 negative n.
Proof.
  intros lw w q negative W. destruct (compute_float_spec _ _ sup_double q w W) as (am & n & E & P & N).
  exists am, n. split; [exact E|]. split; [exact N|]. exact (to_float_pattern _ _ sup_double am n negative P).
Qed.
Print Assumptions C82_double_nearest.

Theorem C82_float_nearest : forall (lw : platform) w q negative, 0 <= w < 2 ^ 64 ->
  exists am n, compute_float float_format q w = Ok am /\ nearest_decimal binary32 w q n /\
    to_float float_format negative am = signed_pattern binary32 negative n.
Proof.
  intros lw w q negative W. destruct (compute_float_spec _ _ sup_float q w W) as (am & n & E & P & N).
  exists am, n. split; [exact E|]. split; [exact N|]. exact (to_float_pattern _ _ sup_float am n negative P).
Qed.
Print Assumptions C82_float_nearest.

(** The specification determines the pattern, and the pattern is a closest one. *)
Theorem C82_specification_unique : forall f num den n n', (f = binary32 \/ f = binary64) -> 0 < den -> 0 <= num ->
  nearest f num den n -> nearest f num den n' -> n = n'.
Proof.
  intros f num den n n' [->| ->]; [exact (nearest_unique _ good_binary32 num den n n')|exact (nearest_unique _ good_binary64 num den n n')].
Qed.
Print Assumptions C82_specification_unique.
Theorem C82_specification_closest : forall f num den n n', (f = binary32 \/ f = binary64) -> 0 < den -> 0 <= num ->
  nearest f num den n -> n < infinity f -> 0 <= n' ->
  Z.abs (num * 2 ^ unit_exp f - scaled f n * den) <= Z.abs (num * 2 ^ unit_exp f - scaled f n' * den).
Proof.
  intros f num den n n' [->| ->]; [exact (nearest_closest _ good_binary32 num den n n')|exact (nearest_closest _ good_binary64 num den n n')].
Qed.
Print Assumptions C82_specification_closest.

(** 0.1, a tie (2^53 + 1), the smallest subnormal, just below and at its half, the largest double and the first
    number that is too large. *)
Definition bits_of {lw : platform} (b : binary) (q w : Z) : outcome Z := am <- compute_float b q w ;; Ok (to_float b false am).
Example C82_case : Forall (fun lw : platform =>
  bits_of double_format (-1) 1 = Ok 0x3FB999999999999A /\
  bits_of double_format 0 9007199254740993 = Ok 0x4340000000000000 /\
  bits_of double_format 0 9007199254740995 = Ok 0x4340000000000002 /\
  bits_of double_format (-324) 5 = Ok 1 /\
  bits_of double_format (-342) 2470328229206232720 = Ok 0 /\
  bits_of double_format (-342) 2470328229206232721 = Ok 1 /\
  bits_of double_format 292 17976931348623157 = Ok 0x7FEFFFFFFFFFFFFF /\
  bits_of double_format 292 17976931348623159 = Ok 0x7FF0000000000000 /\
  bits_of float_format (-1) 1 = Ok 0x3DCCCCCD /\
  bits_of float_format 0 16777217 = Ok 0x4B800000) [x86_64; i386; s390x; msvc_x64; msvc_arm].
Proof. repeat constructor; vm_compute; repeat split. Qed.

(** ** C83 *)
(** The count of leading zeroes and the product of 64 by 64 bits, on every platform, and the fallbacks for compilers without
    the builtins. *)
Theorem C83_leading_zeroes : forall (lw : platform) x, 0 < x < 2 ^ 64 ->
  exists z, leading_zeroes x = Ok z /\ 0 <= z < 64 /\ 2 ^ 63 <= x * 2 ^ z < 2 ^ 64.
Proof.
  intros lw x X. exists (63 - Z.log2 x). split; [exact (leading_zeroes_ok x X)|]. exact (normal_w x _ X eq_refl).
Qed.
Print Assumptions C83_leading_zeroes.
Theorem C83_leading_zeroes_generic : forall (lw : platform) x, 0 < x < 2 ^ 64 -> leading_zeroes x = Ok (leading_zeroes_generic x).
Proof.
  intros lw x X. rewrite (leading_zeroes_generic_ok x X). exact (leading_zeroes_ok x X).
Qed.
Print Assumptions C83_leading_zeroes_generic.
Theorem C83_full_multiplication : forall (lw : platform) a b lo hi, 0 <= a < 2 ^ 64 -> 0 <= b < 2 ^ 64 ->
  full_multiplication a b = (lo, hi) <-> a * b = hi * 2 ^ 64 + lo /\ 0 <= lo < 2 ^ 64.
Proof.
  intros lw a b lo hi A B. rewrite full_multiplication_spec by assumption.
  pose proof (Z.div_mod (a * b) (2 ^ 64) ltac:(lia)) as D. pose proof (Z.mod_pos_bound (a * b) (2 ^ 64) ltac:(lia)) as R. split.
  - intro E. injection E as <- <-. lia.
  - intros [E L]. f_equal; [symmetry; apply Z.mod_unique with hi|symmetry; apply Z.div_unique with lo]; lia.
Qed.
Print Assumptions C83_full_multiplication.
Theorem C83_umul128_generic : forall (lw : platform) a b, 0 <= a < 2 ^ 64 -> 0 <= b < 2 ^ 64 ->
  umul128_generic a b = full_multiplication a b.
Proof.
  intros lw a b A B. rewrite full_multiplication_spec by assumption. exact (umul128_generic_ok a b A B).
Qed.
Print Assumptions C83_umul128_generic.
Example C83_case :
  leading_zeroes_generic 1 = 63 /\ leading_zeroes_generic 0xFFFFFFFFFFFFFFFF = 0 /\ leading_zeroes_generic 0x100000000 = 31 /\
  umul128_generic 0xFFFFFFFFFFFFFFFF 0xFFFFFFFFFFFFFFFF = (1, 0xFFFFFFFFFFFFFFFE) /\
  Forall (fun lw : platform => leading_zeroes 0x100000000 = Ok 31 /\
    full_multiplication 0xFFFFFFFFFFFFFFFF 0xFFFFFFFFFFFFFFFF = (1, 0xFFFFFFFFFFFFFFFE)) [x86_64; i386; s390x; msvc_x64; msvc_arm].
Proof. vm_compute. repeat constructor. Qed.

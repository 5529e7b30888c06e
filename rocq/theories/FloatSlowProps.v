(** Properties of the big integers of the bundled fast_float and of its way for numbers with many digits. *)
From Coq Require Import String.
From Verif Require Import Base StrLit FloatSpec FloatTextSpec FloatBigintSpec FloatComputeModel FloatParseModel FloatBigintModel FloatDigitModel
  FloatEiselProofs FloatLexProofs FloatBigintProofs FloatDigitProofs FloatSlowProofs.
Local Open Scope list_scope.
Local Open Scope Z_scope.

(** ** C86 *)
Theorem C86_small : forall (lw : platform) v y, wf v -> limb y ->
  (big v + y < room -> exists r, small_add v y = (true, r) /\ wf r /\ big r = big v + y) /\
  (0 < y -> big v * y < room -> exists r, small_mul v y = (true, r) /\ wf r /\ big r = big v * y).
Proof.
  intros lw v y V Y. split; [apply small_add_spec; assumption|]. intros YP B.
  destruct (small_mul_spec v y (proj1 V) Y B) as (r & E & _ & R & Wf). exists r. auto.
Qed.
Print Assumptions C86_small.
Theorem C86_large_mul : forall (lw : platform) x y, wf x -> wf y -> 0 < big y < room -> big x * big y < room ->
  exists r, large_mul x y = (true, r) /\ wf r /\ big r = big x * big y.
Proof.
  intros lw x y X Y YP B. apply large_mul_spec; try assumption; [apply Y| |lia].
  destruct Y as [_ [->|T]]; [cbn; pose proof capacity_min; lia|].
  destruct y as [|y0 y]; [cbn; pose proof capacity_min; lia|]. assert (E := capacity_room (Z.of_nat (length (y0 :: y)) - 1)).
  cbn [length] in *. specialize (E ltac:(lia) ltac:(lia)). lia.
Qed.
Print Assumptions C86_large_mul.
Theorem C86_powers : forall (lw : platform) v n, wf v -> 0 < big v -> 0 <= n ->
  (big v * 2 ^ n < room -> exists r, pow2 v n = Ok (true, r) /\ wf r /\ big r = big v * 2 ^ n) /\
  (big v * 5 ^ n < room -> exists r, pow5 v n = Ok (true, r) /\ wf r /\ big r = big v * 5 ^ n) /\
  (big v * 10 ^ n < room -> exists r, pow10 v n = Ok (true, r) /\ wf r /\ big r = big v * 10 ^ n).
Proof. intros lw v n V P N. split; [|split]; intro B; [apply shl_spec|apply pow5_spec|apply pow10_spec]; assumption. Qed.
Print Assumptions C86_powers.
Theorem C86_compare : forall (lw : platform) x y, wf x -> wf y -> compare x y = Z.sgn (big x - big y).
Proof. exact @compare_spec. Qed.
Print Assumptions C86_compare.
(** The length in bits; the 64 leading bits and whether bits are lost. *)
Theorem C86_bits : forall (lw : platform) v, wf v -> 0 < big v ->
  exists n h lost, bit_length v = Ok n /\ 2 ^ (n - 1) <= big v < 2 ^ n /\ hi64 v = Ok (h, lost) /\ 2 ^ 63 <= h < 2 ^ 64 /\
    (n <= 64 -> h = big v * 2 ^ (64 - n) /\ lost = false) /\
    (64 <= n -> h = big v / 2 ^ (n - 64) /\ (lost = true <-> big v mod 2 ^ (n - 64) <> 0)).
Proof.
  intros lw v V P. pose proof (bit_length_spec v V P) as BL. pose proof (hi64_spec v V P) as HS. cbv zeta in HS. destruct HS as (h & t & EH & HB & HV).
  exists (Z.log2 (big v) + 1), h, t. split; [exact BL|]. split; [replace (Z.log2 (big v) + 1 - 1) with (Z.log2 (big v)) by lia; apply Z.log2_spec; exact P|].
  split; [exact EH|]. split; [exact HB|]. replace (64 - (Z.log2 (big v) + 1)) with (- (Z.log2 (big v) - 63)) by lia.
  replace (Z.log2 (big v) + 1 - 64) with (Z.log2 (big v) - 63) by lia. destruct (Z.leb_spec (Z.log2 (big v) - 63) 0) as [L|L].
  - split; [intros _; exact HV|]. intro G. assert (E : Z.log2 (big v) - 63 = 0) by lia. rewrite E in *. destruct HV as [-> ->].
    change (2 ^ - 0) with 1. change (2 ^ 0) with 1. rewrite Z.div_1_r, Z.mod_1_r. split; [lia|]. split; [discriminate|congruence].
  - split; [lia|]. intros _. destruct HV as [-> ->]. split; [reflexivity|]. rewrite negb_true_iff, Z.eqb_neq. reflexivity.
Qed.
Print Assumptions C86_bits.
(** 3 * 5^200 and 3 * 10^100 are compared after exact multiplications; 62 limbs of 64 bits, or 125 of 32 bits, are the limit *)
Definition value_of {lw : platform} (r : outcome (bool * list Z)) : outcome (bool * Z * nat) := r <- r ;; Ok (fst r, big (snd r), length (snd r)).
Example C86_case : Forall (fun lw : platform =>
  value_of (pow5 (bigint_of 3) 200) = Ok (true, 3 * 5 ^ 200, 8%nat) /\
  value_of (pow10 (bigint_of 3) 100) = Ok (true, 3 * 10 ^ 100, 6%nat) /\
  (a <- pow5 (bigint_of 3) 200 ;; b <- pow10 (bigint_of 3) 100 ;; Ok (compare (snd a) (snd b), compare (snd b) (snd a), compare (snd a) (snd a))) = Ok (1, -1, 0) /\
  value_of (pow2 (bigint_of 1) 3967) = Ok (true, 2 ^ 3967, 62%nat) /\
  (r <- pow2 (bigint_of 1) 3968 ;; Ok (fst r)) = Ok false /\
  hi64 [1; 0; 2 ^ 63] = Ok (2 ^ 63, true) /\ bit_length [1; 0; 2 ^ 63] = Ok 192) [x86_64; msvc_x64].
Proof. repeat constructor; vm_compute; repeat split. Qed.
Example C86_case_small : Forall (fun lw : platform =>
  value_of (pow5 (bigint_of 3) 200) = Ok (true, 3 * 5 ^ 200, 15%nat) /\
  value_of (pow10 (bigint_of (2 ^ 63)) 100) = Ok (true, 2 ^ 63 * 10 ^ 100, 13%nat) /\
  (a <- pow5 (bigint_of 3) 200 ;; b <- pow10 (bigint_of 3) 100 ;; Ok (compare (snd a) (snd b), compare (snd b) (snd a), compare (snd a) (snd a))) = Ok (1, -1, 0) /\
  value_of (pow2 (bigint_of 1) 3999) = Ok (true, 2 ^ 3999, 125%nat) /\
  (r <- pow2 (bigint_of 1) 4000 ;; Ok (fst r)) = Ok false /\
  hi64 [1; 0; 2 ^ 31] = Ok (2 ^ 63, true) /\ hi64 [1; 2 ^ 31] = Ok (2 ^ 63 + 1, false) /\ hi64 [1; 1; 1] = Ok (2 ^ 63 + 2 ^ 31, true) /\
  bit_length [1; 0; 2 ^ 31] = Ok 96) [i386; msvc_arm].
Proof. repeat constructor; vm_compute; repeat split. Qed.

(** ** C87 *)
(** A number [decimal (ip ++ fp) * 10^e] of which only the first nineteen significant digits are in the mantissa. *)
Definition cut_number (num : parsed) (ip fp : list Z) (e : Z) : Prop :=
  Forall is_digit ip /\ Forall is_digit fp /\ integer num = ip /\ ((fp = [] /\ fraction num = None) \/ fraction num = Some fp) /\
  exists k r, 1 <= k /\ exponent num = e + k /\ 10 ^ 18 <= num_mantissa num < 10 ^ 19 /\
    decimal (ip ++ fp) = num_mantissa num * 10 ^ k + r /\ 0 <= r < 10 ^ k.
Theorem C87_double : forall (lw : platform) num ip fp e neg, cut_number num ip fp e -> -342 <= exponent num <= 308 ->
  exists am0 am n, compute_error double_format (exponent num) (num_mantissa num) = Ok am0 /\ digit_comp double_format num am0 = Ok am /\
    to_float double_format neg am = signed_pattern binary64 neg n /\ nearest_decimal binary64 (decimal (ip ++ fp)) e n.
Proof.
  intros lw num ip fp e neg (FI & FF & EI & EF & SH) Q.
  destruct (slow_path_spec _ _ sup_double num ip fp e FI FF EI EF SH Q) as (am0 & am & n & CE & _ & DC & AP & NR).
  exists am0, am, n. rewrite (to_float_pattern _ _ sup_double am n neg AP). auto.
Qed.
Print Assumptions C87_double.
Theorem C87_float : forall (lw : platform) num ip fp e neg, cut_number num ip fp e -> -64 <= exponent num <= 38 ->
  exists am0 am n, compute_error float_format (exponent num) (num_mantissa num) = Ok am0 /\ digit_comp float_format num am0 = Ok am /\
    to_float float_format neg am = signed_pattern binary32 neg n /\ nearest_decimal binary32 (decimal (ip ++ fp)) e n.
Proof.
  intros lw num ip fp e neg (FI & FF & EI & EF & SH) Q.
  destruct (slow_path_spec _ _ sup_float num ip fp e FI FF EI EF SH Q) as (am0 & am & n & CE & _ & DC & AP & NR).
  exists am0, am, n. rewrite (to_float_pattern _ _ sup_float am n neg AP). auto.
Qed.
Print Assumptions C87_float.
(** 769 (114) digits and whether anything follows are enough. *)
Theorem C87_digits_double : forall a g num1 den1 num2 den2 n, 10 ^ 768 <= a -> 0 <= g -> 0 < den1 -> 0 < den2 ->
  a * den1 < num1 * 10 ^ g < (a + 1) * den1 -> a * den2 < num2 * 10 ^ g < (a + 1) * den2 ->
  nearest binary64 num1 den1 n -> nearest binary64 num2 den2 n.
Proof. exact (cut_nearest _ _ sup_double). Qed.
Print Assumptions C87_digits_double.
Theorem C87_digits_float : forall a g num1 den1 num2 den2 n, 10 ^ 113 <= a -> 0 <= g -> 0 < den1 -> 0 < den2 ->
  a * den1 < num1 * 10 ^ g < (a + 1) * den1 -> a * den2 < num2 * 10 ^ g < (a + 1) * den2 ->
  nearest binary32 num1 den1 n -> nearest binary32 num2 den2 n.
Proof. exact (cut_nearest _ _ sup_float). Qed.
Print Assumptions C87_digits_float.

Definition slow_bits {lw : platform} (s : string) : outcome Z :=
  num <- parse_number_string General (zstr s) ;;
  am0 <- compute_error double_format (exponent num) (num_mantissa num) ;;
  am <- digit_comp double_format num am0 ;; Ok (to_float double_format (negative num) am).
(** 2^53 + 1, halfway between two doubles, and a little more than that; the same with an exponent *)
Example C87_case : Forall (fun lw : platform =>
  slow_bits "9007199254740993.0000000000000000000000000" = Ok 0x4340000000000000 /\
  slow_bits "9007199254740993.0000000000000000000000001" = Ok 0x4340000000000001 /\
  slow_bits "-9007199254740993.0000000000000000000000001" = Ok 0xC340000000000001 /\
  slow_bits "900719925474099300000000000000000000000000e-26" = Ok 0x4340000000000000 /\
  slow_bits "2.4703282292062327208828439643412e-324" = Ok 1 /\ slow_bits "2.4703282292062327208828439643411e-324" = Ok 0 /\
  slow_bits "123456789012345678901234567890e5" = Ok 0x47030582ffdf3fe6) [x86_64; i386; s390x; msvc_x64; msvc_arm].
Proof. repeat constructor; vm_compute; repeat split. Qed.

(** Model of the arithmetic core of the bundled fast_float:
    src_deps/fast_float/fast_float.h:382-487 (leading zeroes, multiplication), 489-745 (constants of the
    two formats), 780-793 (to_float), 2267-2464 (the approximation of w * 10^q).
    For every [platform]. Code is never constant evaluated (cpp20_and_in_constexpr() is false). int is wide enough for
    the small exponents; casts to int32_t wrap. *)
From Verif Require Import Base FloatTable.
From Verif Require Export FloatPlatform.
Local Open Scope Z_scope.

Definition u64 (z : Z) : Z := z mod 2 ^ 64.
Definition u32 (z : Z) : Z := z mod 2 ^ 32.
Definition i32 (z : Z) : Z := (z + 2 ^ 31) mod 2 ^ 32 - 2 ^ 31.

(** Shifts of a uint64_t: undefined unless the amount is below 64. *)
Definition shl64 (x n : Z) : outcome Z :=
  if (0 <=? n) && (n <? 64) then Ok (u64 (Z.shiftl x n)) else UB ShiftOverflow.
Definition shr64 (x n : Z) : outcome Z :=
  if (0 <=? n) && (n <? 64) then Ok (Z.shiftr x n) else UB ShiftOverflow.

(** leading_zeroes_generic: fast_float.h:382-409 *)
Definition leading_zeroes_generic (x : Z) : Z :=
  let '(x, last) := if Z.land x 0xffffffff00000000 =? 0 then (x, 0) else (Z.shiftr x 32, 32) in
  let '(x, last) := if Z.land x 0xffff0000 =? 0 then (x, last) else (Z.shiftr x 16, Z.lor last 16) in
  let '(x, last) := if Z.land x 0xff00 =? 0 then (x, last) else (Z.shiftr x 8, Z.lor last 8) in
  let '(x, last) := if Z.land x 0xf0 =? 0 then (x, last) else (Z.shiftr x 4, Z.lor last 4) in
  let '(x, last) := if Z.land x 0xc =? 0 then (x, last) else (Z.shiftr x 2, Z.lor last 2) in
  let last := if Z.land x 0x2 =? 0 then last else Z.lor last 1 in
  63 - last.

(** leading_zeroes: fast_float.h:411-432; __builtin_clzll and _BitScanReverse64 are undefined for 0 *)
Definition leading_zeroes {lw : platform} (x : Z) : outcome Z :=
  if has_clz choice then if x =? 0 then UB BadArgument else Ok (63 - Z.log2 x)
  else Ok (leading_zeroes_generic x).

(** emulu and umul128_generic: fast_float.h:434-450. (low, high) *)
Definition emulu (x y : Z) : Z := u64 (u32 x * u32 y).
Definition umul128_generic (ab cd : Z) : Z * Z :=
  let ad := emulu (Z.shiftr ab 32) cd in
  let bd := emulu ab cd in
  let adbc := u64 (ad + emulu ab (Z.shiftr cd 32)) in
  let adbc_carry := Z.b2z (adbc <? ad) in
  let lo := u64 (bd + u64 (Z.shiftl adbc 32)) in
  let hi := u64 (emulu (Z.shiftr ab 32) (Z.shiftr cd 32) + Z.shiftr adbc 32
                 + u64 (Z.shiftl adbc_carry 32) + Z.b2z (lo <? bd)) in
  (lo, hi).

(** full_multiplication: fast_float.h:464-487. (low, high). The intrinsics __umulh and _umul128 return the upper half of
    the product of two 64-bit numbers; on 32 bits _umul128 is umul128_generic: 450-461. *)
Definition full_multiplication {lw : platform} (a b : Z) : Z * Z :=
  match multiplies choice with
  | Wide => let r := (a * b) mod 2 ^ 128 in (u64 r, u64 (Z.shiftr r 64))
  | Intrinsic => (u64 (a * b), Z.shiftr (a * b) 64)
  | Generic => umul128_generic a b
  end.

(** binary_format<T>: fast_float.h:509-745 *)
Record binary := {
  mantissa_explicit_bits : Z;
  minimum_exponent : Z;
  infinite_power : Z;
  sign_index : Z;
  word_bits : Z;  (* of equiv_uint *)
  min_exponent_fast_path : Z;  (* if FLT_EVAL_METHOD is 0 or 1 *)
  max_exponent_fast_path : Z;
  max_exponent_round_to_even : Z;
  min_exponent_round_to_even : Z;
  largest_power_of_ten : Z;
  smallest_power_of_ten : Z;
  max_digits : Z
}.
Definition double_format : binary := {|
  mantissa_explicit_bits := 52; minimum_exponent := -1023; infinite_power := 0x7FF; sign_index := 63;
  word_bits := 64; min_exponent_fast_path := -22; max_exponent_fast_path := 22;
  max_exponent_round_to_even := 23; min_exponent_round_to_even := -4;
  largest_power_of_ten := 308; smallest_power_of_ten := -342; max_digits := 769 |}.
Definition float_format : binary := {|
  mantissa_explicit_bits := 23; minimum_exponent := -127; infinite_power := 0xFF; sign_index := 31;
  word_bits := 32; min_exponent_fast_path := -10; max_exponent_fast_path := 10;
  max_exponent_round_to_even := 10; min_exponent_round_to_even := -17;
  largest_power_of_ten := 38; smallest_power_of_ten := -64; max_digits := 114 |}.

(** adjusted_mantissa: fast_float.h:489-503 *)
Record adjusted_mantissa := { mantissa : Z; power2 : Z }.
Definition am_eqb (a b : adjusted_mantissa) : bool := (mantissa a =? mantissa b) && (power2 a =? power2 b).
Definition invalid_am_bias : Z := -0x8000.

(** to_float: fast_float.h:780-793. The bit pattern of the result. *)
Definition to_float (f : binary) (negative : bool) (am : adjusted_mantissa) : Z :=
  let word z := z mod 2 ^ word_bits f in
  Z.lor (Z.lor (word (mantissa am)) (word (Z.shiftl (word (power2 am)) (mantissa_explicit_bits f))))
        (word (Z.shiftl (Z.b2z negative) (sign_index f))).

(** An element of power_of_five_128: fast_float.h:1592-2244 *)
Definition table_at (i : Z) : outcome Z :=
  if i <? 0 then UB OutOfBounds
  else match nth_error power_of_five_128 (Z.to_nat i) with Some v => Ok v | None => UB OutOfBounds end.

(** compute_product_approximation: fast_float.h:2269-2301. (low, high) *)
Definition compute_product_approximation {lw : platform} (bit_precision q w : Z) : outcome (Z * Z) :=
  let index := 2 * i32 (q - -342) in
  t <- table_at index ;;
  let '(lo, hi) := full_multiplication w t in
  let precision_mask :=
    if bit_precision <? 64 then Z.shiftr 0xFFFFFFFFFFFFFFFF bit_precision else 0xFFFFFFFFFFFFFFFF in
  if Z.land hi precision_mask =? precision_mask then
    t <- table_at (index + 1) ;;
    let '(_, hi2) := full_multiplication w t in
    let lo := u64 (lo + hi2) in
    Ok (lo, if lo <? hi2 then u64 (hi + 1) else hi)
  else Ok (lo, hi).

(** detail::power: fast_float.h:2303-2322 *)
Definition power (q : Z) : Z := Z.shiftr ((152170 + 65536) * q) 16 + 63.

(** compute_error_scaled, compute_error: fast_float.h:2324-2348 *)
Definition compute_error_scaled (f : binary) (q w lz : Z) : outcome adjusted_mantissa :=
  let hilz := Z.lxor (Z.shiftr w 63) 1 in
  m <- shl64 w hilz ;;
  let bias := mantissa_explicit_bits f - minimum_exponent f in
  Ok {| mantissa := m; power2 := i32 (power (i32 q) + bias - hilz - lz - 62 + invalid_am_bias) |}.
Definition compute_error {lw : platform} (f : binary) (q w : Z) : outcome adjusted_mantissa :=
  lz <- leading_zeroes w ;;
  w <- shl64 w lz ;;
  product <- compute_product_approximation (mantissa_explicit_bits f + 3) q w ;;
  compute_error_scaled f q (snd product) lz.

(** compute_float: fast_float.h:2350-2464 *)
Definition compute_float {lw : platform} (f : binary) (q w : Z) : outcome adjusted_mantissa :=
  if (w =? 0) || (q <? smallest_power_of_ten f) then Ok {| mantissa := 0; power2 := 0 |}
  else if largest_power_of_ten f <? q then Ok {| mantissa := 0; power2 := infinite_power f |}
  else
    lz <- leading_zeroes w ;;
    w <- shl64 w lz ;;
    product <- compute_product_approximation (mantissa_explicit_bits f + 3) q w ;;
    let '(low, high) := product in
    let upperbit := Z.shiftr high 63 in
    let shift := upperbit + 64 - mantissa_explicit_bits f - 3 in
    m <- shr64 high shift ;;
    let p := i32 (power (i32 q) + upperbit - lz - minimum_exponent f) in
    if p <=? 0 then
      if 64 <=? - p + 1 then Ok {| mantissa := 0; power2 := 0 |}
      else
        m <- shr64 m (- p + 1) ;;
        let m := Z.shiftr (u64 (m + Z.land m 1)) 1 in
        Ok {| mantissa := m; power2 := if m <? Z.shiftl 1 (mantissa_explicit_bits f) then 0 else 1 |}
    else
      back <- shl64 m shift ;;
      let m :=
        if (low <=? 1) && (min_exponent_round_to_even f <=? q) && (q <=? max_exponent_round_to_even f)
           && (Z.land m 3 =? 1) && (back =? high)
        then Z.land m (2 ^ 64 - 1 - 1) else m in
      let m := Z.shiftr (u64 (m + Z.land m 1)) 1 in
      let '(m, p) :=
        if Z.shiftl 2 (mantissa_explicit_bits f) <=? m
        then (Z.shiftl 1 (mantissa_explicit_bits f), p + 1) else (m, p) in
      let m := Z.land m (2 ^ 64 - 1 - Z.shiftl 1 (mantissa_explicit_bits f)) in
      if infinite_power f <=? p then Ok {| mantissa := 0; power2 := infinite_power f |}
      else Ok {| mantissa := m; power2 := p |}.

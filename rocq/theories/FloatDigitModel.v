(** Model of the slow path of the bundled fast_float, for UC = char: src_deps/fast_float/fast_float.h:3085-3537.
    int32_t additions are undefined when they overflow; FASTFLOAT_ASSERT evaluates its argument and ignores the
    result (fast_float.h:297-312). Conversions between size_t, int32_t and uint32_t are the identity on the values
    that occur, which are checked. *)
From Verif Require Import Base FloatComputeModel FloatParseModel FloatFastModel FloatBigintModel.
Local Open Scope Z_scope.

Definition int32 (z : Z) : outcome Z := if (- 2 ^ 31 <=? z) && (z <? 2 ^ 31) then Ok z else UB SignedOverflow.

(** powers_of_ten_uint64: fast_float.h:3099-3118 *)
Definition powers_of_ten_uint64 : list Z :=
  [1; 10; 100; 1000; 10000; 100000; 1000000; 10000000; 100000000; 1000000000; 10000000000; 100000000000; 1000000000000;
   10000000000000; 100000000000000; 1000000000000000; 10000000000000000; 100000000000000000; 1000000000000000000;
   10000000000000000000].

(** scientific_exponent: fast_float.h:3124-3142 *)
Fixpoint scale_loop (fuel : nat) (base step mantissa exponent : Z) : outcome (Z * Z) :=
  match fuel with
  | O => Diverge
  | S fuel =>
      if base <=? mantissa then e <- int32 (exponent + step) ;; scale_loop fuel base step (mantissa / base) e
      else Ok (mantissa, exponent)
  end.
Definition scientific_exponent (num : parsed) : outcome Z :=
  let fuel := S (Z.to_nat (Z.log2 (num_mantissa num))) in
  r <- scale_loop fuel 10000 4 (num_mantissa num) (i32 (exponent num)) ;;
  r <- scale_loop fuel 100 2 (fst r) (snd r) ;;
  r <- scale_loop fuel 10 1 (fst r) (snd r) ;;
  Ok (snd r).

(** exponent_mask, mantissa_mask, hidden_bit_mask: fast_float.h:747-779 *)
Definition exponent_mask (b : binary) : Z := if mantissa_explicit_bits b =? 52 then 0x7FF0000000000000 else 0x7F800000.
Definition mantissa_mask (b : binary) : Z := if mantissa_explicit_bits b =? 52 then 0x000FFFFFFFFFFFFF else 0x007FFFFF.
Definition hidden_bit_mask (b : binary) : Z := if mantissa_explicit_bits b =? 52 then 0x0010000000000000 else 0x00800000.

(** to_extended, to_extended_halfway: fast_float.h:3144-3188. [bits] is the pattern of the value. *)
Definition to_extended (b : binary) (bits : Z) : outcome adjusted_mantissa :=
  let bias := mantissa_explicit_bits b - minimum_exponent b in
  if Z.land bits (exponent_mask b) =? 0 then
    p <- int32 (1 - bias) ;; Ok {| mantissa := Z.land bits (mantissa_mask b); power2 := p |}
  else
    e <- int32 (Z.shiftr (Z.land bits (exponent_mask b)) (mantissa_explicit_bits b)) ;;
    p <- int32 (e - bias) ;;
    Ok {| mantissa := Z.lor (Z.land bits (mantissa_mask b)) (hidden_bit_mask b); power2 := p |}.
Definition to_extended_halfway (b : binary) (bits : Z) : outcome adjusted_mantissa :=
  am <- to_extended b bits ;;
  m <- shl64 (mantissa am) 1 ;;
  p <- int32 (power2 am - 1) ;;
  Ok {| mantissa := u64 (m + 1); power2 := p |}.

(** round: fast_float.h:3190-3224 *)
Definition round (b : binary) (am : adjusted_mantissa) (cb : adjusted_mantissa -> Z -> outcome adjusted_mantissa)
  : outcome adjusted_mantissa :=
  let mantissa_shift := 64 - mantissa_explicit_bits b - 1 in
  if mantissa_shift <=? - power2 am then
    shift <- int32 (- power2 am + 1) ;;
    am <- cb am (Z.min shift 64) ;;
    hidden <- shl64 1 (mantissa_explicit_bits b) ;;
    Ok {| mantissa := mantissa am; power2 := if mantissa am <? hidden then 0 else 1 |}
  else
    am <- cb am mantissa_shift ;;
    two <- shl64 2 (mantissa_explicit_bits b) ;;
    hidden <- shl64 1 (mantissa_explicit_bits b) ;;
    p <- (if two <=? mantissa am then int32 (power2 am + 1) else Ok (power2 am)) ;;
    let m := if two <=? mantissa am then hidden else mantissa am in
    let m := Z.land m (2 ^ 64 - 1 - hidden) in
    if infinite_power b <=? p then Ok {| mantissa := 0; power2 := infinite_power b |}
    else Ok {| mantissa := m; power2 := p |}.

(** round_nearest_tie_even: fast_float.h:3226-3247; the callback gets is_odd, is_halfway, is_above *)
Definition round_nearest_tie_even (cb : bool -> bool -> bool -> bool) (am : adjusted_mantissa) (shift : Z) : outcome adjusted_mantissa :=
  mask <- (if shift =? 64 then Ok 0xFFFFFFFFFFFFFFFF else one <- shl64 1 shift ;; Ok (u64 (one - 1))) ;;
  halfway <- (if shift =? 0 then Ok 0 else shl64 1 (shift - 1)) ;;
  let truncated_bits := Z.land (mantissa am) mask in
  let is_above := halfway <? truncated_bits in
  let is_halfway := truncated_bits =? halfway in
  m <- (if shift =? 64 then Ok 0 else shr64 (mantissa am) shift) ;;
  p <- int32 (power2 am + shift) ;;
  let is_odd := Z.land m 1 =? 1 in
  Ok {| mantissa := u64 (m + Z.b2z (cb is_odd is_halfway is_above)); power2 := p |}.
(** round_down: fast_float.h:3249-3257 *)
Definition round_down (am : adjusted_mantissa) (shift : Z) : outcome adjusted_mantissa :=
  m <- (if shift =? 64 then Ok 0 else shr64 (mantissa am) shift) ;;
  p <- int32 (power2 am + shift) ;;
  Ok {| mantissa := m; power2 := p |}.

(** skip_zeros: fast_float.h:3256-3274; is_truncated: fast_float.h:3276-3303 *)
Definition int_cmp_zeros : Z := 0x3030303030303030.
Fixpoint skip_zeros_1 (p : list Z) : list Z :=
  match p with c :: t => if c =? 48 then skip_zeros_1 t else p | [] => [] end.
Fixpoint skip_zeros_8 {lw : platform} (p : list Z) : list Z :=
  match p with
  | c0 :: c1 :: c2 :: c3 :: c4 :: c5 :: c6 :: c7 :: t =>
      if memcpy8 c0 c1 c2 c3 c4 c5 c6 c7 =? int_cmp_zeros then skip_zeros_8 t else p
  | _ => p
  end.
Definition skip_zeros {lw : platform} (p : list Z) : list Z := skip_zeros_1 (skip_zeros_8 p).
Fixpoint is_truncated_1 (p : list Z) : bool :=
  match p with c :: t => if c =? 48 then is_truncated_1 t else true | [] => false end.
Fixpoint is_truncated {lw : platform} (p : list Z) : bool :=
  match p with
  | c0 :: c1 :: c2 :: c3 :: c4 :: c5 :: c6 :: c7 :: t =>
      if memcpy8 c0 c1 c2 c3 c4 c5 c6 c7 =? int_cmp_zeros then is_truncated t else true
  | _ => is_truncated_1 p
  end.

Section Limbs.
Context {lw : platform}.

(** parse_eight_digits and parse_one_digit (fast_float.h:3305-3323) in the two inner loops of parse_mantissa
    (fast_float.h:3362-3368, 3396-3402). (p, value, counter, digits) *)
Definition limb_step : Z := match lw with Limb64 _ => 19 | Limb32 _ => 9 end.  (* 3350-3354 *)
Fixpoint eight_loop (max_digits : Z) (p : list Z) (value counter digits : Z) : list Z * Z * Z * Z :=
  match p with
  | c0 :: c1 :: c2 :: c3 :: c4 :: c5 :: c6 :: c7 :: t =>
      if (8 <=? limb_step - counter) && (8 <=? max_digits - digits) then
        eight_loop max_digits t (ulimb (ulimb (value * 100000000) + parse_eight_digits_unrolled (read8 c0 c1 c2 c3 c4 c5 c6 c7)))
          (counter + 8) (digits + 8)
      else (p, value, counter, digits)
  | _ => (p, value, counter, digits)
  end.
Fixpoint one_loop (max_digits : Z) (p : list Z) (value counter digits : Z) : list Z * Z * Z * Z :=
  match p with
  | c :: t =>
      if (counter <? limb_step) && (digits <? max_digits) then
        one_loop max_digits t (ulimb (ulimb (value * 10) + ulimb (c - 48))) (counter + 1) (digits + 1)
      else (p, value, counter, digits)
  | [] => (p, value, counter, digits)
  end.

(** add_native, round_up_bigint: fast_float.h:3325-3337. Failures are ignored. *)
Definition add_native (v : list Z) (power value : Z) : list Z :=
  snd (small_add (snd (small_mul v power)) value).
Definition round_up_bigint (v : list Z) : list Z := add_native v 10 1.

(** The loop over the digits of one part: fast_float.h:3361-3385, 3395-3415. [more] tells whether the rest of the number
    has digits other than zero. The result: whether parse_mantissa returns, the number, value, counter and digits. *)
Fixpoint mantissa_loop (fuel : nat) (max_digits : Z) (more : bool) (p v : list Z) (value counter digits : Z)
  : outcome (bool * list Z * Z * Z * Z) :=
  match fuel with
  | O => Diverge
  | S fuel =>
      match p with
      | [] => Ok (false, v, value, counter, digits)
      | _ =>
          let '(p, value, counter, digits) := eight_loop max_digits p value counter digits in
          let '(p, value, counter, digits) := one_loop max_digits p value counter digits in
          power <- array_at powers_of_ten_uint64 counter ;;
          let v := add_native v (ulimb power) value in
          if digits =? max_digits then
            if is_truncated p || more then Ok (true, round_up_bigint v, value, counter, digits + 1)
            else Ok (true, v, value, counter, digits)
          else mantissa_loop fuel max_digits more p v 0 0 digits
      end
  end.
(** parse_mantissa: fast_float.h:3339-3422. (number, digits) *)
Definition parse_mantissa (num : parsed) (max_digits : Z) : outcome (list Z * Z) :=
  let p := skip_zeros (integer num) in
  let more := match fraction num with Some fr => is_truncated fr | None => false end in
  r <- mantissa_loop (S (length p)) max_digits more p [] 0 0 0 ;;
  let '(returned, v, value, counter, digits) := r in
  if returned then Ok (v, digits)
  else
    r <- match fraction num with
         | Some fr =>
             let p := if digits =? 0 then skip_zeros fr else fr in
             mantissa_loop (S (length p)) max_digits false p v value counter digits
         | None => Ok (false, v, value, counter, digits)
         end ;;
    let '(returned, v, value, counter, digits) := r in
    if returned then Ok (v, digits)
    else if counter =? 0 then Ok (v, digits)
    else power <- array_at powers_of_ten_uint64 counter ;; Ok (add_native v (ulimb power) value, digits).

(** positive_digit_comp: fast_float.h:3424-3445 *)
Definition positive_digit_comp (b : binary) (bigmant : list Z) (exponent : Z) : outcome adjusted_mantissa :=
  r <- pow10 bigmant exponent ;;
  let bigmant := snd r in
  h <- hi64 bigmant ;;
  let truncated := snd h in
  let bias := mantissa_explicit_bits b - minimum_exponent b in
  l <- bit_length bigmant ;;
  p <- int32 (l - 64 + bias) ;;
  round b {| mantissa := fst h; power2 := p |}
    (round_nearest_tie_even (fun is_odd is_halfway is_above => is_above || (is_halfway && truncated) || (is_odd && is_halfway))).

(** negative_digit_comp: fast_float.h:3447-3501 *)
Definition negative_digit_comp (b : binary) (bigmant : list Z) (am : adjusted_mantissa) (exponent : Z) : outcome adjusted_mantissa :=
  let real_digits := bigmant in
  let real_exp := exponent in
  am_b <- round b am round_down ;;
  theor <- to_extended_halfway b (to_float b false am_b) ;;
  let theor_digits := bigint_of (mantissa theor) in
  let theor_exp := power2 theor in
  pow2_exp <- int32 (theor_exp - real_exp) ;;
  let pow5_exp := - real_exp in
  r <- (if pow5_exp =? 0 then Ok (true, theor_digits) else pow5 theor_digits pow5_exp) ;;
  let theor_digits := snd r in
  r <- (if 0 <? pow2_exp then r <- pow2 theor_digits pow2_exp ;; Ok (real_digits, snd r)
        else if pow2_exp <? 0 then r <- pow2 real_digits (- pow2_exp) ;; Ok (snd r, theor_digits)
        else Ok (real_digits, theor_digits)) ;;
  let ord := compare (fst r) (snd r) in
  round b am (round_nearest_tie_even (fun is_odd _ _ => if 0 <? ord then true else if ord <? 0 then false else is_odd)).

(** digit_comp: fast_float.h:3503-3534 *)
Definition digit_comp (b : binary) (num : parsed) (am : adjusted_mantissa) : outcome adjusted_mantissa :=
  p <- int32 (power2 am - invalid_am_bias) ;;
  let am := {| mantissa := mantissa am; power2 := p |} in
  sci_exp <- scientific_exponent num ;;
  r <- parse_mantissa num (max_digits b) ;;
  let '(bigmant, digits) := r in
  sci_exp <- int32 (sci_exp + 1) ;;
  exponent <- int32 (sci_exp - digits) ;;
  if 0 <=? exponent then positive_digit_comp b bigmant exponent
  else negative_digit_comp b bigmant am exponent.
End Limbs.

(** Model of the big integers of the bundled fast_float: src_deps/fast_float/fast_float.h:2467-3083, with 64-bit and with
    32-bit limbs (2479-2492).
    A stackvec is the list of its limbs, the least significant first; the array behind it has room for [capacity] limbs
    and the limbs beyond the length are not represented. A function that returns bool returns it with the changed
    vector: true for success, false for no room. FASTFLOAT_TRY returns at the first failure. *)
From Verif Require Import Base FloatComputeModel.
From Verif Require Export FloatPlatform.
Local Open Scope Z_scope.

Section Limbs.
Context {lw : platform}.

(** limb, limb_bits: fast_float.h:2484-2492; bigint_limbs: fast_float.h:2497-2501. Limbs are unsigned, and not promoted to
    a signed type; shifts by the width or more are undefined. *)
Definition limb_bits : Z := match lw with Limb64 _ => 64 | Limb32 _ => 32 end.
Definition ulimb (z : Z) : Z := z mod 2 ^ limb_bits.
Definition shl_limb (x n : Z) : outcome Z := if (0 <=? n) && (n <? limb_bits) then Ok (ulimb (Z.shiftl x n)) else UB ShiftOverflow.
Definition shr_limb (x n : Z) : outcome Z := if (0 <=? n) && (n <? limb_bits) then Ok (Z.shiftr x n) else UB ShiftOverflow.
Definition capacity : Z := 4000 / limb_bits.
Definition vec_len (v : list Z) : Z := Z.of_nat (length v).

(** try_push, try_resize, nonzero, normalize: fast_float.h:2545-2611. rindex counts from the end. *)
Definition try_push (v : list Z) (value : Z) : bool * list Z :=
  if vec_len v <? capacity then (true, v ++ [value]) else (false, v).
Definition try_resize (v : list Z) (new_len : Z) (value : Z) : bool * list Z :=
  if capacity <? new_len then (false, v)
  else if vec_len v <? new_len then (true, v ++ repeat value (Z.to_nat (new_len - vec_len v)))
  else (true, firstn (Z.to_nat new_len) v).
Definition nonzero (v : list Z) (index : nat) : bool := existsb (fun x => negb (x =? 0)) (skipn index (rev v)).
Fixpoint drop_zeros (v : list Z) : list Z :=
  match v with x :: t => if x =? 0 then drop_zeros t else v | [] => [] end.
Definition normalize (v : list Z) : list Z := rev (drop_zeros (rev v)).
Definition rindex (v : list Z) (index : nat) : outcome Z :=
  match nth_error (rev v) index with Some x => Ok x | None => UB OutOfBounds end.

(** scalar_add: fast_float.h:2666-2683. The sum and the overflow. *)
Definition scalar_add (x y : Z) : Z * bool :=
  let z := ulimb (x + y) in
  if has_add_overflow choice then (z, 2 ^ limb_bits <=? x + y) else (z, z <? x).
(** scalar_mul: fast_float.h:2686-2709. The low limb and the new carry, computed in __uint128_t, with full_multiplication,
    or in uint64_t. *)
Definition scalar_mul (x y carry : Z) : Z * Z :=
  match lw with
  | Limb64 c =>
      if has_int128 c then let z := (x * y + carry) mod 2 ^ 128 in (ulimb z, ulimb (Z.shiftr z limb_bits))
      else let '(low, high) := full_multiplication x y in
           let '(low, overflow) := scalar_add low carry in
           (low, u64 (high + Z.b2z overflow))
  | Limb32 _ => let z := (x * y + carry) mod 2 ^ 64 in (ulimb z, ulimb (Z.shiftr z limb_bits))
  end.

(** small_add_from, small_add: fast_float.h:2711-2735 *)
Fixpoint add_carry (v : list Z) (carry : Z) : list Z * Z :=
  match v with
  | x :: t =>
      if carry =? 0 then (v, carry)
      else let '(z, o) := scalar_add x carry in
           let '(t, c) := add_carry t (if o then 1 else 0) in (z :: t, c)
  | [] => ([], carry)
  end.
Definition small_add_from (v : list Z) (y : Z) (start : nat) : bool * list Z :=
  let '(t, carry) := add_carry (skipn start v) y in
  let v := firstn start v ++ t in
  if carry =? 0 then (true, v) else try_push v carry.
Definition small_add (v : list Z) (y : Z) : bool * list Z := small_add_from v y 0.

(** small_mul: fast_float.h:2737-2749 *)
Fixpoint mul_carry (v : list Z) (y carry : Z) : list Z * Z :=
  match v with
  | x :: t => let '(z, c) := scalar_mul x y carry in let '(t, c) := mul_carry t y c in (z :: t, c)
  | [] => ([], carry)
  end.
Definition small_mul (v : list Z) (y : Z) : bool * list Z :=
  let '(v, carry) := mul_carry v y 0 in
  if carry =? 0 then (true, v) else try_push v carry.

(** large_add_from: fast_float.h:2751-2788. The loop runs over y; x is long enough. *)
Fixpoint add_limbs (x y : list Z) (carry : bool) {struct y} : list Z * bool :=
  match y with
  | [] => (x, carry)
  | yi :: y' =>
      match x with
      | [] => ([], carry)
      | xi :: x' =>
          let '(z, c1) := scalar_add xi yi in
          let '(z, c2) := if carry then scalar_add z 1 else (z, false) in
          let '(t, c) := add_limbs x' y' (c1 || c2) in (z :: t, c)
      end
  end.
Definition large_add_from (x y : list Z) (start : nat) : bool * list Z :=
  let '(ok, x) :=
    if (vec_len x <? Z.of_nat start) || (vec_len x - Z.of_nat start <? vec_len y)
    then try_resize x (vec_len y + Z.of_nat start) 0 else (true, x) in
  if ok then
    let '(t, carry) := add_limbs (skipn start x) y false in
    let x := firstn start x ++ t in
    if carry then small_add_from x 1 (length y + start) else (true, x)
  else (false, x).

(** long_mul: fast_float.h:2790-2816. [z] is the copy of x; the copies into z and zi always have room. *)
Fixpoint long_mul_loop (x z y : list Z) (index : nat) : bool * list Z :=
  match y with
  | [] => (true, x)
  | yi :: y' =>
      if yi =? 0 then long_mul_loop x z y' (S index)
      else
        let '(ok, zi) := small_mul z yi in
        if ok then
          let '(ok, x) := large_add_from x zi index in
          if ok then long_mul_loop x z y' (S index) else (false, x)
        else (false, x)
  end.
Definition long_mul (x y : list Z) : bool * list Z :=
  match y with
  | [] => (true, normalize x)
  | y0 :: y' =>
      let z := x in
      let '(ok, x) := small_mul x y0 in
      if ok then
        let '(ok, x) := long_mul_loop x z y' 1 in
        if ok then (true, normalize x) else (false, x)
      else (false, x)
  end.
(** large_mul: fast_float.h:2818-2827 *)
Definition large_mul (x y : list Z) : bool * list Z :=
  match y with [y0] => small_mul x y0 | _ => long_mul x y end.

(** pow5_tables: fast_float.h:2829-2872 *)
Definition large_step : Z := 135.
Definition small_power_of_5 : list Z :=
  [1; 5; 25; 125; 625; 3125; 15625; 78125; 390625; 1953125; 9765625; 48828125; 244140625; 1220703125; 6103515625;
   30517578125; 152587890625; 762939453125; 3814697265625; 19073486328125; 95367431640625; 476837158203125;
   2384185791015625; 11920928955078125; 59604644775390625; 298023223876953125; 1490116119384765625; 7450580596923828125].
Definition large_power_of_5 : list Z :=
  match lw with
  | Limb64 _ => [1414648277510068013; 9180637584431281687; 4539964771860779200; 10482974169319127550; 198276706040285095]
  | Limb32 _ => [4279965485; 329373468; 4020270615; 2137533757; 4287402176; 1057042919; 1071430142; 2440757623; 381945767; 46164893]
  end.

(** bigint(uint64_t): fast_float.h:2891-2899 *)
Definition bigint_of (value : Z) : list Z :=
  match lw with
  | Limb64 _ => normalize [value]
  | Limb32 _ => normalize [ulimb value; ulimb (Z.shiftr value 32)]
  end.

(** uint64_hi64, uint32_hi64: fast_float.h:2622-2660; hi64: fast_float.h:2902-2930. (bits, truncated) *)
Definition uint64_hi64_1 (r0 : Z) : outcome (Z * bool) :=
  s <- leading_zeroes r0 ;; h <- shl64 r0 s ;; Ok (h, false).
Definition uint64_hi64_2 (r0 r1 : Z) : outcome (Z * bool) :=
  s <- leading_zeroes r0 ;;
  if s =? 0 then Ok (r0, negb (r1 =? 0))
  else
    lost <- shl64 r1 s ;; a <- shl64 r0 s ;; b <- shr64 r1 (64 - s) ;;
    Ok (Z.lor a b, negb (lost =? 0)).
Definition uint32_hi64_1 (r0 : Z) : outcome (Z * bool) := uint64_hi64_1 r0.
Definition uint32_hi64_2 (r0 r1 : Z) : outcome (Z * bool) := x <- shl64 r0 32 ;; uint64_hi64_1 (Z.lor x r1).
Definition uint32_hi64_3 (r0 r1 r2 : Z) : outcome (Z * bool) := x <- shl64 r1 32 ;; uint64_hi64_2 r0 (Z.lor x r2).
Definition hi64 (v : list Z) : outcome (Z * bool) :=
  match lw with
  | Limb64 _ =>
      if vec_len v =? 0 then Ok (0, false)
      else if vec_len v =? 1 then r0 <- rindex v 0 ;; uint64_hi64_1 r0
      else
        r0 <- rindex v 0 ;; r1 <- rindex v 1 ;;
        r <- uint64_hi64_2 r0 r1 ;;
        Ok (fst r, snd r || nonzero v 2)
  | Limb32 _ =>
      if vec_len v =? 0 then Ok (0, false)
      else if vec_len v =? 1 then r0 <- rindex v 0 ;; uint32_hi64_1 r0
      else if vec_len v =? 2 then r0 <- rindex v 0 ;; r1 <- rindex v 1 ;; uint32_hi64_2 r0 r1
      else
        r0 <- rindex v 0 ;; r1 <- rindex v 1 ;; r2 <- rindex v 2 ;;
        r <- uint32_hi64_3 r0 r1 r2 ;;
        Ok (fst r, snd r || nonzero v 3)
  end.

(** compare: fast_float.h:2932-2955 *)
Fixpoint compare_limbs (x y : list Z) : Z :=  (* the most significant first *)
  match x, y with
  | xi :: x', yi :: y' => if yi <? xi then 1 else if xi <? yi then -1 else compare_limbs x' y'
  | _, _ => 0
  end.
Definition compare (x y : list Z) : Z :=
  if vec_len y <? vec_len x then 1 else if vec_len x <? vec_len y then -1 else compare_limbs (rev x) (rev y).

(** shl_bits, shl_limbs, shl: fast_float.h:2957-3015 *)
Fixpoint shl_loop (v : list Z) (n prev : Z) : outcome (list Z * Z) :=
  match v with
  | xi :: t =>
      a <- shl_limb xi n ;; b <- shr_limb prev (limb_bits - n) ;;
      r <- shl_loop t n xi ;;
      Ok (Z.lor a b :: fst r, snd r)
  | [] => Ok ([], prev)
  end.
Definition shl_bits (v : list Z) (n : Z) : outcome (bool * list Z) :=
  r <- shl_loop v n 0 ;;
  carry <- shr_limb (snd r) (limb_bits - n) ;;
  Ok (if carry =? 0 then (true, fst r) else try_push (fst r) carry).
Definition shl_limbs (v : list Z) (n : Z) : bool * list Z :=
  if capacity <? n + vec_len v then (false, v)
  else if vec_len v =? 0 then (true, v)
  else (true, repeat 0 (Z.to_nat n) ++ v).
Definition shl (v : list Z) (n : Z) : outcome (bool * list Z) :=
  r <- (if n mod limb_bits =? 0 then Ok (true, v) else shl_bits v (n mod limb_bits)) ;;
  if fst r then Ok (if n / limb_bits =? 0 then r else shl_limbs (snd r) (n / limb_bits)) else Ok r.

(** ctlz, bit_length: fast_float.h:3017-3036 *)
Definition ctlz (v : list Z) : outcome Z :=
  if vec_len v =? 0 then Ok 0
  else
    r0 <- rindex v 0 ;;
    match lw with Limb64 _ => leading_zeroes r0 | Limb32 _ => x <- shl64 r0 32 ;; leading_zeroes x end.
Definition bit_length (v : list Z) : outcome Z :=
  lz <- ctlz v ;; Ok (limb_bits * vec_len v - lz).

(** pow5: fast_float.h:3045-3074; [step] is the smaller multiplication at the end of the loop body *)
Fixpoint pow5_loop (fuel : nat) (mul : list Z -> bool * list Z) (step : Z) (v : list Z) (exp : Z) : outcome (bool * list Z * Z) :=
  match fuel with
  | O => Diverge
  | S fuel =>
      if step <=? exp then
        let '(ok, v) := mul v in
        if ok then pow5_loop fuel mul step v (exp - step) else Ok (false, v, exp)
      else Ok (true, v, exp)
  end.
Definition small_step : Z := match lw with Limb64 _ => 27 | Limb32 _ => 13 end.
Definition max_native : Z := match lw with Limb64 _ => 7450580596923828125 | Limb32 _ => 1220703125 end.
Definition pow5 (v : list Z) (exp : Z) : outcome (bool * list Z) :=
  let fuel := S (Z.to_nat exp) in
  r <- pow5_loop fuel (fun v => large_mul v large_power_of_5) large_step v exp ;;
  let '(ok, v, exp) := r in
  if ok then
    r <- pow5_loop fuel (fun v => small_mul v max_native) small_step v exp ;;
    let '(ok, v, exp) := r in
    if ok then
      if exp =? 0 then Ok (true, v)
      else match nth_error small_power_of_5 (Z.to_nat exp) with
           | Some p => Ok (small_mul v (ulimb p))
           | None => UB OutOfBounds
           end
    else Ok (false, v)
  else Ok (false, v).
(** pow2, pow10: fast_float.h:3042-3043, 3076-3080 *)
Definition pow2 (v : list Z) (exp : Z) : outcome (bool * list Z) := shl v exp.
Definition pow10 (v : list Z) (exp : Z) : outcome (bool * list Z) :=
  r <- pow5 v exp ;; if fst r then pow2 (snd r) exp else Ok r.
End Limbs.

(** Arithmetic on positive float and double (IEEE 754) in the rounding mode of the thread, and the
    model of the path of fast_float that uses it: src_deps/fast_float/fast_float.h:534-609 (tables), 610-624, 677-723,
    3611-3674 (rounds_to_nearest), 3742-3799 (Clinger's fast path).
    The operations are those of the standard: the exact result, rounded. Only numbers that are not negative occur.
    FLT_EVAL_METHOD is 0, 1 or 2; long double is the 80-bit format of the x87. *)
From Verif Require Import Base FloatSpec FloatComputeModel FloatParseModel.
Local Open Scope Z_scope.

Inductive rounding := ToNearest | Upward | Downward | TowardZero.

(** The pattern of the largest number not above [num / den]; at least the pattern of infinity if that is beyond the
    largest finite number. *)
Definition floor_pattern (f : format) (num den : Z) : Z :=
  let v := num * 2 ^ unit_exp f / den in
  let k := Z.max 0 (Z.log2 v - mant_bits f) in
  k * 2 ^ mant_bits f + v / 2 ^ k.

(** The rounded pattern of [num / den >= 0]. *)
Definition round_positive (f : format) (rm : rounding) (num den : Z) : Z :=
  let n := floor_pattern f num den in
  if infinity f <=? n then
    match rm with ToNearest | Upward => infinity f | Downward | TowardZero => infinity f - 1 end
  else if scaled f n * den =? num * 2 ^ unit_exp f then n
  else
    match rm with
    | Upward => n + 1
    | Downward | TowardZero => n
    | ToNearest =>
        let twice := 2 * num * 2 ^ unit_exp f in
        let middle := (scaled f n + scaled f (n + 1)) * den in
        if twice <? middle then n else if middle <? twice then n + 1 else if Z.even n then n else n + 1
    end.

(** A conversion from an unsigned integer, and the operators. The value of the pattern [n] is scaled n / 2^unit_exp. *)
Definition of_uint (f : format) (rm : rounding) (v : Z) : Z := round_positive f rm v 1.
Definition fmul (f : format) (rm : rounding) (a b : Z) : Z := round_positive f rm (scaled f a * scaled f b) (2 ^ (2 * unit_exp f)).
Definition fdiv (f : format) (rm : rounding) (a b : Z) : Z := round_positive f rm (scaled f a) (scaled f b).
Definition fadd (f : format) (rm : rounding) (a b : Z) : Z := round_positive f rm (scaled f a + scaled f b) (2 ^ unit_exp f).
Definition fsub (f : format) (rm : rounding) (a b : Z) : Z := round_positive f rm (scaled f a - scaled f b) (2 ^ unit_exp f).
(** The unary minus on a number with a clear sign. *)
Definition fneg (f : format) (a : Z) : Z := 2 ^ sign_bit f + a.

(** The format that the operators on numbers of the format [f] round to, and a conversion back, by an assignment. *)
Definition wide_format {lw : platform} (f : format) : format :=
  match evaluates choice with PerType => f | AsDouble => binary64 | AsLongDouble => binary80 end.
Definition convert (f g : format) (rm : rounding) (a : Z) : Z :=
  if infinity g <=? a then infinity f else round_positive f rm (scaled g a) (2 ^ unit_exp g).
Definition wide_mul {lw : platform} (f : format) (rm : rounding) (a b : Z) : Z :=
  round_positive (wide_format f) rm (scaled f a * scaled f b) (2 ^ (2 * unit_exp f)).
Definition wide_div {lw : platform} (f : format) (rm : rounding) (a b : Z) : Z :=
  round_positive (wide_format f) rm (scaled f a) (scaled f b).
Definition wide_add {lw : platform} (f : format) (rm : rounding) (a b : Z) : Z :=
  round_positive (wide_format f) rm (scaled f a + scaled f b) (2 ^ unit_exp f).
Definition wide_sub {lw : platform} (f : format) (rm : rounding) (a b : Z) : Z :=
  round_positive (wide_format f) rm (scaled f a - scaled f b) (2 ^ unit_exp f).

(** rounds_to_nearest: fast_float.h:3611-3674. numeric_limits<float>::min() has the pattern 2^23, 1.0f has 127 * 2^23;
    numbers that are not negative are equal iff their patterns are. *)
Definition rounds_to_nearest {lw : platform} (rm : rounding) : bool :=
  match evaluates choice with
  | AsLongDouble => false
  | _ =>
      let fmin := 2 ^ 23 in
      let one := 127 * 2 ^ 23 in
      wide_add binary32 rm fmin one =? wide_sub binary32 rm one fmin
  end.
(** min_exponent_fast_path: fast_float.h:610-627 *)
Definition lowest_exponent {lw : platform} (b : binary) : Z :=
  match evaluates choice with AsLongDouble => 0 | _ => min_exponent_fast_path b end.

(** powers_of_ten: fast_float.h:535-537, 583-584, as the numbers that the literals denote *)
Definition powers_of_ten (b : binary) : list Z :=
  if mantissa_explicit_bits b =? 52 then
    [1; 10; 100; 1000; 10000; 100000; 1000000; 10000000; 100000000; 1000000000; 10000000000; 100000000000; 1000000000000; 10000000000000; 100000000000000; 1000000000000000; 10000000000000000; 100000000000000000; 1000000000000000000; 10000000000000000000; 100000000000000000000; 1000000000000000000000; 10000000000000000000000]
  else
    [1; 10; 100; 1000; 10000; 100000; 1000000; 10000000; 100000000; 1000000000; 10000000000].
(** max_mantissa: fast_float.h:504-505, 539-574, 586-600 *)
Definition constant_55555 : Z := 5 * 5 * 5 * 5 * 5.
Definition max_mantissa (b : binary) : list Z :=
  let c := constant_55555 in
  if mantissa_explicit_bits b =? 52 then
    let m := 0x20000000000000 in
    [m; m / 5; m / (5 * 5); m / (5 * 5 * 5); m / (5 * 5 * 5 * 5);
     m / c; m / (c * 5); m / (c * 5 * 5); m / (c * 5 * 5 * 5); m / (c * 5 * 5 * 5 * 5);
     m / (c * c); m / (c * c * 5); m / (c * c * 5 * 5); m / (c * c * 5 * 5 * 5);
     m / (c * c * c); m / (c * c * c * 5); m / (c * c * c * 5 * 5); m / (c * c * c * 5 * 5 * 5); m / (c * c * c * 5 * 5 * 5 * 5);
     m / (c * c * c * c); m / (c * c * c * c * 5); m / (c * c * c * c * 5 * 5); m / (c * c * c * c * 5 * 5 * 5);
     m / (c * c * c * c * 5 * 5 * 5 * 5)]
  else
    let m := 0x1000000 in
    [m; m / 5; m / (5 * 5); m / (5 * 5 * 5); m / (5 * 5 * 5 * 5);
     m / c; m / (c * 5); m / (c * 5 * 5); m / (c * 5 * 5 * 5); m / (c * 5 * 5 * 5 * 5);
     m / (c * c); m / (c * c * 5)].
Definition array_at (l : list Z) (i : Z) : outcome Z :=
  if i <? 0 then UB OutOfBounds else match nth_error l (Z.to_nat i) with Some v => Ok v | None => UB OutOfBounds end.
(** exact_power_of_ten: fast_float.h:713-723. The literals are rounded when the program is compiled. *)
Definition exact_power_of_ten (b : binary) (f : format) (p : Z) : outcome Z :=
  v <- array_at (powers_of_ten b) p ;; Ok (of_uint f ToNearest v).
(** max_mantissa_fast_path: fast_float.h:685-711 *)
Definition max_mantissa_fast_path (b : binary) : Z := 2 * 2 ^ mantissa_explicit_bits b.

(** Clinger's fast path: fast_float.h:3747-3799. None: not taken. *)
Definition fast_path {lw : platform} (b : binary) (f : format) (rm : rounding) (pns : parsed) : outcome (option Z) :=
  let sign v := if negative pns then fneg f v else v in
  if (lowest_exponent b <=? exponent pns) && (exponent pns <=? max_exponent_fast_path b) && negb (too_many_digits pns) then
    if rounds_to_nearest rm then
      if num_mantissa pns <=? max_mantissa_fast_path b then
        let value := of_uint f rm (num_mantissa pns) in
        if exponent pns <? 0 then
          t <- exact_power_of_ten b f (- exponent pns) ;; Ok (Some (sign (convert f (wide_format f) rm (wide_div f rm value t))))
        else
          t <- exact_power_of_ten b f (exponent pns) ;; Ok (Some (sign (convert f (wide_format f) rm (wide_mul f rm value t))))
      else Ok None
    else if 0 <=? exponent pns then
      limit <- array_at (max_mantissa b) (exponent pns) ;;
      if num_mantissa pns <=? limit then
        if zero_first choice && (num_mantissa pns =? 0) then Ok (Some (sign 0))
        else
          t <- exact_power_of_ten b f (exponent pns) ;;
          Ok (Some (sign (convert f (wide_format f) rm (wide_mul f rm (of_uint f rm (num_mantissa pns)) t))))
      else Ok None
    else Ok None
  else Ok None.

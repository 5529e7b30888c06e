(** Model of src/utki/math.hpp:50-143: the constants, and the functions for floating point types (IEEE 754,
    FLT_EVAL_METHOD 0, in the rounding mode of the thread); the angle conversions for integral types (for sign and the
    powers of integers see MiscModel). *)
From Verif Require Import Base FloatSpec FloatFastModel MiscModel.
Local Open Scope Z_scope.

(** ** Floating point numbers: a sign and a pattern without sign, that of infinity included; or NaN *)
Inductive fp := Num (neg : bool) (n : Z) | NaN.
(** The extended format of x86, long double. Its leading bit is explicit in memory, here it is implicit. *)
Definition binary80 : format := {| mant_bits := 63; unit_exp := 16445; top_field := 32767; sign_bit := 79 |}.

(** Rounding a negative number rounds its absolute value in the opposite direction. *)
Definition magnitude_mode (rm : rounding) (neg : bool) : rounding :=
  if neg then match rm with Upward => Downward | Downward => Upward | rm => rm end else rm.
Definition is_inf (f : format) (n : Z) : bool := infinity f <=? n.
(** x * y and x / y *)
Definition fp_mul (f : format) (rm : rounding) (x y : fp) : fp :=
  match x, y with
  | Num s a, Num t b =>
      let neg := xorb s t in
      if (is_inf f a && (b =? 0)) || ((a =? 0) && is_inf f b) then NaN
      else if is_inf f a || is_inf f b then Num neg (infinity f)
      else Num neg (fmul f (magnitude_mode rm neg) a b)
  | _, _ => NaN
  end.
Definition fp_div (f : format) (rm : rounding) (x y : fp) : fp :=
  match x, y with
  | Num s a, Num t b =>
      let neg := xorb s t in
      if (is_inf f a && is_inf f b) || ((a =? 0) && (b =? 0)) then NaN
      else if is_inf f a || (b =? 0) then Num neg (infinity f)
      else if is_inf f b then Num neg 0
      else Num neg (fdiv f (magnitude_mode rm neg) a b)
  | _, _ => NaN
  end.
(** The conversion of an integer, and of a number of another format *)
Definition fp_of_int (f : format) (rm : rounding) (v : Z) : fp :=
  Num (v <? 0) (of_uint f (magnitude_mode rm (v <? 0)) (Z.abs v)).
Definition fp_convert (f g : format) (rm : rounding) (x : fp) : fp :=
  match x with
  | Num s a => if is_inf f a then Num s (infinity g) else Num s (round_positive g (magnitude_mode rm s) (scaled f a) (2 ^ unit_exp f))
  | NaN => NaN
  end.
(** A literal [num / den] of type double: rounded to nearest by the compiler, as are constant expressions *)
Definition literal (num den : Z) : fp := Num false (round_positive binary64 ToNearest num den).

(** pi: math.hpp:59; two_pi: math.hpp:64; pi_degrees: math.hpp:69; log_2: math.hpp:96 *)
Definition pi : fp := literal 314159265358979323846264338327950288 (10 ^ 35).
Definition two_pi : fp := fp_mul binary64 ToNearest (fp_of_int binary64 ToNearest 2) pi.
Definition pi_degrees : Z := 180.
Definition log_2 : fp := literal 693147180559945309417232121458 (10 ^ 30).

(** deg_to_rad: math.hpp:76-80; rad_to_deg: math.hpp:87-91. [f] is the format of number_type; in pi_degrees * rad the int
    is converted to it. *)
Definition deg_to_rad (f : format) (rm : rounding) (deg : fp) : fp :=
  fp_div f rm (fp_mul f rm (fp_convert binary64 f rm pi) deg) (fp_of_int f rm pi_degrees).
Definition rad_to_deg (f : format) (rm : rounding) (rad : fp) : fp :=
  fp_div f rm (fp_mul f rm (fp_of_int f rm pi_degrees) rad) (fp_convert binary64 f rm pi).

(** sign: math.hpp:50-54. [n < 0] is false for NaN and for the negative zero; number_type(-1) is exact. *)
Definition fp_sign (f : format) (rm : rounding) (x : fp) : fp :=
  match x with
  | Num true n => if 0 <? n then fp_of_int f rm (-1) else fp_of_int f rm 1
  | _ => fp_of_int f rm 1
  end.
(** pow2: math.hpp:103-107; pow3: 112-116; pow4: 121-125; pow5: 130-134; pow6: 139-143 *)
Definition fp_pow2 (f : format) (rm : rounding) (x : fp) : fp := fp_mul f rm x x.
Definition fp_pow3 (f : format) (rm : rounding) (x : fp) : fp := fp_mul f rm (fp_pow2 f rm x) x.
Definition fp_pow4 (f : format) (rm : rounding) (x : fp) : fp := fp_pow2 f rm (fp_pow2 f rm x).
Definition fp_pow5 (f : format) (rm : rounding) (x : fp) : fp := fp_mul f rm (fp_pow4 f rm x) x.
Definition fp_pow6 (f : format) (rm : rounding) (x : fp) : fp := fp_pow2 f rm (fp_pow3 f rm x).
(** The five functions by exponent *)
Definition fp_pow (k : Z) : option (format -> rounding -> fp -> fp) :=
  match k with
  | 2 => Some fp_pow2 | 3 => Some fp_pow3 | 4 => Some fp_pow4 | 5 => Some fp_pow5 | 6 => Some fp_pow6
  | _ => None
  end.

(** ** The same templates for integral types *)
(** number_type(pi): the conversion truncates; the value 3 is representable in every type. *)
Definition int_pi : Z := 3.
(** [x / y], where [x] is of the promoted type of [t] and [y] of type [t]; division truncates. *)
Definition div (t : ity) (x y : Z) : outcome Z :=
  let p := promote t in
  if y =? 0 then UB BadArgument
  else if is_signed p then (if fits p (Z.quot x y) then Ok (Z.quot x y) else UB SignedOverflow)
  else Ok (x / convert p y).
(** The return statements convert to number_type. In the product pi_degrees * rad the common type of int and
    number_type is the promoted type as well. *)
Definition deg_to_rad_int (t : ity) (deg : Z) : outcome Z :=
  p <- mul t int_pi deg ;; q <- div t p (convert t pi_degrees) ;; Ok (convert t q).
Definition rad_to_deg_int (t : ity) (rad : Z) : outcome Z :=
  p <- mul t pi_degrees rad ;; q <- div t p int_pi ;; Ok (convert t q).

(** Model of src/utki/version.hpp, src/utki/time.cpp, of the integral part of src/utki/math.hpp and of
    the integer size traits of src/utki/type_traits.hpp. *)
From Verif Require Import Base.
Local Open Scope Z_scope.

(** ** version_duplet: version.hpp:40-79. The members are uint16_t. *)
Record version := { major : Z; minor : Z }.
(** to_uint32_t, 54-57 *)
Definition to_uint32 (v : version) : Z :=
  Z.lor (Z.shiftl (major v) 16 mod 2 ^ 32) (minor v).
(** operator>=, 64-73 *)
Definition version_ge (a b : version) : bool :=
  if major b <? major a then true
  else if (major a =? major b) && (minor b <=? minor a) then true
  else false.
(** operator<, 75-78 *)
Definition version_lt (a b : version) : bool := negb (version_ge a b).
(** The decimal digits a std::ostream writes for an unsigned number (of at most [fuel] digits, of
    which 20 are enough for 64 bits), the last one first *)
Fixpoint digits_rev (fuel : nat) (n : Z) : list Z :=
  match fuel with
  | O => []
  | S fuel => (48 + n mod 10) :: (if n / 10 =? 0 then [] else digits_rev fuel (n / 10))
  end.
Definition digits (n : Z) : list Z := rev (digits_rev 20 n).
(** operator<<, 59-62; 46 is '.' *)
Definition print_version (v : version) : list Z := digits (major v) ++ 46 :: digits (minor v).

(** ** get_ticks_ms: time.cpp:35-43. [now] is the count of the clock since its epoch, in nanoseconds;
    duration_cast truncates towards zero, the conversion to uint32_t is modulo 2^32. *)
Definition get_ticks_ms (now : Z) : Z := Z.quot now 1000000 mod 2 ^ 32.
(** The difference of two uint32_t values as the user of the counter calculates it *)
Definition sub32 (a b : Z) : Z := (a - b) mod 2 ^ 32.

(** ** Integral types *)
Record ity := { is_signed : bool; bits : Z }.
Definition min_value (t : ity) : Z := if is_signed t then - 2 ^ (bits t - 1) else 0.
Definition max_value (t : ity) : Z := if is_signed t then 2 ^ (bits t - 1) - 1 else 2 ^ bits t - 1.
Definition fits (t : ity) (v : Z) : bool := (min_value t <=? v) && (v <=? max_value t).
(** Conversion to the type [t], modulo 2^bits *)
Definition convert (t : ity) (v : Z) : Z := (v - min_value t) mod 2 ^ bits t + min_value t.
Definition int_type : ity := {| is_signed := true; bits := 32 |}.
(** The integral promotions: int represents all values of the narrower types. *)
Definition promote (t : ity) : ity := if bits t <? 32 then int_type else t.
(** [x * y] of two operands of type [t], the result being of the promoted type *)
Definition mul (t : ity) (x y : Z) : outcome Z :=
  let p := promote t in
  if is_signed p then (if fits p (x * y) then Ok (x * y) else UB SignedOverflow)
  else Ok (convert p (x * y)).

(** ** math.hpp. The return statements convert the product to number_type. *)
(** sign, 50-54. [number_type(-1)] *)
Definition sign (t : ity) (n : Z) : Z := if n <? 0 then convert t (-1) else convert t 1.
(** pow2, 103-107 *)
Definition pow2 (t : ity) (x : Z) : outcome Z := p <- mul t x x ;; Ok (convert t p).
(** pow3, 112-116 *)
Definition pow3 (t : ity) (x : Z) : outcome Z := y <- pow2 t x ;; p <- mul t y x ;; Ok (convert t p).
(** pow4, 121-125 *)
Definition pow4 (t : ity) (x : Z) : outcome Z := y <- pow2 t x ;; pow2 t y.
(** pow5, 130-134 *)
Definition pow5 (t : ity) (x : Z) : outcome Z := y <- pow4 t x ;; p <- mul t y x ;; Ok (convert t p).
(** pow6, 139-143 *)
Definition pow6 (t : ity) (x : Z) : outcome Z := y <- pow3 t x ;; pow2 t y.
(** The five functions by exponent *)
Definition pow_n (n : Z) : option (ity -> Z -> outcome Z) :=
  match n with
  | 2 => Some pow2 | 3 => Some pow3 | 4 => Some pow4 | 5 => Some pow5 | 6 => Some pow6
  | _ => None
  end.

(** ** type_traits.hpp: uint_size, 63-108 and int_size, 114-159. None: the template is not defined. *)
Definition uint_size (n : Z) : option ity :=
  match n with
  | 1 => Some {| is_signed := false; bits := 8 |}
  | 2 => Some {| is_signed := false; bits := 16 |}
  | 3 => Some {| is_signed := false; bits := 32 |}
  | 4 => Some {| is_signed := false; bits := 32 |}
  | 5 => Some {| is_signed := false; bits := 64 |}
  | 6 => Some {| is_signed := false; bits := 64 |}
  | 7 => Some {| is_signed := false; bits := 64 |}
  | 8 => Some {| is_signed := false; bits := 64 |}
  | _ => None
  end.
Definition int_size (n : Z) : option ity :=
  match n with
  | 1 => Some {| is_signed := true; bits := 8 |}
  | 2 => Some {| is_signed := true; bits := 16 |}
  | 3 => Some {| is_signed := true; bits := 32 |}
  | 4 => Some {| is_signed := true; bits := 32 |}
  | 5 => Some {| is_signed := true; bits := 64 |}
  | 6 => Some {| is_signed := true; bits := 64 |}
  | 7 => Some {| is_signed := true; bits := 64 |}
  | 8 => Some {| is_signed := true; bits := 64 |}
  | _ => None
  end.

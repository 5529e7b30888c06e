(** What fast_float.h decides from the compiler and the processor: src_deps/fast_float/fast_float.h:190-260 (register
    width, byte order), 411-432 (count of leading zeroes), 464-487 (product of 64 bits by 64 bits), 611, 620, 3618, 3784
    (floating point evaluation), 2479-2492 (width of the limbs), 2666-2709 (arithmetic on limbs).
    Every combination is covered, also those that no compiler has. *)

(** full_multiplication: __uint128_t; __umulh or the intrinsic _umul128; umul128_generic *)
Inductive multiplication := Wide | Intrinsic | Generic.
(** FLT_EVAL_METHOD 0, 1, 2: operations are rounded to the type of the operands; float operations are rounded to double;
    all operations are rounded to long double *)
Inductive evaluation := PerType | AsDouble | AsLongDouble.
Record choices := {
  multiplies : multiplication;
  has_int128 : bool;        (* __SIZEOF_INT128__, in scalar_mul *)
  has_clz : bool;           (* __builtin_clzll or _BitScanReverse64 *)
  has_add_overflow : bool;  (* __builtin_add_overflow *)
  big_endian : bool;        (* FASTFLOAT_IS_BIG_ENDIAN *)
  evaluates : evaluation;
  zero_first : bool         (* __clang__ or FASTFLOAT_32BIT *)
}.
(** The width of the limbs of the big integers (FASTFLOAT_64BIT_LIMB), and the rest. *)
Inductive platform := Limb32 (c : choices) | Limb64 (c : choices).
Existing Class platform.
Definition choice {lw : platform} : choices := match lw with Limb32 c | Limb64 c => c end.

(** Some of them: gcc on x86-64, gcc on a 32-bit x86 with the x87 only, clang on s390x, and Visual C++ on x86-64 and on
    32-bit ARM. *)
Definition x86_64 : platform := Limb64 {| multiplies := Wide; has_int128 := true; has_clz := true; has_add_overflow := true;
  big_endian := false; evaluates := PerType; zero_first := false |}.
Definition i386 : platform := Limb32 {| multiplies := Generic; has_int128 := false; has_clz := true; has_add_overflow := true;
  big_endian := false; evaluates := AsLongDouble; zero_first := true |}.
Definition s390x : platform := Limb64 {| multiplies := Wide; has_int128 := true; has_clz := true; has_add_overflow := true;
  big_endian := true; evaluates := AsDouble; zero_first := true |}.
Definition msvc_x64 : platform := Limb64 {| multiplies := Intrinsic; has_int128 := false; has_clz := true; has_add_overflow := false;
  big_endian := false; evaluates := PerType; zero_first := false |}.
Definition msvc_arm : platform := Limb32 {| multiplies := Generic; has_int128 := false; has_clz := false; has_add_overflow := false;
  big_endian := false; evaluates := PerType; zero_first := true |}.

(** Model of the lexing part of the bundled fast_float, for UC = char:
    src_deps/fast_float/fast_float.h:345-354 (strncasecmp), 1003-1008, 1017-1037, 1089-1116, 1193-1204
    (eight digits at a time), 1225-1441 (parse_number_string), 3550-3609 (parse_infnan).
    A pointer into [first, last) is the list of the characters from it up to [last]; dereferencing the empty
    list is undefined. A char is a number; only its value modulo 256 matters for memcpy. Only the formats that
    utki passes are modelled, so the JSON, Fortran and no_infnan bits are never set; the decimal point is '.'.
    Pointer differences and int64_t are integers: they stay in range as long as the text has less than 2^62
    characters. The macros FASTFLOAT_ALLOWS_LEADING_PLUS and FASTFLOAT_SKIP_WHITE_SPACE are not
    defined. *)
From Verif Require Import Base FloatComputeModel.
Local Open Scope Z_scope.

(** chars_format: fast_float.h:153-164, as bits; to_fast_float_format: string.cpp:249-262 *)
Inductive chars_format := Scientific | Fixed | Hex | General.
Definition format_bits (f : chars_format) : Z :=
  match f with Scientific => 1 | Fixed => 4 | Hex => 8 | General => 5 end.
Definition has_bit (f : chars_format) (bit : Z) : bool := negb (Z.land (format_bits f) bit =? 0).
Definition scientific_bit : Z := 1.
Definition fixed_bit : Z := 4.

(** is_integer: fast_float.h:1003-1008 *)
Definition is_integer (c : Z) : bool := negb ((57 <? c) || (c <? 48)).

(** byteswap: fast_float.h:1010-1015 *)
Definition byteswap (val : Z) : Z :=
  Z.lor (Z.lor (Z.lor (Z.lor (Z.lor (Z.lor (Z.lor
    (Z.shiftr (Z.land val 0xFF00000000000000) 56) (Z.shiftr (Z.land val 0x00FF000000000000) 40))
    (Z.shiftr (Z.land val 0x0000FF0000000000) 24)) (Z.shiftr (Z.land val 0x000000FF00000000) 8))
    (u64 (Z.shiftl (Z.land val 0x00000000FF000000) 8))) (u64 (Z.shiftl (Z.land val 0x0000000000FF0000) 24)))
    (u64 (Z.shiftl (Z.land val 0x000000000000FF00) 40))) (u64 (Z.shiftl (Z.land val 0x00000000000000FF) 56)).
(** The memcpy of eight chars into an uint64_t, in the byte order of the processor: fast_float.h:1028, 3262, 3286;
    read8_to_u64: fast_float.h:1017-1037 *)
Definition byte (c : Z) : Z := c mod 256.
Definition little8 (c0 c1 c2 c3 c4 c5 c6 c7 : Z) : Z :=
  byte c0 + byte c1 * 2 ^ 8 + byte c2 * 2 ^ 16 + byte c3 * 2 ^ 24 + byte c4 * 2 ^ 32 + byte c5 * 2 ^ 40
  + byte c6 * 2 ^ 48 + byte c7 * 2 ^ 56.
Definition memcpy8 {lw : platform} (c0 c1 c2 c3 c4 c5 c6 c7 : Z) : Z :=
  if big_endian choice then little8 c7 c6 c5 c4 c3 c2 c1 c0 else little8 c0 c1 c2 c3 c4 c5 c6 c7.
Definition read8 {lw : platform} (c0 c1 c2 c3 c4 c5 c6 c7 : Z) : Z :=
  let val := memcpy8 c0 c1 c2 c3 c4 c5 c6 c7 in
  if big_endian choice then byteswap val else val.

(** parse_eight_digits_unrolled: fast_float.h:1089-1109 *)
Definition parse_eight_digits_unrolled (val : Z) : Z :=
  let mask := 0x000000FF000000FF in
  let mul1 := 0x000F424000000064 in
  let mul2 := 0x0000271000000001 in
  let val := u64 (val - 0x3030303030303030) in
  let val := u64 (u64 (val * 10) + Z.shiftr val 8) in
  let val := Z.shiftr (u64 (u64 (Z.land val mask * mul1) + u64 (Z.land (Z.shiftr val 16) mask * mul2))) 32 in
  u32 val.

(** is_made_of_eight_digits_fast: fast_float.h:1111-1116 *)
Definition is_made_of_eight_digits_fast (val : Z) : bool :=
  Z.land (Z.lor (u64 (val + 0x4646464646464646)) (u64 (val - 0x3030303030303030))) 0x8080808080808080 =? 0.

(** loop_parse_if_eight_digits: fast_float.h:1193-1204 *)
Fixpoint loop_parse_if_eight_digits {lw : platform} (p : list Z) (i : Z) {struct p} : list Z * Z :=
  match p with
  | c0 :: c1 :: c2 :: c3 :: c4 :: c5 :: c6 :: c7 :: p' =>
      let val := read8 c0 c1 c2 c3 c4 c5 c6 c7 in
      if is_made_of_eight_digits_fast val
      then loop_parse_if_eight_digits p' (u64 (u64 (i * 100000000) + parse_eight_digits_unrolled val))
      else (p, i)
  | _ => (p, i)
  end.

(** parsed_number_string_t: fast_float.h:1225-1236, without the kind of the error *)
Record parsed := {
  exponent : Z;
  num_mantissa : Z;
  lastmatch : list Z;
  negative : bool;
  valid : bool;
  too_many_digits : bool;
  integer : list Z;
  fraction : option (list Z)
}.
(** report_parse_error: fast_float.h:1241-1249 *)
Definition report_parse_error (p : list Z) : parsed :=
  {| exponent := 0; num_mantissa := 0; lastmatch := p; negative := false; valid := false; too_many_digits := false;
     integer := []; fraction := None |}.

(** The loop over the digits of the integer part (fast_float.h:1292-1299) and over the remaining digits of the
    fraction (fast_float.h:1323-1327). *)
Fixpoint digit_loop (p : list Z) (i : Z) : list Z * Z :=
  match p with
  | c :: p' => if is_integer c then digit_loop p' (u64 (u64 (10 * i) + u64 (c - 48))) else (p, i)
  | [] => (p, i)
  end.
(** The loop over the digits of the exponent: fast_float.h:1372-1378 *)
Fixpoint exponent_loop (p : list Z) (e : Z) : list Z * Z :=
  match p with
  | c :: p' => if is_integer c then exponent_loop p' (if e <? 0x10000000 then 10 * e + (c - 48) else e) else (p, e)
  | [] => (p, e)
  end.
(** The loop over leading zeros: fast_float.h:1403-1409. It stops at the end of the text only. *)
Fixpoint zero_loop (start : list Z) (digit_count : Z) : Z :=
  match start with
  | c :: t => if (c =? 48) || (c =? 46) then zero_loop t (if c =? 48 then digit_count - 1 else digit_count) else digit_count
  | [] => digit_count
  end.
(** The loops that restart the mantissa: fast_float.h:1416-1423, 1427-1432 *)
Definition minimal_nineteen_digit_integer : Z := 1000000000000000000.
Fixpoint nineteen_loop (p : list Z) (i : Z) : list Z * Z :=
  match p with
  | c :: p' => if i <? minimal_nineteen_digit_integer then nineteen_loop p' (u64 (u64 (i * 10) + u64 (c - 48))) else (p, i)
  | [] => (p, i)
  end.

(** ptr - first for a pointer [p] after [first] *)
Definition distance (first p : list Z) : Z := Z.of_nat (length first) - Z.of_nat (length p).
Definition span_of (first p : list Z) : list Z := firstn (length first - length p) first.
Definition starts (p : list Z) (c : Z) : bool := match p with x :: _ => x =? c | [] => false end.
Definition deref (p : list Z) : outcome Z := match p with c :: _ => Ok c | [] => UB OutOfBounds end.

(** The explicit exponent: fast_float.h:1342-1389. None: report an error at that place. *)
Definition parse_exponent (fmt : chars_format) (p : list Z) : list Z * option Z :=
  if has_bit fmt scientific_bit && (starts p 101 || starts p 69) then
    let location_of_e := p in
    let p := tl p in
    let '(neg_exp, p) := if starts p 45 then (true, tl p) else if starts p 43 then (false, tl p) else (false, p) in
    if match p with c :: _ => negb (is_integer c) | [] => true end then
      if negb (has_bit fmt fixed_bit) then (p, None) else (location_of_e, Some 0)
    else
      let '(p, e) := exponent_loop p 0 in
      (p, Some (if neg_exp then - e else e))
  else if has_bit fmt scientific_bit && negb (has_bit fmt fixed_bit) then (p, None) else (p, Some 0).

(** More than 19 digits: fast_float.h:1393-1437. (too_many_digits, exponent, i) *)
Definition shorten (start_digits end_of_integer_part int : list Z) (frac : option (list Z)) (digit_count exp_number exponent i : Z)
  : bool * Z * Z :=
  if 19 <? digit_count then
    if 19 <? zero_loop start_digits digit_count then
      let '(p, i) := nineteen_loop int 0 in
      if minimal_nineteen_digit_integer <=? i then (true, Z.of_nat (length p) + exp_number, i)
      else
        let fr := match frac with Some fr => fr | None => [] end in
        let '(p, i) := nineteen_loop fr i in
        (true, - distance fr p + exp_number, i)
    else (false, exponent, i)
  else (false, exponent, i).

(** parse_number_string: fast_float.h:1251-1441 *)
Definition parse_number_string {lw : platform} (fmt : chars_format) (p : list Z) : outcome parsed :=
  c <- deref p ;;
  let neg := c =? 45 in
  let p := if neg then tl p else p in
  if neg && match p with [] => true | c :: _ => negb (is_integer c) && negb (c =? 46) end then Ok (report_parse_error p)
  else
    let start_digits := p in
    let '(p, i) := digit_loop p 0 in
    let end_of_integer_part := p in
    let digit_count := distance start_digits p in
    let int := span_of start_digits p in
    let '(p, i, exponent, frac) :=
      if starts p 46 then
        let before := tl p in
        let '(p, i) := loop_parse_if_eight_digits before i in
        let '(p, i) := digit_loop p i in
        (p, i, - distance before p, Some (span_of before p))
      else (p, i, 0, None) in
    let digit_count := digit_count - exponent in
    if digit_count =? 0 then Ok (report_parse_error p)
    else
      match parse_exponent fmt p with
      | (p, None) => Ok (report_parse_error p)
      | (p, Some exp_number) =>
          let exponent := exponent + exp_number in
          let '(many, exponent, i) := shorten start_digits end_of_integer_part int frac digit_count exp_number exponent i in
          Ok {| exponent := exponent; num_mantissa := i; lastmatch := p; negative := neg; valid := true;
                too_many_digits := many; integer := int; fraction := frac |}
      end.

(** fastfloat_strncasecmp: fast_float.h:345-354. The differences of bytes, collected in a char; reading past the end
    of the first text is undefined. *)
Fixpoint running_diff (a b : list Z) (diff : Z) : outcome Z :=
  match b with
  | [] => Ok diff
  | y :: b' => x <- deref a ;; running_diff (tl a) b' (Z.lor diff (Z.lxor (byte x) (byte y)))
  end.
Definition fastfloat_strncasecmp (a b : list Z) : outcome bool :=
  d <- running_diff a b 0 ;; Ok ((d =? 0) || (d =? 32)).

(** The result of a conversion: what is left of the text after ptr, the error, and the bit pattern written to value
    (None: value is left alone). *)
Inductive errc := NoError | InvalidArgument | OutOfRange.
Record result := { res_rest : list Z; res_ec : errc; res_value : option Z }.

(** The loop over nan(n-char-seq): fast_float.h:3580-3592; None: no closing parenthesis *)
Fixpoint nan_loop (p : list Z) : option (list Z) :=
  match p with
  | [] => None
  | c :: p' =>
      if c =? 41 then Some p'
      else if ((97 <=? c) && (c <=? 122)) || ((65 <=? c) && (c <=? 90)) || ((48 <=? c) && (c <=? 57)) || (c =? 95)
      then nan_loop p' else None
  end.

(** "nan" and "infinity": fast_float.h:828-842 *)
Definition str_nan : list Z := [110; 97; 110].
Definition str_inf : list Z := [105; 110; 102; 105; 110; 105; 116; 121].

(** parse_infnan: fast_float.h:3550-3609. [quiet_nan] and [inf] are the patterns of the type; the unary minus flips
    the sign bit. *)
Definition parse_infnan (quiet_nan inf sign : Z) (first : list Z) : outcome result :=
  let answer := first in
  c <- deref first ;;
  let minus := c =? 45 in
  let first := if minus then tl first else first in
  let signed x := if minus then sign + x else x in
  if 3 <=? Z.of_nat (length first) then
    is_nan <- fastfloat_strncasecmp first str_nan ;;
    if is_nan then
      let first := skipn 3 first in
      let rest := if starts first 40 then match nan_loop (tl first) with Some p => p | None => first end else first in
      Ok {| res_rest := rest; res_ec := NoError; res_value := Some (signed quiet_nan) |}
    else
      is_inf <- fastfloat_strncasecmp first (firstn 3 str_inf) ;;
      if is_inf then
        long <- (if 8 <=? Z.of_nat (length first) then fastfloat_strncasecmp (skipn 3 first) (skipn 3 str_inf) else Ok false) ;;
        Ok {| res_rest := skipn (if long then 8 else 3) first; res_ec := NoError; res_value := Some (signed inf) |}
      else Ok {| res_rest := answer; res_ec := InvalidArgument; res_value := None |}
  else Ok {| res_rest := answer; res_ec := InvalidArgument; res_value := None |}.

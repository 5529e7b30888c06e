(** The model of utki::from_chars for float, double and long double: src/utki/string.cpp:248-317, and of
    string_parser::read_number for them: src/utki/string.hpp:466-562. *)
From Verif Require Import FloatPlatform Base FloatSpec FloatComputeModel FloatParseModel FloatFastModel FloatFromModel ParserModel.
Local Open Scope Z_scope.

(** utki::chars_format: string.hpp:318-323; any other value of the enumeration is [other] *)
Inductive utki_format := scientific | fixed | hexadecimal | general | other.
(** to_fast_float_format: string.cpp:249-262 *)
Definition to_fast_float_format (f : utki_format) : chars_format :=
  match f with scientific => Scientific | fixed => Fixed | hexadecimal => Hex | general | other => General end.

(** The type of the value. long double: the value is that of the double whose pattern is stored, the conversion from
    double is exact. *)
Inductive target := Float | Double | LongDouble.

Definition from_chars_float {lw : platform} (rm : rounding) (fmt : utki_format) (s : list Z) : outcome result :=
  FloatFromModel.from_chars float_format binary32 rm (to_fast_float_format fmt) s.
Definition from_chars_double {lw : platform} (rm : rounding) (fmt : utki_format) (s : list Z) : outcome result :=
  FloatFromModel.from_chars double_format binary64 rm (to_fast_float_format fmt) s.
(** from_chars for long double: string.cpp:300-317 *)
Definition from_chars_long_double {lw : platform} (rm : rounding) (fmt : utki_format) (s : list Z) : outcome result :=
  ret <- from_chars_double rm fmt s ;;
  Ok {| res_rest := res_rest ret; res_ec := res_ec ret;
        res_value := match res_ec ret with
                     | NoError => Some (match res_value ret with Some val => val | None => 0 end)
                     | _ => None
                     end |}.
Definition utki_from_chars {lw : platform} (t : target) (rm : rounding) (fmt : utki_format) (s : list Z) : outcome result :=
  match t with
  | Float => from_chars_float rm fmt s
  | Double => from_chars_double rm fmt s
  | LongDouble => from_chars_long_double rm fmt s
  end.

(** The result as [read_number] sees it: the length before the pointer, the code, the value written. *)
Definition as_fc (s : list Z) (r : result) : fc_result Z :=
  {| fc_len := N.of_nat (length s - length (res_rest r));
     fc_ec := match res_ec r with NoError => ec_ok | FloatParseModel.InvalidArgument => ec_invalid | OutOfRange => ec_range end;
     fc_value := res_value r |}.
(** read_number<float, double, long double>: string.hpp:466-482, 537-562. The pattern of 0 is 0. *)
Definition read_floating {lw : platform} (dbg : bool) (t : target) (rm : rounding) : op Z :=
  skip_whitespaces ;;~
  s <~ get_view ;;
  r <~ fail (utki_from_chars t rm general s) ;;
  finish_number dbg 0 (as_fc s r).

(** The model of fast_float::from_chars for float and double: src_deps/fast_float/fast_float.h:3678-3685, 3720-3857.
    The target is a format [b] of the library together with the format [f] of IEEE 754; the rounding mode of the thread
    is [rm]. Texts are lists of char codes; a pointer into the text is the rest of the text. *)
From Verif Require Import Base FloatSpec FloatComputeModel FloatParseModel FloatFastModel FloatBigintModel FloatDigitModel.
Local Open Scope Z_scope.

(** from_chars_advanced(pns, value): fast_float.h:3734-3819; adjusted_mantissa::operator!=: 496-498 *)
Definition from_chars_pns {lw : platform} (b : binary) (f : format) (rm : rounding) (pns : parsed) : outcome result :=
  fast <- fast_path b f rm pns ;;
  match fast with
  | Some v => Ok {| res_rest := lastmatch pns; res_ec := NoError; res_value := Some v |}
  | None =>
      am <- compute_float b (exponent pns) (num_mantissa pns) ;;
      am <- (if too_many_digits pns && (0 <=? power2 am) then
               next <- compute_float b (exponent pns) (u64 (num_mantissa pns + 1)) ;;
               if negb (am_eqb am next) then compute_error b (exponent pns) (num_mantissa pns) else Ok am
             else Ok am) ;;
      am <- (if power2 am <? 0 then digit_comp b pns am else Ok am) ;;
      let range := (negb (num_mantissa pns =? 0) && (mantissa am =? 0) && (power2 am =? 0)) || (power2 am =? infinite_power b) in
      Ok {| res_rest := lastmatch pns; res_ec := if range then OutOfRange else NoError;
            res_value := Some (to_float b (negative pns) am) |}
  end.

(** numeric_limits::quiet_NaN() and infinity(), used at fast_float.h:3570, 3598: the IEEE 754 patterns *)
Definition limits_quiet_nan (f : format) : Z := top_field f * 2 ^ mant_bits f + 2 ^ (mant_bits f - 1).
Definition limits_infinity (f : format) : Z := top_field f * 2 ^ mant_bits f.

(** from_chars: fast_float.h:3720-3725; from_chars_caller::call: 3678-3685; from_chars_advanced: 3821-3855. The macro
    FASTFLOAT_SKIP_WHITE_SPACE is not defined. None of the formats has the bit no_infnan (153-164). *)
Definition from_chars {lw : platform} (b : binary) (f : format) (rm : rounding) (fmt : chars_format) (first : list Z) : outcome result :=
  match first with
  | [] => Ok {| res_rest := first; res_ec := InvalidArgument; res_value := None |}
  | _ =>
      pns <- parse_number_string fmt first ;;
      if valid pns then from_chars_pns b f rm pns
      else parse_infnan (limits_quiet_nan f) (limits_infinity f) (2 ^ sign_bit f) first
  end.

(** What a call of an operation of string_parser may do. *)
From Verif Require Import Base ParserModel ParserSpec.
Local Open Scope Z_scope.

(** What from_chars guarantees: an error of the two documented kinds or none, and on anything but
    invalid_argument a non-empty part of the text is consumed. *)
Definition fc_contract {V} (fc : list Z -> fc_result V) : Prop := forall s,
  fc_ec (fc s) <> ec_other /\ (fc_ec (fc s) <> ec_invalid -> (0 < fc_len (fc s) <= N.of_nat (length s))%N).
Definition good_call (c : call) : Prop := match c with c_read_float fc => fc_contract fc | _ => True end.
Definition is_number_call (c : call) : Prop := match c with c_read_float _ | c_read_number _ => True | _ => False end.

(** From the text [s] to the text [s'] with the result [r]: a prefix is taken off, returned texts are
    that prefix, a failure is std::invalid_argument and takes nothing off (whitespace at most, in the
    case of a number). *)
Definition step_ok (c : call) (s s' : list Z) (r : outcome value) : Prop :=
  exists taken, s = taken ++ s' /\
  match r with
  | Ok v =>
      (forall w, v = v_text w -> w = taken) /\
      match c with
      | c_read_char => exists x, v = v_char x /\ taken = [x]
      | c_peek_char => exists x, v = v_char x /\ taken = [] /\ hd_error s = Some x
      | c_peek_char_n n => exists x, v = v_char x /\ taken = [] /\ nth_error s (N.to_nat n) = Some x
      | _ => True
      end
  | Throw e => e = InvalidArgument /\ (taken = [] \/ is_number_call c /\ Forall space taken)
  | _ => False
  end.

(** Properties C27 - C32. *)
From Coq Require Import String.
From Verif Require Import Base StrLit StringModel ParserModel ParserSpec ParserCallSpec ParserProofs.
Local Open Scope string_scope.
Local Open Scope list_scope.
Local Open Scope Z_scope.

Definition u8 := {| is_signed := false; bits := 8 |}.
Definition u64 := {| is_signed := false; bits := 64 |}.
Definition i8 := {| is_signed := true; bits := 8 |}.
Definition i64 := {| is_signed := true; bits := 64 |}.

(** C27. One call; [good_call] restricts only the from_chars used for floating point. *)
Theorem C27_step : forall dbg c s s' r, good_call c -> perform dbg c s = (s', r) -> step_ok c s s' r.
Proof. exact perform_ok. Qed.
Print Assumptions C27_step.

Theorem C27_sequence : forall dbg cs s s' rs, Forall good_call cs -> perform_all dbg cs s = (s', rs) ->
  (exists taken, s = taken ++ s') /\ Forall (fun r => is_ok r = true \/ r = Throw InvalidArgument) rs.
Proof. exact perform_all_ok. Qed.
Print Assumptions C27_sequence.

(** Reading one character and looking ahead fail exactly when there is no such character. *)
Theorem C27_read_char : forall s, read_char s =
  match s with [] => ([], Throw InvalidArgument) | c :: r => (r, Ok c) end.
Proof. intros [|c s]; [exact read_char_nil|exact (read_char_cons c s)]. Qed.
Print Assumptions C27_read_char.
Theorem C27_peek : forall s, peek_char s = (s, match s with [] => Throw InvalidArgument | c :: _ => Ok c end) /\
  forall n, peek_char_n n s = (s, match nth_error s (N.to_nat n) with Some c => Ok c | None => Throw InvalidArgument end).
Proof. intros s. split; [destruct s; reflexivity|]. intro n. exact (peek_char_n_spec n s). Qed.
Print Assumptions C27_peek.

Example C27_case :
  perform_all true [c_read_word; c_read_char; c_read_number u8; c_read_chars_until 59; c_read_char; c_peek_char; c_read_number i8; c_read_chars 9]
    (zstr "ab  0x1g;  z") =
  (zstr "", [Ok (v_text (zstr "ab")); Ok (v_char 32); Ok (v_number 1); Ok (v_text (zstr "g")); Ok (v_char 59);
    Ok (v_char 32); Throw InvalidArgument; Ok (v_text (zstr "z"))]).
Proof. vm_compute. reflexivity. Qed.

(** The contract of [c_read_float] is met by an actual function: single decimal digits. *)
Example C27_float_contract :
  let fc := fun s => match s with
    | c :: _ => if (48 <=? c) && (c <=? 57) then {| fc_len := 1%N; fc_ec := ec_ok; fc_value := Some (c - 48) |}
                else {| fc_len := 0%N; fc_ec := ec_invalid; fc_value := None |}
    | [] => {| fc_len := 0%N; fc_ec := ec_invalid; fc_value := None |} end in
  good_call (c_read_float fc) /\ perform true (c_read_float fc) (zstr "  7x") = (zstr "x", Ok (v_number 7)) /\
  perform true (c_read_float fc) (zstr "  x") = (zstr "x", Throw InvalidArgument).
Proof.
  split; [|vm_compute; auto]. intros [|c s]; cbn; [split; [discriminate|congruence]|].
  destruct ((48 <=? c) && (c <=? 57)); cbn; split; try discriminate; try congruence. intros _. lia.
Qed.

(** C28. *)
Theorem C28_skip_whitespaces : forall s, exists ws t,
  s = ws ++ t /\ maximal space ws t /\ skip_whitespaces s = (t, Ok tt).
Proof. exact skip_whitespaces_spec. Qed.
Print Assumptions C28_skip_whitespaces.
Theorem C28_skip_whitespaces_and_comma : forall s, exists pre t,
  s = pre ++ t /\ spaces_comma pre t /\ skip_whitespaces_and_comma s = (t, Ok tt).
Proof. exact skip_whitespaces_and_comma_spec. Qed.
Print Assumptions C28_skip_whitespaces_and_comma.
Theorem C28_read_word : forall s, exists w rest, s = w ++ rest /\ maximal (fun c => ~ space c) w rest /\ read_word s = (rest, Ok w).
Proof. exact read_word_spec. Qed.
Print Assumptions C28_read_word.
Theorem C28_read_word_until : forall u s, exists w rest, s = w ++ rest /\ maximal (fun c => ~ space c /\ c <> u) w rest /\
  read_word_until u s = (rest, Ok w).
Proof. exact read_word_until_spec. Qed.
Print Assumptions C28_read_word_until.
Theorem C28_read_chars_until : forall u s, exists w rest, s = w ++ rest /\ maximal (fun c => c <> u) w rest /\
  read_chars_until u s = (rest, Ok w).
Proof. exact read_chars_until_spec. Qed.
Print Assumptions C28_read_chars_until.
Theorem C28_read_chars : forall n s, read_chars n s = (skipn (N.to_nat n) s, Ok (firstn (N.to_nat n) s)).
Proof. exact read_chars_spec. Qed.
Print Assumptions C28_read_chars.
Theorem C28_skip_until : forall c, (forall pre rest, ~ In c pre -> skip_inclusive_until c (pre ++ c :: rest) = (rest, Ok tt)) /\
  (forall s, ~ In c s -> skip_inclusive_until c s = ([], Ok tt)).
Proof. intro c. split; [exact (skip_inclusive_until_found c)|exact (skip_inclusive_until_none c)]. Qed.
Print Assumptions C28_skip_until.
Theorem C28_skip_until_one_of : forall cs,
  (forall pre c rest, In c cs -> Forall (fun x => ~ In x cs) pre -> skip_inclusive_until_one_of cs (pre ++ c :: rest) = (rest, Ok c)) /\
  (forall s, Forall (fun x => ~ In x cs) s -> skip_inclusive_until_one_of cs s = ([], Ok 0)).
Proof. intro cs. split; [exact (skip_one_of_found cs)|exact (skip_one_of_none cs)]. Qed.
Print Assumptions C28_skip_until_one_of.
(** A maximal prefix is unique, so the theorems determine the results. *)
Theorem C28_maximal_unique : forall P a b a' b', maximal P a b -> maximal P a' b' -> a ++ b = a' ++ b' -> a = a' /\ b = b'.
Proof. exact maximal_unique. Qed.
Print Assumptions C28_maximal_unique.

Example C28_case :
  skip_whitespaces_and_comma (zstr "  , ,a") = (zstr ",a", Ok tt) /\
  skip_whitespaces_and_comma (zstr "  a") = (zstr "a", Ok tt) /\
  read_word_until 61 (zstr "k=v") = (zstr "=v", Ok (zstr "k")) /\
  skip_inclusive_until_one_of (zstr ";,") (zstr "ab,c;") = (zstr "c;", Ok 44) /\
  skip_inclusive_until_one_of (zstr ";,") (zstr "ab") = ([], Ok 0) /\
  read_chars 5 (zstr "abc") = ([], Ok (zstr "abc")).
Proof. vm_compute. auto 10. Qed.

(** C29. *)
Theorem C29_round_trip : forall dbg t v b ws rest, is_signed t = false -> 1 <= bits t <= 126 -> 0 <= v < 2 ^ bits t ->
  Forall space ws -> ends_number (to_int b) v rest ->
  exists s, to_string dbg t v b = Ok s /\ read_number dbg t (ws ++ s ++ rest) = (rest, Ok v).
Proof. exact round_trip_unsigned. Qed.
Print Assumptions C29_round_trip.

Example C29_case : to_string true u64 (2 ^ 64 - 1) hex = Ok (zstr "0xffffffffffffffff") /\
  read_number true u64 (zstr " 0xffffffffffffffff;") = (zstr ";", Ok (2 ^ 64 - 1)) /\
  ends_number 16 (2 ^ 64 - 1) (zstr ";") /\
  read_number true u8 (zstr "00") = ([], Ok 0) /\ to_string true u8 0 oct = Ok (zstr "00").
Proof.
  split; [vm_compute; reflexivity|]. split; [vm_compute; reflexivity|]. split; [|vm_compute; auto].
  split; [|lia]. intros c s' E. injection E as <- <-. intros [d D]. unfold digit in D. lia.
Qed.
(** The condition for 0 is needed: text may turn "0" into the start of a hexadecimal number. *)
Example C29_zero : to_string true u8 0 dec = Ok (zstr "0") /\ read_number true u8 (zstr "0" ++ zstr "x1") = ([], Ok 1).
Proof. vm_compute. auto. Qed.

(** C30. *)
Theorem C30_round_trip : forall dbg t v ws rest, is_signed t = true -> 1 <= bits t <= 126 ->
  - 2 ^ (bits t - 1) <= v < 2 ^ (bits t - 1) -> Forall space ws -> first_not (is_digit 10) rest ->
  exists s, to_string dbg t v dec = Ok s /\ read_number dbg t (ws ++ s ++ rest) = (rest, Ok v).
Proof. exact round_trip_signed. Qed.
Print Assumptions C30_round_trip.

(** In the other bases only numbers of one decimal digit are read back. *)
Theorem C30_other_bases : forall dbg t v b s, is_signed t = true -> 1 <= bits t <= 126 ->
  - 2 ^ (bits t - 1) <= v < 2 ^ (bits t - 1) -> to_string dbg t v b = Ok s ->
  (read_number dbg t s = ([], Ok v) <-> b = dec \/ Z.abs v < Z.min (to_int b) 10).
Proof. exact read_back_signed. Qed.
Print Assumptions C30_other_bases.

Example C30_case : to_string true i64 (- 2 ^ 63) dec = Ok (zstr "-9223372036854775808") /\
  read_number true i64 (zstr "-9223372036854775808") = ([], Ok (- 2 ^ 63)) /\
  to_string true i8 (-128) hex = Ok (zstr "-80") /\ read_number true i8 (zstr "-80") = ([], Ok (-80)) /\
  to_string true i8 12 hex = Ok (zstr "c") /\ read_number true i8 (zstr "c") = (zstr "c", Throw InvalidArgument).
Proof. vm_compute. auto 10. Qed.

(** C31. The text is whitespace and [r]. If a number follows it is consumed and the result is its value,
    or 0 when the type cannot hold it; if not, std::invalid_argument. *)
Theorem C31_read_number : forall dbg t s, exists ws r, s = ws ++ r /\ maximal space ws r /\
  ((exists lit v x rest, r = lit ++ rest /\ lit <> [] /\ read_number dbg t s = (rest, Ok x) /\
     (in_range (is_signed t) (bits t) v -> x = v) /\ (~ in_range (is_signed t) (bits t) v -> x = 0) /\
     (if is_signed t then signed_text r v rest else unsigned_text r v rest)) \/
   (read_number dbg t s = (r, Throw InvalidArgument) /\ first_not (is_digit 10) r /\
     (is_signed t = true -> forall r', r = 45 :: r' -> first_not (is_digit 10) r'))).
Proof.
  intros dbg t s. destruct (read_number_total dbg t s) as (ws & r & E & M & [(lit & v & rest & E2 & N & R & T)|H]);
    exists ws, r; (split; [exact E|]); (split; [exact M|]); [left|right; exact H].
  exists lit, v, (clip t v), rest. repeat split; auto; unfold clip; intro Q.
  - apply fits_iff in Q. rewrite Q. reflexivity.
  - destruct (fits t v) eqn:F; [|reflexivity]. apply fits_iff in F. contradiction.
Qed.
Print Assumptions C31_read_number.

(** The texts of numbers have one value and one end. *)
Theorem C31_signed_unique : forall r v rest v' rest', signed_text r v rest -> signed_text r v' rest' -> v = v' /\ rest = rest'.
Proof. exact signed_text_fun. Qed.
Print Assumptions C31_signed_unique.
Theorem C31_unsigned_unique : forall r v rest v' rest', unsigned_text r v rest -> unsigned_text r v' rest' -> v = v' /\ rest = rest'.
Proof. exact unsigned_text_fun. Qed.
Print Assumptions C31_unsigned_unique.

Example C31_case : read_number true u8 (zstr " 0256;") = (zstr ";", Ok 174) /\ read_number true u8 (zstr "0b102") = (zstr "2", Ok 2) /\
  read_number true u8 (zstr "0xg") = (zstr "xg", Ok 0) /\ read_number true u8 (zstr "089") = ([], Ok 89) /\
  read_number true u8 (zstr "300!") = (zstr "!", Ok 0) /\ read_number true u8 (zstr " -1") = (zstr "-1", Throw InvalidArgument) /\
  read_number true i8 (zstr " -129") = ([], Ok 0) /\ read_number true i8 (zstr "+1") = (zstr "+1", Throw InvalidArgument) /\
  read_number true u8 (zstr "  ") = ([], Throw InvalidArgument).
Proof. vm_compute. auto 10. Qed.

(** C32. *)
Theorem C32_to_string : forall dbg t v b, 1 <= bits t <= 126 -> in_range (is_signed t) (bits t) v -> exists ds,
  to_string dbg t v b = Ok (written (is_signed t) (to_int b) v ds) /\
  ds <> [] /\ denotes (to_int b) ds (Z.abs v) /\ canonical ds.
Proof. exact to_string_spec. Qed.
Print Assumptions C32_to_string.

Theorem C32_injective : forall dbg dbg' t v v' b s, 1 <= bits t <= 126 ->
  in_range (is_signed t) (bits t) v -> in_range (is_signed t) (bits t) v' ->
  to_string dbg t v b = Ok s -> to_string dbg' t v' b = Ok s -> v = v'.
Proof. exact to_string_injective. Qed.
Print Assumptions C32_injective.

Example C32_case : to_string true u64 (2 ^ 63) bin = Ok (zstr "0b1000000000000000000000000000000000000000000000000000000000000000") /\
  to_string true u64 255 oct = Ok (zstr "0377") /\ to_string true i64 255 oct = Ok (zstr "377") /\ to_string true i64 (-255) hex = Ok (zstr "-ff").
Proof. vm_compute. auto. Qed.
(** The buffer is too small for 127 and more binary digits (an extended integer type of 128 bits). *)
Example C32_128_bits : to_string true {| is_signed := false; bits := 128 |} (2 ^ 127) bin = Ok [].
Proof. vm_compute. reflexivity. Qed.

(** Properties of the fast ways of the bundled fast_float: eight digits at a time, and Clinger's fast path. *)
From Verif Require Import Base FloatSpec FloatTextSpec FloatComputeModel FloatParseModel FloatFastModel
  FloatRoundProofs FloatEiselProofs FloatSwarProofs FloatLexProofs FloatFastProofs.
Local Open Scope Z_scope.

(** ** C84 *)
(** The test on 64-bit words accepts exactly the words of eight digits, whatever the sign of char and the order of
    the bytes in memory. *)
Theorem C84_test : forall (lw : platform) c0 c1 c2 c3 c4 c5 c6 c7, Forall (fun c => -128 <= c < 128) [c0; c1; c2; c3; c4; c5; c6; c7] ->
  is_made_of_eight_digits_fast (read8 c0 c1 c2 c3 c4 c5 c6 c7) = true <->
  Forall is_digit [c0; c1; c2; c3; c4; c5; c6; c7].
Proof.
  intros lw c0 c1 c2 c3 c4 c5 c6 c7 C. rewrite (is_made_ok _ _ _ _ _ _ _ _ C), digits_forallb. reflexivity.
Qed.
Print Assumptions C84_test.
Theorem C84_value : forall (lw : platform) c0 c1 c2 c3 c4 c5 c6 c7, Forall is_digit [c0; c1; c2; c3; c4; c5; c6; c7] ->
  parse_eight_digits_unrolled (read8 c0 c1 c2 c3 c4 c5 c6 c7) = decimal [c0; c1; c2; c3; c4; c5; c6; c7].
Proof.
  intros lw c0 c1 c2 c3 c4 c5 c6 c7 D. rewrite parse_eight_ok by (apply digits_forallb; exact D).
  rewrite decimal_fold. lia.
Qed.
Print Assumptions C84_value.
(** "20240229" and "2024-229"; "99999999" *)
Example C84_case : Forall (fun lw : platform =>
  is_made_of_eight_digits_fast (read8 50 48 50 52 48 50 50 57) = true /\
  is_made_of_eight_digits_fast (read8 50 48 50 52 45 50 50 57) = false /\
  is_made_of_eight_digits_fast (read8 50 48 50 52 (-80) 50 50 57) = false /\
  parse_eight_digits_unrolled (read8 50 48 50 52 48 50 50 57) = 20240229 /\
  parse_eight_digits_unrolled (read8 57 57 57 57 57 57 57 57) = 99999999) [x86_64; s390x].
Proof. repeat constructor. Qed.

(** ** C85 *)
(** Whenever the fast path is taken it gives the nearest pattern, in every rounding mode, also if the quotient or the product
    is rounded to double or long double before it is rounded to the type of the result. *)
Theorem C85_double : forall (lw : platform) rm pns, 0 <= num_mantissa pns ->
  fast_path double_format binary64 rm pns = Ok None \/
  exists n, fast_path double_format binary64 rm pns = Ok (Some (signed_pattern binary64 (negative pns) n)) /\
    nearest_decimal binary64 (num_mantissa pns) (exponent pns) n.
Proof.
  intros lw rm pns M. destruct (fast_path_spec _ _ sup_double rm pns M) as (o & E & H). rewrite E.
  destruct o as [v|]; [|left; reflexivity]. destruct H as (n & -> & N & _). right. exists n. split; [reflexivity|exact N].
Qed.
Print Assumptions C85_double.
Theorem C85_float : forall (lw : platform) rm pns, 0 <= num_mantissa pns ->
  fast_path float_format binary32 rm pns = Ok None \/
  exists n, fast_path float_format binary32 rm pns = Ok (Some (signed_pattern binary32 (negative pns) n)) /\
    nearest_decimal binary32 (num_mantissa pns) (exponent pns) n.
Proof.
  intros lw rm pns M. destruct (fast_path_spec _ _ sup_float rm pns M) as (o & E & H). rewrite E.
  destruct o as [v|]; [|left; reflexivity]. destruct H as (n & -> & N & _). right. exists n. split; [reflexivity|exact N].
Qed.
Print Assumptions C85_float.
(** The test of the rounding mode tells round to nearest from all others, where it is made at all. *)
Theorem C85_rounds_to_nearest : forall (lw : platform) rm, rounds_to_nearest rm = true <-> rm = ToNearest /\ evaluates choice <> AsLongDouble.
Proof. intros lw rm. exact (rounds_to_nearest_ok rm). Qed.
Print Assumptions C85_rounds_to_nearest.

(** fast_float.h:539: "Largest integer value v so that (5**index * v) <= 1<<53": not from index 14 on, where the table
    skips a power; the smaller limits only make the path be taken less often. *)
Theorem C85_table_comment_refuted :
  ~ (forall i v, nth_error (max_mantissa double_format) i = Some v -> 5 ^ Z.of_nat i * v <= 2 ^ 53 < 5 ^ Z.of_nat i * (v + 1)).
Proof.
  intro H. specialize (H 14%nat (2 ^ 53 / 5 ^ 15) eq_refl). vm_compute in H. destruct H as [_ H]. discriminate.
Qed.
Print Assumptions C85_table_comment_refuted.

Definition pns_of (e m : Z) : parsed :=
  {| exponent := e; num_mantissa := m; lastmatch := []; negative := true; valid := true; too_many_digits := false; integer := []; fraction := None |}.
(** -1/10: one division under round to nearest, not taken under the other modes; -3e22 in every mode; the float -1/10 by way
    of double; no division and only exact products if everything is rounded to long double; nothing depends on the sign that
    the rounding mode gives to zero *)
Example C85_case :
  (let lw := x86_64 in
    fast_path double_format binary64 ToNearest (pns_of (-1) 1) = Ok (Some 0xBFB999999999999A) /\
    fast_path double_format binary64 Upward (pns_of (-1) 1) = Ok None /\
    fast_path double_format binary64 ToNearest (pns_of 22 3) = Ok (Some (2 ^ 63 + 0x449969368974c05b)) /\
    fast_path double_format binary64 Downward (pns_of 22 0) = Ok (Some (2 ^ 63)) /\
    fast_path double_format binary64 TowardZero (pns_of 15 3) = Ok (Some 0xc32550f7dca70000) /\
    fast_path float_format binary32 ToNearest (pns_of (-1) 1) = Ok (Some 0xBDCCCCCD)) /\
  (let lw := s390x in
    fast_path double_format binary64 ToNearest (pns_of (-1) 1) = Ok (Some 0xBFB999999999999A) /\
    fast_path double_format binary64 Downward (pns_of 22 0) = Ok (Some (2 ^ 63)) /\
    fast_path float_format binary32 ToNearest (pns_of (-1) 1) = Ok (Some 0xBDCCCCCD) /\
    fast_path float_format binary32 Upward (pns_of (-1) 1) = Ok None) /\
  (let lw := i386 in
    fast_path double_format binary64 ToNearest (pns_of (-1) 1) = Ok None /\
    fast_path double_format binary64 ToNearest (pns_of 22 3) = Ok None /\
    fast_path double_format binary64 Upward (pns_of 22 0) = Ok (Some (2 ^ 63))).
Proof. vm_compute. repeat split. Qed.
(** -3e15, rounded to long double and then to double *)
Example C85_case_wide : let lw := i386 in fast_path double_format binary64 TowardZero (pns_of 15 3) = Ok (Some 0xc32550f7dca70000).
Proof.
  cbv zeta. destruct (C85_double i386 TowardZero (pns_of 15 3)) as [E|(n & E & N)]; [cbn; lia| |].
  - exfalso. unfold fast_path in E. cbn [negb andb exponent num_mantissa too_many_digits pns_of] in E.
    change (@lowest_exponent i386 double_format) with 0 in E. change (@rounds_to_nearest i386 TowardZero) with false in E.
    change (array_at (max_mantissa double_format) 15) with (Ok (2 ^ 53 / 5 ^ 16)) in E. cbn [bind] in E. change (3 <=? 2 ^ 53 / 5 ^ 16) with true in E.
    cbn [zero_first choice i386 Z.leb Z.compare Pos.compare Pos.compare_cont andb Z.eqb] in E. destruct (exact_power_of_ten double_format binary64 15); discriminate E.
  - rewrite E. f_equal. f_equal. cbn [negative pns_of num_mantissa exponent] in *.
    assert (N' : nearest_decimal binary64 3 15 0x432550f7dca70000) by (vm_compute; repeat split; discriminate).
    unfold nearest_decimal in N, N'. rewrite (nearest_unique _ good_binary64 (3 * 10 ^ 15) 1 n 0x432550f7dca70000 eq_refl ltac:(discriminate) N N'). reflexivity.
Qed.

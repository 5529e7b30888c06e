(** Properties of from_chars of the bundled fast_float as a whole. *)
From Coq Require Import String.
From Verif Require Import FloatPlatform Base StrLit FloatSpec FloatTextSpec FloatFromSpec FloatComputeModel FloatParseModel FloatFastModel FloatFromModel
  FloatRoundProofs FloatEiselProofs FloatSwarProofs FloatLexProofs FloatNamesProofs FloatFromProofs FloatLawsProofs.
Local Open Scope list_scope.
Local Open Scope Z_scope.

Definition chars (s : list Z) : Prop := Forall (fun c => -128 <= c < 128) s.
(** The exponent rules of the formats. The library has no hexadecimal numbers: the format hex is that of fixed. *)
Definition format_rule (fmt : chars_format) : exponent_rule :=
  match fmt with General => Optional | Scientific => Required | Fixed | Hex => Forbidden end.
Lemma format_rule_ok fmt : rule_of fmt = format_rule fmt.
Proof. destruct fmt; reflexivity. Qed.

(** ** C88 *)
Theorem C88_double : forall (lw : platform) rm fmt s t u m, chars s -> longest (format_rule fmt) s t u m -> moderate (format_rule fmt) t m ->
  exists bits range, conversion binary64 m bits range /\
    from_chars double_format binary64 rm fmt s =
      Ok {| res_rest := u; res_ec := if range then OutOfRange else NoError; res_value := Some bits |}.
Proof. intros lw rm fmt s t u m C LG MO. rewrite <- format_rule_ok in LG, MO. exact (from_chars_found _ _ sup_double rm fmt s t u m C LG MO). Qed.
Print Assumptions C88_double.
Theorem C88_float : forall (lw : platform) rm fmt s t u m, chars s -> longest (format_rule fmt) s t u m -> moderate (format_rule fmt) t m ->
  exists bits range, conversion binary32 m bits range /\
    from_chars float_format binary32 rm fmt s =
      Ok {| res_rest := u; res_ec := if range then OutOfRange else NoError; res_value := Some bits |}.
Proof. intros lw rm fmt s t u m C LG MO. rewrite <- format_rule_ok in LG, MO. exact (from_chars_found _ _ sup_float rm fmt s t u m C LG MO). Qed.
Print Assumptions C88_float.
Theorem C88_no_number : forall (lw : platform) rm fmt s, chars s -> no_beginning (format_rule fmt) s ->
  from_chars double_format binary64 rm fmt s = Ok {| res_rest := s; res_ec := InvalidArgument; res_value := None |} /\
  from_chars float_format binary32 rm fmt s = Ok {| res_rest := s; res_ec := InvalidArgument; res_value := None |}.
Proof.
  intros lw rm fmt s C NB. rewrite <- format_rule_ok in NB.
  split; [exact (from_chars_not_found _ _ sup_double rm fmt s C NB)|exact (from_chars_not_found _ _ sup_float rm fmt s C NB)].
Qed.
Print Assumptions C88_no_number.
(** One of the two cases applies, and what is found is determined: the text, the meaning, the bits. *)
Theorem C88_complete : forall fmt s, chars s -> no_beginning (format_rule fmt) s \/ exists t u m, longest (format_rule fmt) s t u m.
Proof.
  intros fmt s C. rewrite <- format_rule_ok. destruct (from_chars_total (lw := x86_64) _ _ sup_double ToNearest fmt s C) as [(NB & _)|(x & u & m & _ & LG & _)]; [left; exact NB|].
  right. exists x, u, m. exact LG.
Qed.
Print Assumptions C88_complete.
Theorem C88_determined : forall r s t u m t' u' m', longest r s t u m -> longest r s t' u' m' -> t = t' /\ u = u' /\ m = m'.
Proof. exact longest_unique. Qed.
Print Assumptions C88_determined.
Lemma denoted_nonneg r t m : denotes r t m -> match m with Number _ d _ => 0 <= d | Special _ _ => True end.
Proof.
  intros [t' neg d e N|]; [|exact I]. destruct N as [neg ip point fp xt x FI FF _ _ _]. apply decimal_nonneg, Forall_app. auto.
Qed.
Theorem C88_bits_determined : forall r t m bits range bits' range', denotes r t m ->
  (conversion binary64 m bits range -> conversion binary64 m bits' range' -> bits = bits' /\ range = range') /\
  (conversion binary32 m bits range -> conversion binary32 m bits' range' -> bits = bits' /\ range = range').
Proof.
  intros r t m bits range bits' range' D. apply denoted_nonneg in D.
  split; [apply (conversion_unique _ _ sup_double)|apply (conversion_unique _ _ sup_float)]; exact D.
Qed.
Print Assumptions C88_bits_determined.
(** For texts of any length nothing undefined happens and the rest is the right one. *)
Theorem C88_any_length : forall (lw : platform) rm fmt s, chars s ->
  exists rd rf, from_chars double_format binary64 rm fmt s = Ok rd /\ from_chars float_format binary32 rm fmt s = Ok rf /\
    res_rest rd = res_rest rf /\ (res_ec rd = InvalidArgument <-> no_beginning (format_rule fmt) s) /\
    (res_ec rf = InvalidArgument <-> no_beginning (format_rule fmt) s) /\
    forall t u m, longest (format_rule fmt) s t u m -> res_rest rd = u.
Proof.
  intros lw rm fmt s C. rewrite <- format_rule_ok.
  destruct (from_chars_total _ _ sup_double rm fmt s C) as [(NB & E)|(t & u & m & rd & LG & E & EU & H)];
  destruct (from_chars_total _ _ sup_float rm fmt s C) as [(NB' & E')|(t' & u' & m' & rf & LG' & E' & EU' & H')].
  - eexists _, _. split; [exact E|]. split; [exact E'|]. cbn. split; [reflexivity|]. split; [tauto|]. split; [tauto|].
    intros t u m (ES & D & _). destruct (NB _ _ _ ES D).
  - destruct LG' as (ES & D & _). destruct (NB _ _ _ ES D).
  - destruct LG as (ES & D & _). destruct (NB' _ _ _ ES D).
  - destruct (longest_unique _ _ _ _ _ _ _ _ LG LG') as (<- & <- & <-). exists rd, rf. split; [exact E|]. split; [exact E'|].
    split; [congruence|]. assert (NN : ~ no_beginning (rule_of fmt) s) by (intro NB; destruct LG as (ES & D & _); exact (NB _ _ _ ES D)).
    assert (K : forall f r, match m with
      | Number neg d e => exists n x x' k, nearest_decimal f d (x' - k) n /\ e = x - k /\ 0 <= k /\ written_exponent (rule_of fmt) t x /\ saturated_signed x x' /\
        res_ec r = (if out_of_range f n d then OutOfRange else NoError) /\ res_value r = Some (signed_pattern f neg n) /\ (moderate (rule_of fmt) t m -> nearest_decimal f d e n)
      | Special neg w => res_ec r = NoError /\ res_value r = Some (signed_pattern f neg (match w with Nan => nan_pattern f | Infinite => infinity f end)) end ->
      res_ec r <> InvalidArgument).
    { clear. intros f r H. destruct m; [|destruct H as [-> _]; discriminate]. destruct H as (n & x & x' & k & _ & _ & _ & _ & _ & -> & _). destruct (out_of_range _ _ _); discriminate. }
    split; [split; [intro X; destruct (K _ _ H X)|tauto]|]. split; [split; [intro X; destruct (K _ _ H' X)|tauto]|].
    intros t1 u1 m1 LG1. destruct (longest_unique _ _ _ _ _ _ _ _ LG LG1) as (_ & <- & _). exact EU.
Qed.
Print Assumptions C88_any_length.

Definition read_double {lw : platform} (s : string) : outcome (list Z * errc * option Z) :=
  r <- from_chars double_format binary64 ToNearest General (zstr s) ;; Ok (res_rest r, res_ec r, res_value r).
Definition read_single {lw : platform} (fmt : chars_format) (s : string) : outcome (list Z * errc * option Z) :=
  r <- from_chars float_format binary32 ToNearest fmt (zstr s) ;; Ok (res_rest r, res_ec r, res_value r).
(** What is read does not depend on the platform (C89_mode); computed for one of them. *)
Lemma read_double_at (lw : platform) s : chars (zstr s) -> read_double (lw := lw) s = read_double (lw := x86_64) s.
Proof. intro C. unfold read_double. rewrite (mode_irrelevant (lw := lw) _ _ sup_double x86_64 ToNearest ToNearest General _ C). reflexivity. Qed.
Lemma read_single_at (lw : platform) fmt s : chars (zstr s) -> read_single (lw := lw) fmt s = read_single (lw := x86_64) fmt s.
Proof. intro C. unfold read_single. rewrite (mode_irrelevant (lw := lw) _ _ sup_float x86_64 ToNearest ToNearest fmt _ C). reflexivity. Qed.
Ltac on_x86_64 lw := repeat (rewrite (read_double_at lw) by (repeat constructor; lia)); repeat (rewrite (read_single_at lw) by (repeat constructor; lia)).
Example C88_case : forall lw : platform,
  read_double "0.1x" = Ok (zstr "x", NoError, Some 0x3FB999999999999A) /\
  read_double "1e" = Ok (zstr "e", NoError, Some 0x3FF0000000000000) /\
  read_double "-1.7976931348623158e308" = Ok ([], NoError, Some 0xFFEFFFFFFFFFFFFF) /\
  read_double "1.7976931348623159e308" = Ok ([], OutOfRange, Some 0x7FF0000000000000) /\
  read_double "9007199254740993.00000000000000000000000000000000001" = Ok ([], NoError, Some 0x4340000000000001) /\
  read_double "9007199254740993.00000000000000000000000000000000000" = Ok ([], NoError, Some 0x4340000000000000) /\
  read_double "2e-324" = Ok ([], OutOfRange, Some 0) /\
  read_double "-Infinity!" = Ok (zstr "!", NoError, Some 0xFFF0000000000000) /\
  read_double "nan(ab_1) " = Ok (zstr " ", NoError, Some 0x7FF8000000000000) /\
  read_double "+1" = Ok (zstr "+1", InvalidArgument, None) /\
  read_single General "16777217.000000000000000000000001" = Ok ([], NoError, Some 0x4B800001) /\
  read_single Fixed "3e5" = Ok (zstr "e5", NoError, Some 0x40400000) /\
  read_single Scientific "3." = Ok (zstr "3.", InvalidArgument, None) /\
  read_single Scientific "-.5E+1z" = Ok (zstr "z", NoError, Some 0xC0A00000).
Proof. intro lw. on_x86_64 lw. vm_compute. repeat split. Qed.
(** The hypotheses are met: a short text. *)
Example C88_hypotheses : longest Optional (zstr "0.1x") (zstr "0.1") (zstr "x") (Number false 1 (-1)) /\ moderate Optional (zstr "0.1") (Number false 1 (-1)) /\
  conversion binary64 (Number false 1 (-1)) 0x3FB999999999999A false.
Proof.
  split; [|split].
  - destruct (from_chars_total (lw := x86_64) _ _ sup_double ToNearest General (zstr "0.1x")) as [(NB & _)|(t & u & m & res & LG & E & EU & _)].
    + repeat constructor; lia.
    + exfalso. apply (NB (zstr "0.1") (zstr "x") (Number false 1 (-1)) eq_refl). constructor.
      apply (number_intro Optional false [48] [46] [49] [] 0); [repeat constructor; lia|repeat constructor; lia|discriminate|right; reflexivity|constructor; discriminate].
    + assert (U : u = zstr "x") by (rewrite <- EU; vm_compute in E; injection E as <-; reflexivity). clear EU. rewrite U in LG. clear U.
      destruct LG as (ES & D & MX). assert (T : t = zstr "0.1") by (apply (app_inv_tail (zstr "x")); symmetry; exact ES). subst t.
      assert (D' : denotes Optional (zstr "0.1") (Number false 1 (-1))).
      { constructor. apply (number_intro Optional false [48] [46] [49] [] 0); [repeat constructor; lia|repeat constructor; lia|discriminate|right; reflexivity|constructor; discriminate]. }
      split; [reflexivity|]. split; [exact D'|exact MX].
  - left. vm_compute. discriminate.
  - apply (conversion_number binary64 false 1 (-1) 0x3FB999999999999A false); [|split; [discriminate|]].
    + vm_compute. repeat split; discriminate.
    + intros [H|[H _]]; vm_compute in H; discriminate.
Qed.

(** ** C89 *)
(** The rounding mode of the thread and the platform do not matter. *)
Theorem C89_mode : forall (lw lw' : platform) rm rm' fmt s, chars s ->
  from_chars (lw := lw) double_format binary64 rm fmt s = from_chars (lw := lw') double_format binary64 rm' fmt s /\
  from_chars (lw := lw) float_format binary32 rm fmt s = from_chars (lw := lw') float_format binary32 rm' fmt s.
Proof. intros lw lw' rm rm' fmt s C. split; [apply (mode_irrelevant _ _ sup_double)|apply (mode_irrelevant _ _ sup_float)]; exact C. Qed.
Print Assumptions C89_mode.
(** Numbers are read in their order. *)
Definition reads {lw : platform} (f : format) (b : binary) (rm : rounding) (s : list Z) (neg : bool) (d e bits : Z) : Prop :=
  longest Optional s s [] (Number neg d e) /\ moderate Optional s (Number neg d e) /\ chars s /\
  exists r, from_chars b f rm General s = Ok r /\ res_value r = Some bits.
Lemma reads_conversion {lw : platform} f b (SUP : supported b f) rm s neg d e bits : reads f b rm s neg d e bits ->
  0 <= d /\ exists range, conversion f (Number neg d e) bits range.
Proof.
  intros (LG & MO & C & r & E & V). destruct (from_chars_found _ _ SUP rm General s s [] _ C LG MO) as (bits' & range & CV & E').
  split; [destruct LG as (_ & D & _); exact (denoted_nonneg _ _ _ D)|]. rewrite E in E'. injection E' as ->. cbn in V. injection V as ->. exists range. exact CV.
Qed.
(** The two formats: the constants of the code and those of the specification. *)
Definition formats (b : binary) (f : format) : Prop := b = double_format /\ f = binary64 \/ b = float_format /\ f = binary32.
Lemma formats_supported b f : formats b f -> supported b f.
Proof. intros [[-> ->]|[-> ->]]; constructor. Qed.
Theorem C89_monotone : forall (lw : platform) f b, formats b f -> forall rm s s' neg d e d' e' bits bits',
  reads f b rm s neg d e bits -> reads f b rm s' neg d' e' bits' ->
  dec_num d e * dec_den e' <= dec_num d' e' * dec_den e -> bits <= bits'.
Proof.
  intros lw f b SUP%formats_supported rm s s' neg d e d' e' bits bits' R R' L. destruct (reads_conversion _ _ SUP _ _ _ _ _ _ R) as (D & r & CV).
  destruct (reads_conversion _ _ SUP _ _ _ _ _ _ R') as (D' & r' & CV'). exact (conversion_monotone _ _ SUP neg d e bits r d' e' bits' r' D D' L CV CV').
Qed.
Print Assumptions C89_monotone.
(** A text that denotes a number of the format exactly gives that number; [decimal * 2^unit_exp = scaled]. *)
Lemma reads_nearest {lw : platform} f b (SUP : supported b f) rm s neg d e bits n : reads f b rm s neg d e bits -> nearest_decimal f d e n -> bits = signed_pattern f neg n.
Proof.
  intros R NR. destruct (reads_conversion _ _ SUP _ _ _ _ _ _ R) as (D & r & CV).
  assert (CV' : conversion f (Number neg d e) (signed_pattern f neg n) (out_of_range f n d)) by (constructor; [exact NR|apply out_of_range_ok]).
  destruct (conversion_unique _ _ SUP (Number neg d e) _ _ _ _ D CV CV') as [-> _]. reflexivity.
Qed.
Theorem C89_exact : forall (lw : platform) f b, formats b f -> forall rm s neg d e bits n, reads f b rm s neg d e bits -> 0 <= n < infinity f ->
  dec_num d e * 2 ^ unit_exp f = scaled f n * dec_den e -> bits = signed_pattern f neg n.
Proof.
  intros lw f b SUP%formats_supported rm s neg d e bits n R N E. apply (reads_nearest f b SUP rm s neg d e bits n R).
  apply (exact_nearest b f SUP); [apply dec_den_pos|exact N|exact E].
Qed.
Print Assumptions C89_exact.
(** Seventeen (nine) significant digits bring back every double (float): the number [d * 10^e] differs from the number
    with the pattern [n] by half a unit of its last place at most. *)
Theorem C89_round_trip_double : forall (lw : platform) rm s neg d e bits n, reads binary64 double_format rm s neg d e bits -> 0 < n < infinity binary64 -> 10 ^ 16 <= d ->
  Z.abs (2 * dec_num d e * 2 ^ 1074 - 2 * scaled binary64 n * dec_den e) <= dec_num 1 e * 2 ^ 1074 -> bits = signed_pattern binary64 neg n.
Proof.
  intros lw rm s neg d e bits n R N D E. apply (reads_nearest _ _ sup_double rm s neg d e bits n R). apply (digits_suffice _ _ sup_double); [exact N|exact D|exact E].
Qed.
Print Assumptions C89_round_trip_double.
Theorem C89_round_trip_float : forall (lw : platform) rm s neg d e bits n, reads binary32 float_format rm s neg d e bits -> 0 < n < infinity binary32 -> 10 ^ 8 <= d ->
  Z.abs (2 * dec_num d e * 2 ^ 149 - 2 * scaled binary32 n * dec_den e) <= dec_num 1 e * 2 ^ 149 -> bits = signed_pattern binary32 neg n.
Proof.
  intros lw rm s neg d e bits n R N D E. apply (reads_nearest _ _ sup_float rm s neg d e bits n R). apply (digits_suffice _ _ sup_float); [exact N|exact D|exact E].
Qed.
Print Assumptions C89_round_trip_float.
(** Sixteen digits do not suffice: the first double after 1 has the sixteen digits 1.000000000000000. *)
Theorem C89_sixteen_refuted :
  ~ (forall n d e, 0 < n < infinity binary64 -> 10 ^ 15 <= d ->
      Z.abs (2 * dec_num d e * 2 ^ 1074 - 2 * scaled binary64 n * dec_den e) <= dec_num 1 e * 2 ^ 1074 -> nearest_decimal binary64 d e n).
Proof.
  intro H. assert (A : nearest_decimal binary64 (10 ^ 15) (-15) 0x3FF0000000000001).
  { apply H; clear H; [vm_compute; auto|lia|]. vm_compute. discriminate. }
  clear H. destruct A as (_ & A & _). destruct (A eq_refl) as [A' _]. vm_compute in A'. apply A'. reflexivity.
Qed.
Print Assumptions C89_sixteen_refuted.
Example C89_case : forall lw : platform,
  read_double "3.1415926535897931" = Ok ([], NoError, Some 0x400921FB54442D18) /\
  read_double "3.1415926535897931159979634685441851615905761718750" = Ok ([], NoError, Some 0x400921FB54442D18) /\
  read_single General "3.14159274" = Ok ([], NoError, Some 0x40490FDB) /\
  Z.abs (2 * dec_num 31415926535897931 (-16) * 2 ^ 1074 - 2 * scaled binary64 0x400921FB54442D18 * dec_den (-16)) <= dec_num 1 (-16) * 2 ^ 1074.
Proof. intro lw. on_x86_64 lw. vm_compute. repeat split; discriminate. Qed.

(** ** C90 *)
(** Without the limit on length or exponent the result is wrong: 0.0...01e10000000000, with 10^10 - 1 zeros after the point,
    is the number 1, but the exponent is cut off while it is read, and zero and a range error come out. *)
Theorem C90_any_length_refuted : forall (lw : platform) rm,
  ~ (forall s t u m, chars s -> longest Optional s t u m ->
      exists bits range, conversion binary64 m bits range /\
        from_chars double_format binary64 rm General s =
          Ok {| res_rest := u; res_ec := if range then OutOfRange else NoError; res_value := Some bits |}).
Proof.
  intros lw rm H. remember (Z.to_nat (10 ^ 10 - 1)) as N eqn:EN. assert (E : Z.of_nat N = 10 ^ 10 - 1) by (rewrite EN; apply Z2Nat.id; lia). clear EN.
  destruct (H _ _ _ _ (long_chars N) (long_longest N E)) as (bits & range & CV & F). rewrite (long_wrong _ _ sup_double rm N E) in F.
  assert (F2 : bits = 0) by congruence. clear F. apply (one_not_zero _ _ sup_double).
  revert F2. remember (Number false 1 0) as m eqn:EM. destruct CV as [neg d e n range NR _|neg|neg]; [|discriminate|discriminate].
  injection EM as -> -> ->. cbn [signed_pattern]. intros ->. exact NR.
Qed.
Print Assumptions C90_any_length_refuted.
(** What happens to the exponent. *)
Theorem C90_exponent : forall (lw : platform) rm s t u neg d e, chars s -> longest Optional s t u (Number neg d e) ->
  exists n x x' k, written_exponent Optional t x /\ e = x - k /\ 0 <= k /\
    (x' = x \/ 2 ^ 28 <= x' <= x \/ x <= x' <= - 2 ^ 28) /\ Z.abs x' < 10 * 2 ^ 28 /\ nearest_decimal binary64 d (x' - k) n /\
    exists ec, from_chars double_format binary64 rm General s = Ok {| res_rest := u; res_ec := ec; res_value := Some (signed_pattern binary64 neg n) |}.
Proof.
  intros lw rm s t u neg d e C LG. destruct (from_chars_total _ _ sup_double rm General s C) as [(NB & _)|(t' & u' & m' & res & LG' & E & EU & H)].
  { destruct LG as (ES & D & _). destruct (NB _ _ _ ES D). }
  destruct (longest_unique _ _ _ _ _ _ _ _ LG LG') as (<- & <- & <-). destruct H as (n & x & x' & k & NR & EX & KP & WE & SAT & EC & EV & _).
  exists n, x, x', k. split; [exact WE|]. split; [exact EX|]. split; [exact KP|].
  unfold saturated_signed, saturated in SAT. destruct (Z.ltb_spec x 0) as [XN|XN].
  - split; [lia|]. split; [lia|]. split; [exact NR|]. exists (res_ec res). rewrite E. destruct res; cbn in *; subst; reflexivity.
  - split; [lia|]. split; [lia|]. split; [exact NR|]. exists (res_ec res). rewrite E. destruct res; cbn in *; subst; reflexivity.
Qed.
Print Assumptions C90_exponent.
(** The digits after 268435456 and beyond are dropped: 1e9999999999 is read like 1e999999999, which is out of range as well. *)
Example C90_case : forall lw : platform,
  (r <- parse_number_string General (zstr "1e9999999999") ;; Ok (exponent r)) = Ok 999999999 /\
  (r <- parse_number_string General (zstr "1e-268435455") ;; Ok (exponent r)) = Ok (-268435455) /\
  read_double "1e9999999999" = Ok ([], OutOfRange, Some 0x7FF0000000000000).
Proof. intro lw. on_x86_64 lw. rewrite !(parse_platform lw x86_64). vm_compute. repeat split. Qed.

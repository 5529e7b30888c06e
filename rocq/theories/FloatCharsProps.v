(** Properties of utki::from_chars and of string_parser::read_number for floating point types. *)
From Coq Require Import String.
From Verif Require Import FloatPlatform Base StrLit FloatSpec FloatTextSpec FloatFromSpec FloatParseModel FloatFastModel FloatFromModel FloatCharsModel
  FloatRoundProofs FloatEiselProofs FloatFromProofs FloatLawsProofs FloatCharsProofs ParserModel ParserSpec ParserCallSpec.
Local Open Scope list_scope.
Local Open Scope Z_scope.

Definition chars (s : list Z) : Prop := Forall (fun c => -128 <= c < 128) s.
(** The exponent rules: required, forbidden, optional. *)
Definition fmt_rule (fmt : utki_format) : exponent_rule :=
  match fmt with scientific => Required | fixed | hexadecimal => Forbidden | general | other => Optional end.
Lemma fmt_rule_ok fmt : rule fmt = fmt_rule fmt.
Proof. destruct fmt; reflexivity. Qed.
(** The precision of the conversion: long double has that of double. *)
Definition precision (t : target) : format := match t with Float => binary32 | Double | LongDouble => binary64 end.
Lemma precision_ok t : format_of t = precision t.
Proof. destruct t; reflexivity. Qed.

(** ** C91 *)
Theorem C91_found : forall (lw : platform) t rm fmt s x u m, chars s -> longest (fmt_rule fmt) s x u m -> moderate (fmt_rule fmt) x m ->
  exists bits range, conversion (precision t) m bits range /\
    utki_from_chars t rm fmt s =
      Ok {| res_rest := u; res_ec := if range then OutOfRange else NoError;
            res_value := match t, range with LongDouble, true => None | _, _ => Some bits end |}.
Proof.
  intros lw t rm fmt s x u m C LG MO. rewrite <- fmt_rule_ok in LG, MO. rewrite <- precision_ok.
  destruct (utki_found t rm fmt s x u m C LG MO) as (bits & range & CV & E). exists bits, range. split; [exact CV|]. rewrite E. destruct t, range; reflexivity.
Qed.
Print Assumptions C91_found.
Theorem C91_not_found : forall (lw : platform) t rm fmt s, chars s -> no_beginning (fmt_rule fmt) s ->
  utki_from_chars t rm fmt s = Ok {| res_rest := s; res_ec := FloatParseModel.InvalidArgument; res_value := None |}.
Proof. intros lw t rm fmt s C NB. rewrite <- fmt_rule_ok in NB. exact (utki_not_found t rm fmt s C NB). Qed.
Print Assumptions C91_not_found.
(** Texts of any length: there is a result, it leaves an end of the text, a proper one unless there is no number. *)
Theorem C91_total : forall (lw : platform) t rm fmt s, chars s -> exists r, utki_from_chars t rm fmt s = Ok r /\
  (no_beginning (fmt_rule fmt) s /\ res_ec r = FloatParseModel.InvalidArgument /\ res_rest r = s /\ res_value r = None \/
   exists x m, longest (fmt_rule fmt) s x (res_rest r) m /\ res_ec r <> FloatParseModel.InvalidArgument /\ (res_ec r = NoError -> res_value r <> None)).
Proof.
  intros lw t rm fmt s C. rewrite <- fmt_rule_ok, <- rule_ok.
  destruct (from_chars_total _ _ (target_supported t) rm (to_fast_float_format fmt) s C) as [(NB & E)|(x & u & m & r & LG & E & EU & H)].
  - eexists. split; [apply utki_not_found; [exact C|rewrite <- rule_ok; exact NB]|]. left. auto.
  - assert (EC : res_ec r <> FloatParseModel.InvalidArgument /\ res_value r <> None).
    { clear - H. destruct m as [neg d e|neg w].
      - destruct H as (n & x0 & x' & k & _ & _ & _ & _ & _ & -> & -> & _). destruct (out_of_range _ _ _); split; discriminate.
      - destruct H as [-> ->]. split; discriminate. }
    destruct EC as [EC EV]. destruct t; cbn [binary_of format_of] in E.
    + exists r. split; [exact E|]. right. exists x, m. rewrite EU. auto.
    + exists r. split; [exact E|]. right. exists x, m. rewrite EU. auto.
    + unfold utki_from_chars, from_chars_long_double, from_chars_double. rewrite E. eexists. split; [reflexivity|]. right. exists x, m. cbn [res_rest res_ec res_value].
      rewrite EU. split; [exact LG|]. split; [exact EC|]. intros ->. discriminate.
Qed.
Print Assumptions C91_total.
(** The rounding mode of the thread and the platform do not matter. *)
Theorem C91_mode : forall (lw lw' : platform) t rm rm' fmt s, chars s ->
  utki_from_chars (lw := lw) t rm fmt s = utki_from_chars (lw := lw') t rm' fmt s.
Proof.
  intros lw lw' t rm rm' fmt s C. destruct t; unfold utki_from_chars, from_chars_float, from_chars_long_double, from_chars_double.
  - exact (mode_irrelevant _ _ sup_float lw' rm rm' _ s C).
  - exact (mode_irrelevant _ _ sup_double lw' rm rm' _ s C).
  - rewrite (mode_irrelevant _ _ sup_double lw' rm rm' _ s C). reflexivity.
Qed.
Print Assumptions C91_mode.
Definition run {lw : platform} (t : target) (fmt : utki_format) (s : string) : outcome (list Z * FloatParseModel.errc * option Z) :=
  r <- utki_from_chars t ToNearest fmt (zstr s) ;; Ok (res_rest r, res_ec r, res_value r).
Lemma run_at (lw : platform) t fmt s : chars (zstr s) -> run (lw := lw) t fmt s = run (lw := x86_64) t fmt s.
Proof. intro C. unfold run. rewrite (C91_mode lw x86_64 t ToNearest ToNearest fmt _ C). reflexivity. Qed.
Example C91_case : forall lw : platform,
  run Float general "0.1;" = Ok (zstr ";", NoError, Some 0x3DCCCCCD) /\
  run Double general "0.1;" = Ok (zstr ";", NoError, Some 0x3FB999999999999A) /\
  run LongDouble general "0.1;" = Ok (zstr ";", NoError, Some 0x3FB999999999999A) /\
  run Double general "1e999" = Ok ([], OutOfRange, Some 0x7FF0000000000000) /\
  run LongDouble general "1e999" = Ok ([], OutOfRange, None) /\
  run Float general "1e39" = Ok ([], OutOfRange, Some 0x7F800000) /\
  run Double scientific "12" = Ok (zstr "12", FloatParseModel.InvalidArgument, None) /\
  run Double fixed "12e2" = Ok (zstr "e2", NoError, Some 0x4028000000000000).
Proof. intro lw. repeat (rewrite (run_at lw) by (repeat constructor; lia)). vm_compute. repeat split. Qed.
(** The format hex does not read hexadecimal numbers: of "1f" it reads the 1 in decimal. *)
Definition hex_digit (c : Z) : Prop := 48 <= c <= 57 \/ 97 <= c <= 102 \/ 65 <= c <= 70.
Theorem C91_hex_refuted : forall (lw : platform) t rm,
  ~ (forall s, s <> [] -> Forall hex_digit s -> exists ec v, utki_from_chars t rm hexadecimal s = Ok {| res_rest := []; res_ec := ec; res_value := v |}).
Proof.
  intros lw t rm H. destruct (H [49; 102]) as (ec & v & E); [discriminate|repeat constructor; unfold hex_digit; lia|].
  revert E. rewrite (C91_mode lw x86_64 t rm ToNearest) by (repeat constructor; lia). destruct t; vm_compute; discriminate.
Qed.
Print Assumptions C91_hex_refuted.
(** The format hex is the format fixed. *)
Theorem C91_hex : forall (lw : platform) t rm s, chars s -> utki_from_chars t rm hexadecimal s = utki_from_chars t rm fixed s.
Proof.
  intros lw t rm s C. assert (K : forall b f, FloatFromModel.from_chars b f rm Hex s = FloatFromModel.from_chars b f rm Fixed s).
  { intros b f. reflexivity. }
  destruct t; unfold utki_from_chars, from_chars_float, from_chars_long_double, from_chars_double; cbn [to_fast_float_format]; rewrite K; reflexivity.
Qed.
Print Assumptions C91_hex.
(** A long double gets the precision of a double only: the extended format of x86 with its 64 bits of significand
    (the leading one explicit in memory, implicit here) has a number nearer to 0.1. *)
(** The numbers of the double format are numbers of the extended one. *)
Definition same_number (n n80 : Z) : Prop := scaled binary64 n * 2 ^ (unit_exp binary80 - unit_exp binary64) = scaled binary80 n80.
Theorem C91_long_double_refuted : forall (lw : platform) rm,
  ~ (forall s d e, longest Optional s s [] (Number false d e) -> moderate Optional s (Number false d e) -> chars s ->
      exists bits n80, utki_from_chars LongDouble rm general s = Ok {| res_rest := []; res_ec := NoError; res_value := Some bits |} /\
        same_number bits n80 /\ nearest_decimal binary80 d e n80).
Proof.
  intros lw rm H. assert (CH : chars [48; 46; 49]) by (repeat constructor; lia).
  assert (D : FloatTextSpec.denotes Optional [48; 46; 49] (Number false 1 (-1))).
  { constructor. apply (FloatTextSpec.number_intro Optional false [48] [46] [49] [] 0); [repeat constructor; lia|repeat constructor; lia|discriminate|right; reflexivity|constructor; discriminate]. }
  destruct (H [48; 46; 49] 1 (-1)) as (bits & n80 & E & SN & NR).
  - split; [reflexivity|]. split; [exact D|]. intros t' u' m' ET _. rewrite ET, app_length. lia.
  - left. vm_compute. discriminate.
  - exact CH.
  - assert (B : bits = 0x3FB999999999999A) by (clear - E CH; rewrite (C91_mode lw x86_64 _ rm ToNearest _ _ CH) in E; vm_compute in E; congruence). subst bits. clear E H.
    assert (NX : nearest_decimal binary80 1 (-1) ((16383 - 4) * 2 ^ 63 + 5534023222112865485)).
    { apply (proj2 (nearest_unfold binary80 _ _ _)). vm_compute. repeat split; discriminate. }
    assert (G : good_format binary80) by (split; vm_compute; repeat split; discriminate).
    assert (EQ : n80 = (16383 - 4) * 2 ^ 63 + 5534023222112865485).
    { refine (nearest_unique binary80 G (dec_num 1 (-1)) (dec_den (-1)) _ _ _ _ NR NX); [reflexivity|]. clear. vm_compute. discriminate. }
    subst n80. clear - SN. vm_compute in SN. discriminate.
Qed.
Print Assumptions C91_long_double_refuted.

(** ** C92 *)
Theorem C92_found : forall (lw : platform) dbg t rm ws s x u m, chars s -> maximal space ws s -> longest Optional s x u m -> moderate Optional x m ->
  exists bits range, conversion (precision t) m bits range /\
    read_floating dbg t rm (ws ++ s) = (u, Ok (if range then 0 else bits)).
Proof.
  intros lw dbg t rm ws s x u m C M LG MO. rewrite <- precision_ok. exact (read_floating_found dbg t rm ws s x u m C M LG MO).
Qed.
Print Assumptions C92_found.
Theorem C92_not_found : forall (lw : platform) dbg t rm ws s, chars s -> maximal space ws s -> no_beginning Optional s ->
  read_floating dbg t rm (ws ++ s) = (s, Throw Base.InvalidArgument).
Proof. exact @read_floating_not_found. Qed.
Print Assumptions C92_not_found.
(** Texts of any length: nothing undefined, no failed assertion, and what is left is an end of the text. *)
Theorem C92_total : forall (lw : platform) dbg t rm s, chars s -> exists front rest r, read_floating dbg t rm s = (rest, r) /\ s = front ++ rest /\
  ((exists v, r = Ok v) \/ r = Throw Base.InvalidArgument).
Proof.
  intros lw dbg t rm s C. destruct (ParserProofs.skip_whitespaces_spec s) as (ws & s' & -> & M & SK).
  assert (C' : chars s') by (apply Forall_app in C; tauto).
  destruct (utki_cases general s' C') as [NB|(x & u & m & LG)].
  - exists ws, s', (Throw Base.InvalidArgument). split; [apply (C92_not_found lw); assumption|]. auto.
  - destruct (C91_total lw t rm general s' C') as (r & E & [(NB & _)|(x' & m' & LG' & EC & EV)]).
    { destruct LG as (ES & D & _). destruct (NB _ _ _ ES D). }
    destruct (longest_unique _ _ _ _ _ _ _ _ LG LG') as (<- & -> & <-). clear LG'.
    assert (XN : (0 < length x)%nat).
    { destruct (utki_total t rm general s' C') as (r' & E' & _ & K). rewrite E in E'. injection E' as <-. destruct LG as (ES & _).
      rewrite ES in K. cbn [as_fc fc_ec fc_len] in K. rewrite app_length in K. destruct (res_ec r); [| |]; try congruence; specialize (K ltac:(discriminate)); lia. }
    exists (ws ++ x), (res_rest r). unfold read_floating. unfold andthen at 1. rewrite SK. unfold andthen at 1, get_view at 1.
    unfold andthen at 1, fail at 1. rewrite E. unfold finish_number.
    remember (fc_len (as_fc s' r)) as l eqn:EL.
    destruct LG as (ES & _). assert (LX : l = N.of_nat (length x)) by (rewrite EL; cbn [as_fc fc_len]; rewrite ES at 1; rewrite app_length; lia).
    assert (SB : substr_from s' l = Ok (res_rest r)) by (rewrite ES at 1; rewrite LX; apply ParserProofs.substr_from_app).
    assert (AS : assert_ dbg (0 <? l)%N = Ok tt) by (replace (0 <? l)%N with true by lia; destruct dbg; reflexivity).
    unfold as_fc. cbn [fc_ec fc_value]. unfold andthen, fail, get_view, set_view, ret.
    destruct (res_ec r) eqn:EEC; [| |]; try congruence; rewrite AS, SB; eexists; (split; [reflexivity|]); rewrite <- app_assoc, <- ES; (split; [reflexivity|]); left.
    all: try (eexists; reflexivity). all: destruct (res_value r) as [v|]; [eexists; reflexivity|]. all: try (destruct (EV eq_refl eq_refl)).
Qed.
Print Assumptions C92_total.
(** The rounding mode of the thread and the platform do not matter. *)
Theorem C92_mode : forall (lw lw' : platform) dbg t rm rm' s, chars s ->
  read_floating (lw := lw) dbg t rm s = read_floating (lw := lw') dbg t rm' s.
Proof.
  intros lw lw' dbg t rm rm' s C. destruct (ParserProofs.skip_whitespaces_spec s) as (ws & s' & -> & M & SK). apply Forall_app in C. destruct C as [_ C].
  unfold read_floating, andthen, get_view, fail. rewrite SK. rewrite (C91_mode lw lw' t rm rm' general s' C). reflexivity.
Qed.
Print Assumptions C92_mode.
(** A number beyond the range is not told from zero. *)
Theorem C92_range_refuted : forall (lw : platform) dbg t rm,
  ~ (forall s x u d e, chars s -> longest Optional s x u (Number false d e) -> moderate Optional x (Number false d e) ->
      (exists v, read_floating dbg t rm s = (u, Ok v) /\ nearest_decimal (precision t) d e v) \/ snd (read_floating dbg t rm s) = Throw Base.OutOfRange).
Proof.
  intros lw dbg t rm H. pose (s := zstr "1e999"). assert (CH : chars s) by (repeat constructor; lia).
  assert (D : FloatTextSpec.denotes Optional s (Number false 1 999)).
  { constructor. apply (FloatTextSpec.number_intro Optional false [49] [] [] [101; 57; 57; 57] 999); [repeat constructor; lia|constructor|discriminate|left; auto|].
    apply (exponent_some Optional 101 [] false [57; 57; 57]); [discriminate|auto|constructor|repeat constructor; lia|discriminate]. }
  assert (LG : longest Optional s s [] (Number false 1 999)).
  { split; [reflexivity|]. split; [exact D|]. intros t' u' m' ET _. rewrite ET, app_length. lia. }
  assert (R : read_floating dbg t rm s = ([], Ok 0)) by (rewrite (C92_mode lw x86_64 dbg t rm ToNearest s CH); destruct dbg, t; vm_compute; reflexivity).
  destruct (H s s [] 1 999 CH LG) as [(v & E & NR)|E].
  - left. vm_compute. discriminate.
  - rewrite R in E. assert (v = 0) by congruence. subst v. destruct NR as (_ & _ & NR).
    destruct t; (destruct NR as [NR _]; [vm_compute; reflexivity|]; vm_compute in NR; apply NR; reflexivity).
  - rewrite R in E. discriminate.
Qed.
Print Assumptions C92_range_refuted.
Definition parse {lw : platform} (t : target) (s : string) : list Z * outcome Z := read_floating true t ToNearest (zstr s).
Lemma parse_at (lw : platform) t s : chars (zstr s) -> parse (lw := lw) t s = parse (lw := x86_64) t s.
Proof. intro C. exact (C92_mode lw x86_64 true t ToNearest ToNearest _ C). Qed.
Example C92_case : forall lw : platform,
  parse Float " 0.1, 2" = (zstr ", 2", Ok 0x3DCCCCCD) /\ parse Double " -1.5e3 " = (zstr " ", Ok 0xC097700000000000) /\
  parse LongDouble "1e999x" = (zstr "x", Ok 0) /\ parse Double "1e999x" = (zstr "x", Ok 0) /\ parse Float "-1e-50" = ([], Ok 0) /\
  parse Double "-0" = ([], Ok 0x8000000000000000) /\
  parse Double "  +1" = (zstr "+1", Throw Base.InvalidArgument) /\ parse Float "inf" = ([], Ok 0x7F800000).
Proof. intro lw. repeat (rewrite (parse_at lw) by (repeat constructor; lia)). vm_compute. repeat split. Qed.

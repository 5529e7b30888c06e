(** utki::from_chars and read_number for floating point types. *)
From Verif Require Import FloatPlatform Base FloatSpec FloatTextSpec FloatFromSpec FloatComputeModel FloatParseModel FloatFastModel FloatFromModel FloatCharsModel
  FloatRoundProofs FloatEiselProofs FloatSwarProofs FloatLexProofs FloatNamesProofs FloatFromProofs ParserModel ParserSpec ParserCallSpec ParserProofs.
Local Open Scope Z_scope.

Definition binary_of (t : target) : binary := match t with Float => float_format | _ => double_format end.
(** The precision of the value. *)
Definition format_of (t : target) : format := match t with Float => binary32 | _ => binary64 end.
Lemma target_supported t : supported (binary_of t) (format_of t).
Proof. destruct t; constructor. Qed.
(** The exponent rules of the formats. *)
Definition rule (fmt : utki_format) : exponent_rule :=
  match fmt with scientific => Required | fixed | hexadecimal => Forbidden | general | other => Optional end.
Lemma rule_ok fmt : rule_of (to_fast_float_format fmt) = rule fmt.
Proof. destruct fmt; reflexivity. Qed.
(** What is written to the value. *)
Definition written_value (t : target) (bits : Z) (range : bool) : option Z :=
  match t with LongDouble => if range then None else Some bits | _ => Some bits end.

Section Limbs.
Context {lw : platform}.
Theorem utki_found t rm fmt s x u m : Forall is_char s -> longest (rule fmt) s x u m -> moderate (rule fmt) x m ->
  exists bits range, conversion (format_of t) m bits range /\
    utki_from_chars t rm fmt s = Ok {| res_rest := u; res_ec := if range then OutOfRange else NoError; res_value := written_value t bits range |}.
Proof.
  intros C LG MO. rewrite <- rule_ok in LG, MO.
  destruct (from_chars_found _ _ (target_supported t) rm _ s x u m C LG MO) as (bits & range & CV & E). exists bits, range. split; [exact CV|].
  destruct t; cbn [binary_of format_of] in E.
  - exact E.
  - exact E.
  - unfold utki_from_chars, from_chars_long_double, from_chars_double. rewrite E. cbn [bind res_rest res_ec res_value written_value]. destruct range; reflexivity.
Qed.
Theorem utki_not_found t rm fmt s : Forall is_char s -> no_beginning (rule fmt) s ->
  utki_from_chars t rm fmt s = Ok {| res_rest := s; res_ec := FloatParseModel.InvalidArgument; res_value := None |}.
Proof.
  intros C NB. rewrite <- rule_ok in NB. pose proof (from_chars_not_found _ _ (target_supported t) rm _ s C NB) as E.
  destruct t; cbn [binary_of format_of] in E; [exact E|exact E|].
  unfold utki_from_chars, from_chars_long_double, from_chars_double. rewrite E. reflexivity.
Qed.
Theorem utki_cases fmt s : Forall is_char s -> no_beginning (rule fmt) s \/ exists x u m, longest (rule fmt) s x u m.
Proof.
  intro C. rewrite <- rule_ok. destruct (from_chars_total (lw := x86_64) _ _ sup_double ToNearest (to_fast_float_format fmt) s C) as [(NB & _)|(x & u & m & _ & LG & _)]; [left; exact NB|].
  right. exists x, u, m. exact LG.
Qed.

(** Whatever the text, the contract that read_number relies on holds. *)
Theorem utki_total t rm fmt s : Forall is_char s -> exists r, utki_from_chars t rm fmt s = Ok r /\
  fc_ec (as_fc s r) <> ec_other /\ (fc_ec (as_fc s r) <> ec_invalid -> (0 < fc_len (as_fc s r) <= N.of_nat (length s))%N).
Proof.
  intro C. assert (K : exists r, utki_from_chars t rm fmt s = Ok r /\ (res_ec r <> FloatParseModel.InvalidArgument -> (length (res_rest r) < length s)%nat)).
  { destruct (from_chars_total _ _ (target_supported t) rm (to_fast_float_format fmt) s C) as [(NB & E)|(x & u & m & r & LG & E & EU & _)].
    - rewrite rule_ok in NB. eexists. split; [apply utki_not_found; assumption|]. cbn. congruence.
    - assert (SH : (length u < length s)%nat).
      { destruct LG as (-> & D & _). rewrite app_length. destruct x as [|c x]; [|cbn [length]; lia]. exfalso.
        inversion D as [t0 neg d e N|t0 neg w N]; subst.
        - destruct (number_start _ _ _ _ _ N) as (c & b0 & E' & _). destruct neg; discriminate.
        - apply special_text_body in N. destruct N as (b0 & E' & B). symmetry in E'. apply app_eq_nil in E'. destruct E' as [_ ->].
          exact (body_not_sign _ _ [] B). }
      destruct t; cbn [binary_of format_of] in E.
      + exists r. split; [exact E|]. rewrite EU. auto.
      + exists r. split; [exact E|]. rewrite EU. auto.
      + unfold utki_from_chars, from_chars_long_double, from_chars_double. rewrite E. eexists. split; [reflexivity|]. cbn [res_rest res_ec]. rewrite EU. auto. }
  destruct K as (r & E & K). exists r. split; [exact E|]. unfold as_fc. cbn [fc_ec fc_len]. destruct (res_ec r); split; try discriminate; try congruence; intros _;
    (assert (length (res_rest r) < length s)%nat by (apply K; discriminate)); lia.
Qed.

(** *** read_number *)
Theorem read_floating_found dbg t rm ws s x u m : Forall is_char s -> maximal space ws s -> longest Optional s x u m -> moderate Optional x m ->
  exists bits range, conversion (format_of t) m bits range /\
    read_floating dbg t rm (ws ++ s) = (u, Ok (if range then 0 else bits)).
Proof.
  intros C M LG MO. destruct (utki_found t rm general s x u m C LG MO) as (bits & range & CV & E). exists bits, range. split; [exact CV|].
  destruct (utki_total t rm general s C) as (r & E' & _ & K). rewrite E in E'. injection E' as <-.
  unfold read_floating. destruct (skip_whitespaces_spec (ws ++ s)) as (ws' & s' & ES & M' & SK).
  destruct (maximal_unique _ _ _ _ _ M M' ES) as [<- <-]. unfold andthen at 1. rewrite SK. unfold andthen at 1, get_view at 1.
  unfold andthen at 1, fail at 1. rewrite E. unfold finish_number.
  assert (NI : fc_ec (as_fc s {| res_rest := u; res_ec := if range then OutOfRange else NoError; res_value := written_value t bits range |}) = if range then ec_range else ec_ok)
    by (destruct range; reflexivity).
  rewrite NI in *. specialize (K ltac:(destruct range; discriminate)).
  remember (fc_len (as_fc s {| res_rest := u; res_ec := if range then OutOfRange else NoError; res_value := written_value t bits range |})) as l eqn:EL.
  assert (LX : l = N.of_nat (length x)).
  { rewrite EL. destruct LG as (-> & _). cbn [as_fc fc_len res_rest]. rewrite app_length. lia. }
  assert (SB : substr_from s l = Ok u) by (destruct LG as (-> & _); rewrite LX; apply substr_from_app).
  assert (AS : assert_ dbg (0 <? l)%N = Ok tt) by (replace (0 <? l)%N with true by lia; destruct dbg; reflexivity).
  clear EL NI E. unfold andthen, fail, get_view, set_view, ret. destruct range; rewrite AS, SB; [reflexivity|].
  destruct t; reflexivity.
Qed.
Theorem read_floating_not_found dbg t rm ws s : Forall is_char s -> maximal space ws s -> no_beginning Optional s ->
  read_floating dbg t rm (ws ++ s) = (s, Throw Base.InvalidArgument).
Proof.
  intros C M NB. pose proof (utki_not_found t rm general s C NB) as E.
  unfold read_floating. destruct (skip_whitespaces_spec (ws ++ s)) as (ws' & s' & ES & M' & SK).
  destruct (maximal_unique _ _ _ _ _ M M' ES) as [<- <-]. unfold andthen at 1. rewrite SK. unfold andthen at 1, get_view at 1.
  unfold andthen at 1, fail at 1. rewrite E. reflexivity.
Qed.
End Limbs.

(** Consequences of correct rounding: independence of the rounding mode, order, exact values, round trips; and the
    exponents that are too long. *)
From Verif Require Import FloatPlatform Base FloatSpec FloatTextSpec FloatFromSpec FloatComputeModel FloatParseModel FloatFastModel FloatFromModel
  FloatRoundProofs FloatComputeProofs FloatEiselProofs FloatSwarProofs FloatLexProofs FloatNamesProofs FloatFastProofs FloatDigitProofs FloatFromProofs.
Local Open Scope Z_scope.
Local Notation len l := (Z.of_nat (length l)).

Section Laws.
Context {lw : platform} (b : binary) (f : format) (SUP : supported b f).
Local Notation mb := (mantissa_explicit_bits b).

Lemma dec_num_nonneg d e : 0 <= d -> 0 <= dec_num d e.
Proof. intro D. unfold dec_num. assert (0 < 10 ^ Z.max e 0) by (apply Z.pow_pos_nonneg; lia). nia. Qed.

Theorem mode_irrelevant lw' rm rm' fmt s : Forall is_char s -> from_chars (lw := lw) b f rm fmt s = from_chars (lw := lw') b f rm' fmt s.
Proof.
  intro C. destruct s as [|c s]; [reflexivity|]. unfold from_chars.
  rewrite (parse_platform lw' lw).
  destruct (parse_number_string_spec (lw := lw) fmt (c :: s) ltac:(discriminate) C) as (pns & -> & PS). cbn [bind]. destruct (valid pns); [|reflexivity].
  destruct PS as (neg & ip & fp & xt & rest & point & x & x' & LX & _). destruct LX.
  assert (FR : (fp = [] /\ fraction pns = None) \/ fraction pns = Some fp) by (destruct lx_point as [(_ & P2 & P3)|(_ & P)]; auto).
  destruct (from_chars_pns_spec (lw := lw) b f SUP rm pns ip fp (x' - len fp)) as (n & NR & ->); try assumption.
  destruct (from_chars_pns_spec (lw := lw') b f SUP rm' pns ip fp (x' - len fp)) as (n' & NR' & ->); try assumption.
  assert (D : 0 <= decimal (ip ++ fp)) by (apply decimal_nonneg, Forall_app; auto).
  rewrite (nearest_unique f (supported_good b f SUP) _ _ n n' (dec_den_pos _) (dec_num_nonneg _ _ D) NR NR'). reflexivity.
Qed.

Theorem conversion_monotone neg d e bits r d' e' bits' r' : 0 <= d -> 0 <= d' ->
  dec_num d e * dec_den e' <= dec_num d' e' * dec_den e ->
  conversion f (Number neg d e) bits r -> conversion f (Number neg d' e') bits' r' -> bits <= bits'.
Proof.
  intros D D' L H H'. inversion H as [? ? ? n ? NR _|?|?]; subst. inversion H' as [? ? ? n' ? NR' _|?|?]; subst.
  pose proof (nearest_mono f (supported_good b f SUP) _ _ n _ _ n' (dec_den_pos e) (dec_den_pos e') (dec_num_nonneg d e D) (dec_num_nonneg d' e' D') L NR NR').
  unfold signed_pattern. destruct neg; lia.
Qed.

Lemma exact_nearest num den n : 0 < den -> 0 <= n < infinity f -> num * 2 ^ unit_exp f = scaled f n * den -> nearest f num den n.
Proof.
  intros D N E. pose proof (supported_good b f SUP) as G. apply (proj2 (nearest_unfold f _ _ _)). unfold middle. split; [lia|].
  replace (2 * num * 2 ^ unit_exp f) with (2 * (scaled f n * den)) by (rewrite <- E; ring).
  split; intro NP.
  - replace (n - 1 + 1) with n by lia. pose proof (scaled_lt f G (n - 1) n ltac:(lia)). split; [nia|]. intros _. nia.
  - pose proof (scaled_lt f G n (n + 1) ltac:(lia)). split; [nia|]. intros _. nia.
Qed.

(** Neighbours are not closer than a fraction of 2^-(mb+1) of the number. *)
Lemma relative_gap n : 0 <= n -> scaled f (n + 1) <= 2 * 2 ^ mb * (scaled f (n + 1) - scaled f n).
Proof.
  intro N. pose proof (supported_good b f SUP) as G. assert (EB : mant_bits f = mb) by (destruct SUP; reflexivity).
  pose proof (B_pos f G) as BP. rewrite EB in BP.
  destruct (pattern_split f G n N) as (k & m & EN & K & M & L). rewrite EB in *.
  assert (S0 : scaled f n = m * 2 ^ k) by (rewrite EN; rewrite <- EB in *; apply (scaled_at f G); lia).
  assert (S1 : scaled f (n + 1) = (m + 1) * 2 ^ k).
  { replace (n + 1) with (k * 2 ^ mb + (m + 1)) by lia. rewrite <- EB in *. apply (scaled_at f G); lia. }
  rewrite S0, S1. assert (0 < 2 ^ k) by (apply Z.pow_pos_nonneg; lia). nia.
Qed.

(** The number of digits that tell all patterns apart. *)
Definition enough : Z := if mb =? 52 then 17 else 9.
Lemma enough_ok : 4 * 2 ^ mb < 2 * 10 ^ (enough - 1) - 1.
Proof. unfold enough. destruct SUP; vm_compute; reflexivity. Qed.

Theorem digits_suffice n d e : 0 < n < infinity f -> 10 ^ (enough - 1) <= d ->
  Z.abs (2 * dec_num d e * 2 ^ unit_exp f - 2 * scaled f n * dec_den e) <= dec_num 1 e * 2 ^ unit_exp f ->
  nearest_decimal f d e n.
Proof.
  intros N D E. unfold nearest_decimal. pose proof (supported_good b f SUP) as G. apply (proj2 (nearest_unfold f _ _ _)). unfold middle.
  pose proof (dec_den_pos e) as DP. replace (n - 1 + 1) with n by lia. pose proof enough_ok as EO.
  pose proof (relative_gap n ltac:(lia)) as G1. pose proof (relative_gap (n - 1) ltac:(lia)) as G0. replace (n - 1 + 1) with n in G0 by lia.
  pose proof (scaled_lt f G n (n + 1) ltac:(lia)) as S1. pose proof (scaled_lt f G (n - 1) n ltac:(lia)) as S0.
  pose proof (scaled_nonneg f G (n - 1) ltac:(lia)) as SN.
  assert (DQ : dec_num d e = d * dec_num 1 e) by (unfold dec_num; ring).
  assert (QP : 0 < dec_num 1 e * 2 ^ unit_exp f).
  { unfold dec_num. assert (0 < 10 ^ Z.max e 0) by (apply Z.pow_pos_nonneg; lia).
    assert (0 < 2 ^ unit_exp f) by (apply Z.pow_pos_nonneg; clear - SUP; destruct SUP; cbn; lia). nia. }
  replace (2 * dec_num d e * 2 ^ unit_exp f) with (2 * d * (dec_num 1 e * 2 ^ unit_exp f)) in E |- * by (rewrite DQ; ring).
  remember (dec_num 1 e * 2 ^ unit_exp f) as q eqn:EQ. remember (scaled f n) as S eqn:ES. remember (scaled f (n - 1)) as Sm eqn:ESm.
  remember (scaled f (n + 1)) as Sp eqn:ESp. remember (dec_den e) as w eqn:EW. remember (10 ^ (enough - 1)) as X eqn:EX. remember (2 ^ mb) as B eqn:EB.
  clear EQ ES ESm ESp EW EX EB DQ.
  assert (BP : 0 <= B) by (clear - G0 S0 SN; nia).
  assert (Q1 : (2 * X - 1) * q <= 2 * S * w) by (clear - E D QP; nia).
  assert (Q2 : q < (Sp - S) * w).
  { assert (2 * S * w < 4 * B * ((Sp - S) * w)) by (clear - G1 S1 DP; nia). clear - H Q1 EO QP BP. nia. }
  assert (Q3 : q < (S - Sm) * w).
  { assert (2 * S * w <= 4 * B * ((S - Sm) * w)) by (clear - G0 DP; nia). clear - H Q1 EO QP BP. nia. }
  split; [lia|]. split; intros _.
  - split; [clear - E Q3; nia|]. intros _. clear - E Q3. nia.
  - split; [clear - E Q2; nia|]. intros _. clear - E Q2. nia.
Qed.

(** *** An exponent that is too long *)
(** 0.00...01e10000000000 with 10^10 - 1 zeros after the point: the number 1. *)
Definition ten_digits : list Z := 49 :: repeat 48 10.
Definition long_text (N : nat) : list Z := [48] ++ [46] ++ (repeat 48 N ++ [49]) ++ 101 :: [] ++ ten_digits.

Lemma zeros_digits k : Forall is_digit (repeat 48 k).
Proof. apply Forall_forall. intros x I. apply repeat_spec in I. subst. unfold is_digit. lia. Qed.
Lemma long_number N : Z.of_nat N = 10 ^ 10 - 1 -> number_text Optional (long_text N) false 1 0.
Proof.
  intro E.
  assert (NT : number_text Optional (long_text N) false (decimal ([48] ++ repeat 48 N ++ [49])) (decimal ten_digits - len (repeat 48 N ++ [49]))).
  { apply (number_intro Optional false [48] [46] (repeat 48 N ++ [49]) (101 :: [] ++ ten_digits)).
    - repeat constructor; lia.
    - apply Forall_app. split; [apply zeros_digits|repeat constructor; lia].
    - discriminate.
    - right. reflexivity.
    - apply (exponent_some Optional 101 [] false ten_digits); [discriminate|left; reflexivity|constructor| |discriminate].
      constructor; [unfold is_digit; lia|apply zeros_digits]. }
  rewrite app_length, repeat_length in NT. replace (Z.of_nat (N + length [49])) with (10 ^ 10) in NT by (cbn [length]; lia).
  change (decimal ten_digits) with (10 ^ 10) in NT. rewrite Z.sub_diag in NT.
  rewrite decimal_app, decimal_app, decimal_zeros in NT. change (decimal [48]) with 0 in NT. change (decimal [49]) with 1 in NT.
  rewrite !Z.mul_0_l, !Z.add_0_l in NT. exact NT.
Qed.
Lemma long_exponent N : written_exponent Optional (long_text N) (10 ^ 10).
Proof.
  exists ([48] ++ [46] ++ (repeat 48 N ++ [49])), (101 :: [] ++ ten_digits). split; [unfold long_text; rewrite <- !app_assoc; reflexivity|]. split.
  - apply Forall_forall. intros x I. apply in_app_or in I. destruct I as [[<-|[]]|I]; [lia|]. apply in_app_or in I. destruct I as [[<-|[]]|I]; [lia|].
    apply in_app_or in I. destruct I as [I|[<-|[]]]; [apply repeat_spec in I; subst; lia|lia].
  - change (10 ^ 10) with (decimal ten_digits). apply (exponent_some Optional 101 [] false ten_digits); [discriminate|left; reflexivity|constructor| |discriminate].
    constructor; [unfold is_digit; lia|apply zeros_digits].
Qed.
Lemma long_chars N : Forall is_char (long_text N).
Proof.
  apply Forall_forall. intros x I. unfold long_text in I. unfold is_char. apply in_app_or in I. destruct I as [[<-|[]]|I]; [lia|].
  apply in_app_or in I. destruct I as [[<-|[]]|I]; [lia|]. apply in_app_or in I. destruct I as [I|I].
  - apply in_app_or in I. destruct I as [I|[<-|[]]]; [apply repeat_spec in I; subst; lia|lia].
  - cbn in I. lia.
Qed.
Lemma long_longest N : Z.of_nat N = 10 ^ 10 - 1 -> longest Optional (long_text N) (long_text N) [] (Number false 1 0).
Proof.
  intro E. split; [symmetry; apply app_nil_r|]. split; [constructor; apply long_number; exact E|].
  intros t' u' m' EQ _. rewrite EQ, app_length. lia.
Qed.
Theorem long_wrong rm N : Z.of_nat N = 10 ^ 10 - 1 ->
  from_chars b f rm General (long_text N) = Ok {| res_rest := []; res_ec := OutOfRange; res_value := Some 0 |}.
Proof.
  intro E. destruct (from_chars_total b f SUP rm General (long_text N) (long_chars N)) as [(NB & _)|(t & u & m & res & LG & -> & EU & H)].
  { exfalso. refine (NB (long_text N) [] _ _ (denotes_number _ _ _ _ _ (long_number N E))). symmetry. apply app_nil_r. }
  destruct (longest_unique _ _ _ _ _ _ _ _ (long_longest N E) LG) as (<- & <- & <-).
  destruct H as (n & x & x' & k & NR & EX & KP & WE & SAT & EC & EV & _).
  assert (X : x = 10 ^ 10).
  { destruct WE as (bf & xt & E1 & F1 & X1). destruct (long_exponent N) as (bf2 & xt2 & E2 & F2 & X2). rewrite E1 in E2.
    rewrite (before_unique _ _ _ _ F1 F2 (exponent_starts _ _ _ X1) (exponent_starts _ _ _ X2) E2) in X1. apply (exponent_unique _ _ _ _ _ X1 X2). }
  assert (XB : x' < 10 * 2 ^ 28). { unfold saturated_signed, saturated in SAT. destruct (Z.ltb_spec x 0); lia. }
  assert (N0 : n = 0).
  { apply (nearest_unique f (supported_good b f SUP) _ _ n 0 (dec_den_pos (x' - k)) (dec_num_nonneg 1 _ ltac:(lia)) NR).
    apply (tiny b f SUP 1 (x' - k) 1); lia. }
  destruct res as [r1 r2 r3]. cbn [res_rest res_ec res_value] in *. subst.
  replace (out_of_range f 0 1) with true; [reflexivity|]. symmetry. apply out_of_range_ok. right. split; [reflexivity|discriminate].
Qed.
Lemma one_not_zero : ~ nearest_decimal f 1 0 0.
Proof.
  intro H. apply (proj1 (nearest_unfold f _ _ _)) in H. destruct H as (_ & _ & HI). destruct (least_middle b f SUP) as (M0 & _ & _ & IP & _).
  destruct (HI IP) as [A _]. rewrite M0 in A. unfold dec_num, dec_den in A. change (Z.max (- 0) 0) with 0 in A. change (Z.max 0 0) with 0 in A. change (10 ^ 0) with 1 in A.
  assert (0 < 2 ^ unit_exp f) by (apply Z.pow_pos_nonneg; clear - SUP; destruct SUP; cbn; lia). lia.
Qed.
End Laws.

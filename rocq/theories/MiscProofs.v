From Verif Require Import Base ListLemmas MiscModel MiscSpec.
Local Open Scope Z_scope.

(** ** Versions *)
Lemma to_uint32_value v : is_version v -> to_uint32 v = major v * 65536 + minor v.
Proof.
  destruct v as [a b]; unfold is_version, to_uint32; cbn [major minor]. intros [Ha Hb].
  rewrite Z.shiftl_mul_pow2 by lia. change (2 ^ 16) with 65536. change (2 ^ 32) with 4294967296.
  rewrite Z.mod_small by lia.
  assert (E : Z.land (a * 65536) b = 0).
  { apply Z.bits_inj'. intros i Hi. rewrite Z.land_spec, Z.bits_0.
    destruct (Z.ltb_spec i 16) as [L|L].
    - change 65536 with (2 ^ 16). rewrite Z.mul_pow2_bits_low by lia. reflexivity.
    - replace (Z.testbit b i) with false; [apply andb_false_r|].
      symmetry. rewrite <- (Z.mod_small b (2 ^ 16)) by (change (2 ^ 16) with 65536; lia).
      apply Z.mod_pow2_bits_high. lia. }
  rewrite <- Z.lxor_lor by exact E. rewrite <- Z.add_nocarry_lxor by exact E. reflexivity.
Qed.

Lemma version_ge_spec a b : version_ge a b = true <-> ~ earlier a b.
Proof.
  unfold version_ge, earlier. destruct (Z.ltb_spec (major b) (major a)); [split; [lia|auto]|].
  destruct (Z.eqb_spec (major a) (major b)); cbn [andb].
  - destruct (Z.leb_spec (minor b) (minor a)); split; try congruence; lia.
  - split; [congruence|lia].
Qed.
Lemma version_lt_spec a b : version_lt a b = true <-> earlier a b.
Proof.
  unfold version_lt. rewrite Bool.negb_true_iff, <- Bool.not_true_iff_false, version_ge_spec.
  unfold earlier. lia.
Qed.

Lemma version_order a b : is_version a -> is_version b ->
  (version_ge a b = true <-> to_uint32 a >= to_uint32 b) /\
  (version_lt a b = true <-> to_uint32 a < to_uint32 b) /\
  (to_uint32 a = to_uint32 b -> a = b) /\
  0 <= to_uint32 a < 2 ^ 32.
Proof.
  intros Ha Hb. rewrite version_ge_spec, version_lt_spec, !to_uint32_value by assumption.
  unfold is_version, earlier in *. change (2 ^ 32) with 4294967296. repeat split; try lia.
  intro E. destruct a as [a1 a2], b as [b1 b2]. cbn in *. f_equal; lia.
Qed.

Lemma version_total :
  (forall a, version_lt a a = false) /\
  (forall a b c, version_lt a b = true -> version_lt b c = true -> version_lt a c = true) /\
  (forall a b, version_lt a b = true \/ a = b \/ version_lt b a = true) /\
  (forall a b, version_ge a b = negb (version_lt a b)).
Proof.
  split; [|split; [|split]].
  - intro a. apply Bool.not_true_iff_false. rewrite version_lt_spec. unfold earlier. lia.
  - intros a b c. rewrite !version_lt_spec. unfold earlier. lia.
  - intros [a1 a2] [b1 b2]. rewrite !version_lt_spec. unfold earlier. cbn [major minor].
    destruct (Z.eq_dec a1 b1), (Z.eq_dec a2 b2); subst; try lia. right; left; reflexivity.
  - intros a b. unfold version_lt. symmetry. apply Bool.negb_involutive.
Qed.

(** Decimal digits *)
Lemma decimal_app a b : decimal (a ++ [b]) = 10 * decimal a + (b - 48).
Proof. unfold decimal. rewrite fold_left_app. reflexivity. Qed.
Lemma digits_rev_value fuel n : 0 <= n < 10 ^ Z.of_nat fuel -> decimal (rev (digits_rev fuel n)) = n.
Proof.
  revert n. induction fuel as [|fuel IH]; intros n H.
  - cbn in *. change (decimal []) with 0. lia.
  - cbn [digits_rev rev]. rewrite decimal_app.
    pose proof (Z.div_mod n 10). rewrite Nat2Z.inj_succ, Z.pow_succ_r in H by lia.
    destruct (Z.eqb_spec (n / 10) 0) as [E|E].
    + change (decimal (rev [])) with 0. lia.
    + rewrite IH; [lia|]. split; [apply Z.div_pos; lia|apply Z.div_lt_upper_bound; lia].
Qed.
Lemma digits_rev_digits fuel n : Forall is_digit (digits_rev fuel n).
Proof.
  revert n. induction fuel as [|fuel IH]; intro n; cbn [digits_rev]; constructor.
  - unfold is_digit. pose proof (Z.mod_pos_bound n 10). lia.
  - destruct (n / 10 =? 0); auto.
Qed.
Lemma digits_rev_head fuel n : 0 <= n < 10 ^ Z.of_nat fuel -> forall d ds,
  rev (digits_rev fuel n) = d :: ds -> ds <> [] -> d <> 48.
Proof.
  revert n. induction fuel as [|fuel IH]; intros n H d ds; [discriminate|].
  cbn [digits_rev rev]. rewrite Nat2Z.inj_succ, Z.pow_succ_r in H by lia.
  destruct (Z.eqb_spec (n / 10) 0) as [E|E].
  - cbn. intros F N. injection F as <- <-. congruence.
  - assert (B : 0 <= n / 10 < 10 ^ Z.of_nat fuel) by (split; [apply Z.div_pos; lia|apply Z.div_lt_upper_bound; lia]).
    destruct (rev (digits_rev fuel (n / 10))) as [|d' ds'] eqn:Er.
    + exfalso. apply E. rewrite <- (digits_rev_value fuel (n / 10)) by assumption. rewrite Er. reflexivity.
    + cbn [app]. intros F N. injection F as <- <-. destruct ds' as [|x ds'].
      * pose proof (digits_rev_value fuel (n / 10) B) as V. rewrite Er in V.
        change (decimal [d']) with (10 * 0 + (d' - 48)) in V. lia.
      * eapply IH; [exact B|exact Er|discriminate].
Qed.
Lemma digits_spec n : 0 <= n < 2 ^ 64 ->
  decimal (digits n) = n /\ Forall is_digit (digits n) /\ digits n <> [] /\
  (forall d ds, digits n = d :: ds -> ds <> [] -> d <> 48).
Proof.
  intro H. unfold digits. assert (B : 0 <= n < 10 ^ Z.of_nat 20) by (change (10 ^ Z.of_nat 20) with 100000000000000000000; lia).
  split; [apply digits_rev_value; assumption|split; [apply Forall_rev, digits_rev_digits|split]].
  - cbn [digits_rev rev]. intro E. apply app_eq_nil in E. destruct E; discriminate.
  - apply digits_rev_head; assumption.
Qed.

Lemma split_dot a b c d : Forall is_digit a -> Forall is_digit c -> a ++ 46 :: b = c ++ 46 :: d -> a = c /\ b = d.
Proof.
  revert c. induction a as [|x a IH]; intros [|y c] Ha Hc E; cbn in E.
  - injection E as ->. auto.
  - injection E as <- _. inversion Hc. unfold is_digit in *. lia.
  - injection E as -> _. inversion Ha. unfold is_digit in *. lia.
  - injection E as -> E. inversion Ha; inversion Hc; subst. destruct (IH c) as [-> ->]; auto.
Qed.

Lemma print_version_spec v : is_version v -> exists a b,
  print_version v = a ++ 46 :: b /\ Forall is_digit a /\ Forall is_digit b /\ a <> [] /\ b <> [] /\
  decimal a = major v /\ decimal b = minor v /\
  (forall d ds, a = d :: ds -> ds <> [] -> d <> 48) /\ (forall d ds, b = d :: ds -> ds <> [] -> d <> 48).
Proof.
  intros [Ha Hb]. exists (digits (major v)), (digits (minor v)).
  assert (W : 65536 <= 2 ^ 64) by discriminate.
  assert (Ha' : 0 <= major v < 2 ^ 64) by lia. assert (Hb' : 0 <= minor v < 2 ^ 64) by lia.
  destruct (digits_spec _ Ha') as (A1 & A2 & A3 & A4), (digits_spec _ Hb') as (B1 & B2 & B3 & B4).
  repeat (split; [first [reflexivity|assumption]|]). assumption.
Qed.
Lemma print_version_inj a b : is_version a -> is_version b -> print_version a = print_version b -> a = b.
Proof.
  intros Ha Hb E. destruct a as [a1 a2], b as [b1 b2]. unfold is_version, print_version in *. cbn [major minor] in *.
  assert (W : 65536 <= 2 ^ 64) by discriminate.
  destruct (digits_spec a1), (digits_spec a2), (digits_spec b1), (digits_spec b2); try lia.
  apply split_dot in E; try tauto. destruct E as [E1 E2]. f_equal; congruence.
Qed.

(** ** Ticks *)
Lemma ticks_difference t1 t2 :
  sub32 (get_ticks_ms t2) (get_ticks_ms t1) = (Z.quot t2 1000000 - Z.quot t1 1000000) mod 2 ^ 32.
Proof. unfold sub32, get_ticks_ms. rewrite <- Zminus_mod. reflexivity. Qed.
Lemma whole_ms_quot t ms : 0 <= t -> whole_ms t ms -> Z.quot t 1000000 = ms.
Proof. intros H [H1 H2]. rewrite Z.quot_div_nonneg by lia. symmetry. apply Z.div_unique with (t - ms * 1000000); lia. Qed.
Lemma ticks_spec t1 t2 m1 m2 : 0 <= t1 -> 0 <= t2 -> whole_ms t1 m1 -> whole_ms t2 m2 ->
  0 <= get_ticks_ms t1 < 2 ^ 32 /\
  congruent 32 (sub32 (get_ticks_ms t2) (get_ticks_ms t1)) (m2 - m1) /\
  (0 <= m2 - m1 < 2 ^ 32 -> sub32 (get_ticks_ms t2) (get_ticks_ms t1) = m2 - m1).
Proof.
  intros P1 P2 H1 H2. rewrite ticks_difference, (whole_ms_quot _ _ P1 H1), (whole_ms_quot _ _ P2 H2).
  split; [apply Z.mod_pos_bound; reflexivity|split].
  - exists (- ((m2 - m1) / 2 ^ 32)). pose proof (Z.div_mod (m2 - m1) (2 ^ 32)). lia.
  - intro H. apply Z.mod_small. assumption.
Qed.
Lemma ticks_elapsed t1 t2 : 0 <= t1 <= t2 -> t2 - t1 < (2 ^ 32 - 1) * 1000000 ->
  let d := sub32 (get_ticks_ms t2) (get_ticks_ms t1) in
  (d - 1) * 1000000 < t2 - t1 < (d + 1) * 1000000.
Proof.
  intros H1 H2. cbv zeta. rewrite ticks_difference, !Z.quot_div_nonneg by lia.
  pose proof (Z.div_mod t1 1000000). pose proof (Z.div_mod t2 1000000).
  pose proof (Z.mod_pos_bound t1 1000000). pose proof (Z.mod_pos_bound t2 1000000).
  change (2 ^ 32) with 4294967296 in *.
  rewrite Z.mod_small by lia. lia.
Qed.

(** ** Congruence *)
Lemma congruent_refl b x : congruent b x x.
Proof. exists 0. lia. Qed.
Lemma congruent_trans b x y z : congruent b x y -> congruent b y z -> congruent b x z.
Proof. intros [k H] [l G]. exists (k + l). lia. Qed.
Lemma congruent_mul b x x' y y' : congruent b x x' -> congruent b y y' -> congruent b (x * y) (x' * y').
Proof. intros [k H] [l G]. exists (k * y + x' * l). nia. Qed.

Definition good (t : ity) : Prop := 0 < bits t.
Lemma pow2_half n : 0 < n -> 2 ^ n = 2 * 2 ^ (n - 1) /\ 0 < 2 ^ (n - 1).
Proof. intro H. split; [rewrite <- Z.pow_succ_r by lia; f_equal; lia|apply Z.pow_pos_nonneg; lia]. Qed.
Lemma is_value_range t v : is_value t v <-> min_value t <= v <= max_value t.
Proof. unfold is_value, min_value, max_value. destruct (is_signed t); lia. Qed.
Lemma fits_spec t v : fits t v = true <-> is_value t v.
Proof. rewrite is_value_range. unfold fits. rewrite Bool.andb_true_iff, !Z.leb_le. lia. Qed.
Lemma range_width t : good t -> max_value t = min_value t + 2 ^ bits t - 1.
Proof. intro H. pose proof (pow2_half _ H). unfold max_value, min_value. destruct (is_signed t); lia. Qed.
Lemma convert_value t v : good t -> is_value t (convert t v).
Proof.
  intro H. apply is_value_range. rewrite range_width by assumption. unfold convert.
  pose proof (Z.mod_pos_bound (v - min_value t) (2 ^ bits t)). destruct (pow2_half _ H). lia.
Qed.
Lemma convert_congruent t v : good t -> congruent (bits t) (convert t v) v.
Proof.
  intro H. unfold convert. exists (- ((v - min_value t) / 2 ^ bits t)).
  pose proof (Z.div_mod (v - min_value t) (2 ^ bits t)). destruct (pow2_half _ H). lia.
Qed.
Lemma convert_id t v : good t -> is_value t v -> convert t v = v.
Proof.
  intros H V. apply is_value_range in V. rewrite range_width in V by assumption.
  unfold convert. rewrite Z.mod_small by lia. lia.
Qed.
Lemma congruent_value t x y : good t -> is_value t x -> is_value t y -> congruent (bits t) x y -> x = y.
Proof.
  intros H Hx Hy [k E]. apply is_value_range in Hx, Hy. pose proof (range_width _ H). destruct (pow2_half _ H).
  assert (k = 0) by nia. subst k. lia.
Qed.

Lemma mul_congruent t x y p : good t -> mul t x y = Ok p -> congruent (bits t) p (x * y).
Proof.
  intro H. unfold mul, promote. destruct (Z.ltb_spec (bits t) 32) as [L|L].
  - cbn [is_signed int_type]. destruct (fits _ _); [|discriminate]. intro E. injection E as <-. apply congruent_refl.
  - destruct (is_signed t) eqn:S.
    + destruct (fits _ _); [|discriminate]. intro E. injection E as <-. apply congruent_refl.
    + intro E. injection E as <-. apply convert_congruent. assumption.
Qed.
(** Multiply and convert to the result type *)
Definition mulc (t : ity) (x y : Z) : outcome Z := p <- mul t x y ;; Ok (convert t p).
Lemma mulc_ok t x y v : good t -> mulc t x y = Ok v -> is_value t v /\ congruent (bits t) v (x * y).
Proof.
  intros H. unfold mulc. destruct (mul t x y) as [p| | | | |] eqn:E; cbn; try discriminate.
  intro F. injection F as <-. split; [apply convert_value; assumption|].
  eapply congruent_trans; [apply convert_congruent; assumption|apply mul_congruent; assumption].
Qed.
Lemma pow2_mulc t x : pow2 t x = mulc t x x. Proof. reflexivity. Qed.
Lemma pow3_mulc t x : pow3 t x = (y <- mulc t x x ;; mulc t y x). Proof. reflexivity. Qed.
Lemma pow4_mulc t x : pow4 t x = (y <- mulc t x x ;; mulc t y y). Proof. reflexivity. Qed.
Lemma pow5_mulc t x : pow5 t x = (y <- pow4 t x ;; mulc t y x). Proof. reflexivity. Qed.
Lemma pow6_mulc t x : pow6 t x = (y <- pow3 t x ;; mulc t y y). Proof. reflexivity. Qed.

Lemma pow_unfold n f : pow_n n = Some f ->
  (n = 2 /\ f = pow2) \/ (n = 3 /\ f = pow3) \/ (n = 4 /\ f = pow4) \/ (n = 5 /\ f = pow5) \/ (n = 6 /\ f = pow6).
Proof.
  unfold pow_n. destruct n as [|[[[]|[]|]|[[]|[]|]|]|]; try discriminate; intro E; injection E as <-; tauto.
Qed.

Lemma bind_ok {A B} (m : outcome A) (k : A -> outcome B) v : bind m k = Ok v -> exists a, m = Ok a /\ k a = Ok v.
Proof. destruct m; try discriminate. cbn. eauto. Qed.

Lemma p2 x : x ^ 2 = x * x. Proof. lia. Qed.
Lemma p3 x : x ^ 3 = x * x * x. Proof. lia. Qed.
Lemma p4 x : x ^ 4 = x * x * (x * x). Proof. lia. Qed.
Lemma p5 x : x ^ 5 = x * x * (x * x) * x. Proof. lia. Qed.
Lemma p6 x : x ^ 6 = x * x * x * (x * x * x). Proof. lia. Qed.

(** Whatever a function returns is the power modulo 2^bits. *)
Lemma pow_congruent n f t x v : pow_n n = Some f -> good t -> f t x = Ok v ->
  is_value t v /\ congruent (bits t) v (x ^ n).
Proof.
  intros Hn G.
  assert (P2 : forall x v, pow2 t x = Ok v -> is_value t v /\ congruent (bits t) v (x ^ 2)).
  { intros y w E. rewrite p2. apply mulc_ok; assumption. }
  assert (P3 : forall x v, pow3 t x = Ok v -> is_value t v /\ congruent (bits t) v (x ^ 3)).
  { intros y w E. rewrite pow3_mulc in E. apply bind_ok in E as (a & E1 & E2).
    apply mulc_ok in E1 as [_ C1], E2 as [V2 C2]; auto. split; auto. rewrite p3.
    eapply congruent_trans; [exact C2|]. apply congruent_mul; [exact C1|apply congruent_refl]. }
  assert (P4 : forall x v, pow4 t x = Ok v -> is_value t v /\ congruent (bits t) v (x ^ 4)).
  { intros y w E. rewrite pow4_mulc in E. apply bind_ok in E as (a & E1 & E2).
    apply mulc_ok in E1 as [_ C1], E2 as [V2 C2]; auto. split; auto. rewrite p4.
    eapply congruent_trans; [exact C2|]. apply congruent_mul; exact C1. }
  destruct (pow_unfold _ _ Hn) as [[-> ->]|[[-> ->]|[[-> ->]|[[-> ->]|[-> ->]]]]]; auto; intro E.
  - rewrite pow5_mulc in E. apply bind_ok in E as (a & E1 & E2).
    apply P4 in E1 as [_ C1]. apply mulc_ok in E2 as [V2 C2]; auto. split; auto. rewrite p5. rewrite p4 in C1.
    eapply congruent_trans; [exact C2|]. apply congruent_mul; [exact C1|apply congruent_refl].
  - rewrite pow6_mulc in E. apply bind_ok in E as (a & E1 & E2).
    apply P3 in E1 as [_ C1]. apply mulc_ok in E2 as [V2 C2]; auto. split; auto. rewrite p6. rewrite p3 in C1.
    eapply congruent_trans; [exact C2|]. apply congruent_mul; exact C1.
Qed.

(** Types which multiply without overflow *)
Lemma pow_total n f t x : pow_n n = Some f -> is_value t x ->
  (forall a b, is_value t a -> is_value t b -> exists v, mulc t a b = Ok v /\ is_value t v) ->
  exists v, f t x = Ok v.
Proof.
  intros Hn Hx T.
  destruct (T x x Hx Hx) as (y & E2 & V2).
  destruct (T y x V2 Hx) as (z & E3 & V3). destruct (T y y V2 V2) as (w & E4 & V4).
  destruct (T w x V4 Hx) as (u & E5 & V5). destruct (T z z V3 V3) as (s & E6 & V6).
  destruct (pow_unfold _ _ Hn) as [[-> ->]|[[-> ->]|[[-> ->]|[[-> ->]|[-> ->]]]]].
  - exists y. exact E2.
  - exists z. rewrite pow3_mulc, E2. exact E3.
  - exists w. rewrite pow4_mulc, E2. exact E4.
  - exists u. rewrite pow5_mulc, pow4_mulc, E2. cbn [bind]. rewrite E4. exact E5.
  - exists s. rewrite pow6_mulc, pow3_mulc, E2. cbn [bind]. rewrite E3. exact E6.
Qed.

Lemma mulc_unsigned t a b : is_signed t = false -> 32 <= bits t -> exists v, mulc t a b = Ok v /\ is_value t v.
Proof.
  intros S B. unfold mulc, mul, promote. replace (bits t <? 32) with false by lia. rewrite S. cbn [bind].
  eexists. split; [reflexivity|]. apply convert_value. unfold good. lia.
Qed.
Lemma pow_unsigned n f t x : pow_n n = Some f -> is_signed t = false -> 32 <= bits t -> is_value t x ->
  f t x = Ok (x ^ n mod 2 ^ bits t).
Proof.
  intros Hn S B V. destruct (pow_total _ _ t x Hn V) as [v E].
  { intros a b _ _. apply mulc_unsigned; assumption. }
  assert (G : good t) by (unfold good; lia).
  destruct (pow_congruent _ _ _ _ _ Hn G E) as [Vv C]. rewrite E. f_equal.
  apply (congruent_value t); auto.
  - unfold is_value. rewrite S. apply Z.mod_pos_bound. apply Z.pow_pos_nonneg; lia.
  - eapply congruent_trans; [exact C|]. exists (x ^ n / 2 ^ bits t).
    assert (0 < 2 ^ bits t) by (apply Z.pow_pos_nonneg; lia). pose proof (Z.div_mod (x ^ n) (2 ^ bits t)). lia.
Qed.

(** Narrow types: the product of two values is an int. *)
Lemma mulc_narrow t a b : 0 < bits t -> (if is_signed t then bits t <= 16 else bits t <= 15) ->
  is_value t a -> is_value t b -> exists v, mulc t a b = Ok v /\ is_value t v.
Proof.
  intros G B Va Vb. unfold mulc, mul, promote. replace (bits t <? 32) with true by (destruct (is_signed t); lia).
  cbn [is_signed int_type].
  assert (F : fits int_type (a * b) = true).
  { apply fits_spec. unfold is_value. cbn [is_signed int_type bits].
    change (2 ^ (32 - 1)) with 2147483648.
    assert (-32768 <= a <= 32767 /\ -32768 <= b <= 32767) as [].
    { unfold is_value in *. destruct (is_signed t).
      - assert (2 ^ (bits t - 1) <= 2 ^ 15) by (apply Z.pow_le_mono_r; lia). change (2 ^ 15) with 32768 in *. lia.
      - assert (2 ^ bits t <= 2 ^ 15) by (apply Z.pow_le_mono_r; lia). change (2 ^ 15) with 32768 in *. lia. }
    nia. }
  rewrite F. cbn [bind]. eexists. split; [reflexivity|]. apply convert_value. exact G.
Qed.
Lemma pow_narrow n f t x : pow_n n = Some f -> 0 < bits t -> (if is_signed t then bits t <= 16 else bits t <= 15) ->
  is_value t x -> exists v, f t x = Ok v /\ is_value t v /\ congruent (bits t) v (x ^ n).
Proof.
  intros Hn G B V. destruct (pow_total _ _ t x Hn V) as [v E].
  { intros a b. apply mulc_narrow; assumption. }
  exists v. split; [exact E|]. eapply pow_congruent; eassumption.
Qed.

(** Signed types not narrower than int *)
Lemma mulc_signed t a b : is_signed t = true -> 32 <= bits t ->
  mulc t a b = if fits t (a * b) then Ok (a * b) else UB SignedOverflow.
Proof.
  intros S B. unfold mulc, mul, promote. replace (bits t <? 32) with false by lia. rewrite S.
  destruct (fits t (a * b)) eqn:F; [|reflexivity]. cbn [bind]. rewrite convert_id; auto; [unfold good; lia|].
  apply fits_spec. exact F.
Qed.
Lemma abs_bound (M a b : Z) : (- M <= b < M) -> (Z.abs a * 2 <= Z.abs b \/ (a = b) \/ (-1 <= a <= 1)) -> 2 <= M -> - M <= a < M.
Proof. lia. Qed.
Lemma pow_signed n f t x : pow_n n = Some f -> is_signed t = true -> 32 <= bits t -> is_value t x ->
  f t x = if fits t (x ^ n) then Ok (x ^ n) else UB SignedOverflow.
Proof.
  intros Hn S B V. set (M := 2 ^ (bits t - 1)).
  assert (HM : 2147483648 <= M).
  { unfold M. change 2147483648 with (2 ^ 31). apply Z.pow_le_mono_r; lia. }
  assert (FT : forall a, fits t a = true <-> - M <= a < M).
  { intro a. rewrite fits_spec. unfold is_value. rewrite S. reflexivity. }
  assert (FS : forall a b, (- M <= b < M -> - M <= a < M) -> fits t b = true -> fits t a = true).
  { intros a b I. rewrite !FT. exact I. }
  assert (X : (-1 <= x <= 1) \/ 2 <= Z.abs x) by lia.
  assert (E32 : fits t (x ^ 3) = true -> fits t (x * x) = true).
  { apply FS. intro I. eapply abs_bound; [exact I| |lia]. rewrite p3.
    destruct X; [right; right; nia|left]. rewrite !Z.abs_mul. nia. }
  assert (E42 : fits t (x ^ 4) = true -> fits t (x * x) = true).
  { apply FS. intro I. eapply abs_bound; [exact I| |lia]. rewrite p4.
    destruct X; [right; right; nia|left]. rewrite !Z.abs_mul. nia. }
  assert (E54 : fits t (x ^ 5) = true -> fits t (x ^ 4) = true).
  { apply FS. intro I. eapply abs_bound; [exact I| |lia]. rewrite p5, p4.
    destruct X; [right; right|left].
    - assert (x = -1 \/ x = 0 \/ x = 1) as [->|[->| ->]]; lia.
    - rewrite !Z.abs_mul. set (y := Z.abs x * Z.abs x * (Z.abs x * Z.abs x)). assert (0 <= y) by nia. nia. }
  assert (E63 : fits t (x ^ 6) = true -> fits t (x ^ 3) = true).
  { apply FS. intro I. eapply abs_bound; [exact I| |lia]. rewrite p6, p3.
    destruct X; [right; right|left].
    - assert (x = -1 \/ x = 0 \/ x = 1) as [->|[->| ->]]; lia.
    - rewrite !Z.abs_mul. set (y := Z.abs x * Z.abs x * Z.abs x). assert (2 <= y) by (unfold y; nia). nia. }
  assert (P3 : pow3 t x = if fits t (x ^ 3) then Ok (x ^ 3) else UB SignedOverflow).
  { rewrite pow3_mulc, !mulc_signed by assumption. destruct (fits t (x * x)) eqn:F.
    - cbn [bind]. rewrite mulc_signed by assumption. rewrite p3. reflexivity.
    - destruct (fits t (x ^ 3)) eqn:F2; [|reflexivity]. specialize (E32 eq_refl). congruence. }
  assert (P4 : pow4 t x = if fits t (x ^ 4) then Ok (x ^ 4) else UB SignedOverflow).
  { rewrite pow4_mulc, !mulc_signed by assumption. destruct (fits t (x * x)) eqn:F.
    - cbn [bind]. rewrite mulc_signed by assumption. rewrite p4. reflexivity.
    - destruct (fits t (x ^ 4)) eqn:F2; [|reflexivity]. specialize (E42 eq_refl). congruence. }
  destruct (pow_unfold _ _ Hn) as [[-> ->]|[[-> ->]|[[-> ->]|[[-> ->]|[-> ->]]]]]; auto.
  - rewrite pow2_mulc, mulc_signed, p2 by assumption. reflexivity.
  - rewrite pow5_mulc, P4. destruct (fits t (x ^ 4)) eqn:F.
    + cbn [bind]. rewrite mulc_signed by assumption. rewrite p5, p4. reflexivity.
    + destruct (fits t (x ^ 5)) eqn:F2; [|reflexivity]. specialize (E54 eq_refl). congruence.
  - rewrite pow6_mulc, P3. destruct (fits t (x ^ 3)) eqn:F.
    + cbn [bind]. rewrite mulc_signed by assumption. rewrite p6, p3. reflexivity.
    + destruct (fits t (x ^ 6)) eqn:F2; [|reflexivity]. specialize (E63 eq_refl). congruence.
Qed.

(** uint16_t *)
Definition uint16_type : ity := {| is_signed := false; bits := 16 |}.
Lemma pow2_uint16 x : 0 <= x < 65536 ->
  pow2 uint16_type x = if x <=? 46340 then Ok (x ^ 2 mod 65536) else UB SignedOverflow.
Proof.
  intro H. unfold pow2, mul, promote. change (bits uint16_type <? 32) with true. cbv iota.
  change (is_signed int_type) with true. cbv iota.
  destruct (Z.leb_spec x 46340) as [L|L].
  - assert (F : fits int_type (x * x) = true) by (unfold fits, min_value, max_value; cbn [is_signed int_type bits];
      change (2 ^ (32 - 1)) with 2147483648; nia).
    rewrite F. cbn [bind]. unfold convert, min_value. cbn [is_signed uint16_type bits]. rewrite Z.sub_0_r, Z.add_0_r, p2. reflexivity.
  - assert (F : fits int_type (x * x) = false) by (unfold fits, min_value, max_value; cbn [is_signed int_type bits];
      change (2 ^ (32 - 1)) with 2147483648; nia).
    rewrite F. reflexivity.
Qed.

(** ** sign *)
Lemma sign_spec t n : 2 <= bits t -> is_value t n -> sign t n = (if n <? 0 then -1 else 1).
Proof.
  intros B V. unfold sign. destruct (Z.ltb_spec n 0) as [L|L]; apply convert_id; try (unfold good; lia).
  - unfold is_value in *. destruct (is_signed t); [|lia]. destruct (pow2_half (bits t)) as [_ P]; [lia|]. lia.
  - unfold is_value in *. assert (2 ^ 1 <= 2 ^ (bits t - 1)) by (apply Z.pow_le_mono_r; lia).
    destruct (pow2_half (bits t)); [lia|]. change (2 ^ 1) with 2 in *. destruct (is_signed t); lia.
Qed.

(** ** uint_size, int_size *)
Lemma sizes_domain n t : uint_size n = Some t \/ int_size n = Some t -> 1 <= n <= 8.
Proof.
  intros [H|H]; unfold uint_size, int_size in H; destruct n as [|p|p]; try discriminate;
    do 4 (try destruct p as [p|p|]); try discriminate; lia.
Qed.
Lemma sizes_spec n : 1 <= n <= 8 -> exists u i, uint_size n = Some u /\ int_size n = Some i /\
  is_signed u = false /\ is_signed i = true /\ smallest_size n u /\ smallest_size n i.
Proof.
  intro H. assert (n = 1 \/ n = 2 \/ n = 3 \/ n = 4 \/ n = 5 \/ n = 6 \/ n = 7 \/ n = 8) as C by lia.
  destruct C as [->|[->|[->|[->|[->|[->|[->| ->]]]]]]]; eexists _, _;
    (split; [reflexivity|split; [reflexivity|split; [reflexivity|split; [reflexivity|split]]]]);
    unfold smallest_size; cbn [bits];
    [exists 1|exists 1|exists 2|exists 2|exists 4|exists 4|exists 4|exists 4|exists 8|exists 8|exists 8|exists 8|exists 8|exists 8|exists 8|exists 8];
    (split; [cbn; lia|split; [reflexivity|split; [lia|]]]); cbn; intros s; lia.
Qed.

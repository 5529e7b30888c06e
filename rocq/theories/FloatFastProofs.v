(** Rounded arithmetic is correct, and so is Clinger's fast path, in every rounding mode. *)
From Verif Require Import Base FloatSpec FloatComputeModel FloatParseModel FloatFastModel FloatRoundProofs FloatEiselProofs.
Local Open Scope Z_scope.

Section Fmt.
Context (f : format) (G : good_format f).
Local Notation B := (2 ^ mant_bits f).
Local Notation E := (unit_exp f).

Lemma floor_spec num den : 0 <= num -> 0 < den ->
  let n := floor_pattern f num den in
  0 <= n /\ scaled f n * den <= num * 2 ^ E < scaled f (n + 1) * den.
Proof.
  intros N D. unfold floor_pattern. set (N' := num * 2 ^ E).
  assert (UP : 0 < 2 ^ E) by (apply Z.pow_pos_nonneg; [lia|apply G]).
  assert (N0 : 0 <= N') by (unfold N'; nia). set (v := N' / den). set (k := Z.max 0 (Z.log2 v - mant_bits f)). cbv zeta.
  pose proof (B_pos f G) as BP. pose proof G as [MB _].
  assert (V : 0 <= v) by (apply Z.div_pos; lia).
  assert (VD : v * den <= N' < (v + 1) * den).
  { pose proof (Z.div_mod N' den ltac:(lia)). pose proof (Z.mod_pos_bound N' den D). unfold v. lia. }
  assert (K : 0 <= k) by lia. assert (PK : 0 < 2 ^ k) by (apply Z.pow_pos_nonneg; lia).
  assert (M : v / 2 ^ k < 2 * B /\ (0 < k -> B <= v / 2 ^ k)).
  { destruct (Z.eq_dec v 0) as [->|NZ].
    - rewrite Z.div_0_l by lia. split; [lia|]. intro. unfold k in *. cbn [Z.log2] in *. lia.
    - pose proof (Z.log2_spec v ltac:(lia)) as LS. rewrite Z.pow_succ_r in LS by apply Z.log2_nonneg. split.
      + apply Z.div_lt_upper_bound; [lia|]. eapply Z.lt_le_trans; [apply LS|].
        replace (2 ^ k * (2 * B)) with (2 * 2 ^ (k + mant_bits f)) by (rewrite Z.pow_add_r by lia; ring).
        apply Z.mul_le_mono_nonneg_l; [lia|]. apply Z.pow_le_mono_r; [lia|]. unfold k. lia.
      + intro KP. apply Z.div_le_lower_bound; [lia|]. rewrite <- Z.pow_add_r by lia.
        eapply Z.le_trans; [|apply LS]. apply Z.pow_le_mono_r; [lia|]. unfold k in *. lia. }
  set (m := v / 2 ^ k) in *. destruct M as [M1 M2].
  assert (MN : 0 <= m) by (apply Z.div_pos; lia).
  assert (MV : m * 2 ^ k <= v < (m + 1) * 2 ^ k).
  { pose proof (Z.div_mod v (2 ^ k) ltac:(lia)). pose proof (Z.mod_pos_bound v (2 ^ k) PK). unfold m. lia. }
  split; [nia|]. rewrite <- Z.add_assoc. rewrite !scaled_at by (try assumption; lia). split.
  - eapply Z.le_trans; [|apply VD]. apply Z.mul_le_mono_nonneg_r; lia.
  - eapply Z.lt_le_trans; [apply VD|]. apply Z.mul_le_mono_nonneg_r; lia.
Qed.

(** An exact result is not changed, in any mode. *)
Lemma round_exact rm num den n0 : 0 <= num -> 0 < den -> 0 <= n0 < infinity f ->
  num * 2 ^ E = scaled f n0 * den -> round_positive f rm num den = n0.
Proof.
  intros N D R X. pose proof (floor_spec num den N D) as FS. cbv zeta in FS. unfold round_positive.
  set (n := floor_pattern f num den) in *. destruct FS as (N0 & L & U). rewrite X in L, U.
  assert (n = n0).
  { destruct (Z.lt_trichotomy n n0) as [C|[C|C]]; [|exact C|].
    - pose proof (scaled_le f G (n + 1) n0 ltac:(lia)). nia.
    - pose proof (scaled_lt f G n0 n ltac:(lia)). nia. }
  subst n0. replace (infinity f <=? n) with false by lia. rewrite X, Z.eqb_refl. reflexivity.
Qed.

(** In the nearest mode the result is the nearest pattern. *)
Lemma round_nearest num den : 0 <= num -> 0 < den -> nearest f num den (round_positive f ToNearest num den).
Proof.
  intros N D. pose proof (floor_spec num den N D) as FS. cbv zeta in FS. unfold round_positive.
  set (n := floor_pattern f num den) in *. destruct FS as (N0 & L & U).
  assert (IP : 0 < infinity f) by (unfold infinity; pose proof (B_pos f G); destruct G as [_ [? _]]; nia).
  destruct (infinity f <=? n) eqn:C.
  - apply (proj2 (nearest_unfold f _ _ _)). rewrite (odd_infinity f G). split; [lia|]. split; [|lia].
    intros _. split; [|discriminate]. unfold middle. replace (infinity f - 1 + 1) with (infinity f) by lia.
    pose proof (scaled_lt f G (infinity f - 1) (infinity f) ltac:(lia)). pose proof (scaled_le f G (infinity f) n ltac:(lia)). nia.
  - assert (MID : middle f n = scaled f n + scaled f (n + 1)) by reflexivity.
    assert (A : forall c, scaled f n * den < c \/ scaled f n * den = c -> 0 < n -> middle f (n - 1) * den < 2 * c).
    { intros c CC P. unfold middle. replace (n - 1 + 1) with n by lia. pose proof (scaled_lt f G (n - 1) n ltac:(lia)). nia. }
    assert (Bq : 2 * (num * 2 ^ E) < middle f (n + 1) * den).
    { unfold middle. pose proof (scaled_lt f G (n + 1) (n + 1 + 1) ltac:(lia)). nia. }
    assert (OE : Z.odd (n + 1) = negb (Z.odd n)) by (rewrite Z.odd_add; destruct (Z.odd n); reflexivity).
    destruct (Z.eqb_spec (scaled f n * den) (num * 2 ^ E)) as [X|X].
    + apply (proj2 (nearest_unfold f _ _ _)). rewrite <- !Z.mul_assoc. split; [lia|]. split.
      * intro P. pose proof (A _ (or_intror X) P). lia.
      * intros _. rewrite MID. pose proof (scaled_lt f G n (n + 1) ltac:(lia)). split; [nia|intro; nia].
    + assert (LT : scaled f n * den < num * 2 ^ E) by lia. rewrite <- Z.mul_assoc. rewrite <- MID.
      destruct (Z.ltb_spec (2 * (num * 2 ^ E)) (middle f n * den)) as [C1|C1];
        [|destruct (Z.ltb_spec (middle f n * den) (2 * (num * 2 ^ E))) as [C2|C2]];
        [| |destruct (Z.even n) eqn:EV]; apply (proj2 (nearest_unfold f _ _ _)); rewrite <- !Z.mul_assoc; (split; [lia|]); split.
      * intro P. pose proof (A _ (or_introl LT) P). lia.
      * intros _. lia.
      * intros _. replace (n + 1 - 1) with n by lia. lia.
      * intros _. lia.
      * intro P. pose proof (A _ (or_introl LT) P). lia.
      * intros _. rewrite <- Z.negb_even, EV. split; [lia|discriminate].
      * intros _. replace (n + 1 - 1) with n by lia. rewrite OE, <- Z.negb_even, EV. split; [lia|discriminate].
      * intros _. lia.
Qed.

(** Numbers with few significant bits have patterns. *)
Lemma representable j : 0 <= j -> forall c, 0 <= c <= 2 * B -> exists n, 0 <= n <= j * B + 2 * B /\ scaled f n = c * 2 ^ j.
Proof.
  intro J. pose proof (B_pos f G) as BP. pattern j. apply natlike_ind; [| |exact J].
  - intros c C. exists c. split; [lia|]. rewrite <- (scaled_at f G 0 c) by lia. f_equal.
  - clear j J. intros j J IH c C. destruct (Z_lt_le_dec c B) as [L|L].
    + destruct (IH (2 * c)) as (n & NB & S); [lia|]. exists n. split; [nia|]. rewrite S, Z.pow_succ_r by lia. ring.
    + exists (Z.succ j * B + c). split; [lia|]. apply scaled_at; try assumption; lia.
Qed.

Lemma of_uint_exact rm v : 0 <= v <= 2 * B -> E + 2 < top_field f -> scaled f (of_uint f rm v) = v * 2 ^ E.
Proof.
  intros V R. pose proof (B_pos f G) as BP. destruct (representable E (proj2 (proj2 G)) v V) as (n & NB & S).
  unfold of_uint. rewrite (round_exact rm v 1 n); [exact S|lia|lia| |lia]. unfold infinity. nia.
Qed.
End Fmt.

(** *** Excess precision *)
Section Excess.
Context (f g : format) (GF : good_format f) (GG : good_format g).

Definition contains : Prop :=
  mant_bits f <= mant_bits g /\ unit_exp f <= unit_exp g /\ top_field f + (unit_exp g - unit_exp f) + 2 <= top_field g.
Lemma embed n : contains \/ f = g -> 0 <= n < infinity f ->
  exists n', 0 <= n' < infinity g /\ scaled g n' * 2 ^ unit_exp f = scaled f n * 2 ^ unit_exp g.
Proof.
  intros [(M & U & T)|E] N; [|subst g; exists n; split; [exact N|reflexivity]].
  pose proof (B_pos f GF) as BF. pose proof (B_pos g GG) as BG. destruct GF as (M1 & _ & U1). destruct GG as (M2 & _ & U2).
  destruct (pattern_split f GF n ltac:(lia)) as (k & m & -> & K & MB & L).
  assert (BL : 2 ^ mant_bits f <= 2 ^ mant_bits g) by (apply Z.pow_le_mono_r; lia).
  assert (KT : k < top_field f) by (unfold infinity in N; nia).
  destruct (representable g GG (k + (unit_exp g - unit_exp f)) ltac:(lia) m ltac:(lia)) as (n' & NB & S).
  exists n'. split; [unfold infinity; nia|]. rewrite S. rewrite (scaled_at f GF) by lia.
  rewrite (Z.pow_add_r 2 k) by lia. replace (2 ^ unit_exp g) with (2 ^ (unit_exp g - unit_exp f) * 2 ^ unit_exp f); [ring|].
  rewrite <- Z.pow_add_r by lia. f_equal. lia.
Qed.

Lemma convert_exact rm n n' : 0 <= n < infinity f -> 0 <= n' < infinity g ->
  scaled g n' * 2 ^ unit_exp f = scaled f n * 2 ^ unit_exp g -> convert f g rm n' = n.
Proof.
  intros N N' E. unfold convert. replace (infinity g <=? n') with false by lia. apply (round_exact f GF); try assumption.
  - apply scaled_nonneg; [exact GG|lia].
  - apply Z.pow_pos_nonneg; [lia|apply GG].
Qed.
(** A result that is a number of the format is not changed by rounding it twice. *)
Lemma twice_exact rm num den n : contains \/ f = g -> 0 <= num -> 0 < den -> 0 <= n < infinity f ->
  num * 2 ^ unit_exp f = scaled f n * den -> convert f g rm (round_positive g rm num den) = n.
Proof.
  intros C N D R E. destruct (embed n C R) as (n' & R' & S).
  assert (UF : 0 < 2 ^ unit_exp f) by (apply Z.pow_pos_nonneg; [lia|apply GF]).
  rewrite (round_exact g GG rm num den n' N D R'); [apply convert_exact; assumption|].
  apply (Z.mul_reg_r _ _ (2 ^ unit_exp f)); [lia|].
  transitivity (num * 2 ^ unit_exp f * 2 ^ unit_exp g); [ring|]. rewrite E.
  transitivity (scaled f n * 2 ^ unit_exp g * den); [ring|]. rewrite <- S. ring.
Qed.
(** Nor is one that is a number of the wider format. *)
Lemma twice_wide num den n' : 0 <= num -> 0 < den -> 0 <= n' < infinity g ->
  num * 2 ^ unit_exp g = scaled g n' * den -> nearest f num den (convert f g ToNearest (round_positive g ToNearest num den)).
Proof.
  intros N D R E. rewrite (round_exact g GG ToNearest num den n' N D R E). unfold convert.
  replace (infinity g <=? n') with false by lia.
  assert (UG : 0 < 2 ^ unit_exp g) by (apply Z.pow_pos_nonneg; [lia|apply GG]).
  eapply (nearest_eq f); [exact UG|exact D| |apply round_nearest; [exact GF|apply scaled_nonneg; [exact GG|lia]|exact UG]].
  lia.
Qed.
End Excess.
Lemma twice_same f (G : good_format f) num den : 0 <= num -> 0 < den ->
  nearest f num den (convert f f ToNearest (round_positive f ToNearest num den)).
Proof.
  intros N D. pose proof (round_nearest f G num den N D) as R. destruct (Z_lt_le_dec (round_positive f ToNearest num den) (infinity f)) as [L|L].
  - rewrite (convert_exact f f G G ToNearest (round_positive f ToNearest num den)); [exact R| | |reflexivity]; (split; [apply R|exact L]).
  - unfold convert. replace (infinity f <=? _) with true by lia.
    assert (E : round_positive f ToNearest num den = infinity f) by (destruct R as [R _]; lia). rewrite E in R. exact R.
Qed.

(** A quotient of a number of 24 bits and a power of ten, rounded to double and then to float: the same as rounded once,
    because it is never near the middle between two neighbours, unless it is the middle. *)
Lemma gap m p s k : 0 <= m <= 2 ^ 24 -> 0 <= p <= 10 -> 0 < s < 2 ^ 25 -> 0 <= k ->
  m * 2 ^ 150 <> s * 2 ^ k * 10 ^ p -> s * 2 ^ k * 10 ^ p < 2 ^ 53 * Z.abs (m * 2 ^ 150 - s * 2 ^ k * 10 ^ p).
Proof.
  intros M P S K NE. assert (F : 0 < 5 ^ p <= 2 ^ 24).
  { split; [apply Z.pow_pos_nonneg; lia|]. apply Z.le_trans with (5 ^ 10); [apply Z.pow_le_mono_r; lia|lia]. }
  assert (E : s * 2 ^ k * 10 ^ p = s * 5 ^ p * 2 ^ (k + p)).
  { rewrite Z.pow_add_r by lia. change 10 with (5 * 2). rewrite Z.pow_mul_l. ring. }
  rewrite E in *. assert (SF : 0 < s * 5 ^ p < 2 ^ 49) by (change (2 ^ 49) with (2 ^ 25 * 2 ^ 24); nia).
  remember (s * 5 ^ p) as q. clear Heqq E F S. destruct (Z_le_gt_dec 150 (k + p)) as [L|L].
  - replace (k + p) with (k + p - 150 + 150) in * by lia. rewrite Z.pow_add_r in * by lia.
    assert (TP : 0 < 2 ^ (k + p - 150)) by (apply Z.pow_pos_nonneg; lia).
    remember (2 ^ (k + p - 150)) as t. assert (QT : 0 < q * t) by nia. rewrite Z.mul_assoc in *. remember (q * t) as r.
    clear Heqr Heqt. assert (ND : m <> r) by (intro; subst r; apply NE; reflexivity).
    replace (m * 2 ^ 150 - r * 2 ^ 150) with ((m - r) * 2 ^ 150) by ring. rewrite Z.abs_mul. change (Z.abs (2 ^ 150)) with (2 ^ 150).
    rewrite Z.mul_assoc. apply Z.mul_lt_mono_pos_r; [lia|]. lia.
  - assert (TP : 0 < 2 ^ (k + p)) by (apply Z.pow_pos_nonneg; lia).
    replace (2 ^ 150) with (2 ^ (150 - (k + p)) * 2 ^ (k + p)) in * by (rewrite <- Z.pow_add_r by lia; f_equal; lia).
    rewrite Z.mul_assoc in *. remember (m * 2 ^ (150 - (k + p))) as r. remember (2 ^ (k + p)) as t. clear Heqr Heqt.
    assert (ND : r <> q) by (intro; subst r; apply NE; reflexivity).
    replace (r * t - q * t) with ((r - q) * t) by ring. rewrite Z.abs_mul, (Z.abs_eq t) by lia.
    rewrite Z.mul_assoc. apply Z.mul_lt_mono_pos_r; [lia|]. lia.
Qed.

(** The neighbours of a number of double that is not subnormal. *)
Lemma neighbours n : 2 ^ 52 < n -> let v := scaled binary64 n in
  2 ^ 52 * (v - scaled binary64 (n - 1)) <= v /\ 2 ^ 52 * (scaled binary64 (n + 1) - v) <= v.
Proof.
  intro N. set (b := 2 ^ 52) in *. destruct (pattern_split binary64 good_binary64 n ltac:(lia)) as (k & m & E & K & MB & L).
  change (2 ^ mant_bits binary64) with b in *. assert (BP : 2 <= b) by (unfold b; lia).
  assert (M : b <= m) by (destruct (Z.eq_dec k 0) as [->|]; [lia|apply L; lia]).
  assert (TP : 0 < 2 ^ k) by (apply Z.pow_pos_nonneg; lia). cbv zeta.
  assert (SN : scaled binary64 n = m * 2 ^ k) by (rewrite E; apply (scaled_at binary64 good_binary64); [lia|change (2 ^ mant_bits binary64) with b; lia|intro; exact M]).
  assert (SS : scaled binary64 (n + 1) = (m + 1) * 2 ^ k).
  { rewrite E. replace (k * b + m + 1) with (k * b + (m + 1)) by ring.
    apply (scaled_at binary64 good_binary64); [lia|change (2 ^ mant_bits binary64) with b; lia|intro; change (2 ^ mant_bits binary64) with b; lia]. }
  rewrite SN, SS. split; [|nia].
  destruct (Z.eq_dec m b) as [Em|Nm].
  - assert (KP : 0 < k) by nia.
    assert (SP : scaled binary64 (n - 1) = (2 * b - 1) * 2 ^ (k - 1)).
    { rewrite E, Em. replace (k * b + b - 1) with ((k - 1) * b + (2 * b - 1)) by ring.
      apply (scaled_at binary64 good_binary64); [lia|change (2 ^ mant_bits binary64) with b; lia|intro; change (2 ^ mant_bits binary64) with b; lia]. }
    rewrite SP, Em. assert (T2 : 2 ^ k = 2 * 2 ^ (k - 1)) by (rewrite <- Z.pow_succ_r by lia; f_equal; lia).
    rewrite T2. assert (0 < 2 ^ (k - 1)) by (apply Z.pow_pos_nonneg; lia). nia.
  - assert (SP : scaled binary64 (n - 1) = (m - 1) * 2 ^ k).
    { rewrite E. replace (k * b + m - 1) with (k * b + (m - 1)) by ring.
      apply (scaled_at binary64 good_binary64); [lia|change (2 ^ mant_bits binary64) with b; lia|intro; change (2 ^ mant_bits binary64) with b; lia]. }
    rewrite SP. nia.
Qed.

Lemma middle_parts n : 0 <= n < infinity binary32 -> exists s k, 0 < s < 2 ^ 25 /\ 0 <= k <= 255 /\ middle binary32 n = s * 2 ^ k.
Proof.
  intro N. destruct (pattern_split binary32 good_binary32 n ltac:(lia)) as (k & m & -> & K & MB & L).
  change (2 ^ mant_bits binary32) with (2 ^ 23) in *. change (infinity binary32) with (255 * 2 ^ 23) in N.
  exists (2 * m + 1), k. split; [lia|]. split; [lia|]. unfold middle.
  replace (k * 2 ^ 23 + m + 1) with (k * 2 ^ 23 + (m + 1)) by ring.
  rewrite !(scaled_at binary32 good_binary32) by (change (2 ^ mant_bits binary32) with (2 ^ 23); lia). ring.
Qed.

(** Rounded to double, the quotient stays on its side of each middle of float. *)
Lemma side m p y n : 0 <= m <= 2 ^ 24 -> 0 <= p <= 10 -> nearest binary64 m (10 ^ p) y -> 0 <= n < infinity binary32 ->
  let c := middle binary32 n in
  (m * 2 ^ 150 < c * 10 ^ p -> scaled binary64 y < c * 2 ^ 924) /\
  (m * 2 ^ 150 = c * 10 ^ p -> scaled binary64 y = c * 2 ^ 924) /\
  (c * 10 ^ p < m * 2 ^ 150 -> c * 2 ^ 924 < scaled binary64 y).
Proof.
  intros M P NY N. cbv zeta. destruct (middle_parts n N) as (s & k & S & K & ->).
  assert (TP : 0 < 10 ^ p) by (apply Z.pow_pos_nonneg; lia).
  assert (KP : 0 < 2 ^ k) by (apply Z.pow_pos_nonneg; lia).
  destruct (representable binary64 good_binary64 (k + 924) ltac:(lia) s) as (c & CB & SC).
  { change (2 ^ mant_bits binary64) with (2 ^ 52). lia. }
  change (2 ^ mant_bits binary64) with (2 ^ 52) in CB. rewrite Z.pow_add_r in SC by lia.
  assert (CI : 0 <= c < infinity binary64) by (change (infinity binary64) with (2047 * 2 ^ 52); lia).
  assert (CN : 2 ^ 52 < c).
  { destruct (Z_lt_le_dec (2 ^ 52) c) as [|H]; [assumption|]. exfalso.
    pose proof (scaled_le binary64 good_binary64 c (2 ^ 52) ltac:(lia)) as LE. rewrite SC in LE.
    change (scaled binary64 (2 ^ 52)) with (2 ^ 52) in LE.
    assert (1 <= s * 2 ^ k) by nia. assert (2 ^ 924 <= s * (2 ^ k * 2 ^ 924)) by nia.
    assert (2 ^ 52 < 2 ^ 924) by (apply Z.pow_lt_mono_r; lia). lia. }
  replace (s * 2 ^ k * 2 ^ 924) with (scaled binary64 c) by (rewrite SC; ring).
  assert (NC : nearest binary64 (scaled binary64 c) (2 ^ 1074) c).
  { rewrite <- (round_exact binary64 good_binary64 ToNearest (scaled binary64 c) (2 ^ 1074) c) at 2; try assumption.
    - apply round_nearest; [exact good_binary64|apply scaled_nonneg; [exact good_binary64|lia]|reflexivity].
    - apply scaled_nonneg; [exact good_binary64|lia].
    - reflexivity.
    - reflexivity. }
  assert (X : forall z, z * 2 ^ 1074 = z * 2 ^ 150 * 2 ^ 924) by (intro; change (2 ^ 1074) with (2 ^ 150 * 2 ^ 924); ring).
  assert (U9 : 0 < 2 ^ 924) by reflexivity.
  assert (SCX : scaled binary64 c * 10 ^ p = s * 2 ^ k * 10 ^ p * 2 ^ 924) by (rewrite SC; ring).
  destruct (neighbours c CN) as [NB1 NB2]. pose proof NY as NY'. apply (proj1 (nearest_unfold _ _ _ _)) in NY'.
  change (2 ^ unit_exp binary64) with (2 ^ 1074) in NY'. destruct NY' as (YR & LO & UPP).
  assert (FAR : y = c -> m * 2 ^ 150 = s * 2 ^ k * 10 ^ p).
  { intros ->. destruct (Z.eq_dec (m * 2 ^ 150) (s * 2 ^ k * 10 ^ p)) as [|NE]; [assumption|]. exfalso.
    pose proof (gap m p s k M P S ltac:(lia) NE) as GP.
    destruct (LO ltac:(lia)) as [L1 _]. destruct (UPP ltac:(lia)) as [L2 _]. unfold middle in L1, L2.
    replace (c - 1 + 1) with c in L1 by lia.
    rewrite <- (Z.mul_assoc 2 m), X in L1, L2.
    set (a := m * 2 ^ 150) in *. set (q := s * 2 ^ k * 10 ^ p) in *.
    set (v := scaled binary64 c) in *. set (v1 := scaled binary64 (c - 1)) in *. set (v2 := scaled binary64 (c + 1)) in *.
    set (t := 10 ^ p) in *. set (u := 2 ^ 924) in *. clearbody a q v v1 v2 t u. clear - GP L1 L2 NB1 NB2 TP U9 SCX NE.
    assert (A1 : 2 ^ 53 * (q - a) <= q).
    { apply (Z.mul_le_mono_pos_r _ _ u U9). 
      assert (2 ^ 52 * ((v - v1) * t) <= v * t) by (rewrite Z.mul_assoc; apply Z.mul_le_mono_nonneg_r; lia). lia. }
    assert (A2 : 2 ^ 53 * (a - q) <= q).
    { apply (Z.mul_le_mono_pos_r _ _ u U9).
      assert (2 ^ 52 * ((v2 - v) * t) <= v * t) by (rewrite Z.mul_assoc; apply Z.mul_le_mono_nonneg_r; lia). lia. }
    lia. }
  assert (UP : 0 < 2 ^ 1074) by reflexivity.
  assert (C0 : 0 <= scaled binary64 c) by (apply scaled_nonneg; [exact good_binary64|lia]).
  split; [|split].
  - intro LT. destruct (Z_lt_le_dec (scaled binary64 y) (scaled binary64 c)) as [|GE]; [assumption|]. exfalso.
    assert (YC : y <= c).
    { apply (nearest_mono binary64 good_binary64 m (10 ^ p) y (scaled binary64 c) (2 ^ 1074) c); try assumption; try (clear - M; lia).
      rewrite SCX, X. apply Z.mul_le_mono_nonneg_r; [clear - U9|]; lia. }
    destruct (Z.eq_dec y c) as [E|NE]; [specialize (FAR E); lia|].
    pose proof (scaled_lt binary64 good_binary64 y c ltac:(lia)). lia.
  - intro EQ. f_equal. apply (nearest_unique binary64 good_binary64 m (10 ^ p)); try assumption; try lia.
    eapply (nearest_eq binary64); [exact UP|exact TP| |exact NC]. rewrite SCX, X, EQ. reflexivity.
  - intro GT. destruct (Z_lt_le_dec (scaled binary64 c) (scaled binary64 y)) as [|GE]; [assumption|]. exfalso.
    assert (YC : c <= y).
    { apply (nearest_mono binary64 good_binary64 (scaled binary64 c) (2 ^ 1074) c m (10 ^ p) y); try assumption; try (clear - M; lia).
      rewrite SCX, X. apply Z.mul_le_mono_nonneg_r; [clear - U9|]; lia. }
    destruct (Z.eq_dec y c) as [E|NE]; [specialize (FAR E); lia|].
    pose proof (scaled_lt binary64 good_binary64 c y ltac:(lia)). lia.
Qed.

Theorem quotient_twice m p num den : 0 <= m <= 2 ^ 24 -> 0 <= p <= 10 -> 0 <= num -> 0 < den -> num * 10 ^ p = m * den ->
  nearest binary32 m (10 ^ p) (convert binary32 binary64 ToNearest (round_positive binary64 ToNearest num den)).
Proof.
  intros M P N D E. assert (TP : 0 < 10 ^ p) by (apply Z.pow_pos_nonneg; lia).
  assert (NY : nearest binary64 m (10 ^ p) (round_positive binary64 ToNearest num den)).
  { eapply (nearest_eq binary64); [exact D|exact TP|exact E|apply round_nearest; [exact good_binary64|exact N|exact D]]. }
  remember (round_positive binary64 ToNearest num den) as y eqn:EY. clear EY. pose proof NY as YB. destruct YB as (YB & _).
  assert (YI : y < infinity binary64).
  { assert (y <= 1047 * 2 ^ 52); [|change (infinity binary64) with (2047 * 2 ^ 52); lia].
    apply (nearest_mono binary64 good_binary64 m (10 ^ p) y (2 ^ 24) 1 (1047 * 2 ^ 52)); try assumption; try lia.
    rewrite <- (round_exact binary64 good_binary64 ToNearest (2 ^ 24) 1 (1047 * 2 ^ 52)); try lia; try reflexivity.
    - apply round_nearest; [exact good_binary64|lia|lia].
    - change (infinity binary64) with (2047 * 2 ^ 52). lia. }
  unfold convert. replace (infinity binary64 <=? y) with false by lia.
  pose proof (round_nearest binary32 good_binary32 (scaled binary64 y) (2 ^ unit_exp binary64) ltac:(apply scaled_nonneg; [exact good_binary64|lia]) eq_refl) as NR.
  remember (round_positive binary32 ToNearest (scaled binary64 y) (2 ^ unit_exp binary64)) as r eqn:ER. clear ER.
  apply (proj1 (nearest_unfold _ _ _ _)) in NR. apply (proj2 (nearest_unfold _ _ _ _)).
  change (2 ^ unit_exp binary64) with (2 ^ 150 * 2 ^ 924) in NR. change (2 ^ unit_exp binary32) with (2 ^ 149) in *.
  destruct NR as (RB & LO & UPP). assert (U9 : 0 < 2 ^ 924) by reflexivity.
  assert (X : 2 * m * 2 ^ 149 = m * 2 ^ 150) by (change (2 ^ 150) with (2 * 2 ^ 149); ring).
  assert (X2 : forall z, 2 * z * 2 ^ 149 = z * 2 ^ 150) by (intro; change (2 ^ 150) with (2 * 2 ^ 149); ring).
  rewrite X. rewrite X2 in LO, UPP. split; [exact RB|]. split.
  - intro R. destruct (side m p y (r - 1) M P NY ltac:(lia)) as (S1 & S2 & S3). destruct (LO R) as [L1 L2].
    set (c := middle binary32 (r - 1)) in *. set (u := 2 ^ 924) in *. set (v := scaled binary64 y) in *. set (t := 10 ^ p) in *.
    clearbody c u v t. clear - S1 S2 S3 L1 L2 U9. split.
    + destruct (Z_lt_le_dec (m * 2 ^ 150) (c * t)) as [LT|]; [specialize (S1 LT); exfalso; lia|assumption].
    + intro O. specialize (L2 O). destruct (Z.lt_trichotomy (m * 2 ^ 150) (c * t)) as [LT|[EQ|]]; [specialize (S1 LT)|specialize (S2 EQ)|assumption]; exfalso; lia.
  - intro R. destruct (side m p y r M P NY ltac:(lia)) as (S1 & S2 & S3). destruct (UPP R) as [L1 L2].
    set (c := middle binary32 r) in *. set (u := 2 ^ 924) in *. set (v := scaled binary64 y) in *. set (t := 10 ^ p) in *.
    clearbody c u v t. clear - S1 S2 S3 L1 L2 U9. split.
    + destruct (Z_lt_le_dec (c * t) (m * 2 ^ 150)) as [LT|]; [specialize (S3 LT); exfalso; lia|assumption].
    + intro O. specialize (L2 O). destruct (Z.lt_trichotomy (m * 2 ^ 150) (c * t)) as [|[EQ|LT]]; [assumption|specialize (S2 EQ)|specialize (S3 LT)]; exfalso; lia.
Qed.

Lemma rounds_to_nearest_ok {lw : platform} rm : rounds_to_nearest rm = true <-> rm = ToNearest /\ evaluates choice <> AsLongDouble.
Proof.
  unfold rounds_to_nearest, wide_add, wide_sub, wide_format.
  destruct (evaluates choice); destruct rm; vm_compute; (split; [intro H; (discriminate H || (split; [reflexivity|discriminate]))|intros [H K]; (discriminate H || reflexivity || exact (False_ind _ (K eq_refl)))]).
Qed.

Section Sup.
Context {lw : platform} (b : binary) (f : format) (SUP : supported b f).
Local Notation mb := (mantissa_explicit_bits b).
Let G := supported_good b f SUP.

Lemma array_at_seq (P : Z -> Z -> bool) l : forallb (fun i => match nth_error l i with Some v => P (Z.of_nat i) v | None => false end) (seq 0 (length l)) = true ->
  forall i, 0 <= i < Z.of_nat (length l) -> exists v, array_at l i = Ok v /\ P i v = true.
Proof.
  intros H i I. rewrite forallb_forall in H. specialize (H (Z.to_nat i) ltac:(apply in_seq; lia)). cbv beta in H.
  rewrite Z2Nat.id in H by lia. unfold array_at. replace (i <? 0) with false by lia.
  destruct (nth_error l (Z.to_nat i)) as [v|]; [|discriminate]. exists v. auto.
Qed.

Lemma powers_of_ten_ok p : 0 <= p <= max_exponent_fast_path b -> array_at (powers_of_ten b) p = Ok (10 ^ p) /\ 5 ^ p <= 2 ^ (mb + 1).
Proof.
  intro P.
  destruct (array_at_seq (fun i v => (v =? 10 ^ i) && (5 ^ i <=? 2 ^ (mb + 1)))%bool (powers_of_ten b)) with (i := p) as (v & -> & C).
  - destruct SUP; vm_compute; reflexivity.
  - destruct SUP; cbn [max_exponent_fast_path double_format float_format] in P; cbn; lia.
  - apply andb_true_iff in C. destruct C as [C1 C2]. apply Z.eqb_eq in C1. subst v. split; [reflexivity|]. apply Z.leb_le, C2.
Qed.
Lemma max_mantissa_ok p : 0 <= p <= max_exponent_fast_path b ->
  exists v, array_at (max_mantissa b) p = Ok v /\ v * 5 ^ p <= 2 ^ (mb + 1) /\ v <= 2 ^ (mb + 1).
Proof.
  intro P.
  destruct (array_at_seq (fun i v => (v * 5 ^ i <=? 2 ^ (mb + 1)) && (v <=? 2 ^ (mb + 1)))%bool (max_mantissa b)) with (i := p) as (v & -> & C).
  - destruct SUP; vm_compute; reflexivity.
  - destruct SUP; cbn [max_exponent_fast_path double_format float_format] in P; cbn; lia.
  - apply andb_true_iff in C. destruct C as [C1 C2]. exists v. split; [reflexivity|]. split; apply Z.leb_le; assumption.
Qed.

Lemma fast_consts : mant_bits f = mb /\ 0 <= mb /\ 0 <= unit_exp f /\ unit_exp f + max_exponent_fast_path b + 2 < top_field f /\ 0 <= max_exponent_fast_path b.
Proof. destruct SUP; cbn; lia. Qed.

Lemma exact_power p : 0 <= p <= max_exponent_fast_path b ->
  exists t, exact_power_of_ten b f p = Ok t /\ scaled f t = 10 ^ p * 2 ^ unit_exp f.
Proof.
  intro P. unfold exact_power_of_ten. destruct (powers_of_ten_ok p P) as [-> F]. cbn [bind]. eexists. split; [reflexivity|].
  destruct fast_consts as (MB & MP & EP & R & _).
  assert (P5 : 0 < 5 ^ p) by (apply Z.pow_pos_nonneg; lia).
  destruct (representable f G (p + unit_exp f) ltac:(lia) (5 ^ p)) as (n & NB & S).
  { rewrite MB. rewrite Z.pow_add_r in F by lia. lia. }
  assert (V : 10 ^ p * 2 ^ unit_exp f = 5 ^ p * 2 ^ (p + unit_exp f)).
  { rewrite Z.pow_add_r by lia. change 10 with (5 * 2). rewrite Z.pow_mul_l. ring. }
  unfold of_uint. rewrite (round_exact f G ToNearest (10 ^ p) 1 n).
  - rewrite S, V. reflexivity.
  - apply Z.pow_nonneg. lia.
  - lia.
  - unfold infinity. pose proof (B_pos f G). nia.
  - rewrite V, S. ring.
Qed.

(** The operators, evaluated with more precision or not. *)
Lemma wide_good : good_format (wide_format f).
Proof. unfold wide_format. destruct (evaluates choice); [exact G|exact good_binary64|repeat split; cbn; lia]. Qed.
Lemma wide_contains : contains f (wide_format f) \/ f = wide_format f.
Proof.
  unfold wide_format. destruct (evaluates choice); [right; reflexivity| |left; destruct SUP; unfold contains; cbn; lia].
  destruct SUP; [right; reflexivity|left; unfold contains; cbn; lia].
Qed.
Lemma quotient_nearest m p num den : evaluates choice <> AsLongDouble -> 0 <= m <= 2 ^ (mb + 1) -> 0 <= p <= max_exponent_fast_path b ->
  0 <= num -> 0 < den -> num * 10 ^ p = m * den ->
  nearest f m (10 ^ p) (convert f (wide_format f) ToNearest (round_positive (wide_format f) ToNearest num den)).
Proof.
  intros EV M P N D E. assert (TP : 0 < 10 ^ p) by (apply Z.pow_pos_nonneg; lia).
  assert (S : wide_format f = f \/ f = binary32 /\ wide_format f = binary64 /\ b = float_format).
  { unfold wide_format. destruct (evaluates choice); [auto| |congruence]. destruct SUP; auto. }
  destruct S as [->|(-> & -> & ->)].
  - eapply (nearest_eq f); [exact D|exact TP|exact E|apply twice_same; [exact G|exact N|exact D]].
  - apply quotient_twice; assumption.
Qed.
Lemma product_nearest m p num den : evaluates choice <> AsLongDouble -> 0 <= m <= 2 ^ (mb + 1) -> 0 <= p <= max_exponent_fast_path b ->
  0 <= num -> 0 < den -> num = m * 10 ^ p * den ->
  nearest f (m * 10 ^ p) 1 (convert f (wide_format f) ToNearest (round_positive (wide_format f) ToNearest num den)).
Proof.
  intros EV M P N D E. assert (TP : 0 < 10 ^ p) by (apply Z.pow_pos_nonneg; lia).
  assert (S : wide_format f = f \/ f = binary32 /\ wide_format f = binary64 /\ b = float_format).
  { unfold wide_format. destruct (evaluates choice); [auto| |congruence]. destruct SUP; auto. }
  destruct S as [->|(EF & EW & EB)].
  - eapply (nearest_eq f); [exact D|reflexivity| |apply twice_same; [exact G|exact N|exact D]]. lia.
  - destruct (powers_of_ten_ok p P) as [_ F]. rewrite EB in M, F, P. cbn [mantissa_explicit_bits max_exponent_fast_path float_format] in M, F, P.
    assert (F0 : 0 < 5 ^ p) by (apply Z.pow_pos_nonneg; lia).
    destruct (representable binary64 good_binary64 (p + 1074) ltac:(lia) (m * 5 ^ p)) as (n & NB & SN).
    { change (2 * 2 ^ mant_bits binary64) with (2 ^ 24 * 2 ^ 24 * 2 ^ 5). change (2 ^ (23 + 1)) with (2 ^ 24) in *. nia. }
    eapply (nearest_eq f); [exact D|reflexivity| |].
    2:{ rewrite EW. apply (twice_wide f binary64 G good_binary64 num den n N D).
        - change (infinity binary64) with (2047 * 2 ^ 52). change (2 ^ mant_bits binary64) with (2 ^ 52) in NB. lia.
        - rewrite SN, E. change (unit_exp binary64) with 1074. rewrite Z.pow_add_r by lia. change 10 with (5 * 2). rewrite Z.pow_mul_l. ring. }
    lia.
Qed.

(** The fast path, when it is taken, returns the nearest pattern. *)
Theorem fast_path_spec rm pns : 0 <= num_mantissa pns ->
  exists o, fast_path b f rm pns = Ok o /\
  match o with
  | Some v => exists n, v = signed_pattern f (negative pns) n /\ nearest_decimal f (num_mantissa pns) (exponent pns) n /\ too_many_digits pns = false /\
      min_exponent_fast_path b <= exponent pns <= max_exponent_fast_path b /\ num_mantissa pns <= 2 ^ (mb + 1)
  | None => True
  end.
Proof.
  intro M. destruct pns as [e m rest neg val many int frac]. cbn [exponent num_mantissa negative too_many_digits] in *.
  unfold fast_path. cbn [exponent num_mantissa negative too_many_digits].
  destruct fast_consts as (MB & MP & EP & R & XP).
  assert (SG : forall n, (if neg then fneg f n else n) = signed_pattern f neg n) by (intro; reflexivity).
  assert (UP : 0 < 2 ^ unit_exp f) by (apply Z.pow_pos_nonneg; lia).
  assert (M2 : 2 * 2 ^ mb = 2 ^ (mb + 1)) by (rewrite Z.pow_add_r by lia; lia).
  assert (MINE : - min_exponent_fast_path b = max_exponent_fast_path b) by (destruct SUP; reflexivity).
  assert (LOW : min_exponent_fast_path b <= lowest_exponent b) by (unfold lowest_exponent; destruct (evaluates choice); lia).
  destruct ((lowest_exponent b <=? e) && (e <=? max_exponent_fast_path b) && negb many)%bool eqn:C; [|exists None; split; [reflexivity|exact I]].
  assert (R1 : min_exponent_fast_path b <= e <= max_exponent_fast_path b) by lia.
  assert (MF : many = false) by (destruct many; [rewrite andb_false_r in C; discriminate|reflexivity]).
  destruct (rounds_to_nearest rm) eqn:RN.
  - apply rounds_to_nearest_ok in RN. destruct RN as [-> EV]. unfold max_mantissa_fast_path.
    destruct (m <=? 2 * 2 ^ mb) eqn:CM; [|exists None; split; [reflexivity|exact I]].
    assert (SV : scaled f (of_uint f ToNearest m) = m * 2 ^ unit_exp f) by (apply of_uint_exact; [assumption|rewrite MB; lia|lia]).
    destruct (e <? 0) eqn:CE.
    + destruct (exact_power (- e)) as (t & -> & ST); [lia|]. cbn [bind]. eexists. split; [reflexivity|]. cbv iota.
      eexists. split; [apply SG|]. split; [|split; [exact MF|split; [exact R1|lia]]].
      assert (TP : 0 < 10 ^ - e) by (apply Z.pow_pos_nonneg; lia).
      unfold nearest_decimal, dec_num, dec_den, wide_div. rewrite SV, ST. rewrite (Z.max_r e 0), (Z.max_l (- e) 0) by lia.
      change (10 ^ 0) with 1. rewrite Z.mul_1_r. apply quotient_nearest; [exact EV|lia|lia|nia|nia|ring].
    + destruct (exact_power e) as (t & -> & ST); [lia|]. cbn [bind]. eexists. split; [reflexivity|]. cbv iota.
      eexists. split; [apply SG|]. split; [|split; [exact MF|split; [exact R1|lia]]].
      assert (TP : 0 < 10 ^ e) by (apply Z.pow_pos_nonneg; lia).
      unfold nearest_decimal, dec_num, dec_den, wide_mul. rewrite SV, ST. rewrite (Z.max_l e 0), (Z.max_r (- e) 0) by lia.
      change (10 ^ 0) with 1.
      assert (E2 : 2 ^ (2 * unit_exp f) = 2 ^ unit_exp f * 2 ^ unit_exp f) by (rewrite <- Z.pow_add_r by lia; f_equal; lia).
      apply product_nearest; [exact EV|lia|lia|nia|rewrite E2; nia|rewrite E2; ring].
  - destruct (0 <=? e) eqn:CE; [|exists None; split; [reflexivity|exact I]].
    destruct (max_mantissa_ok e) as (lim & -> & L1 & L2); [lia|]. cbn [bind].
    destruct (m <=? lim) eqn:CM; [|exists None; split; [reflexivity|exact I]].
    assert (SV : scaled f (of_uint f rm m) = m * 2 ^ unit_exp f) by (apply of_uint_exact; [assumption|rewrite MB; lia|lia]).
    destruct (zero_first choice && (m =? 0))%bool eqn:ZF.
    { assert (m = 0) by lia. subst m. eexists. split; [reflexivity|]. cbv iota.
      eexists. split; [apply SG|]. split; [|split; [exact MF|split; [exact R1|lia]]].
      unfold nearest_decimal, dec_num. rewrite Z.mul_0_l.
      rewrite <- (round_exact f G ToNearest 0 (dec_den e) 0) at 2; [apply round_nearest; [exact G|lia|]| | | |].
      - unfold dec_den. apply Z.pow_pos_nonneg; lia.
      - lia.
      - unfold dec_den. apply Z.pow_pos_nonneg; lia.
      - unfold infinity. pose proof (B_pos f G). nia.
      - rewrite (scaled_0 f G). lia. }
    destruct (exact_power e) as (t & -> & ST); [lia|]. cbn [bind]. eexists. split; [reflexivity|]. cbv iota.
    eexists. split; [apply SG|]. split; [|split; [exact MF|split; [exact R1|lia]]].
    assert (TP : 0 < 10 ^ e) by (apply Z.pow_pos_nonneg; lia). assert (FP : 0 < 5 ^ e) by (apply Z.pow_pos_nonneg; lia).
    unfold nearest_decimal, dec_num, dec_den, wide_mul. rewrite SV, ST. rewrite (Z.max_l e 0), (Z.max_r (- e) 0) by lia.
    change (10 ^ 0) with 1.
    assert (E2 : 2 ^ (2 * unit_exp f) = 2 ^ unit_exp f * 2 ^ unit_exp f) by (rewrite <- Z.pow_add_r by lia; f_equal; lia).
    destruct (representable f G (e + unit_exp f) ltac:(lia) (m * 5 ^ e)) as (n & NB & S); [rewrite MB; nia|].
    assert (V : m * 10 ^ e * 2 ^ unit_exp f = scaled f n).
    { rewrite S, Z.pow_add_r by lia. change 10 with (5 * 2). rewrite Z.pow_mul_l. ring. }
    assert (NI : 0 <= n < infinity f) by (unfold infinity; pose proof (B_pos f G); rewrite MB in *; nia).
    rewrite (twice_exact f (wide_format f) G wide_good rm _ _ n wide_contains) by (rewrite ?E2, <- ?V; try nia; try exact NI; ring).
    rewrite <- (round_exact f G ToNearest (m * 10 ^ e) 1 n) by (try nia; try exact NI; rewrite <- V; ring).
    apply round_nearest; [assumption|nia|lia].
Qed.
End Sup.

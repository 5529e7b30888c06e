(** The powers of floating point numbers. *)
From Coq Require Import Reals Lra.
From Verif Require Import Base FloatSpec FloatFastModel FloatRoundProofs FloatFastProofs MathModel MathSpec MathProofs MathAngleProofs MathConstProofs.
Local Open Scope Z_scope.

(** The absolute value of a product *)
Definition mulp (f : format) (rm : rounding) (a b : Z) : Z := if is_inf f a || is_inf f b then infinity f else fmul f rm a b.
Lemma mulp_zero f : modelled f -> mulp f ToNearest 0 0 = 0.
Proof. intros []; vm_compute; reflexivity. Qed.
Section Pow.
Context (f : format) (M : modelled f).
Let G : good_format f := modelled_good f M.
Notation inf := (infinity f).
Lemma inf_pos : 0 < inf.
Proof. destruct M; reflexivity. Qed.
Lemma mulp_fp rm s a t b : (a = inf -> b <> 0) -> (b = inf -> a <> 0) -> a <= inf -> b <= inf ->
  fp_mul f rm (Num s a) (Num t b) = Num (xorb s t) (mulp f (magnitude_mode rm (xorb s t)) a b).
Proof.
  intros A B A' B'. unfold fp_mul, mulp, is_inf. cbv zeta.
  destruct (Z.leb_spec inf a) as [LA|LA]; destruct (Z.leb_spec inf b) as [LB|LB]; cbn [andb orb]; rewrite ?andb_true_r, ?andb_false_r;
    repeat match goal with |- context [?x =? 0] => destruct (Z.eqb_spec x 0); [exfalso; try (apply A; lia); try (apply B; lia); pose proof inf_pos; lia|] end; cbn [andb orb]; reflexivity.
Qed.
Notation mul := (mulp f ToNearest).
Lemma mulp_range a b : 0 <= a -> 0 <= b -> 0 <= mul a b <= inf.
Proof. intros A B. unfold mulp. pose proof inf_pos. destruct (_ || _); [lia|apply (fmul_range f G); assumption]. Qed.
Lemma mulp_finite a b : 0 <= a -> 0 <= b -> mul a b < inf -> a < inf /\ b < inf /\ mul a b = fmul f ToNearest a b.
Proof.
  intros A B L. unfold mulp, is_inf in *. destruct (Z.leb_spec inf a), (Z.leb_spec inf b); cbn [orb] in *; try lia.
Qed.
Lemma mulp_mono a b a' b' : 0 <= a <= a' -> 0 <= b <= b' -> mul a b <= mul a' b'.
Proof.
  intros A B. destruct (Z_lt_le_dec (mul a' b') inf) as [L|L].
  - destruct (mulp_finite a' b' ltac:(lia) ltac:(lia) L) as (LA & LB & E). rewrite E. unfold mulp, is_inf.
    rewrite !(proj2 (Z.leb_gt _ _)) by lia. cbn [orb]. transitivity (fmul f ToNearest a b'); [apply (fmul_mono f G); lia|].
    assert (C : forall x y, fmul f ToNearest x y = fmul f ToNearest y x) by (intros; unfold fmul; rewrite Z.mul_comm; reflexivity).
    rewrite (C a b'), (C a' b'). apply (fmul_mono f G); lia.
  - pose proof (mulp_range a b ltac:(lia) ltac:(lia)). lia.
Qed.
Lemma mulp_inf : mul inf inf = inf.
Proof. unfold mulp, is_inf. rewrite Z.leb_refl. reflexivity. Qed.
(** The absolute value of a power *)
Definition pw (k n : Z) : Z :=
  match k with
  | 2 => mul n n | 3 => mul (mul n n) n | 4 => mul (mul n n) (mul n n) | 5 => mul (mul (mul n n) (mul n n)) n
  | 6 => mul (mul (mul n n) n) (mul (mul n n) n) | _ => 0
  end.
Lemma mulp_num s a t b : 0 <= a <= inf -> 0 <= b <= inf -> (a = inf -> b <> 0) -> (b = inf -> a <> 0) ->
  fp_mul f ToNearest (Num s a) (Num t b) = Num (xorb s t) (mul a b).
Proof. intros. rewrite mulp_fp by (assumption || lia). destruct (xorb s t); reflexivity. Qed.
Lemma pow_num k g neg n : fp_pow k = Some g -> 0 <= n <= inf -> g f ToNearest (Num neg n) = Num (neg && Z.odd k) (pw k n).
Proof.
  intros E N. pose proof inf_pos as IP.
  assert (R2 := mulp_range n n ltac:(lia) ltac:(lia)). assert (R3 := mulp_range (mul n n) n ltac:(lia) ltac:(lia)). assert (R4 := mulp_range (mul n n) (mul n n) ltac:(lia) ltac:(lia)).
  assert (I : forall a, n = inf -> mul a n = inf).
  { intros a ->. unfold mulp, is_inf. rewrite Z.leb_refl, orb_true_r. reflexivity. }
  assert (Z0 : n = 0 -> mul n n = 0) by (intros ->; apply (mulp_zero f M)).
  assert (Z1 : n = 0 -> mul (mul n n) (mul n n) = 0) by (intro H; rewrite (Z0 H); apply (mulp_zero f M)).
  assert (I4 : n = inf -> mul (mul n n) (mul n n) = inf) by (intro H; rewrite (I n H); apply mulp_inf).
  assert (P2 : fp_pow2 f ToNearest (Num neg n) = Num false (mul n n)) by (unfold fp_pow2; rewrite mulp_num by lia; rewrite xorb_nilpotent; reflexivity).
  assert (P3 : fp_pow3 f ToNearest (Num neg n) = Num neg (mul (mul n n) n)).
  { unfold fp_pow3. rewrite P2, mulp_num; [destruct neg; reflexivity|lia|lia|lia|]. intro H. rewrite (I n H). lia. }
  assert (P4 : fp_pow4 f ToNearest (Num neg n) = Num false (mul (mul n n) (mul n n))).
  { unfold fp_pow4. rewrite P2. unfold fp_pow2. rewrite mulp_num by lia. reflexivity. }
  unfold fp_pow in E.
  assert (K : k = 2 \/ k = 3 \/ k = 4 \/ k = 5 \/ k = 6) by (destruct k as [|p|p]; try discriminate; repeat (destruct p; try discriminate); auto 10).
  destruct K as [-> | [-> | [-> | [-> | ->]]]]; injection E as <-; cbn [Z.odd Z.even negb pw]; rewrite ?andb_false_r, ?andb_true_r; [exact P2|exact P3|exact P4| |].
  - unfold fp_pow5. rewrite P4, mulp_num; [destruct neg; reflexivity|lia|lia|lia|]. intro H. rewrite (I4 H). lia.
  - unfold fp_pow6. rewrite P3. unfold fp_pow2. rewrite mulp_num by lia. rewrite xorb_nilpotent. reflexivity.
Qed.
Lemma pw_range k n : 0 <= n -> 0 <= pw k n <= inf.
Proof.
  intro N. pose proof inf_pos. pose proof (mulp_range n n N N). unfold pw.
  destruct k as [|p|p]; try lia; repeat (destruct p; try lia); repeat (apply mulp_range || lia).
Qed.
Lemma pw_mono k n m : 0 <= n <= m -> pw k n <= pw k m.
Proof.
  intro N. assert (M2 := mulp_mono n n m m N N). pose proof (mulp_range n n ltac:(lia) ltac:(lia)).
  assert (M3 := mulp_mono (mul n n) n (mul m m) m ltac:(lia) N). pose proof (mulp_range (mul n n) n ltac:(lia) ltac:(lia)).
  assert (M4 := mulp_mono (mul n n) (mul n n) (mul m m) (mul m m) ltac:(lia) ltac:(lia)). pose proof (mulp_range (mul n n) (mul n n) ltac:(lia) ltac:(lia)).
  unfold pw. destruct k as [|p|p]; try lia; repeat (destruct p; try lia); apply mulp_mono; lia.
Qed.

(** *** Errors *)
Local Open Scope R_scope.
Notation u := (roundoff f).
Notation s := (smallest f).
Notation val := (value f false).
(** [m] is [X] but for a relative and an absolute error. *)
Definition app (alpha c : R) (m : Z) (X : R) : Prop := (0 <= m)%Z /\ 0 <= X /\ Rabs (val m - X) <= (alpha - 1) * X + c * s.
Lemma app_self n : (0 <= n)%Z -> app 1 0 n (val n).
Proof. intro N. split; [exact N|]. split; [apply (value_nonneg f G), N|]. replace (val n - val n) with 0 by ring. rewrite Rabs_R0. lra. Qed.
Lemma mulp_close a b : (0 <= a)%Z -> (0 <= b)%Z -> (mul a b < inf)%Z ->
  Rabs (val (mul a b) - val a * val b) <= s / 2 \/ Rabs (val (mul a b) - val a * val b) <= u * (val a * val b).
Proof.
  intros A B L. destruct (mulp_finite a b A B L) as (_ & _ & E). rewrite E in L |- *.
  assert (EV : val a * val b = IZR (scaled f a * scaled f b) / IZR (2 ^ (2 * unit_exp f))).
  { rewrite !value_pos, mult_IZR. replace (2 * unit_exp f)%Z with (unit_exp f + unit_exp f)%Z by lia. rewrite Z.pow_add_r by (destruct G; lia). rewrite mult_IZR.
    pose proof (UR_pos f G). field. lra. }
  rewrite EV. pose proof (scaled_nonneg f G a A). pose proof (scaled_nonneg f G b B).
  assert (0 < 2 ^ (2 * unit_exp f))%Z by (apply Z.pow_pos_nonneg; destruct G; lia).
  apply (nearest_close f G); [nia|assumption| |exact L]. apply (round_nearest f G); [nia|assumption].
Qed.
Lemma app_product alpha c a X beta d b Y : 1 <= alpha -> 1 <= beta -> 0 <= c -> 0 <= d -> app alpha c a X -> app beta d b Y ->
  Rabs (val a * val b - X * Y) <= (alpha * beta - 1) * (X * Y) + (c * beta * Y + d * alpha * X + c * d * s) * s.
Proof.
  intros A1 B1 C0 D0 (_ & X0 & EA) (_ & Y0 & EB). pose proof (smallest_pos f G) as S.
  replace (val a * val b - X * Y) with ((val a - X) * (val b - Y) + X * (val b - Y) + Y * (val a - X)) by ring.
  set (da := val a - X) in *. set (db := val b - Y) in *.
  eapply Rle_trans; [eapply Rle_trans; [apply Rabs_triang|apply Rplus_le_compat_r, Rabs_triang]|]. rewrite !Rabs_mult, (Rabs_right X), (Rabs_right Y) by lra.
  assert (T1 : Rabs da * Rabs db <= ((alpha - 1) * X + c * s) * ((beta - 1) * Y + d * s)) by (apply Rmult_le_compat; try apply Rabs_pos; assumption).
  assert (T2 : X * Rabs db <= X * ((beta - 1) * Y + d * s)) by (apply Rmult_le_compat_l; assumption).
  assert (T3 : Y * Rabs da <= Y * ((alpha - 1) * X + c * s)) by (apply Rmult_le_compat_l; assumption). lra.
Qed.
(** Above the smallest normal number the error is relative. *)
Definition normal : R := IZR (2 ^ mant_bits f) * s.
Lemma half_unit X : normal <= X -> s / 2 <= u * X.
Proof.
  intro H. pose proof (roundoff_pos f G) as U. assert (E : s / 2 = u * normal).
  { unfold normal, roundoff. rewrite Z.pow_add_r by (destruct G; lia). rewrite mult_IZR. change (IZR (2 ^ 1)) with 2.
    assert (0 < IZR (2 ^ mant_bits f)) by (apply IZR_lt; pose proof (B_pos f G); lia). field. lra. }
  rewrite E. apply Rmult_le_compat_l; lra.
Qed.
Lemma step_rel alpha a X beta b Y : 1 <= alpha -> 1 <= beta -> app alpha 0 a X -> app beta 0 b Y -> (mul a b < inf)%Z -> normal <= X * Y ->
  app (alpha * beta * (1 + u)) 0 (mul a b) (X * Y).
Proof.
  intros A1 B1 A B L N. pose proof (app_product alpha 0 a X beta 0 b Y A1 B1 ltac:(lra) ltac:(lra) A B) as P.
  destruct A as (A0 & X0 & EA), B as (B0 & Y0 & EB). pose proof (roundoff_pos f G) as U.
  split; [apply mulp_range; assumption|]. assert (XY : 0 <= X * Y) by (apply Rmult_le_pos; assumption). split; [exact XY|].
  replace (val (mul a b) - X * Y) with ((val (mul a b) - val a * val b) + (val a * val b - X * Y)) by ring. eapply Rle_trans; [apply Rabs_triang|].
  assert (AB : 1 <= alpha * beta) by nra.
  assert (Q : Rabs (val (mul a b) - val a * val b) <= u * (alpha * beta * (X * Y))).
  { destruct (mulp_close a b A0 B0 L) as [C|C].
    - eapply Rle_trans; [exact C|]. eapply Rle_trans; [apply (half_unit (X * Y) N)|]. apply Rmult_le_compat_l; [lra|]. nra.
    - eapply Rle_trans; [exact C|]. apply Rmult_le_compat_l; [lra|]. pose proof (Rle_abs (val a * val b - X * Y)). lra. }
  lra.
Qed.
Lemma step_abs alpha c a X beta d b Y : 1 <= alpha -> 1 <= beta -> 0 <= c -> 0 <= d -> app alpha c a X -> app beta d b Y -> (mul a b < inf)%Z -> X <= 1 -> Y <= 1 ->
  app (alpha * beta * (1 + u)) (1 / 2 + (1 + u) * (c * beta + d * alpha + c * d * s)) (mul a b) (X * Y).
Proof.
  intros A1 B1 C0 D0 A B L X1 Y1. pose proof (app_product alpha c a X beta d b Y A1 B1 C0 D0 A B) as P.
  destruct A as (A0 & X0 & EA), B as (B0 & Y0 & EB). pose proof (roundoff_pos f G) as U. pose proof (smallest_pos f G) as S.
  split; [apply mulp_range; assumption|]. assert (XY : 0 <= X * Y) by (apply Rmult_le_pos; assumption). split; [exact XY|].
  replace (val (mul a b) - X * Y) with ((val (mul a b) - val a * val b) + (val a * val b - X * Y)) by ring. eapply Rle_trans; [apply Rabs_triang|].
  assert (P' : Rabs (val a * val b - X * Y) <= (alpha * beta - 1) * (X * Y) + (c * beta + d * alpha + c * d * s) * s).
  { eapply Rle_trans; [exact P|]. apply Rplus_le_compat_l, Rmult_le_compat_r; [lra|].
    assert (c * beta * Y <= c * beta * 1) by (apply Rmult_le_compat_l; [nra|exact Y1]). assert (d * alpha * X <= d * alpha * 1) by (apply Rmult_le_compat_l; [nra|exact X1]). lra. }
  set (w := (c * beta + d * alpha + c * d * s) * s) in *.
  assert (AB : val a * val b <= alpha * beta * (X * Y) + w) by (pose proof (Rle_abs (val a * val b - X * Y)); lra).
  assert (V0 : 0 <= val a * val b) by (apply Rmult_le_pos; apply (value_nonneg f G); assumption).
  assert (Q : Rabs (val (mul a b) - val a * val b) <= s / 2 + u * (alpha * beta * (X * Y) + w)).
  { assert (u * (val a * val b) <= u * (alpha * beta * (X * Y) + w)) by (apply Rmult_le_compat_l; lra).
    assert (0 <= u * (val a * val b)) by (apply Rmult_le_pos; lra). destruct (mulp_close a b A0 B0 L) as [C|C]; lra. }
  unfold w in *. lra.
Qed.
Lemma small_s : 0 < s <= / 1000000.
Proof.
  split; [apply (smallest_pos f G)|]. unfold smallest. apply Rinv_le_contravar; [lra|]. apply IZR_le. destruct M; vm_compute; discriminate.
Qed.
Lemma normal_small : normal <= 1.
Proof.
  unfold normal, smallest. pose proof (UR_pos f G) as U. apply (Rmult_le_reg_r (IZR (2 ^ unit_exp f))); [exact U|].
  rewrite Rmult_assoc, Rinv_l, Rmult_1_r, Rmult_1_l by lra. apply IZR_le, Z.pow_le_mono_r; destruct M; cbn; lia.
Qed.
Lemma pow_normal x (j k : nat) : 0 <= x -> (j <= k)%nat -> normal <= x ^ k -> normal <= x ^ j.
Proof.
  intros X J N. destruct (Rle_lt_dec x 1) as [L|L].
  - replace k with (j + (k - j))%nat in N by lia. rewrite pow_add in N. assert (0 <= x ^ j) by (apply pow_le, X).
    assert (x ^ (k - j) <= 1) by (rewrite <- (pow1 (k - j)); apply pow_incr; lra). assert (x ^ j * x ^ (k - j) <= x ^ j * 1) by (apply Rmult_le_compat_l; assumption). lra.
  - pose proof normal_small. assert (1 <= x ^ j) by (apply pow_R1_Rle; lra). lra.
Qed.
Lemma app_change alpha alpha' c c' m X X' : alpha = alpha' -> c <= c' -> X = X' -> app alpha c m X -> app alpha' c' m X'.
Proof.
  intros -> C <- (A & B & D). split; [exact A|]. split; [exact B|]. pose proof (smallest_pos f G). assert (c * s <= c' * s) by (apply Rmult_le_compat_r; lra). lra.
Qed.
Lemma power_up (j : nat) : 1 <= (1 + u) ^ j.
Proof. apply pow_R1_Rle. pose proof (roundoff_pos f G). lra. Qed.
(** The exponents *)
Definition steps (k : Z) : nat := Z.to_nat (k - 1).
Definition expo (k : Z) : nat := Z.to_nat k.
Lemma exponents k : (2 <= k <= 6)%Z -> k = 2%Z \/ k = 3%Z \/ k = 4%Z \/ k = 5%Z \/ k = 6%Z.
Proof. lia. Qed.
Lemma pw_rel k n : (2 <= k <= 6)%Z -> (0 <= n)%Z -> (pw k n < inf)%Z -> normal <= val n ^ expo k -> app ((1 + u) ^ steps k) 0 (pw k n) (val n ^ expo k).
Proof.
  intros K N L H. pose proof (value_nonneg f G n N) as X. set (x := val n) in *. pose proof (app_self n N) as A1. fold x in A1.
  pose proof (power_up 1) as U1. pose proof (power_up 2) as U2. pose proof (power_up 3) as U3.
  assert (R2 := mulp_range n n N N). assert (R3 := mulp_range (mul n n) n ltac:(lia) N). assert (R4 := mulp_range (mul n n) (mul n n) ltac:(lia) ltac:(lia)).
  assert (S2 : (mul n n < inf)%Z -> normal <= x ^ 2 -> app ((1 + u) ^ 1) 0 (mul n n) (x ^ 2)).
  { intros F Nm. apply (app_change (1 * 1 * (1 + u)) _ 0 _ _ (x * x)); [ring|lra|ring|]. apply step_rel; (assumption || lra). }
  assert (S3 : (mul (mul n n) n < inf)%Z -> normal <= x ^ 3 -> app ((1 + u) ^ 2) 0 (mul (mul n n) n) (x ^ 3)).
  { intros F Nm. destruct (mulp_finite (mul n n) n ltac:(lia) ltac:(lia) F) as (F2 & _ & _). specialize (S2 F2 (pow_normal x 2 3 X ltac:(lia) Nm)).
    apply (app_change ((1 + u) ^ 1 * 1 * (1 + u)) _ 0 _ _ (x ^ 2 * x)); [ring|lra|ring|]. apply step_rel; (assumption || lra). }
  assert (S4 : (mul (mul n n) (mul n n) < inf)%Z -> normal <= x ^ 4 -> app ((1 + u) ^ 3) 0 (mul (mul n n) (mul n n)) (x ^ 4)).
  { intros F Nm. destruct (mulp_finite (mul n n) (mul n n) ltac:(lia) ltac:(lia) F) as (F2 & _ & _). specialize (S2 F2 (pow_normal x 2 4 X ltac:(lia) Nm)).
    apply (app_change ((1 + u) ^ 1 * (1 + u) ^ 1 * (1 + u)) _ 0 _ _ (x ^ 2 * x ^ 2)); [ring|lra|ring|]. apply step_rel; (assumption || lra). }
  destruct (exponents k K) as [-> | [-> | [-> | [-> | ->]]]]; cbn [pw] in L |- *; unfold steps, expo in *.
  - exact (S2 L H).
  - exact (S3 L H).
  - exact (S4 L H).
  - change (Z.to_nat (5 - 1)) with 4%nat. change (Z.to_nat 5) with 5%nat in *. destruct (mulp_finite (mul (mul n n) (mul n n)) n ltac:(lia) ltac:(lia) L) as (F2 & _ & _). specialize (S4 F2 (pow_normal x 4 5 X ltac:(lia) H)).
    apply (app_change ((1 + u) ^ 3 * 1 * (1 + u)) _ 0 _ _ (x ^ 4 * x)); [ring|lra|ring|]. apply step_rel; (assumption || lra).
  - change (Z.to_nat (6 - 1)) with 5%nat. change (Z.to_nat 6) with 6%nat in *. destruct (mulp_finite (mul (mul n n) n) (mul (mul n n) n) ltac:(lia) ltac:(lia) L) as (F2 & _ & _). specialize (S3 F2 (pow_normal x 3 6 X ltac:(lia) H)).
    apply (app_change ((1 + u) ^ 2 * (1 + u) ^ 2 * (1 + u)) _ 0 _ _ (x ^ 3 * x ^ 3)); [ring|lra|ring|]. apply step_rel; (assumption || lra).
Qed.
Lemma small_up (j : nat) : (j <= 4)%nat -> (1 + u) ^ j <= 1 + / 1000000.
Proof.
  intro J. destruct (small_u f M) as [U0 U1]. assert (E : (1 + u) ^ j <= (1 + u) ^ 4) by (apply Rle_pow; [lra|exact J]).
  assert (V : (1 + u) ^ 4 <= (1 + / 16777216) ^ 4) by (apply pow_incr; lra). lra.
Qed.
Lemma pw_abs k n : (2 <= k <= 6)%Z -> (0 <= n)%Z -> (pw k n < inf)%Z -> val n <= 1 -> app ((1 + u) ^ steps k) 3 (pw k n) (val n ^ expo k).
Proof.
  intros K N L H. pose proof (value_nonneg f G n N) as X. set (x := val n) in *. pose proof (app_self n N) as A1. fold x in A1.
  pose proof (power_up 1) as U1. pose proof (power_up 2) as U2. pose proof (power_up 3) as U3. pose proof (small_up 1 ltac:(lia)) as V1. pose proof (small_up 2 ltac:(lia)) as V2. pose proof (small_up 3 ltac:(lia)) as V3.
  destruct (small_u f M) as [u0 u1]. destruct small_s as [s0 s1].
  assert (P : forall j, x ^ j <= 1) by (intro j; rewrite <- (pow1 j); apply pow_incr; lra).
  assert (R2 := mulp_range n n N N). assert (R3 := mulp_range (mul n n) n ltac:(lia) N). assert (R4 := mulp_range (mul n n) (mul n n) ltac:(lia) ltac:(lia)).
  assert (S2 : (mul n n < inf)%Z -> app ((1 + u) ^ 1) (1 / 2) (mul n n) (x ^ 2)).
  { intros F. eapply app_change; [| | |apply (step_abs 1 0 n x 1 0 n x); (assumption || lra)]; [ring|lra|ring]. }
  assert (S3 : (mul (mul n n) n < inf)%Z -> app ((1 + u) ^ 2) (11 / 10) (mul (mul n n) n) (x ^ 3)).
  { intros F. destruct (mulp_finite (mul n n) n ltac:(lia) ltac:(lia) F) as (F2 & _ & _). specialize (S2 F2).
    eapply app_change; [| | |apply (step_abs ((1 + u) ^ 1) (1 / 2) (mul n n) (x ^ 2) 1 0 n x); try assumption; try lra; apply P]; [ring|nra|ring]. }
  assert (S4 : (mul (mul n n) (mul n n) < inf)%Z -> app ((1 + u) ^ 3) (16 / 10) (mul (mul n n) (mul n n)) (x ^ 4)).
  { intros F. destruct (mulp_finite (mul n n) (mul n n) ltac:(lia) ltac:(lia) F) as (F2 & _ & _). specialize (S2 F2).
    eapply app_change; [| | |apply (step_abs ((1 + u) ^ 1) (1 / 2) (mul n n) (x ^ 2) ((1 + u) ^ 1) (1 / 2) (mul n n) (x ^ 2)); try assumption; try lra; apply P]; [ring|nra|ring]. }
  destruct (exponents k K) as [-> | [-> | [-> | [-> | ->]]]]; cbn [pw] in L |- *; unfold steps, expo in *.
  - eapply app_change; [reflexivity| |reflexivity|exact (S2 L)]. lra.
  - eapply app_change; [reflexivity| |reflexivity|exact (S3 L)]. lra.
  - eapply app_change; [reflexivity| |reflexivity|exact (S4 L)]. lra.
  - change (Z.to_nat (5 - 1)) with 4%nat. change (Z.to_nat 5) with 5%nat in *. destruct (mulp_finite (mul (mul n n) (mul n n)) n ltac:(lia) ltac:(lia) L) as (F2 & _ & _). specialize (S4 F2).
    eapply app_change; [| | |apply (step_abs ((1 + u) ^ 3) (16 / 10) _ (x ^ 4) 1 0 n x); try eassumption; try lra; apply P]; [ring|nra|ring].
  - change (Z.to_nat (6 - 1)) with 5%nat. change (Z.to_nat 6) with 6%nat in *. destruct (mulp_finite (mul (mul n n) n) (mul (mul n n) n) ltac:(lia) ltac:(lia) L) as (F2 & _ & _). specialize (S3 F2).
    eapply app_change; [| | |apply (step_abs ((1 + u) ^ 2) (11 / 10) _ (x ^ 3) ((1 + u) ^ 2) (11 / 10) _ (x ^ 3)); try eassumption; try lra; apply P]; [ring| |ring].
    set (w := (1 + u) ^ 2) in *. assert (11 / 10 * w + 11 / 10 * w + 11 / 10 * (11 / 10) * s <= 23 / 10) by nra. nra.
Qed.
(** *** No overflow *)
Lemma mulp_fits a b : (0 <= a < inf)%Z -> (0 <= b < inf)%Z -> val a * val b <= val (inf - 1) -> (mul a b < inf)%Z.
Proof.
  intros A B H. unfold mulp, is_inf. rewrite !(proj2 (Z.leb_gt _ _)) by lia. cbn [orb]. pose proof (UR_pos f G) as U. pose proof (U_pos f G) as UZ.
  assert (I : (scaled f a * scaled f b <= scaled f (inf - 1) * 2 ^ unit_exp f)%Z).
  { apply le_IZR. rewrite !mult_IZR. rewrite !value_pos in H. apply (Rmult_le_compat_r (IZR (2 ^ unit_exp f) * IZR (2 ^ unit_exp f))) in H; [|nra].
    replace (IZR (scaled f a) / IZR (2 ^ unit_exp f) * (IZR (scaled f b) / IZR (2 ^ unit_exp f)) * (IZR (2 ^ unit_exp f) * IZR (2 ^ unit_exp f))) with (IZR (scaled f a) * IZR (scaled f b)) in H by (field; lra).
    replace (IZR (scaled f (inf - 1)) / IZR (2 ^ unit_exp f) * (IZR (2 ^ unit_exp f) * IZR (2 ^ unit_exp f))) with (IZR (scaled f (inf - 1)) * IZR (2 ^ unit_exp f)) in H by (field; lra). exact H. }
  pose proof (scaled_nonneg f G a ltac:(lia)). pose proof (scaled_nonneg f G b ltac:(lia)). pose proof inf_pos.
  assert (L : (fmul f ToNearest a b <= inf - 1)%Z); [|lia].
  assert (PP : (2 ^ (2 * unit_exp f) = 2 ^ unit_exp f * 2 ^ unit_exp f)%Z) by (replace (2 * unit_exp f)%Z with (unit_exp f + unit_exp f)%Z by lia; apply Z.pow_add_r; destruct G; lia).
  apply (nearest_mono f G (scaled f a * scaled f b) (2 ^ (2 * unit_exp f)) _ (scaled f (inf - 1)) (2 ^ unit_exp f)).
  - rewrite PP. nia.
  - exact UZ.
  - nia.
  - apply (scaled_nonneg f G). lia.
  - rewrite PP. nia.
  - apply (round_nearest f G); [nia|rewrite PP; nia].
  - apply (round_exact_near f G). lia.
Qed.
Lemma app_le alpha m X : app alpha 0 m X -> val m <= alpha * X.
Proof. intros (_ & _ & E). pose proof (Rle_abs (val m - X)). lra. Qed.
Lemma mulp_app_fits alpha a X beta b Y : (a < inf)%Z -> (b < inf)%Z -> 0 <= alpha -> app alpha 0 a X -> app beta 0 b Y -> alpha * beta * (X * Y) <= val (inf - 1) -> (mul a b < inf)%Z.
Proof.
  intros LA LB P A B H. pose proof (app_le _ _ _ A) as HA. pose proof (app_le _ _ _ B) as HB. destruct A as (A0 & X0 & _), B as (B0 & Y0 & _).
  apply mulp_fits; [lia|lia|]. eapply Rle_trans; [|exact H]. replace (alpha * beta * (X * Y)) with ((alpha * X) * (beta * Y)) by ring.
  apply Rmult_le_compat; try assumption; apply (value_nonneg f G); assumption.
Qed.
(** 1 *)
Definition one : Z := if mant_bits f =? 23 then 0x3f800000 else if mant_bits f =? 52 then 0x3ff0000000000000 else 151106504079791792062464.
End Pow.
Lemma one_scaled f : modelled f -> scaled f (one f) = 2 ^ unit_exp f.
Proof. intros []; vm_compute; reflexivity. Qed.
Lemma one_value f : modelled f -> (value f false (one f) = 1)%R.
Proof.
  intro M. rewrite (value_ratio f _ 1 1 (modelled_good f M)); [lra|lia|]. rewrite (one_scaled f M). lia.
Qed.
Lemma one_range f : modelled f -> 0 < one f < infinity f.
Proof. intros []; vm_compute; auto. Qed.
Lemma one_power f k : modelled f -> 2 <= k <= 6 -> pw f k (one f) = one f.
Proof.
  intros M K. assert (E : mulp f ToNearest (one f) (one f) = one f) .
  { pose proof (one_range f M). unfold mulp, is_inf. rewrite !(proj2 (Z.leb_gt _ _)) by lia. cbn [orb]. unfold fmul. rewrite (one_scaled f M).
    pose proof (modelled_good f M) as G. pose proof (U_pos f G).
    assert (PP : 2 ^ (2 * unit_exp f) = 2 ^ unit_exp f * 2 ^ unit_exp f) by (replace (2 * unit_exp f) with (unit_exp f + unit_exp f) by lia; apply Z.pow_add_r; destruct G; lia).
    rewrite PP. apply (round_exact f G); [nia|nia|lia|]. rewrite (one_scaled f M). ring. }
  destruct (exponents k K) as [-> | [-> | [-> | [-> | ->]]]]; cbn [pw]; rewrite ?E; reflexivity.
Qed.
Section Pow2.
Context (f : format) (M : modelled f).
Let G : good_format f := modelled_good f M.
Notation inf := (infinity f).
Notation mul := (mulp f ToNearest).
Local Open Scope R_scope.
Notation u := (roundoff f).
Notation val := (value f false).
Lemma up_to_one n : (0 <= n)%Z -> val n <= 1 -> (n <= one f)%Z.
Proof.
  intros N H. destruct (Z_le_gt_dec n (one f)) as [L|L]; [exact L|exfalso]. pose proof (one_range f M).
  pose proof (value_lt f (one f) n G ltac:(lia)) as V. rewrite (one_value f M) in V. lra.
Qed.
Lemma pw_small k n : (2 <= k <= 6)%Z -> (0 <= n)%Z -> val n <= 1 -> (pw f k n < inf)%Z.
Proof.
  intros K N H. pose proof (up_to_one n N H). pose proof (pw_mono f M k n (one f) ltac:(lia)) as P. rewrite (one_power f k M K) in P. pose proof (one_range f M). lia.
Qed.
Lemma pw_fits k n : (2 <= k <= 6)%Z -> finite f n -> (1 + u) ^ (expo k - 2) * val n ^ expo k <= val (inf - 1) -> (pw f k n < inf)%Z.
Proof.
  intros K F H. destruct (Rle_lt_dec (val n) 1) as [C|C]; [apply pw_small; [exact K|apply F|exact C]|].
  assert (Nn : forall j, normal f <= val n ^ j).
  { intro j. pose proof (normal_small f M). assert (1 <= val n ^ j) by (apply pow_R1_Rle; lra). lra. }
  pose proof (power_up f M) as UP. unfold finite in F.
  assert (MO : forall i j k l, (i <= k)%nat -> (j <= l)%nat -> (1 + u) ^ k * val n ^ l <= val (inf - 1) -> (1 + u) ^ i * val n ^ j <= val (inf - 1)).
  { intros i j k' l I J H'. eapply Rle_trans; [|exact H']. pose proof (roundoff_pos f G). apply Rmult_le_compat; try (apply pow_le; lra); apply Rle_pow; (assumption || lra). }
  pose proof (app_self f M n (proj1 F)) as A1. set (x := val n) in *.
  assert (X0 : 0 <= x) by lra.
  assert (R2 := mulp_range f M n n ltac:(lia) ltac:(lia)). assert (R3 := mulp_range f M (mul n n) n ltac:(lia) ltac:(lia)). assert (R4 := mulp_range f M (mul n n) (mul n n) ltac:(lia) ltac:(lia)).
  assert (F2 : (mul n n < inf)%Z).
  { apply (mulp_app_fits f M 1 n x 1 n x); try assumption; try lia; try lra. replace (1 * 1 * (x * x)) with ((1 + u) ^ 0 * x ^ 2) by ring.
    apply (MO 0%nat 2%nat (expo k - 2)%nat (expo k)); [lia|unfold expo; lia|exact H]. }
  assert (S2 : app f ((1 + u) ^ 1) 0 (mul n n) (x ^ 2)) by (apply (pw_rel f M 2 n); [lia|lia|exact F2|apply Nn]).
  assert (F3 : (3 <= k)%Z -> (mul (mul n n) n < inf)%Z).
  { intro K3. apply (mulp_app_fits f M ((1 + u) ^ 1) (mul n n) (x ^ 2) 1 n x); try assumption; try lia; [pose proof (UP 1%nat); lra|].
    replace ((1 + u) ^ 1 * 1 * (x ^ 2 * x)) with ((1 + u) ^ 1 * x ^ 3) by ring. apply (MO 1%nat 3%nat (expo k - 2)%nat (expo k)); [unfold expo; lia|unfold expo; lia|exact H]. }
  assert (F4 : (4 <= k)%Z -> (mul (mul n n) (mul n n) < inf)%Z).
  { intro K4. apply (mulp_app_fits f M ((1 + u) ^ 1) (mul n n) (x ^ 2) ((1 + u) ^ 1) (mul n n) (x ^ 2)); try assumption; try lia; [pose proof (UP 1%nat); lra|].
    replace ((1 + u) ^ 1 * (1 + u) ^ 1 * (x ^ 2 * x ^ 2)) with ((1 + u) ^ 2 * x ^ 4) by ring. apply (MO 2%nat 4%nat (expo k - 2)%nat (expo k)); [unfold expo; lia|unfold expo; lia|exact H]. }
  destruct (exponents k K) as [-> | [-> | [-> | [-> | ->]]]]; cbn [pw].
  - exact F2.
  - apply F3. lia.
  - apply F4. lia.
  - specialize (F4 ltac:(lia)). assert (S4 : app f ((1 + u) ^ 3) 0 (mul (mul n n) (mul n n)) (x ^ 4)) by (apply (pw_rel f M 4 n); [lia|lia|exact F4|apply Nn]).
    apply (mulp_app_fits f M ((1 + u) ^ 3) _ (x ^ 4) 1 n x); try eassumption; try lia; [pose proof (UP 3%nat); lra|].
    replace ((1 + u) ^ 3 * 1 * (x ^ 4 * x)) with ((1 + u) ^ 3 * x ^ 5) by ring. exact H.
  - specialize (F3 ltac:(lia)). assert (S3 : app f ((1 + u) ^ 2) 0 (mul (mul n n) n) (x ^ 3)) by (apply (pw_rel f M 3 n); [lia|lia|exact F3|apply Nn]).
    apply (mulp_app_fits f M ((1 + u) ^ 2) _ (x ^ 3) ((1 + u) ^ 2) _ (x ^ 3)); try eassumption; try lia; [pose proof (UP 2%nat); lra|].
    replace ((1 + u) ^ 2 * (1 + u) ^ 2 * (x ^ 3 * x ^ 3)) with ((1 + u) ^ 4 * x ^ 6) by ring. exact H.
Qed.
(** Relative above the smallest normal number, absolute below *)
Lemma pw_error k n : (2 <= k <= 6)%Z -> (0 <= n)%Z -> (pw f k n < inf)%Z ->
  Rabs (val (pw f k n) - val n ^ expo k) <= ((1 + u) ^ steps k - 1) * val n ^ expo k + 3 * smallest f.
Proof.
  intros K N L. destruct (Rle_lt_dec (val n) 1) as [C|C].
  - apply (pw_abs f M k n K N L C).
  - assert (Nn : normal f <= val n ^ expo k).
    { pose proof (normal_small f M). assert (1 <= val n ^ expo k) by (apply pow_R1_Rle; lra). lra. }
    destruct (pw_rel f M k n K N L Nn) as (_ & _ & E). pose proof (smallest_pos f G). lra.
Qed.
End Pow2.

Lemma fp_pow_range k g : fp_pow k = Some g -> 2 <= k <= 6.
Proof. unfold fp_pow. intro E. destruct k as [|p|p]; try discriminate; repeat (destruct p; try discriminate); lia. Qed.
Lemma pw_zero f (M : modelled f) k : pw f k 0 = 0.
Proof.
  assert (E := mulp_zero f M). unfold pw. destruct k as [|p|p]; try reflexivity; repeat (destruct p; try reflexivity); rewrite ?E; reflexivity.
Qed.
(** *** Integers *)
Section Int.
Context (f : format) (M : modelled f).
Let G : good_format f := modelled_good f M.
Notation top := (2 ^ (mant_bits f + 1)).
Lemma int_pattern v : 0 <= v <= top -> exists n, finite f n /\ scaled f n = v * 2 ^ unit_exp f /\ (v = 0 <-> n = 0) /\ forall rm, of_uint f rm v = n.
Proof.
  intro V. assert (T : top = 2 * 2 ^ mant_bits f) by (rewrite Z.pow_add_r by (destruct G; lia); change (2 ^ 1) with 2; lia).
  assert (E0 : 0 <= unit_exp f) by (destruct G; lia).
  destruct (representable f G (unit_exp f) E0 v ltac:(lia)) as (n & N & S). pose proof (B_pos f G) as BP.
  assert (I : n < infinity f) by (unfold infinity; assert (unit_exp f + 2 < top_field f) by (destruct M; cbn; lia); nia).
  exists n. split; [unfold finite; lia|]. split; [exact S|]. pose proof (U_pos f G). split.
  - split; intro H'.
    + subst v. destruct (Z.eq_dec n 0) as [|NZ]; [assumption|]. pose proof (scaled_lt f G 0 n ltac:(lia)) as L. rewrite (scaled_0 f G) in L. lia.
    + subst n. rewrite (scaled_0 f G) in S. nia.
  - intro rm. apply (round_exact f G); lia.
Qed.
Lemma fp_mul_int rm v w : Z.abs v <= top -> Z.abs w <= top -> Z.abs (v * w) <= top -> (v = 0 <-> w = 0) ->
  fp_mul f rm (fp_of_int f rm v) (fp_of_int f rm w) = fp_of_int f rm (v * w).
Proof.
  intros V W P Z0. destruct (int_pattern (Z.abs v) ltac:(lia)) as (a & FA & SA & ZA & OA). destruct (int_pattern (Z.abs w) ltac:(lia)) as (b & FB & SB & ZB & OB).
  destruct (int_pattern (Z.abs (v * w)) ltac:(lia)) as (c & FC & SC & ZC & OC). unfold fp_of_int. rewrite OA, OB, OC. unfold finite in *. clear OA OB OC V W P.
  rewrite (mulp_fp f) by lia.
  assert (SG : xorb (v <? 0) (w <? 0) = (v * w <? 0)).
  { clear -Z0. destruct (Z.ltb_spec v 0), (Z.ltb_spec w 0), (Z.ltb_spec (v * w) 0); try reflexivity; exfalso; nia. }
  rewrite SG. f_equal. unfold mulp, is_inf. rewrite !(proj2 (Z.leb_gt _ _)) by lia. cbn [orb]. unfold fmul.
  assert (PP : 2 ^ (2 * unit_exp f) = 2 ^ unit_exp f * 2 ^ unit_exp f) by (replace (2 * unit_exp f) with (unit_exp f + unit_exp f) by lia; apply Z.pow_add_r; destruct G; lia).
  pose proof (U_pos f G) as UP. remember (2 ^ unit_exp f) as U eqn:EU. rewrite SA, SB, PP. clear SA SB PP ZA ZB ZC Z0 FA FB SG.
  apply (round_exact f G); [repeat apply Z.mul_nonneg_nonneg; lia|apply Z.mul_pos_pos; assumption|exact FC|]. rewrite <- EU, SC, Z.abs_mul. ring.
Qed.
Lemma pow_int k g rm v : fp_pow k = Some g -> Z.abs v ^ k <= top -> g f rm (fp_of_int f rm v) = fp_of_int f rm (v ^ k).
Proof.
  intros E P.
  assert (K : k = 2 \/ k = 3 \/ k = 4 \/ k = 5 \/ k = 6) by (unfold fp_pow in E; destruct k as [|p|p]; try discriminate; repeat (destruct p; try discriminate); auto 10).
  assert (T : 1 <= top) by (pose proof (B_pos f G); rewrite Z.pow_add_r by (destruct G; lia); change (2 ^ 1) with 2; lia).
  assert (K0 : 2 <= k <= 6) by (clear -K; lia).
  assert (Q : forall j, 0 < j <= k -> Z.abs (v ^ j) <= top).
  { intros j J. rewrite Z.abs_pow. destruct (Z.eq_dec v 0) as [->|NZ]; [change (Z.abs 0) with 0; rewrite Z.pow_0_l by lia; lia|].
    eapply Z.le_trans; [|exact P]. apply Z.pow_le_mono_r; lia. }
  assert (Z0 : forall j, 0 < j -> v ^ j = 0 <-> v = 0).
  { intros j J. split; intro H; [destruct (Z.eq_dec v 0) as [|NZ]; [assumption|exfalso; apply (Z.pow_nonzero v j); lia]|subst v; apply Z.pow_0_l; lia]. }
  assert (MU : forall i j, 0 < i -> 0 < j -> i + j <= k -> fp_mul f rm (fp_of_int f rm (v ^ i)) (fp_of_int f rm (v ^ j)) = fp_of_int f rm (v ^ (i + j))).
  { intros i j I J IJ. rewrite fp_mul_int.
    - rewrite <- Z.pow_add_r by lia. reflexivity.
    - apply Q; lia.
    - apply Q; lia.
    - rewrite <- Z.pow_add_r by lia. apply Q; lia.
    - rewrite !Z0 by lia. reflexivity. }
  rewrite <- (Z.pow_1_r v) at 1. destruct K as [-> | [-> | [-> | [-> | ->]]]]; injection E as <-; unfold fp_pow6, fp_pow5, fp_pow4, fp_pow3, fp_pow2; repeat (rewrite MU by lia); reflexivity.
Qed.
End Int.

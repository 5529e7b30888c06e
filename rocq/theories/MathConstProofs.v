(** The constants of math.hpp are the nearest floating point numbers. *)
From Coq Require Import Reals QArith Qreals Lra.
From Verif Require Import Base FloatSpec FloatFastModel FloatRoundProofs MathModel MathSpec MathRealProofs MathProofs MathAngleProofs.
Local Open Scope R_scope.

Lemma sign_abs (neg : bool) (k : R) : Rabs ((if neg then -1 else 1) * k) = Rabs k.
Proof. rewrite Rabs_mult. destruct neg; [rewrite (Rabs_left (-1)) by lra|rewrite (Rabs_right 1) by lra]; ring. Qed.
Lemma value_lt f n m : good_format f -> (0 <= n < m)%Z -> value f false n < value f false m.
Proof.
  intros G N. rewrite !value_pos. apply Rmult_lt_compat_r; [apply Rinv_0_lt_compat, (UR_pos f G)|]. apply IZR_lt, (scaled_lt f G). lia.
Qed.
Lemma nearest_real_intro f x n : good_format f -> (0 < n < infinity f)%Z ->
  value f false (n - 1) + value f false n < 2 * x < value f false n + value f false (n + 1) -> nearest_real f x n.
Proof.
  intros G N [L H]. pose proof (value_lt f (n - 1) n G ltac:(lia)). pose proof (value_lt f n (n + 1) G ltac:(lia)). split; [unfold finite; lia|]. intros m M NE. unfold finite in M. destruct (Z_lt_le_dec m n) as [C|C].
  - pose proof (value_le f G m (n - 1) ltac:(lia)). pose proof (value_le f G m n ltac:(lia)). rewrite (Rabs_left (value f false m - x)) by lra. apply Rabs_def1; lra.
  - pose proof (value_le f G (n + 1) m ltac:(lia)). pose proof (value_le f G n m ltac:(lia)). rewrite (Rabs_right (value f false m - x)) by lra. apply Rabs_def1; lra.
Qed.
(** With rational bounds [lo < x < hi], the comparison is one of integers. *)
Lemma nearest_real_bounds f x n lo hi d : good_format f -> (0 < n < infinity f)%Z -> (0 < d)%Z -> IZR lo / IZR d < x < IZR hi / IZR d ->
  ((scaled f (n - 1) + scaled f n) * d <= 2 * lo * 2 ^ unit_exp f)%Z -> (2 * hi * 2 ^ unit_exp f <= (scaled f n + scaled f (n + 1)) * d)%Z -> nearest_real f x n.
Proof.
  intros G N D [L H] A B. apply (nearest_real_intro f x n G N). rewrite !value_pos. pose proof (UR_pos f G) as U. apply IZR_lt in D.
  apply IZR_le in A, B. rewrite !mult_IZR, plus_IZR in A, B. assert (DI := Rinv_0_lt_compat _ D). assert (UI := Rinv_0_lt_compat _ U).
  set (u := IZR (2 ^ unit_exp f)) in *. set (e := IZR d) in *. split.
  - apply Rle_lt_trans with (2 * (IZR lo / e)); [|lra]. apply (Rmult_le_reg_r (u * e)); [nra|].
    replace ((IZR (scaled f (n - 1)) / u + IZR (scaled f n) / u) * (u * e)) with ((IZR (scaled f (n - 1)) + IZR (scaled f n)) * e) by (field; lra).
    replace (2 * (IZR lo / e) * (u * e)) with (2 * IZR lo * u) by (field; lra). exact A.
  - apply Rlt_le_trans with (2 * (IZR hi / e)); [lra|]. apply (Rmult_le_reg_r (u * e)); [nra|].
    replace ((IZR (scaled f n) / u + IZR (scaled f (n + 1)) / u) * (u * e)) with ((IZR (scaled f n) + IZR (scaled f (n + 1))) * e) by (field; lra).
    replace (2 * (IZR hi / e) * (u * e)) with (2 * IZR hi * u) by (field; lra). exact B.
Qed.
Lemma pi_between k : 0 < k -> k * 31415926535897932384 / 10000000000000000000 < k * PI < k * 31415926535897932385 / 10000000000000000000.
Proof.
  intro K. pose proof pi_bounds as [L H]. unfold pi_low, pi_high, Q2R in L, H. cbn [Qnum Qden] in L, H. change (10 ^ 19)%positive with 10000000000000000000%positive in L, H. nra.
Qed.
Lemma ln2_between : 6931471805599453094 / 10000000000000000000 < ln 2 < 6931471805599453095 / 10000000000000000000.
Proof.
  pose proof ln2_bounds as [L H]. unfold ln2_low, ln2_high, Q2R in L, H. cbn [Qnum Qden] in L, H. change (10 ^ 19)%positive with 10000000000000000000%positive in L, H. lra.
Qed.
Ltac by_bounds lo hi :=
  apply (nearest_real_bounds _ _ _ lo hi 10000000000000000000); [first [apply good_binary64|apply good_binary32|apply good_binary80]|vm_compute; auto|lia| |vm_compute; discriminate|vm_compute; discriminate].
Lemma pi_nearest : nearest_real binary64 PI 0x400921fb54442d18.
Proof. by_bounds 31415926535897932384%Z 31415926535897932385%Z. pose proof (pi_between 1). lra. Qed.
Lemma pi_nearest_float : nearest_real binary32 PI 0x40490fdb.
Proof. by_bounds 31415926535897932384%Z 31415926535897932385%Z. pose proof (pi_between 1). lra. Qed.
Lemma two_pi_nearest : nearest_real binary64 (2 * PI) 0x401921fb54442d18.
Proof. by_bounds 62831853071795864768%Z 62831853071795864770%Z. pose proof (pi_between 2). lra. Qed.
Lemma two_pi_nearest_float : nearest_real binary32 (2 * PI) 0x40c90fdb.
Proof. by_bounds 62831853071795864768%Z 62831853071795864770%Z. pose proof (pi_between 2). lra. Qed.
Lemma ln2_nearest : nearest_real binary64 (ln 2) 0x3fe62e42fefa39ef.
Proof. by_bounds 6931471805599453094%Z 6931471805599453095%Z. apply ln2_between. Qed.
Lemma ln2_nearest_float : nearest_real binary32 (ln 2) 0x3f317218.
Proof. by_bounds 6931471805599453094%Z 6931471805599453095%Z. apply ln2_between. Qed.
(** The double pi is not the nearest long double. *)
Lemma pi_not_nearest_long : ~ nearest_real binary80 PI (pi_of binary80).
Proof.
  intros [_ H]. specialize (H (pi_of binary80 + 1)%Z). assert (F : finite binary80 (pi_of binary80 + 1)) by (split; vm_compute; congruence).
  specialize (H F ltac:(lia)). clear F.
  assert (E1 : value binary80 false (pi_of binary80) = 884279719003555 / 281474976710656) by (apply value_ratio; [apply good_binary80|lia|vm_compute; reflexivity]).
  assert (E2 : value binary80 false (pi_of binary80 + 1) = 14488038916154245121 / 4611686018427387904) by (apply value_ratio; [apply good_binary80|lia|vm_compute; reflexivity]).
  rewrite E1, E2 in H. pose proof (pi_between 1). rewrite !Rabs_left in H by lra. lra.
Qed.

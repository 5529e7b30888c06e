(** Rational bounds for pi and for the natural logarithm of 2, from the series of the standard library. *)
From Coq Require Import Reals Machin QArith Qreals Lra Lia.
Local Open Scope R_scope.

Lemma Q2R_1 : Q2R 1 = 1.
Proof. unfold Q2R. cbn. field. Qed.
(** The partial sums over a common denominator: numerator, denominator, 7^(2n+1), 3^(2n+1), product of the odd numbers with the sign
    of the next summand. *)
Fixpoint pi_sum (n : nat) : Z * Z * Z * Z * Z :=
  match n with
  | O => (17, 21, 7, 3, -1)%Z
  | S k =>
      let '(N, D, A, B, W) := pi_sum k in let m := (2 * Z.of_nat n + 1)%Z in let A' := (49 * A)%Z in let B' := (9 * B)%Z in
      ((441 * m) * N + (2 * A' + B') * W, (441 * m) * D, A', B', - m * W)%Z
  end.
Lemma odd_INR n : IZR (2 * Z.of_nat n + 1) = INR (2 * n + 1).
Proof. rewrite INR_IZR_INZ. f_equal. lia. Qed.
Lemma pi_sum_ok n : let '(N, D, A, B, W) := pi_sum n in
  sum_f_R0 (tg_alt PI_2_3_7_tg) n = IZR N / IZR D /\ IZR A = 7 ^ (2 * n + 1) /\ IZR B = 3 ^ (2 * n + 1) /\ IZR D = IZR A * IZR B * ((-1) ^ (n + 1) * IZR W) /\ 0 < IZR D.
Proof.
  induction n as [|n IH].
  - cbn [pi_sum sum_f_R0]. split; [unfold tg_alt, PI_2_3_7_tg, Ratan_seq; cbn; field|]. cbn. repeat split; lra.
  - cbn [pi_sum]. destruct (pi_sum n) as [[[[N D] A] B] W]. cbv zeta. destruct IH as (SU & EA & EB & ED & D0).
    set (m := (2 * Z.of_nat (S n) + 1)%Z). assert (M0 : 0 < IZR m) by (apply IZR_lt; unfold m; lia).
    assert (P7 : 7 ^ (2 * S n + 1) = 49 * IZR A) by (rewrite EA; replace (2 * S n + 1)%nat with (S (S (2 * n + 1))) by lia; cbn [pow]; ring).
    assert (P3 : 3 ^ (2 * S n + 1) = 9 * IZR B) by (rewrite EB; replace (2 * S n + 1)%nat with (S (S (2 * n + 1))) by lia; cbn [pow]; ring).
    assert (A0 : 0 < IZR A) by (rewrite EA; apply pow_lt; lra). assert (B0 : 0 < IZR B) by (rewrite EB; apply pow_lt; lra).
    assert (SG : (-1) ^ S n * (-1) ^ S n = 1) by (rewrite <- Rpow_mult_distr; replace (-1 * -1) with 1 by ring; apply pow1).
    split; [|split; [rewrite mult_IZR; symmetry; exact P7|split; [rewrite mult_IZR; symmetry; exact P3|split]]].
    + cbn [sum_f_R0]. rewrite SU. unfold tg_alt, PI_2_3_7_tg, Ratan_seq, Rdiv. rewrite !pow_inv, P7, P3, <- odd_INR. fold m. rewrite plus_IZR, !mult_IZR, plus_IZR, !mult_IZR.
      replace (n + 1)%nat with (S n) in ED by lia. set (sg := (-1) ^ S n) in *. assert (EO : IZR W = sg * (IZR D / (IZR A * IZR B))).
      { rewrite ED. replace (IZR W) with ((sg * sg) * IZR W) at 1 by (rewrite SG; ring). field. lra. }
      rewrite EO. field. lra.
    + rewrite !mult_IZR, opp_IZR, ED. replace (S n + 1)%nat with (S (n + 1)) by lia. cbn [pow]. ring.
    + rewrite !mult_IZR. repeat apply Rmult_lt_0_compat; lra.
Qed.
Definition pi_low : Q := 31415926535897932384 # 10 ^ 19.
Definition pi_high : Q := 31415926535897932385 # 10 ^ 19.
Lemma Q2R_less p q n d : (0 < d)%Z -> (p * d < n * Zpos q)%Z -> Q2R (p # q) < IZR n / IZR d.
Proof.
  intros D H. unfold Q2R. cbn [Qnum Qden]. apply IZR_lt in D. apply IZR_lt in H. rewrite !mult_IZR in H. assert (P : 0 < IZR (Zpos q)) by (apply IZR_lt; lia).
  apply Rmult_lt_reg_r with (IZR (Zpos q) * IZR d); [apply Rmult_lt_0_compat; lra|]. field_simplify; lra.
Qed.
Lemma Q2R_more p q n d : (0 < d)%Z -> (n * Zpos q < p * d)%Z -> IZR n / IZR d < Q2R (p # q).
Proof.
  intros D H. unfold Q2R. cbn [Qnum Qden]. apply IZR_lt in D. apply IZR_lt in H. rewrite !mult_IZR in H. assert (P : 0 < IZR (Zpos q)) by (apply IZR_lt; lia).
  apply Rmult_lt_reg_r with (IZR (Zpos q) * IZR d); [apply Rmult_lt_0_compat; lra|]. field_simplify; lra.
Qed.
Theorem pi_bounds : Q2R pi_low < PI < Q2R pi_high.
Proof.
  destruct (PI_2_3_7_ineq 10) as [L H].
  pose proof (pi_sum_ok (S (2 * 10))) as SL. pose proof (pi_sum_ok (2 * 10)) as SH.
  assert (CL : let '(N, D, _, _, _) := pi_sum (S (2 * 10)) in (31415926535897932384 * D < 4 * N * 10000000000000000000)%Z) by (vm_compute; reflexivity).
  assert (CH : let '(N, D, _, _, _) := pi_sum (2 * 10) in (4 * N * 10000000000000000000 < 31415926535897932385 * D)%Z) by (vm_compute; reflexivity).
  destruct (pi_sum (S (2 * 10))) as [[[[N D] A] B] W]. destruct (pi_sum (2 * 10)) as [[[[N' D'] A'] B'] W'].
  destruct SL as (SL & _ & _ & _ & D0). destruct SH as (SH & _ & _ & _ & D0'). rewrite SL in L. rewrite SH in H. apply lt_IZR in D0. apply lt_IZR in D0'.
  apply (Q2R_less _ (10 ^ 19)) in CL; [|exact D0]. apply (Q2R_more _ (10 ^ 19)) in CH; [|exact D0']. fold pi_low in CL. fold pi_high in CH. rewrite mult_IZR in CL, CH. unfold Rdiv in *. lra.
Qed.

(** The series of exp at a negative argument alternates. *)
Lemma exp_neg_bounds a N : 0 <= a <= 1 ->
  sum_f_R0 (tg_alt (fun i => a ^ i / INR (fact i))) (S (2 * N)) <= exp (- a) <= sum_f_R0 (tg_alt (fun i => a ^ i / INR (fact i))) (2 * N).
Proof.
  intros [A0 A1]. apply alternated_series_ineq.
  - intro n. assert (F : 0 < INR (fact n)) by (apply lt_0_INR, lt_O_fact). assert (FS : INR (fact n) <= INR (fact (S n))) by (apply le_INR, fact_le; lia).
    apply Rle_trans with (a ^ n / INR (fact (S n))).
    + unfold Rdiv. apply Rmult_le_compat_r; [left; apply Rinv_0_lt_compat; lra|]. cbn [pow]. rewrite <- (Rmult_1_l (a ^ n)) at 2.
      apply Rmult_le_compat_r; [apply pow_le; lra|lra].
    + unfold Rdiv. apply Rmult_le_compat_l; [apply pow_le; lra|]. apply Rinv_le_contravar; lra.
  - apply cv_speed_pow_fact.
  - unfold exp. destruct (exist_exp (- a)) as [l El]. cbn [proj1_sig]. unfold exp_in, infinite_sum in El. intros eps E. destruct (El eps E) as [n0 H].
    exists n0. intros n G. specialize (H n G). replace (sum_f_R0 (tg_alt (fun i => a ^ i / INR (fact i))) n) with (sum_f_R0 (fun i => / INR (fact i) * (- a) ^ i) n); [exact H|].
    apply sum_eq. intros i _. unfold tg_alt, Rdiv. replace (- a) with (-1 * a) by ring. rewrite Rpow_mult_distr. ring.
Qed.
(** Numerator, denominator den^n n! and the power (-num)^n of the partial sums at num / den *)
Fixpoint exp_sum (num den : Z) (n : nat) : Z * Z * Z :=
  match n with
  | O => (1, 1, 1)%Z
  | S k => let '(N, D, P) := exp_sum num den k in let c := (den * Z.of_nat n)%Z in let P' := (- num * P)%Z in (c * N + P', c * D, P')%Z
  end.
Lemma exp_sum_ok num den n : (0 < den)%Z -> let '(N, D, P) := exp_sum num den n in
  sum_f_R0 (tg_alt (fun i => (IZR num / IZR den) ^ i / INR (fact i))) n = IZR N / IZR D /\ IZR D = IZR den ^ n * INR (fact n) /\ IZR P = (- IZR num) ^ n /\ 0 < IZR D.
Proof.
  intro D0. apply IZR_lt in D0. induction n as [|n IH].
  - cbn [exp_sum sum_f_R0]. unfold tg_alt. cbn. repeat split; try lra. 
  - cbn [exp_sum]. destruct (exp_sum num den n) as [[N D] P]. cbv zeta. destruct IH as (E & ED & EP & D1).
    assert (C : IZR (Z.of_nat (S n)) = INR (S n)) by (symmetry; apply INR_IZR_INZ). assert (C0 : 0 < INR (S n)) by (apply lt_0_INR; lia).
    assert (F : INR (fact (S n)) = INR (S n) * INR (fact n)) by (change (fact (S n)) with (S n * fact n)%nat; apply mult_INR).
    assert (F0 : 0 < INR (fact n)) by (apply lt_0_INR, lt_O_fact). assert (PD : 0 < IZR den ^ n) by (apply pow_lt, D0).
    split; [|split; [|split]].
    + cbn [sum_f_R0]. rewrite E. unfold tg_alt. rewrite F, plus_IZR, !mult_IZR, opp_IZR, C, EP, ED.
      replace (- IZR num) with (-1 * IZR num) by ring. unfold Rdiv at 3. rewrite !Rpow_mult_distr, pow_inv. cbn [pow]. field. repeat split; lra.
    + rewrite !mult_IZR, C, F, ED. cbn [pow]. ring.
    + rewrite mult_IZR, opp_IZR, EP. cbn [pow]. ring.
    + rewrite !mult_IZR, C. repeat apply Rmult_lt_0_compat; lra.
Qed.
Definition ln2_low : Q := 6931471805599453094 # 10 ^ 19.
Definition ln2_high : Q := 6931471805599453095 # 10 ^ 19.
Theorem ln2_bounds : Q2R ln2_low < ln 2 < Q2R ln2_high.
Proof.
  assert (B : forall q : Q, (0 <= q <= 1)%Q -> 0 <= Q2R q <= 1).
  { intros q [H1 H2]. apply Qle_Rle in H1, H2. rewrite RMicromega.Q2R_0 in H1. rewrite Q2R_1 in H2. lra. }
  assert (HALF : exp (- ln 2) = / 2) by (rewrite exp_Ropp, exp_ln by lra; reflexivity).
  assert (H2 : Q2R (1 # 2) = / 2) by (unfold Q2R; cbn; field). split.
  - destruct (exp_neg_bounds (Q2R ln2_low) 10) as [L _]; [apply B; split; vm_compute; discriminate|].
    pose proof (exp_sum_ok 6931471805599453094 (10 ^ 19) (S (2 * 10)) ltac:(lia)) as SU.
    assert (C : let '(N, D, _) := exp_sum 6931471805599453094 (10 ^ 19) (S (2 * 10)) in (1 * D < N * 2)%Z) by (vm_compute; reflexivity).
    destruct (exp_sum 6931471805599453094 (10 ^ 19) (S (2 * 10))) as [[N D] P]. destruct SU as (SU & _ & _ & D0). apply lt_IZR in D0. apply (Q2R_less 1 2) in C; [|exact D0].
    assert (E : Q2R ln2_low = 6931471805599453094 / IZR (10 ^ 19)) by reflexivity. rewrite E in L. rewrite SU in L. rewrite <- E in L.
    apply Ropp_lt_cancel, exp_lt_inv. rewrite HALF. lra.
  - destruct (exp_neg_bounds (Q2R ln2_high) 10) as [_ H]; [apply B; split; vm_compute; discriminate|].
    pose proof (exp_sum_ok 6931471805599453095 (10 ^ 19) (2 * 10) ltac:(lia)) as SU.
    assert (C : let '(N, D, _) := exp_sum 6931471805599453095 (10 ^ 19) (2 * 10) in (N * 2 < 1 * D)%Z) by (vm_compute; reflexivity).
    destruct (exp_sum 6931471805599453095 (10 ^ 19) (2 * 10)) as [[N D] P]. destruct SU as (SU & _ & _ & D0). apply lt_IZR in D0. apply (Q2R_more 1 2) in C; [|exact D0].
    assert (E : Q2R ln2_high = 6931471805599453095 / IZR (10 ^ 19)) by reflexivity. rewrite E in H. rewrite SU in H. rewrite <- E in H.
    apply Ropp_lt_cancel, exp_lt_inv. rewrite HALF. lra.
Qed.

(** Proofs about the power of five table: each entry is the truncated (or, for small negative
    exponents, rounded up) power of ten, and it is precise enough for every 64-bit factor. *)
From Verif Require Import Base FloatTable FloatCerts FloatComputeModel FloatTableChecks.
Local Open Scope Z_scope.

Ltac bools H := repeat (rewrite andb_true_iff in H); repeat match goal with
  | H : _ /\ _ |- _ => destruct H
  | H : (_ <=? _) = true |- _ => apply Z.leb_le in H
  | H : (_ <? _) = true |- _ => apply Z.ltb_lt in H
  | H : (_ =? _) = true |- _ => apply Z.eqb_eq in H
  end.

Lemma entry_bounds (q : Z) : -342 <= q <= 308 ->
  2 ^ 63 <= entry_hi q < 2 ^ 64 /\ 0 <= entry_lo q < 2 ^ 64 /\ 0 < exact_num q /\ 0 < exact_den q /\
  2 ^ 127 * exact_den q <= exact_num q < 2 ^ 128 * exact_den q.
Proof.
  intro B. pose proof (all_q_bool _ _ check_entries B) as H. unfold check_entry in H.
  apply andb_true_iff in H. destruct H as [H _]. bools H. repeat split; assumption.
Qed.
Lemma entry_exact (q : Z) : 0 <= q <= 55 -> entry q * exact_den q = exact_num q.
Proof.
  intro B. assert (B' : -342 <= q <= 308) by lia.
  pose proof (all_q_bool _ _ check_entries B') as H. unfold check_entry in H.
  apply andb_true_iff in H. destruct H as [_ H].
  replace ((0 <=? q) && (q <=? 55)) with true in H by lia. apply Z.eqb_eq in H. exact H.
Qed.
Lemma entry_above (q : Z) : -27 <= q < 0 -> (entry q - 1) * exact_den q < exact_num q < entry q * exact_den q.
Proof.
  intro B. assert (B' : -342 <= q <= 308) by lia.
  pose proof (all_q_bool _ _ check_entries B') as H. unfold check_entry in H.
  apply andb_true_iff in H. destruct H as [_ H].
  replace ((0 <=? q) && (q <=? 55)) with false in H by lia.
  replace ((-27 <=? q) && (q <? 0)) with true in H by lia. bools H. split; assumption.
Qed.
Lemma entry_below (q : Z) : -342 <= q <= 308 -> ~ (-27 <= q < 0) ->
  entry q * exact_den q <= exact_num q < (entry q + 1) * exact_den q.
Proof.
  intros B N.
  destruct (Z_le_gt_dec 0 q) as [L|L]; [destruct (Z_le_gt_dec q 55) as [L'|L']|].
  - pose proof (entry_exact q ltac:(lia)). pose proof (entry_bounds q B).
    rewrite Z.mul_add_distr_r. lia.
  - pose proof (all_q_bool _ _ check_entries B) as H. unfold check_entry in H.
    apply andb_true_iff in H. destruct H as [_ H].
    replace ((0 <=? q) && (q <=? 55)) with false in H by lia.
    replace ((-27 <=? q) && (q <? 0)) with false in H by lia. bools H. split; lia.
  - pose proof (all_q_bool _ _ check_entries B) as H. unfold check_entry in H.
    apply andb_true_iff in H. destruct H as [_ H].
    replace ((0 <=? q) && (q <=? 55)) with false in H by lia.
    replace ((-27 <=? q) && (q <? 0)) with false in H by lia. bools H. split; lia.
Qed.

(** A fraction strictly between two neighbours has a large denominator. *)
Lemma between_neighbours (p1 q1 p2 q2 n w : Z) : p1 * q2 - p2 * q1 = 1 -> 0 < q1 -> 0 < q2 ->
  p2 * w < n * q2 -> n * q1 < p1 * w -> q1 + q2 <= w.
Proof.
  intros D A B L U.
  assert (E : w = q2 * (p1 * w - n * q1) + q1 * (n * q2 - p2 * w)).
  { transitivity (w * (p1 * q2 - p2 * q1)); [rewrite D|]; ring. }
  assert (1 <= p1 * w - n * q1) by lia. assert (1 <= n * q2 - p2 * w) by lia. nia.
Qed.

(** The table is precise enough: for every 64-bit factor the product with the entry and the product
    with the exact power agree from bit 137 on. *)
Lemma entry_precise (q w : Z) : -342 <= q <= 308 -> 0 <= w < 2 ^ 64 ->
  w * exact_num q / (exact_den q * 2 ^ 137) = w * entry q / 2 ^ 137.
Proof.
  intros B W. pose proof (entry_bounds q B) as [_ [_ [HN [HD _]]]].
  pose proof (all_q_bool _ _ check_certificates B) as C. unfold check_certificate in C.
  destruct (certificate q) as [[[p2 q2] p1] q1].
  destruct (Z.eq_dec w 0) as [->|W0]; [reflexivity|].
  assert (K : 0 < 2 ^ 137) by lia. generalize dependent (2 ^ 137). intros K. intros C KP.
  assert (DK : 0 < exact_den q * K) by nia.
  destruct ((-27 <=? q) && (q <? 0)) eqn:S.
  - pose proof (entry_above q ltac:(lia)) as [A1 A2].
    set (d := exact_den q) in *. set (a := exact_num q) in *. set (t := entry q) in *.
    bools C.
    assert (U : w * a / (d * K) <= w * t / K).
    { rewrite <- (Z.div_mul_cancel_l (w * t) K d) by lia.
      apply Z.div_le_mono; [lia|]. nia. }
    destruct (Z.eq_dec (w * a / (d * K)) (w * t / K)) as [E|NE]; [exact E|exfalso].
    set (n := w * t / K) in *.
    assert (N1 : w * a < d * K * n).
    { assert (X : w * a / (d * K) < n) by lia.
      destruct (Z_lt_le_dec (w * a) (d * K * n)) as [Y|Y]; [exact Y|].
      apply Z.div_le_lower_bound in Y; lia. }
    assert (N2 : K * n <= w * t) by (apply Z.mul_div_le; lia).
    assert (R : q1 + q2 <= w).
    { apply (between_neighbours p1 q1 p2 q2 n w); try assumption; try lia.
      - (* p2 * w < n * q2 *)
        assert (p2 * d * K * w < q2 * (d * K * n)) by nia. nia.
      - (* n * q1 < p1 * w *)
        assert (K * (n * q1) < K * (p1 * w)); [|nia].
        assert (K * (n * q1) <= q1 * (w * t)) by nia. nia. }
    lia.
  - pose proof (entry_below q B ltac:(lia)) as [A1 A2].
    set (d := exact_den q) in *. set (a := exact_num q) in *. set (t := entry q) in *.
    bools C.
    assert (U : w * t / K <= w * a / (d * K)).
    { rewrite <- (Z.div_mul_cancel_l (w * t) K d) by lia.
      apply Z.div_le_mono; [lia|]. nia. }
    destruct (Z.eq_dec (w * a / (d * K)) (w * t / K)) as [E|NE]; [exact E|exfalso].
    set (n := w * a / (d * K)) in *.
    assert (N1 : w * t < K * n).
    { assert (X : w * t / K < n) by lia.
      destruct (Z_lt_le_dec (w * t) (K * n)) as [Y|Y]; [exact Y|].
      apply Z.div_le_lower_bound in Y; lia. }
    assert (N2 : d * K * n <= w * a) by (apply Z.mul_div_le; lia).
    assert (R : q1 + q2 <= w).
    { apply (between_neighbours p1 q1 p2 q2 n w); try assumption; try lia.
      - assert (K * (p2 * w) < K * (n * q2)) by nia. nia.
      - assert (d * (K * n) < d * (w * (t + 1))) by nia.
        assert (K * n < w * (t + 1)) by nia.
        assert (K * (n * q1) < K * (p1 * w)); [|nia].
        assert (q1 * (K * n) < q1 * (w * (t + 1))) by nia. nia. }
    lia.
Qed.

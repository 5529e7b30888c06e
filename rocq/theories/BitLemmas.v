(** Arithmetic readings of shifts, masks and disjunctions on N. *)
From Verif Require Import Base.
Local Open Scope N_scope.

Lemma shiftl_mul a n : N.shiftl a n = a * 2 ^ n.
Proof. apply N.shiftl_mul_pow2. Qed.

Lemma shiftr_div a n : N.shiftr a n = a / 2 ^ n.
Proof. apply N.shiftr_div_pow2. Qed.

Lemma land_ones_mod a n : N.land a (N.ones n) = a mod 2 ^ n.
Proof. apply N.land_ones. Qed.

Lemma land_disjoint_shift a b n : a < 2 ^ n -> N.land (b * 2 ^ n) a = 0.
Proof.
  intro H. apply N.bits_inj_iff. intro i. rewrite N.land_spec, N.bits_0.
  destruct (N.lt_ge_cases i n) as [Hi|Hi].
  - rewrite N.mul_pow2_bits_low by assumption. reflexivity.
  - rewrite andb_comm. 
    destruct (N.eq_dec a 0) as [->|Ha]; [rewrite N.bits_0; reflexivity|].
    rewrite (N.bits_above_log2 a i); [reflexivity|].
    apply N.log2_lt_pow2; [lia|].
    eapply N.lt_le_trans; [exact H|]. apply N.pow_le_mono_r; lia.
Qed.

Lemma lor_mul_add a b n : a < 2 ^ n -> N.lor (b * 2 ^ n) a = b * 2 ^ n + a.
Proof.
  intro H. symmetry.
  pose proof (land_disjoint_shift a b n H) as Hd.
  rewrite N.add_nocarry_lxor by exact Hd.
  apply N.bits_inj_iff. intro i. rewrite N.lxor_spec, N.lor_spec.
  assert (Hi : N.testbit (N.land (b * 2 ^ n) a) i = false) by (rewrite Hd; apply N.bits_0).
  rewrite N.land_spec in Hi.
  destruct (N.testbit (b * 2 ^ n) i), (N.testbit a i); simpl in *; congruence.
Qed.

Lemma lor_shiftl_add a b n : a < 2 ^ n -> N.lor (N.shiftl b n) a = b * 2 ^ n + a.
Proof. intro H. rewrite shiftl_mul. apply lor_mul_add; exact H. Qed.

(** Disjoint or, with the multiple given by divisibility. *)
Lemma lor_add_mod a c n : a < 2 ^ n -> c mod 2 ^ n = 0 -> N.lor c a = c + a.
Proof.
  intros H Hc. rewrite (N.div_mod' c (2 ^ n)), Hc, N.add_0_r, N.mul_comm.
  apply lor_mul_add; exact H.
Qed.

(** Finite sweeps over an initial segment of N. *)
Lemma sweep (P : N -> bool) (n : nat) :
  forallb (fun i => P (N.of_nat i)) (seq 0 n) = true ->
  forall v, v < N.of_nat n -> P v = true.
Proof.
  intros H v Hv. rewrite forallb_forall in H. specialize (H (N.to_nat v)).
  rewrite N2Nat.id in H. apply H. apply in_seq. lia.
Qed.

(** When the product w * 10^q falls exactly halfway between two floating point numbers, and that
    compute_float recognises exactly these cases. *)
From Coq Require Import Znumtheory Zpow_facts.
From Verif Require Import Base FloatSpec FloatTable FloatComputeModel FloatTableChecks FloatTableProofs FloatRoundProofs FloatComputeProofs.
Local Open Scope Z_scope.

Definition check_small (q : Z) : bool :=
  if (0 <=? q) && (q <=? 23) then (entry_lo q =? 0) && Z.even (entry_hi q) && (lg10 q <=? 127) && (0 <=? lg10 q)
  else if (-27 <=? q) && (q <? 0) then (1 <=? entry_lo q) && (lg10 q <? 0)
  else true.
Lemma check_smalls : forallb check_small all_q = true.
Proof. vm_compute. reflexivity. Qed.

(** Inverses of the high words modulo 2^73, up to a power of two. *)
Definition inverses : list (Z * Z * Z) := [
  (-17, 0, 0x13d89ee897ef59d7df9); (-16, 0, 0x1a030fad280461f66d3); (-15, 0, 0x6db7d434f9093d1369);
  (-14, 0, 0x17a4776114e932f16ef); (-13, 0, 0x14ea976a8f009f3ec1b); (-12, 0, 0x126ccda17e7d0519ce3);
  (-11, 1, 0x1d67808364f657f6a7f); (-10, 1, 0x908c50dd1a3257511f); (-9, 0, 0x12347a5ffb53d302a27);
  (-8, 2, 0x138f7a3f25d4bd57c3f); (-7, 2, 0x1dd3cea73b0d36c64f); (-6, 0, 0x1162d28ff519dc1fc9d);
  (-5, 0, 0x178b464ceec1a874b8b); (-4, 0, 0x16f6978533007ec3183); (-3, 0, 0x1bac687d6343eb1a1f3);
  (-2, 1, 0xcd555555555555554d); (-1, 2, 0x1fafffffffffffffffb)].
Definition check_inverse (c : Z * Z * Z) : bool :=
  let '(q, v, i) := c in
  (0 <=? v) && (v <=? 9) && ((i * entry_hi q - 2 ^ v) mod 2 ^ 73 =? 0) && (0 <=? i) && (i <? 2 ^ 73) &&
  (negb (i mod 2 ^ v =? 0) || (2 ^ (64 + v) <=? i)).
Lemma check_inverses : forallb check_inverse inverses = true.
Proof. vm_compute. reflexivity. Qed.
Lemma inverse_at q : -17 <= q < 0 -> exists v i, check_inverse (q, v, i) = true.
Proof.
  intro H. pose proof check_inverses as C. rewrite forallb_forall in C.
  assert (E : In q (map (fun c => fst (fst c)) inverses)).
  { unfold inverses. cbn [map fst In]. lia. }
  apply in_map_iff in E. destruct E as [[[q' v] i] [E I]]. cbn in E. subst q'. exists v, i. apply C, I.
Qed.

Lemma lo_zero q : 0 <= q <= 23 -> entry_lo q = 0 /\ Z.even (entry_hi q) = true /\ 0 <= lg10 q <= 127.
Proof.
  intro H. pose proof (all_q_bool _ q check_smalls ltac:(lia)) as C. unfold check_small in C.
  replace ((0 <=? q) && (q <=? 23)) with true in C by lia. bools C. repeat split; assumption.
Qed.
Lemma lo_positive q : -27 <= q < 0 -> 1 <= entry_lo q /\ lg10 q < 0.
Proof.
  intro H. pose proof (all_q_bool _ q check_smalls ltac:(lia)) as C. unfold check_small in C.
  replace ((0 <=? q) && (q <=? 23)) with false in C by lia.
  replace ((-27 <=? q) && (q <? 0)) with true in C by lia. bools C. split; assumption.
Qed.

(** The first product alone never looks like a tie. *)
Lemma no_false_tie q w c L : -17 <= q < 0 -> 0 < w < 2 ^ 64 -> 0 <= L <= 1 -> w * entry_hi q = c * 2 ^ 73 + L -> False.
Proof.
  intros Q W B E. destruct (inverse_at q Q) as [v [i C]]. unfold check_inverse in C.
  apply andb_true_iff in C. destruct C as [C D]. bools C.
  match goal with H : _ mod _ = 0 |- _ => apply Z.mod_divide in H; [|lia]; destruct H as [k K] end.
  assert (X : w * 2 ^ v = i * L + 2 ^ 73 * (i * c - w * k)).
  { assert (Y : w * (i * entry_hi q) = w * (k * 2 ^ 73 + 2 ^ v)) by (f_equal; lia). 
    replace (w * (i * entry_hi q)) with (i * (w * entry_hi q)) in Y by ring. rewrite E in Y. lia. }
  assert (V : 1 <= 2 ^ v <= 2 ^ 9) by (split; [apply (Z.pow_le_mono_r 2 0); lia|apply Z.pow_le_mono_r; lia]).
  assert (WB : 0 < w * 2 ^ v < 2 ^ 73) by (change (2 ^ 73) with (2 ^ 64 * 2 ^ 9); nia).
  assert (L = 0 \/ L = 1) as [->| ->] by lia.
  - lia.
  - assert (w * 2 ^ v = i) by lia.
    rewrite orb_true_iff in D. destruct D as [D|D].
    + apply negb_true_iff, Z.eqb_neq in D. apply D. subst i. apply Z.mod_mul. lia.
    + apply Z.leb_le in D. rewrite Z.pow_add_r in D by lia. nia.
Qed.

Lemma odd_power5 n : 0 <= n -> Z.odd (5 ^ n) = true.
Proof.
  intro H. destruct (Z.eq_dec n 0) as [->|N]; [reflexivity|]. rewrite Z.odd_pow by lia. reflexivity.
Qed.
Lemma rel_prime_pow2 a k : Z.odd a = true -> 0 <= k -> rel_prime a (2 ^ k).
Proof.
  intros O K. apply rel_prime_Zpower_r; [exact K|].
  apply rel_prime_sym. apply prime_rel_prime; [exact prime_2|].
  intro D. destruct D as [c D]. subst a. rewrite Z.odd_mul in O. cbn in O. rewrite andb_false_r in O. discriminate.
Qed.
Lemma odd_divides a x k : Z.odd a = true -> 0 <= k -> (a | x * 2 ^ k) -> (a | x).
Proof.
  intros O K D. apply Gauss with (2 ^ k); [rewrite Z.mul_comm; exact D|]. apply rel_prime_pow2; assumption.
Qed.

Lemma pow10 n : 0 <= n -> 10 ^ n = 5 ^ n * 2 ^ n.
Proof. intro H. rewrite <- Z.pow_mul_l by lia. reflexivity. Qed.

(** An exact product: the power of five divides one of the factors. *)
Lemma exact_pos q w M s : 0 <= q <= 308 -> 0 < M -> 0 <= s ->
  w * exact_num q = M * (exact_den q * 2 ^ (128 + s)) -> 5 ^ q <= M.
Proof.
  intros Q MP S E. apply Z.divide_pos_le; [exact MP|].
  unfold exact_num, exact_den in E. rewrite (Z.max_l q 0), (Z.max_r (- q) 0) in E by lia.
  rewrite (pow10 q) in E by lia. change (10 ^ 0) with 1 in E. rewrite Z.mul_1_l in E.
  apply (odd_divides _ _ (Z.max (lg10 q - 127) 0 + (128 + s))); [apply odd_power5; lia|lia|].
  rewrite Z.pow_add_r by lia. exists (w * 2 ^ q * 2 ^ Z.max (127 - lg10 q) 0). nia.
Qed.
Lemma exact_neg q w M s : -342 <= q < 0 -> 0 < w -> 0 < M -> 0 <= s -> Z.odd M = true ->
  w * exact_num q = M * (exact_den q * 2 ^ (128 + s)) -> M * 5 ^ (- q) <= w.
Proof.
  intros Q WP MP S O E. apply Z.divide_pos_le; [exact WP|].
  unfold exact_num, exact_den in E. rewrite (Z.max_r q 0), (Z.max_l (- q) 0) in E by lia.
  rewrite (pow10 (- q)) in E by lia. change (10 ^ 0) with 1 in E. rewrite Z.mul_1_l in E.
  apply (odd_divides _ _ (Z.max (127 - lg10 q) 0)).
  - rewrite Z.odd_mul, O. apply odd_power5. lia.
  - lia.
  - exists (2 ^ (- q) * 2 ^ Z.max (lg10 q - 127) 0 * 2 ^ (128 + s)). rewrite E.
    generalize (2 ^ (128 + s)) (2 ^ Z.max (lg10 q - 127) 0) (5 ^ (- q)) (2 ^ (- q)). intros. ring.
Qed.
(** without the condition on M *)
Lemma exact_neg' q w M s : -342 <= q < 0 -> 0 < w -> 0 < M -> 0 <= s ->
  w * exact_num q = M * (exact_den q * 2 ^ (128 + s)) -> 5 ^ (- q) <= w.
Proof.
  intros Q WP MP S E. apply Z.divide_pos_le; [exact WP|].
  unfold exact_num, exact_den in E. rewrite (Z.max_r q 0), (Z.max_l (- q) 0) in E by lia.
  rewrite (pow10 (- q)) in E by lia. change (10 ^ 0) with 1 in E. rewrite Z.mul_1_l in E.
  apply (odd_divides _ _ (Z.max (127 - lg10 q) 0)).
  - apply odd_power5. lia.
  - lia.
  - exists (M * 2 ^ (- q) * 2 ^ Z.max (lg10 q - 127) 0 * 2 ^ (128 + s)). rewrite E.
    generalize (2 ^ (128 + s)) (2 ^ Z.max (lg10 q - 127) 0) (5 ^ (- q)) (2 ^ (- q)). intros. ring.
Qed.

(** Numbers below a power of two that both are multiples of it are equal. *)
Lemma close_multiples a b c k : 0 < k -> a * k - b * k < c -> b * k - a * k < c -> c <= k -> a = b.
Proof. intros. nia. Qed.

(** What compute_float checks implies an exact tie. *)
Lemma tie_sound prec q w L H M s : 0 < prec <= 55 -> -17 <= q <= 23 -> 2 ^ 63 <= w < 2 ^ 64 ->
  product_ok prec q w L H -> 9 <= s -> 0 < M -> L <= 1 -> M * 2 ^ s = H ->
  w * exact_num q = M * (exact_den q * 2 ^ (128 + s)).
Proof.
  intros P Q W [HL [HH C]] S MP L1 HM.
  assert (QQ : -342 <= q <= 308) by lia.
  pose proof (entry_bounds q QQ) as [EH [EL _]].
  destruct (Z_le_gt_dec 0 q) as [QP|QN].
  - destruct (lo_zero q ltac:(lia)) as [Z0 [EV LG]].
    assert (E : H * 2 ^ 64 + L = w * entry_hi q).
    { destruct C as [C|[C _]]; [|exact C]. rewrite C, entry_split, Z0, Z.mul_0_r, Z.add_0_r.
      apply Z.div_mul. lia. }
    assert (L = 0).
    { assert (O : Z.even (H * 2 ^ 64 + L) = Z.even L).
      { rewrite Z.even_add, Z.even_mul. change (Z.even (2 ^ 64)) with true. rewrite orb_true_r. destruct (Z.even L); reflexivity. }
      rewrite E, Z.even_mul, EV, orb_true_r in O. assert (L = 0 \/ L = 1) as [X|X] by lia; [exact X|]. subst L. discriminate. }
    subst L. rewrite Z.add_0_r in E.
    pose proof (entry_exact q ltac:(lia)) as X. unfold entry in X. rewrite Z0, Z.add_0_r in X.
    rewrite <- X. rewrite Z.pow_add_r by lia. change (2 ^ 128) with (2 ^ 64 * 2 ^ 64). rewrite <- HM in E.
    replace (w * (entry_hi q * 2 ^ 64 * exact_den q)) with (w * entry_hi q * 2 ^ 64 * exact_den q) by ring.
    rewrite <- E. ring.
  - destruct (lo_positive q ltac:(lia)) as [LP LG].
    destruct C as [C|[C _]].
    + pose proof (entry_above q ltac:(lia)) as [A1 A2].
      pose proof (entry_bounds q QQ) as [_ [_ [NP [DP _]]]].
      assert (B1 : M * 2 ^ (128 + s) <= w * entry q < M * 2 ^ (128 + s) + 2 ^ 65).
      { pose proof (Z.div_mod (w * entry q) (2 ^ 64) ltac:(lia)) as D.
        pose proof (Z.mod_pos_bound (w * entry q) (2 ^ 64) ltac:(lia)) as DM.
        rewrite <- C, <- HM in D.
        replace (M * 2 ^ (128 + s)) with (2 ^ 64 * (M * 2 ^ s * 2 ^ 64))
          by (rewrite Z.pow_add_r by lia; change (2 ^ 128) with (2 ^ 64 * 2 ^ 64); ring).
        lia. }
      unfold exact_num, exact_den in *.
      rewrite (Z.max_r q 0), (Z.max_l (- q) 0), (Z.max_l (127 - lg10 q) 0), (Z.max_r (lg10 q - 127) 0) in * by lia.
      change (10 ^ 0) with 1 in *. change (2 ^ 0) with 1 in *. rewrite Z.mul_1_l, Z.mul_1_r in *.
      assert (D17 : 1 <= 10 ^ (- q) <= 10 ^ 17).
      { split; [apply (Z.pow_le_mono_r 10 0); lia|apply Z.pow_le_mono_r; lia]. }
      set (d := 10 ^ (- q)) in *.
      assert (R1 : 2 ^ (127 - lg10 q) = 2 ^ (- lg10 q) * 2 ^ 127) by (rewrite <- Z.pow_add_r by lia; f_equal; lia).
      assert (R2 : 2 ^ (128 + s) = 2 ^ (s + 1) * 2 ^ 127) by (rewrite <- Z.pow_add_r by lia; f_equal; lia).
      assert (S1 : w * 2 ^ (127 - lg10 q) < (M * 2 ^ (128 + s) + 2 ^ 65) * d).
      { apply Z.lt_trans with (w * (entry q * d)); [apply Z.mul_lt_mono_pos_l; lia|].
        rewrite Z.mul_assoc. apply Z.mul_lt_mono_pos_r; lia. }
      assert (S2 : (M * 2 ^ (128 + s) - 2 ^ 64) * d < w * 2 ^ (127 - lg10 q)).
      { apply Z.le_lt_trans with (w * ((entry q - 1) * d)); [|apply Z.mul_lt_mono_pos_l; lia].
        rewrite Z.mul_assoc. apply Z.mul_le_mono_nonneg_r; lia. }
      rewrite R1, R2 in *. rewrite !Z.mul_assoc in *.
      set (a := w * 2 ^ (- lg10 q)) in *. set (b := M * 2 ^ (s + 1)) in *.
      replace (M * d * 2 ^ (s + 1) * 2 ^ 127) with (b * d * 2 ^ 127) by (unfold b; ring).
      f_equal. clear - S1 S2 D17. 
      assert (X : 2 ^ 65 * d <= 2 ^ 65 * 10 ^ 17) by lia.
      assert (T1 : a * 2 ^ 127 < b * d * 2 ^ 127 + 2 ^ 65 * 10 ^ 17) by lia.
      assert (T2 : b * d * 2 ^ 127 < a * 2 ^ 127 + 2 ^ 65 * 10 ^ 17) by lia.
      set (y := b * d) in *. clearbody y. lia.
    + exfalso. apply (no_false_tie q w (M * 2 ^ (s - 9)) L); try lia.
      rewrite <- C, <- HM. f_equal.
      rewrite <- !Z.mul_assoc, <- !Z.pow_add_r by lia. do 2 f_equal. lia.
Qed.

(** Every exact tie is recognised. *)
Lemma tie_complete prec q w L H M s : 0 < prec < 64 -> -27 <= q <= 23 -> 2 ^ 63 <= w < 2 ^ 64 ->
  product_ok prec q w L H -> 64 - prec <= s -> 0 < M ->
  w * exact_num q = M * (exact_den q * 2 ^ (128 + s)) -> L <= 1 /\ M * 2 ^ s = H.
Proof.
  intros P Q W [HL [HH C]] S MP E.
  assert (QQ : -342 <= q <= 308) by lia.
  pose proof (entry_bounds q QQ) as [EH [EL [NP [DP _]]]].
  assert (PS : 0 < 2 ^ s) by (apply Z.pow_pos_nonneg; lia).
  assert (SP : 2 ^ (128 + s) = 2 ^ s * 2 ^ 64 * 2 ^ 64).
  { rewrite <- !Z.pow_add_r by lia. f_equal. lia. }
  rewrite SP in E.
  destruct (Z_le_gt_dec 0 q) as [QP|QN].
  - destruct (lo_zero q ltac:(lia)) as [Z0 [EV LG]].
    assert (E' : H * 2 ^ 64 + L = w * entry_hi q).
    { destruct C as [C|[C _]]; [|exact C]. rewrite C, entry_split, Z0, Z.mul_0_r, Z.add_0_r.
      apply Z.div_mul. lia. }
    pose proof (entry_exact q ltac:(lia)) as X. unfold entry in X. rewrite Z0, Z.add_0_r in X.
    rewrite <- X in E.
    assert (Y : w * entry_hi q = M * 2 ^ s * 2 ^ 64).
    { apply Z.mul_reg_r with (2 ^ 64 * exact_den q); [lia|]. lia. }
    lia.
  - destruct (lo_positive q ltac:(lia)) as [LP LG].
    pose proof (entry_above q ltac:(lia)) as [A1 A2].
    set (d := exact_den q) in *. set (t := entry q) in *.
    assert (B1 : M * 2 ^ s * 2 ^ 64 * 2 ^ 64 < w * t).
    { apply Z.mul_lt_mono_pos_r with d; [exact DP|].
      replace (M * 2 ^ s * 2 ^ 64 * 2 ^ 64 * d) with (w * exact_num q) by (rewrite E; ring).
      rewrite <- Z.mul_assoc. apply Z.mul_lt_mono_pos_l; lia. }
    assert (B2 : w * t < M * 2 ^ s * 2 ^ 64 * 2 ^ 64 + w).
    { assert (w * (t - 1) < M * 2 ^ s * 2 ^ 64 * 2 ^ 64); [|lia].
      apply Z.mul_lt_mono_pos_r with d; [exact DP|].
      replace (M * 2 ^ s * 2 ^ 64 * 2 ^ 64 * d) with (w * exact_num q) by (rewrite E; ring).
      rewrite <- Z.mul_assoc. apply Z.mul_lt_mono_pos_l; lia. }
    destruct C as [C|[C N]].
    + assert (D : w * t / 2 ^ 64 = M * 2 ^ s * 2 ^ 64).
      { symmetry. apply (Z.div_unique_pos _ _ _ (w * t - M * 2 ^ s * 2 ^ 64 * 2 ^ 64)); lia. }
      rewrite D in C. lia.
    + exfalso. pose proof (entry_split q w) as ES. fold t in ES.
      assert (WL : w <= w * entry_lo q <= (2 ^ 64 - 1) * (2 ^ 64 - 1)).
      { split; [nia|]. apply Z.mul_le_mono_nonneg; lia. }
      assert (U : w * entry_hi q < M * 2 ^ s * 2 ^ 64) by lia.
      assert (V : (M * 2 ^ s - 1) * 2 ^ 64 <= w * entry_hi q) by lia.
      assert (HE : H = M * 2 ^ s - 1) by lia.
      apply N. rewrite HE.
      assert (K : 0 < 2 ^ (64 - prec)) by (apply Z.pow_pos_nonneg; lia).
      replace s with (s - (64 - prec) + (64 - prec)) by lia. rewrite Z.pow_add_r by lia.
      symmetry. apply (Z.mod_unique_pos _ _ (M * 2 ^ (s - (64 - prec)) - 1)); lia.
Qed.

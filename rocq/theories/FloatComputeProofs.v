(** Proofs about the arithmetic core of fast_float: the approximation by the power of five table always
    leads to the nearest floating point number. *)
From Verif Require Import Base FloatSpec FloatTable FloatComputeModel FloatTableChecks FloatTableProofs FloatRoundProofs.
From Verif Require Export FloatPortableProofs.
Local Open Scope Z_scope.

Lemma table_length : length power_of_five_128 = 1302%nat.
Proof. reflexivity. Qed.
Lemma table_at_hi q : -342 <= q <= 308 -> table_at (2 * i32 (q - -342)) = Ok (entry_hi q).
Proof.
  intro H. rewrite i32_small by lia. unfold table_at, entry_hi. replace (2 * (q - -342)) with (2 * (q + 342)) by lia.
  replace (2 * (q + 342) <? 0) with false by lia.
  rewrite (nth_error_nth' _ 0); [reflexivity|]. rewrite table_length. lia.
Qed.
Lemma table_at_lo q : -342 <= q <= 308 -> table_at (2 * i32 (q - -342) + 1) = Ok (entry_lo q).
Proof.
  intro H. rewrite i32_small by lia. unfold table_at, entry_lo. replace (2 * (q - -342)) with (2 * (q + 342)) by lia.
  replace (2 * (q + 342) + 1 <? 0) with false by lia.
  rewrite (nth_error_nth' _ 0); [reflexivity|]. rewrite table_length. lia.
Qed.

Lemma mask_value prec : 0 < prec < 64 -> Z.shiftr 0xFFFFFFFFFFFFFFFF prec = Z.ones (64 - prec).
Proof.
  intro H. change 0xFFFFFFFFFFFFFFFF with (Z.ones 64). rewrite Z.shiftr_div_pow2 by lia.
  rewrite Z.ones_div_pow2 by lia. reflexivity.
Qed.

Lemma entry_split q w : w * entry q = w * entry_hi q * 2 ^ 64 + w * entry_lo q.
Proof. unfold entry. ring. Qed.

(** What the product consists of. *)
Definition product_ok (prec q w L H : Z) : Prop :=
  0 <= L < 2 ^ 64 /\ 2 ^ 62 <= H < 2 ^ 64 /\
  (H * 2 ^ 64 + L = w * entry q / 2 ^ 64 \/
   H * 2 ^ 64 + L = w * entry_hi q /\ H mod 2 ^ (64 - prec) <> 2 ^ (64 - prec) - 1).

Lemma product_spec {lw : platform} prec q w : -342 <= q <= 308 -> 2 ^ 63 <= w < 2 ^ 64 -> 0 < prec < 64 ->
  exists L H, compute_product_approximation prec q w = Ok (L, H) /\ product_ok prec q w L H.
Proof.
  intros Q W P. unfold compute_product_approximation.
  pose proof (entry_bounds q Q) as [EH [EL _]].
  rewrite table_at_hi by exact Q. cbn [bind].
  rewrite full_multiplication_spec by lia.
  replace (prec <? 64) with true by lia. rewrite mask_value by lia.
  rewrite Z.land_ones by lia. rewrite Z.ones_equiv. rewrite <- Z.sub_1_r.
  assert (WH : 2 ^ 126 <= w * entry_hi q <= (2 ^ 64 - 1) * (2 ^ 64 - 1)).
  { change (2 ^ 126) with (2 ^ 63 * 2 ^ 63). split; apply Z.mul_le_mono_nonneg; lia. }
  assert (WL : 0 <= w * entry_lo q <= (2 ^ 64 - 1) * (2 ^ 64 - 1)).
  { split; [apply Z.mul_nonneg_nonneg; lia|apply Z.mul_le_mono_nonneg; lia]. }
  pose proof (Z.div_mod (w * entry_hi q) (2 ^ 64) ltac:(lia)) as D1.
  pose proof (Z.mod_pos_bound (w * entry_hi q) (2 ^ 64) ltac:(lia)) as M1.
  destruct (_ =? _) eqn:E.
  - rewrite table_at_lo by exact Q. cbn [bind]. rewrite full_multiplication_spec by lia.
    do 2 eexists. split; [reflexivity|].
    pose proof (Z.div_mod (w * entry_lo q) (2 ^ 64) ltac:(lia)) as D2.
    pose proof (Z.mod_pos_bound (w * entry_lo q) (2 ^ 64) ltac:(lia)) as M2.
    assert (T : w * entry q / 2 ^ 64 = w * entry_hi q + w * entry_lo q / 2 ^ 64).
    { rewrite entry_split. rewrite Z.add_comm, Z.div_add by lia. lia. }
    unfold product_ok. rewrite T.
    set (h := w * entry_hi q / 2 ^ 64) in *. set (l := (w * entry_hi q) mod 2 ^ 64) in *.
    set (h2 := w * entry_lo q / 2 ^ 64) in *. set (l2 := (w * entry_lo q) mod 2 ^ 64) in *.
    clear E. unfold u64.
    assert (H2 : 0 <= h2 < 2 ^ 64 - 1) by lia. assert (H1 : 2 ^ 62 <= h < 2 ^ 64 - 1) by lia.
    destruct (Z_lt_le_dec (l + h2) (2 ^ 64)) as [C|C].
    + rewrite (Z.mod_small (l + h2)) by lia. replace (l + h2 <? h2) with false by lia. lia.
    + assert (X : (l + h2) mod 2 ^ 64 = l + h2 - 2 ^ 64).
      { symmetry. apply (Z.mod_unique_pos _ _ 1); lia. }
      rewrite X. replace (l + h2 - 2 ^ 64 <? h2) with true by lia.
      rewrite (Z.mod_small (h + 1)) by lia. lia.
  - do 2 eexists. split; [reflexivity|]. unfold product_ok.
    apply Z.eqb_neq in E. repeat split; try lia.
Qed.

(** Its upper bits are those of the exact product. *)
Lemma product_upper prec q w L H : 0 < prec < 64 -> 0 <= w < 2 ^ 64 -> -342 <= q <= 308 -> product_ok prec q w L H ->
  H / 2 ^ (64 - prec) = w * entry q / 2 ^ (192 - prec).
Proof.
  intros P W Q [HL [HH C]]. pose proof (entry_bounds q Q) as [EH [EL _]].
  assert (E : H / 2 ^ (64 - prec) = w * entry q / 2 ^ 128 / 2 ^ (64 - prec)).
  { destruct C as [C|[C N]].
    - replace (w * entry q / 2 ^ 128) with H; [reflexivity|].
      change (2 ^ 128) with (2 ^ 64 * 2 ^ 64). rewrite <- Z.div_div by lia. rewrite <- C.
      rewrite Z.add_comm, Z.div_add by lia. rewrite Z.div_small by lia. lia.
    - assert (WL : 0 <= w * entry_lo q <= (2 ^ 64 - 1) * (2 ^ 64 - 1)).
      { split; [apply Z.mul_nonneg_nonneg; lia|apply Z.mul_le_mono_nonneg; lia]. }
      assert (X : w * entry q = (L * 2 ^ 64 + w * entry_lo q) + H * 2 ^ 128).
      { rewrite entry_split, <- C. change (2 ^ 128) with (2 ^ 64 * 2 ^ 64). ring. }
      rewrite X, Z.div_add by lia.
      set (c := (L * 2 ^ 64 + w * entry_lo q) / 2 ^ 128).
      assert (CB : 0 <= c < 2).
      { unfold c. split; [apply Z.div_pos; lia|apply Z.div_lt_upper_bound; lia]. }
      assert (K : 0 < 2 ^ (64 - prec)) by (apply Z.pow_pos_nonneg; lia).
      set (k := 2 ^ (64 - prec)) in *.
      pose proof (Z.div_mod H k ltac:(lia)) as D. pose proof (Z.mod_pos_bound H k K) as M.
      apply (Z.div_unique_pos (c + H) k (H / k) (H mod k + c)); lia. }
  rewrite E, Z.div_div by (try apply Z.pow_pos_nonneg; lia). rewrite <- Z.pow_add_r by lia. f_equal. f_equal. lia.
Qed.

(** compute_error of fast_float: the significand it returns is close to the number. *)
From Verif Require Import Base FloatSpec FloatComputeModel FloatTableChecks FloatTableProofs FloatRoundProofs FloatComputeProofs FloatEiselProofs.
Local Open Scope Z_scope.

Lemma entry_close q : -342 <= q <= 308 -> (entry q - 1) * exact_den q < exact_num q < (entry q + 1) * exact_den q.
Proof.
  intro Q. pose proof (entry_bounds q Q) as (_ & _ & _ & DP & _).
  destruct (Z_le_gt_dec (-27) q) as [A|A]; [destruct (Z_lt_ge_dec q 0) as [B|B]|].
  - pose proof (entry_above q ltac:(lia)). lia.
  - pose proof (entry_below q Q ltac:(lia)). lia.
  - pose proof (entry_below q Q ltac:(lia)). lia.
Qed.

(** The high word of the product. *)
Lemma product_close prec q w L P : -342 <= q <= 308 -> 2 ^ 63 <= w < 2 ^ 64 -> product_ok prec q w L P ->
  P * 2 ^ 128 <= w * entry q < (P + 2) * 2 ^ 128.
Proof.
  intros Q W (LB & PB & C). pose proof (entry_bounds q Q) as (EH & EL & _). rewrite entry_split in *.
  remember (entry_hi q) as h. remember (entry_lo q) as l. clear Heqh Heql.
  assert (WL : 0 <= w * l < 2 ^ 128) by (change (2 ^ 128) with (2 ^ 64 * 2 ^ 64); clear - W EL; nia).
  change (2 ^ 128) with (2 ^ 64 * 2 ^ 64) in *. remember (2 ^ 64) as W64 eqn:E64. assert (WP : 0 < W64) by (subst; reflexivity). clear E64.
  destruct C as [C|[C _]].
  - pose proof (Z.div_mod (w * h * W64 + w * l) W64 ltac:(lia)) as DM. pose proof (Z.mod_pos_bound (w * h * W64 + w * l) W64 WP) as MB.
    rewrite <- C in DM. clear C. remember ((w * h * W64 + w * l) mod W64) as r. remember (w * h * W64 + w * l) as z. clear Heqz Heqr WL. nia.
  - rewrite <- C. clear C. nia.
Qed.

Lemma close_chain (P ED EN w w' : Z) : 0 < ED -> 0 <= P < 2 ^ 64 -> 0 < w' < 2 ^ 64 ->
  P * 2 ^ 128 <= w' * w < (P + 2) * 2 ^ 128 -> (w - 1) * ED < EN < (w + 1) * ED ->
  (2 * P - 1) * (ED * 2 ^ 128) < 2 * (w' * EN) /\ w' * EN < (P + 3) * (ED * 2 ^ 128).
Proof.
  intros E PB W C N. assert (A : (w' * w - w') * ED < w' * EN < (w' * w + w') * ED) by (clear - N W; nia).
  change (2 ^ 128) with (2 ^ 64 * 2 ^ 64) in *. remember (2 ^ 64) as K. assert (4 < K) by (subst; reflexivity). clear HeqK N.
  assert (KK : 4 * K <= K * K) by nia. remember (K * K) as K2. clear HeqK2.
  remember (w' * w) as z. remember (w' * EN) as y. clear Heqz Heqy. split.
  - assert (X : (2 * P - 1) * K2 <= 2 * (z - w')) by lia. nia.
  - assert (X : z + w' <= (P + 3) * K2) by lia. nia.
Qed.

Section Err.
Context (b : binary) (f : format) (SUP : supported b f).
Local Notation mb := (mantissa_explicit_bits b).

(** A number from the interval of the numbers that begin with [w] (or [w] itself). *)
Definition begins (w q num den : Z) : Prop :=
  dec_num w q * den <= num * dec_den q /\ num * dec_den q <= dec_num (w + 1) q * den.

Lemma final_low H hilz P c ED EN w' X t D den U : hilz = 0 \/ hilz = 1 -> H = P * 2 ^ hilz -> 0 < D -> 0 < den -> 0 < ED -> 0 <= c ->
  U = 2 ^ (c - hilz + 1) ->
  (2 * P - 1) * (ED * 2 ^ 128) < 2 * (w' * EN) ->
  X * (ED * 2 ^ 128) = 4 * (w' * EN) * D * 2 ^ c -> X * den <= t * D ->
  2 * (H - 1) * U * den < t.
Proof.
  intros HZ HE DP NP EP C UE LO RE LE.
  assert (PC : 0 < 2 ^ c) by (apply Z.pow_pos_nonneg; lia).
  assert (UU : 2 * H * U = 4 * P * 2 ^ c /\ 2 * 2 ^ c <= 2 * U).
  { destruct HZ as [-> | ->].
    - rewrite UE, HE. replace (c - 0 + 1) with (c + 1) by lia. rewrite Z.pow_add_r by lia. change (2 ^ 1) with 2. change (2 ^ 0) with 1. split; [ring|lia].
    - rewrite UE, HE. replace (c - 1 + 1) with c by lia. change (2 ^ 1) with 2. split; [ring|lia]. }
  destruct UU as [U1 U2]. clear UE HE. remember (2 ^ c) as k. clear Heqk. remember (ED * 2 ^ 128) as y.
  assert (YP : 0 < y) by (subst; change 0 with (0 * 2 ^ 128); apply Z.mul_lt_mono_pos_r; [reflexivity|exact EP]). clear Heqy EP.
  remember (w' * EN) as z. clear Heqz.
  apply (Z.mul_lt_mono_pos_r (D * y)); [nia|].
  apply Z.lt_le_trans with (X * den * y); [|clear - LE YP; nia].
  replace (X * den * y) with (X * y * den) by ring. rewrite RE.
  replace (2 * (H - 1) * U * den * (D * y)) with ((2 * (H - 1) * U * y) * (D * den)) by ring.
  replace (4 * z * D * k * den) with ((4 * z * k) * (D * den)) by ring.
  apply Z.mul_lt_mono_pos_r; [nia|].
  assert (Q : 2 * (H - 1) * U <= 2 * ((2 * P - 1) * k)) by nia.
  apply Z.le_lt_trans with (2 * ((2 * P - 1) * k) * y); [clear - Q YP; nia|]. clear - LO PC. nia.
Qed.

Lemma final_high H hilz P c ED EN w' w K X t D den U : hilz = 0 \/ hilz = 1 -> H = P * 2 ^ hilz -> 0 < D -> 0 < den -> 0 < ED -> 0 <= c ->
  U = 2 ^ (c - hilz + 1) -> 0 < K -> X = w * K -> 0 <= P < 2 ^ 64 -> 10 ^ 18 <= w ->
  w' * EN < (P + 3) * (ED * 2 ^ 128) ->
  X * (ED * 2 ^ 128) = 4 * (w' * EN) * D * 2 ^ c -> t * D <= (w + 1) * K * den ->
  t < 2 * (H + 256) * U * den.
Proof.
  intros HZ HE DP NP EP C UE KP XE PB WB HI RE LE.
  assert (PC : 0 < 2 ^ c) by (apply Z.pow_pos_nonneg; lia).
  assert (UU : 2 * H * U = 4 * P * 2 ^ c /\ 2 * 2 ^ c <= 2 * U).
  { destruct HZ as [-> | ->].
    - rewrite UE, HE. replace (c - 0 + 1) with (c + 1) by lia. rewrite Z.pow_add_r by lia. change (2 ^ 1) with 2. change (2 ^ 0) with 1. split; [ring|lia].
    - rewrite UE, HE. replace (c - 1 + 1) with c by lia. change (2 ^ 1) with 2. split; [ring|lia]. }
  destruct UU as [U1 U2]. clear UE HE. remember (2 ^ c) as k. clear Heqk. remember (ED * 2 ^ 128) as y.
  assert (YP : 0 < y) by (subst; change 0 with (0 * 2 ^ 128); apply Z.mul_lt_mono_pos_r; [reflexivity|exact EP]). clear Heqy EP.
  remember (w' * EN) as z. clear Heqz.
  apply (Z.mul_lt_mono_pos_r (D * y * w)); [apply Z.mul_pos_pos; [nia|lia]|].
  apply Z.le_lt_trans with ((w + 1) * (X * y) * den).
  { rewrite XE. replace (t * (D * y * w)) with (t * D * (y * w)) by ring. replace ((w + 1) * (w * K * y) * den) with ((w + 1) * K * den * (y * w)) by ring.
    apply Z.mul_le_mono_nonneg_r; [|exact LE]. clear - YP WB. nia. }
  rewrite RE. replace ((w + 1) * (4 * z * D * k) * den) with ((w + 1) * (4 * z * k) * (D * den)) by ring.
  replace (2 * (H + 256) * U * den * (D * y * w)) with (w * (2 * (H + 256) * U * y) * (D * den)) by ring.
  apply Z.mul_lt_mono_pos_r; [clear - DP NP; nia|].
  assert (Q : (4 * P + 512) * k <= 2 * (H + 256) * U) by (clear - U1 U2; nia).
  apply Z.lt_le_trans with ((w + 1) * (4 * (P + 3) * k * y)).
  - assert (4 * z * k < 4 * (P + 3) * k * y) by (clear - HI PC; nia). clear - H0 WB. nia.
  - apply Z.le_trans with (w * ((4 * P + 512) * k * y)).
    + assert (KY : 0 < k * y) by (clear - PC YP; nia).
      replace ((w + 1) * (4 * (P + 3) * k * y)) with ((w + 1) * (4 * (P + 3)) * (k * y)) by ring.
      replace (w * ((4 * P + 512) * k * y)) with (w * (4 * P + 512) * (k * y)) by ring.
      apply Z.mul_le_mono_nonneg_r; [lia|]. clear - PB WB. nia.
    + apply Z.mul_le_mono_nonneg_l; [lia|]. apply Z.mul_le_mono_nonneg_r; [lia|exact Q].
Qed.

Theorem compute_error_close {lw : platform} q w : -342 <= q <= 308 -> 0 < w < 2 ^ 64 ->
  exists H p, compute_error b q w = Ok {| mantissa := H; power2 := p + invalid_am_bias |} /\
  2 ^ 63 <= H < 2 ^ 64 /\ -2000 <= p <= 3000 /\
  forall num den, 10 ^ 18 <= w -> 0 < den -> begins w q num den -> exists J, 0 <= J /\ 0 <= p - 1 + J /\
    2 * (H - 1) * 2 ^ (p - 1 + J) * den < 2 * num * 2 ^ unit_exp f * 2 ^ J < 2 * (H + 256) * 2 ^ (p - 1 + J) * den.
Proof.
  intros Q W. destruct (consts b f SUP) as (_ & UE & _ & MB & _ & _ & _ & _ & MN & MN2 & _).
  unfold compute_error. rewrite leading_zeroes_ok by exact W. cbn [bind].
  remember (63 - Z.log2 w) as lz eqn:LZ. destruct (normal_w w lz W LZ) as [LB WB]. rewrite (leading_shift w lz W LZ). cbn [bind].
  destruct (product_spec (mb + 3) q (w * 2 ^ lz) Q WB ltac:(clear - MB; lia)) as (L & P & -> & OK). cbn [bind snd].
  pose proof (product_close _ _ _ _ _ Q WB OK) as PC. destruct OK as (_ & PB & _).
  unfold compute_error_scaled. rewrite power_value by exact Q.
  assert (HZ : (Z.lxor (Z.shiftr P 63) 1 = 0 /\ 2 ^ 63 <= P) \/ (Z.lxor (Z.shiftr P 63) 1 = 1 /\ P < 2 ^ 63)).
  { rewrite Z.shiftr_div_pow2 by (clear; lia). destruct (Z_lt_ge_dec P (2 ^ 63)) as [L1|L1].
    - right. rewrite Z.div_small by (clear - L1 PB; lia). split; [reflexivity|exact L1].
    - left. replace (P / 2 ^ 63) with 1 by (apply Z.div_unique with (P - 2 ^ 63); [left|]; clear - L1 PB; lia). split; [reflexivity|clear - L1; lia]. }
  remember (Z.lxor (Z.shiftr P 63) 1) as hilz eqn:EHZ. clear EHZ.
  assert (HB : 2 ^ 63 <= P * 2 ^ hilz < 2 ^ 64).
  { destruct HZ as [[-> A]|[-> A]]; [change (2 ^ 0) with 1|change (2 ^ 1) with 2]; clear - A PB; lia. }
  assert (H01 : hilz = 0 \/ hilz = 1) by (clear - HZ; tauto).
  assert (SH : shl64 P hilz = Ok (P * 2 ^ hilz)).
  { unfold shl64. replace ((0 <=? hilz) && (hilz <? 64))%bool with true by (clear - H01; lia). rewrite Z.shiftl_mul_pow2 by (clear - H01; lia).
    rewrite u64_small by (clear - HB; lia). reflexivity. }
  rewrite SH. cbn [bind].
  pose proof (lg10_low q (proj1 Q)) as LL. pose proof (lg10_high q (proj2 Q)) as LH.
  remember (lg10 q + 63 + (mb - minimum_exponent b) - hilz - lz - 62) as p eqn:EP.
  assert (PR : -2000 <= p <= 3000) by (clear - EP LL LH MB MN MN2 H01 LB; lia).
  exists (P * 2 ^ hilz), p. split.
  { rewrite i32_small; [reflexivity|]. unfold invalid_am_bias. clear - PR. lia. }
  split; [exact HB|]. split; [exact PR|]. intros num den WL DN [B1 B2].
  pose proof (entry_close q Q) as EC. pose proof (entry_bounds q Q) as (_ & _ & _ & EDP & _).
  destruct (close_chain P (exact_den q) (exact_num q) (entry q) (w * 2 ^ lz) EDP) as [CL CH];
    [clear - PB; lia|clear - WB; lia|exact PC|exact EC|].
  pose proof (dec_den_pos q) as DQ.
  (* the relation of the product and the number *)
  assert (UP : 0 <= unit_exp f) by (destruct SUP; cbn; clear; lia).
  pose proof (scale_relation w q lz (mb - 61) mb (minimum_exponent b) (unit_exp f) (p + hilz + 1) 0 ltac:(clear - LB; lia) UP ltac:(clear; lia) UE ltac:(clear; lia)
    ltac:(clear - EP; lia)) as SR.
  replace (128 + 0) with 128 in SR by reflexivity.
  remember (Z.max (1 - (p + hilz + 1)) 0) as a eqn:EA. remember (Z.max (p + hilz + 1 - 1) 0) as c eqn:ECc.
  exists (a + 2). split; [clear - EA; lia|]. split; [clear - EA H01; lia|].
  replace (p - 1 + (a + 2)) with (c - hilz + 1) by (clear - EA ECc H01; lia).
  remember (10 ^ Z.max q 0) as T eqn:ET. assert (TP : 0 < T) by (rewrite ET; apply Z.pow_pos_nonneg; clear; lia).
  unfold dec_num in SR, B1, B2. rewrite <- ET in SR, B1, B2.
  assert (PU : 0 < 2 ^ unit_exp f) by (apply Z.pow_pos_nonneg; [clear; lia|exact UP]).
  assert (PJ : 2 ^ (a + 2) = 4 * 2 ^ a) by (rewrite Z.pow_add_r by (clear - EA; lia); change (2 ^ 2) with 4; clear; ring).
  assert (PA : 0 < 2 ^ a) by (apply Z.pow_pos_nonneg; clear - EA; lia).
  remember (2 * 2 ^ unit_exp f * 2 ^ (a + 2)) as S eqn:ES. assert (SP : 0 < S) by (rewrite ES, PJ; clear - PU PA; nia).
  assert (XR : w * (T * S) * (exact_den q * 2 ^ 128) = 4 * (w * 2 ^ lz * exact_num q) * dec_den q * 2 ^ c).
  { rewrite ES, PJ. transitivity (4 * (2 * (w * T) * 2 ^ unit_exp f * (exact_den q * 2 ^ 128 * 2 ^ a))); [|rewrite SR; clear; ring].
    generalize (2 ^ 128). clear. intro. ring. }
  replace (2 * num * 2 ^ unit_exp f * 2 ^ (a + 2)) with (num * S) by (rewrite ES; clear; ring).
  split.
  - apply (final_low (P * 2 ^ hilz) hilz P c (exact_den q) (exact_num q) (w * 2 ^ lz) (w * (T * S)) (num * S) (dec_den q) den (2 ^ (c - hilz + 1)));
      try assumption; try reflexivity; [clear - ECc; lia|].
    replace (w * (T * S) * den) with (w * T * den * S) by (clear; ring). replace (num * S * dec_den q) with (num * dec_den q * S) by (clear; ring).
    apply Z.mul_le_mono_nonneg_r; [clear - SP; lia|exact B1].
  - apply (final_high (P * 2 ^ hilz) hilz P c (exact_den q) (exact_num q) (w * 2 ^ lz) w (T * S) (w * (T * S)) (num * S) (dec_den q) den (2 ^ (c - hilz + 1)));
      try assumption; try reflexivity; [clear - ECc; lia|clear - TP SP; nia|clear - PB; lia|].
    replace ((w + 1) * (T * S) * den) with ((w + 1) * T * den * S) by (clear; ring). replace (num * S * dec_den q) with (num * dec_den q * S) by (clear; ring).
    apply Z.mul_le_mono_nonneg_r; [clear - SP; lia|exact B2].
Qed.
End Err.

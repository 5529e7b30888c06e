(** The big integers of fast_float: every operation gives the exact result as long as it has less than 3968 bits. *)
From Verif Require Export FloatBigintSpec.
From Verif Require Import Base FloatComputeModel FloatBigintModel FloatComputeProofs.
Local Open Scope Z_scope.

Notation len l := (Z.of_nat (length l)).
Section Limbs.
Context {lw : platform}.
Notation W := (2 ^ width).
Lemma width_pos : 32 <= width <= 64.
Proof. unfold width. destruct lw; lia. Qed.
Lemma W_pos : 4294967296 <= W.
Proof. change 4294967296 with (2 ^ 32). apply Z.pow_le_mono_r; pose proof width_pos; lia. Qed.
Lemma W_nz : W <> 0.
Proof. pose proof W_pos. lia. Qed.
Lemma limb_bits_width : limb_bits = width.
Proof. unfold limb_bits, width. destruct lw; reflexivity. Qed.
Lemma ulimb_small x : 0 <= x < W -> ulimb x = x.
Proof. intro H. unfold ulimb. rewrite limb_bits_width. apply Z.mod_small. exact H. Qed.
Lemma ulimb_limb x : limb (ulimb x).
Proof. unfold limb, ulimb. rewrite limb_bits_width. apply Z.mod_pos_bound. pose proof W_pos. lia. Qed.
Lemma capacity_room k : 0 <= k -> 2 ^ (width * k) < room -> k + 1 <= capacity.
Proof.
  intros K B. unfold room in B. apply Z.pow_lt_mono_r_iff in B; [|lia..]. unfold width, capacity, limb_bits in *.
  destruct lw; [change (4000 / 32) with 125|change (4000 / 64) with 62]; lia.
Qed.
Lemma capacity_min : 62 <= capacity.
Proof. unfold capacity, limb_bits. destruct lw; [change (4000 / 32) with 125|change (4000 / 64) with 62]; lia. Qed.
Ltac lia_w := pose proof width_pos; pose proof W_pos; lia.

Lemma pow64_S n : 0 <= n -> 2 ^ (width * (n + 1)) = W * 2 ^ (width * n).
Proof. intro H. pose proof width_pos. rewrite <- Z.pow_add_r by nia. f_equal. lia. Qed.
Lemma pow64_pos n : 0 <= n -> 0 < 2 ^ (width * n).
Proof. intro H. pose proof width_pos. apply Z.pow_pos_nonneg; nia. Qed.
Lemma pow64_add a b : 0 <= a -> 0 <= b -> 2 ^ (width * (a + b)) = 2 ^ (width * a) * 2 ^ (width * b).
Proof. intros A B. pose proof width_pos. rewrite <- Z.pow_add_r by nia. f_equal. lia. Qed.
Lemma pow64_0 : 2 ^ (width * 0) = 1.
Proof. rewrite Z.mul_0_r. reflexivity. Qed.
Lemma len_cons (x : Z) t : len (x :: t) = len t + 1.
Proof. cbn [length]. lia. Qed.
Lemma big_bound v : Forall limb v -> 0 <= big v < 2 ^ (width * len v).
Proof.
  induction 1 as [|x t X T IH]; [cbn; lia|]. rewrite len_cons, pow64_S by lia. cbn [big]. unfold limb in X.
  generalize dependent (2 ^ (width * len t)). intros p IH. pose proof W_pos. nia.
Qed.
Lemma big_app a b : big (a ++ b) = big a + 2 ^ (width * len a) * big b.
Proof.
  induction a as [|x t IH]; [cbn [big app length]; change (Z.of_nat 0) with 0; rewrite ?pow64_0; lia|].
  cbn [app big]. rewrite IH, len_cons, pow64_S by lia. ring.
Qed.
Lemma big_zeros n : big (repeat 0 n) = 0.
Proof. induction n as [|n IH]; [reflexivity|]. cbn [repeat big]. rewrite IH. ring. Qed.
Lemma limbs_zeros n : Forall limb (repeat 0 n).
Proof. apply Forall_forall. intros x I. apply repeat_spec in I. subst. unfold limb. lia_w. Qed.
Lemma limbs_app a b : Forall limb a -> Forall limb b -> Forall limb (a ++ b).
Proof. intros. apply Forall_app. split; assumption. Qed.
Lemma limbs_firstn n a : Forall limb a -> Forall limb (firstn n a).
Proof. intro H. rewrite <- (firstn_skipn n a) in H. apply Forall_app in H. apply H. Qed.
Lemma limbs_skipn n a : Forall limb a -> Forall limb (skipn n a).
Proof. intro H. rewrite <- (firstn_skipn n a) in H. apply Forall_app in H. apply H. Qed.
Lemma big_split n a : (n <= length a)%nat -> big a = big (firstn n a) + 2 ^ (width * Z.of_nat n) * big (skipn n a).
Proof.
  intro H. rewrite <- (firstn_skipn n a) at 1. rewrite big_app. rewrite firstn_length_le by assumption. reflexivity.
Qed.

(** An upper bound on the length from the value. *)
Lemma wf_len v k : wf v -> 0 <= k -> v <> [] -> big v * 2 ^ (width * k) < room -> len v + k <= capacity.
Proof.
  intros [_ [N|T]] K NE B; [congruence|]. assert (L : 1 <= len v) by (destruct v; [congruence|cbn [length]; lia]).
  assert (P : 2 ^ (width * (len v - 1)) * 2 ^ (width * k) < room).
  { eapply Z.le_lt_trans; [|exact B]. apply Z.mul_le_mono_nonneg_r; [|exact T]. pose proof (pow64_pos k K). lia. }
  rewrite <- pow64_add in P by lia. apply capacity_room in P; lia.
Qed.
Lemma wf_zero v : wf v -> big v = 0 -> v = [].
Proof.
  intros [_ [N|T]] Z; [assumption|]. destruct v as [|x t]; [reflexivity|]. exfalso. pose proof (pow64_pos (len (x :: t) - 1) ltac:(cbn [length]; lia)). lia.
Qed.
Lemma wf_intro v w : Forall limb w -> wf v -> length w = length v -> big v <= big w -> wf w.
Proof.
  intros L [_ H] E B. split; [assumption|]. destruct H as [->|H]; [left; destruct w; [reflexivity|discriminate]|right; rewrite E; lia].
Qed.
Lemma wf_push v c : Forall limb v -> limb c -> c <> 0 -> wf (v ++ [c]).
Proof.
  intros L C N. unfold limb in C. split; [apply limbs_app; [assumption|repeat constructor; unfold limb; lia_w]|]. right.
  rewrite app_length, big_app. cbn [length big]. pose proof (big_bound v L). pose proof (pow64_pos (len v) ltac:(lia)).
  replace (Z.of_nat (length v + 1) - 1) with (len v) by lia. nia.
Qed.
Lemma push_spec v c : Forall limb v -> 0 < c -> big v + 2 ^ (width * len v) * c < room -> try_push v c = (true, v ++ [c]).
Proof.
  intros L C B. unfold try_push, vec_len. pose proof (big_bound v L). pose proof (pow64_pos (len v) ltac:(lia)).
  assert (D : 2 ^ (width * len v) < room) by (clear - B C H H0; nia). apply capacity_room in D; [|lia].
  destruct (Z.ltb_spec (len v) capacity) as [|G]; [reflexivity|lia].
Qed.

(** *** The operations on limbs, on every platform *)
Lemma ulimb_wrap x y : limb x -> limb y -> W <= x + y -> ulimb (x + y) = x + y - W.
Proof. unfold limb. intros X Y G. unfold ulimb. rewrite limb_bits_width. rewrite <- (Z.mod_add _ (-1)) by lia_w. rewrite Z.mod_small by lia_w. lia. Qed.
Lemma scalar_add_ok x y : limb x -> limb y -> scalar_add x y = (ulimb (x + y), W <=? x + y).
Proof.
  intros X Y. unfold scalar_add. rewrite limb_bits_width. destruct (has_add_overflow choice); [reflexivity|]. f_equal.
  destruct (Z.leb_spec W (x + y)) as [G|G].
  - rewrite ulimb_wrap by assumption. unfold limb in *. lia.
  - rewrite ulimb_small by (unfold limb in *; lia). unfold limb in *. lia.
Qed.
Lemma scalar_mul_ok x y c : limb x -> limb y -> limb c -> scalar_mul x y c = (ulimb (x * y + c), (x * y + c) / W).
Proof.
  intros X Y C. pose proof X as X'. pose proof Y as Y'. pose proof C as C'. unfold limb in X', Y', C'.
  assert (P : 0 <= x * y + c < W * W).
  { split; [nia|]. assert (x * y <= (W - 1) * (W - 1)) by (apply Z.mul_le_mono_nonneg; lia). lia. }
  assert (Q : 0 <= (x * y + c) / W < W) by (split; [apply Z.div_pos; lia_w|apply Z.div_lt_upper_bound; lia_w]).
  pose proof (scalar_add_ok ((x * y) mod W) c) as A. assert (WN : 0 < W) by lia_w. pose proof (Z.mod_pos_bound (x * y) W WN) as MB.
  pose proof (Z.div_mod (x * y) W W_nz) as D. pose proof W_pos as WP.
  pose proof (ulimb_small ((x * y + c) / W) Q) as U. pose proof limb_bits_width as LB.
  assert (WD : W = 2 ^ limb_bits) by (rewrite LB; reflexivity).
  unfold scalar_mul. destruct lw as [ch|ch] eqn:EL.
  - replace ((x * y + c) mod 2 ^ 64) with (x * y + c) by (symmetry; apply Z.mod_small; exact P).
    rewrite LB, Z.shiftr_div_pow2, U by (cbn; lia). reflexivity.
  - destruct (has_int128 ch).
    + replace ((x * y + c) mod 2 ^ 128) with (x * y + c) by (symmetry; apply Z.mod_small; exact P).
      rewrite LB, Z.shiftr_div_pow2, U by (cbn; lia). reflexivity.
    + change (2 ^ @width (Limb64 ch)) with (2 ^ 64) in *. rewrite full_multiplication_spec by assumption.
      rewrite A by (unfold limb; assumption). clear A.
      assert (AB : 0 <= x * y / 2 ^ 64 < 2 ^ 64) by (split; [apply Z.div_pos; lia|apply Z.div_lt_upper_bound; lia]).
      set (h := x * y / 2 ^ 64) in *. set (l := (x * y) mod 2 ^ 64) in *. clearbody h l. f_equal.
      * unfold ulimb. change (@limb_bits (Limb64 ch)) with 64. replace (x * y + c) with (l + c + h * 2 ^ 64) by lia. rewrite Z.mod_add by lia. reflexivity.
      * assert (E : (x * y + c) / 2 ^ 64 = h + Z.b2z (2 ^ 64 <=? l + c)).
        { destruct (Z.leb_spec (2 ^ 64) (l + c)) as [G|G]; cbn [Z.b2z].
          - symmetry. apply Z.div_unique with (l + c - 2 ^ 64); [left; lia|lia].
          - symmetry. apply Z.div_unique with (l + c); [left; lia|lia]. }
        rewrite <- E. apply u64_small. exact Q.
Qed.

(** *** Addition of and multiplication by one limb *)
Lemma add_carry_spec v : Forall limb v -> forall c, limb c ->
  let '(t, c') := add_carry v c in Forall limb t /\ length t = length v /\ limb c' /\ big t + 2 ^ (width * len v) * c' = big v + c.
Proof.
  induction 1 as [|x v X V IH]; intros c C.
  - cbn [add_carry]. repeat split; try constructor; try apply C. cbn [big length]. change (Z.of_nat 0) with 0. rewrite ?pow64_0. lia.
  - cbn [add_carry]. destruct (Z.eqb_spec c 0) as [->|N].
    + repeat split; try (constructor; assumption); try (unfold limb; lia_w).
    + rewrite scalar_add_ok by assumption. unfold limb in X, C.
      destruct (Z.leb_spec W (x + c)) as [G|G].
      * specialize (IH 1 ltac:(unfold limb; lia_w)). destruct (add_carry v 1) as [t c']. destruct IH as (L & E & C' & B).
        assert (U : ulimb (x + c) = x + c - W) by (unfold ulimb; rewrite limb_bits_width; rewrite <- (Z.mod_add _ (-1)) by lia_w; rewrite Z.mod_small by lia_w; lia).
        rewrite U. repeat split; [constructor; [unfold limb; lia_w|assumption]|cbn [length]; lia|apply C'|apply C'|].
        rewrite len_cons, pow64_S by lia. cbn [big]. generalize dependent (2 ^ (width * len v)). intros p B. nia.
      * specialize (IH 0 ltac:(unfold limb; lia_w)). destruct (add_carry v 0) as [t c']. destruct IH as (L & E & C' & B).
        rewrite ulimb_small by lia. repeat split; [constructor; [unfold limb; lia_w|assumption]|cbn [length]; lia|apply C'|apply C'|].
        rewrite len_cons, pow64_S by lia. cbn [big]. generalize dependent (2 ^ (width * len v)). intros p B. nia.
Qed.
Lemma small_add_from_spec v y start : Forall limb v -> limb y -> (start <= length v)%nat ->
  big v + 2 ^ (width * Z.of_nat start) * y < room ->
  exists r, small_add_from v y start = (true, r) /\ Forall limb r /\ big r = big v + 2 ^ (width * Z.of_nat start) * y /\
    (wf v -> wf r).
Proof.
  intros L Y S B. unfold small_add_from. pose proof (add_carry_spec (skipn start v) (limbs_skipn _ _ L) y Y) as A.
  destruct (add_carry (skipn start v) y) as [t c]. destruct A as (T & E & C & V). unfold limb in C, Y.
  pose proof (limbs_firstn start v L) as F. pose proof (firstn_length_le v S) as FL. rewrite skipn_length in E.
  assert (EL : len (skipn start v) = len v - Z.of_nat start) by (rewrite skipn_length; lia).
  assert (EV : big (firstn start v ++ t) + 2 ^ (width * len v) * c = big v + 2 ^ (width * Z.of_nat start) * y).
  { rewrite big_app, FL. rewrite (big_split start v S). rewrite EL in V.
    replace (2 ^ (width * len v)) with (2 ^ (width * Z.of_nat start) * 2 ^ (width * (len v - Z.of_nat start))) by (rewrite <- pow64_add by lia; do 2 f_equal; lia).
    rewrite <- Z.add_assoc. replace (2 ^ (width * Z.of_nat start) * big t + _) with (2 ^ (width * Z.of_nat start) * (big t + 2 ^ (width * (len v - Z.of_nat start)) * c)) by ring.
    rewrite V. ring. }
  assert (LV : length (firstn start v ++ t) = length v) by (rewrite app_length; lia).
  assert (LL : Forall limb (firstn start v ++ t)) by (apply limbs_app; assumption).
  assert (P : 0 <= 2 ^ (width * Z.of_nat start) * y) by (pose proof (pow64_pos (Z.of_nat start) ltac:(lia)); nia).
  destruct (Z.eqb_spec c 0) as [->|N].
  - eexists. split; [reflexivity|]. split; [assumption|]. split; [lia|].
    intro Wv. apply (wf_intro v); [assumption|assumption|assumption|lia].
  - rewrite push_spec by (try assumption; try lia; rewrite LV; lia). eexists. split; [reflexivity|].
    split; [apply limbs_app; [assumption|repeat constructor; unfold limb; lia_w]|]. split.
    + rewrite big_app, LV. cbn [big]. rewrite <- EV. ring.
    + intros _. apply wf_push; [assumption|unfold limb; lia_w|assumption].
Qed.
Theorem small_add_spec v y : wf v -> limb y -> big v + y < room ->
  exists r, small_add v y = (true, r) /\ wf r /\ big r = big v + y.
Proof.
  intros V Y B. destruct (small_add_from_spec v y 0 (proj1 V) Y ltac:(lia)) as (r & E & _ & R & Wr).
  - change (Z.of_nat 0) with 0. rewrite ?pow64_0. lia.
  - exists r. split; [exact E|]. split; [auto|]. rewrite R. change (Z.of_nat 0) with 0. rewrite ?pow64_0. lia.
Qed.

Lemma mul_carry_spec v y : Forall limb v -> limb y -> forall c, limb c ->
  let '(t, c') := mul_carry v y c in Forall limb t /\ length t = length v /\ limb c' /\ big t + 2 ^ (width * len v) * c' = big v * y + c.
Proof.
  intros V Y. induction V as [|x v X V IH]; intros c C.
  - cbn [mul_carry]. repeat split; try constructor; try apply C. cbn [big length]. change (Z.of_nat 0) with 0. rewrite ?pow64_0. lia.
  - cbn [mul_carry]. rewrite scalar_mul_ok by assumption. unfold limb in X, Y, C.
    assert (P : 0 <= x * y + c < W * W).
    { split; [nia|]. assert (x * y <= (W - 1) * (W - 1)) by (apply Z.mul_le_mono_nonneg; lia). lia. }
    assert (Q : 0 <= (x * y + c) / W < W) by (split; [apply Z.div_pos; lia_w|apply Z.div_lt_upper_bound; lia_w]).
    specialize (IH _ Q). destruct (mul_carry v y ((x * y + c) / W)) as [t c']. destruct IH as (L & E & C' & B).
    repeat split; [constructor; [apply ulimb_limb|assumption]|cbn [length]; lia|apply C'|apply C'|].
    rewrite len_cons, pow64_S by lia. cbn [big]. unfold ulimb. rewrite limb_bits_width.
    pose proof (Z.div_mod (x * y + c) W W_nz) as D. remember ((x * y + c) / W) as q. remember ((x * y + c) mod W) as r.
    transitivity (r + W * (big t + 2 ^ (width * len v) * c')); [ring|]. rewrite B. transitivity (W * q + r + W * big v * y); [ring|]. rewrite <- D. ring.
Qed.
Theorem small_mul_spec v y : Forall limb v -> limb y -> big v * y < room ->
  exists r, small_mul v y = (true, r) /\ Forall limb r /\ big r = big v * y /\ (wf v -> 0 < y -> wf r).
Proof.
  intros L Y B. unfold small_mul. pose proof (mul_carry_spec v y L Y 0 ltac:(unfold limb; lia_w)) as A.
  destruct (mul_carry v y 0) as [t c]. destruct A as (T & E & C & V). unfold limb in C, Y.
  pose proof (big_bound v L) as BB.
  destruct (Z.eqb_spec c 0) as [->|N].
  - eexists. split; [reflexivity|]. split; [assumption|]. split; [lia|]. intros Wv YP. apply (wf_intro v); [assumption|assumption|assumption|nia].
  - rewrite push_spec by (try assumption; try lia; rewrite E; lia). eexists. split; [reflexivity|].
    split; [apply limbs_app; [assumption|repeat constructor; unfold limb; lia_w]|]. split.
    + rewrite big_app, E. cbn [big]. lia.
    + intros _ _. apply wf_push; [assumption|unfold limb; lia_w|assumption].
Qed.

(** *** Addition and multiplication of big integers *)
Lemma add_limbs_spec y : Forall limb y -> forall x, Forall limb x -> (length y <= length x)%nat -> forall c : bool,
  let '(t, c') := add_limbs x y c in Forall limb t /\ length t = length x /\
    big t + 2 ^ (width * len y) * (if c' then 1 else 0) = big x + big y + (if c then 1 else 0).
Proof.
  induction 1 as [|yi y Y YS IH]; intros x X LE c.
  - cbn [add_limbs big length]. change (Z.of_nat 0) with 0. rewrite ?pow64_0. split; [assumption|]; split; [reflexivity|lia].
  - destruct x as [|xi x]; [cbn in LE; lia|]. pose proof (Forall_inv X) as X0. apply Forall_inv_tail in X.
    cbn [length] in LE. specialize (IH x X ltac:(lia)). unfold limb in X0, Y.
    cbn [add_limbs]. rewrite scalar_add_ok by assumption.
    assert (K : exists z (o : bool), (let '(z, c2) := if c then scalar_add (ulimb (xi + yi)) 1 else (ulimb (xi + yi), false) in (z, (W <=? xi + yi) || c2)%bool) = (z, o) /\
      limb z /\ z + W * (if o then 1 else 0) = xi + yi + (if c then 1 else 0)).
    { destruct (Z.leb_spec W (xi + yi)) as [G|G].
      - assert (U : ulimb (xi + yi) = xi + yi - W) by (unfold ulimb; rewrite limb_bits_width; rewrite <- (Z.mod_add _ (-1)) by lia_w; rewrite Z.mod_small by lia_w; lia).
        rewrite U, scalar_add_ok by (unfold limb; lia_w). destruct c.
        + rewrite ulimb_small by lia. eexists _, _. split; [reflexivity|]. cbn [orb]. split; [unfold limb; lia_w|lia].
        + eexists _, _. split; [reflexivity|]. cbn [orb]. split; [unfold limb; lia_w|lia].
      - rewrite (ulimb_small (xi + yi)) by lia. rewrite scalar_add_ok by (unfold limb; lia_w). destruct c.
        + destruct (Z.leb_spec W (xi + yi + 1)) as [G2|G2].
          * replace (ulimb (xi + yi + 1)) with 0 by (replace (xi + yi + 1) with W by lia; unfold ulimb; rewrite limb_bits_width, Z.mod_same by lia_w; reflexivity).
            eexists _, _. split; [reflexivity|]. cbn [orb]. split; [unfold limb; lia_w|lia].
          * rewrite ulimb_small by lia. eexists _, _. split; [reflexivity|]. cbn [orb]. split; [unfold limb; lia_w|lia].
        + eexists _, _. split; [reflexivity|]. cbn [orb]. split; [unfold limb; lia_w|lia]. }
    destruct K as (z & o & K & LZ & EZ).
    destruct (if c then scalar_add (ulimb (xi + yi)) 1 else (ulimb (xi + yi), false)) as [z' c2].
    apply pair_equal_spec in K. destruct K as [-> KO]. rewrite KO. specialize (IH o). destruct (add_limbs x y o) as [t c']. destruct IH as (L & E & B).
    repeat split; [constructor; assumption|cbn [length]; lia|].
    rewrite len_cons, pow64_S by lia. cbn [big]. generalize dependent (2 ^ (width * len y)). intros p B.
    transitivity (z + W * (big t + p * (if c' then 1 else 0))); [ring|]. rewrite B.
    transitivity (z + W * (if o then 1 else 0) + W * (big x + big y)); [ring|]. rewrite EZ. ring.
Qed.

Lemma resize_spec x n : Forall limb x -> len x <= n -> n <= capacity ->
  try_resize x n 0 = (true, x ++ repeat 0 (Z.to_nat (n - len x))).
Proof.
  intros L E N. unfold try_resize, vec_len. destruct (Z.ltb_spec capacity n); [lia|].
  destruct (Z.ltb_spec (len x) n); [reflexivity|]. replace n with (len x) by lia. rewrite Z.sub_diag. cbn [Z.to_nat repeat]. rewrite app_nil_r.
  rewrite Nat2Z.id, firstn_all. reflexivity.
Qed.

Lemma large_add_from_spec x y start : Forall limb x -> Forall limb y -> len y + Z.of_nat start <= capacity ->
  big x + 2 ^ (width * Z.of_nat start) * big y < room ->
  exists r, large_add_from x y start = (true, r) /\ Forall limb r /\ big r = big x + 2 ^ (width * Z.of_nat start) * big y.
Proof.
  intros X Y LE B. unfold large_add_from.
  assert (K : exists x', (if (vec_len x <? Z.of_nat start) || (vec_len x - Z.of_nat start <? vec_len y)
    then try_resize x (vec_len y + Z.of_nat start) 0 else (true, x)) = (true, x') /\
    Forall limb x' /\ big x' = big x /\ (length y + start <= length x')%nat).
  { unfold vec_len. destruct ((len x <? Z.of_nat start) || (len x - Z.of_nat start <? len y))%bool eqn:C.
    - rewrite resize_spec by (try assumption; lia). eexists. split; [reflexivity|].
      split; [apply limbs_app; [assumption|apply limbs_zeros]|]. split; [rewrite big_app, big_zeros; lia|].
      rewrite app_length, repeat_length. lia.
    - exists x. repeat split; [assumption|lia]. }
  destruct K as (x' & -> & X' & BX & LX). rewrite <- BX in B |- *. clear x X BX. rename x' into x.
  pose proof (add_limbs_spec y Y (skipn start x) (limbs_skipn _ _ X') ltac:(rewrite skipn_length; lia) false) as A.
  destruct (add_limbs (skipn start x) y false) as [t c]. destruct A as (T & E & V). rewrite skipn_length in E.
  assert (FL : length (firstn start x) = start) by (apply firstn_length_le; lia).
  assert (LV : length (firstn start x ++ t) = length x) by (rewrite app_length; lia).
  assert (LL : Forall limb (firstn start x ++ t)) by (apply limbs_app; [apply limbs_firstn|]; assumption).
  assert (EV : big (firstn start x ++ t) + 2 ^ (width * Z.of_nat (length y + start)) * (if c then 1 else 0) = big x + 2 ^ (width * Z.of_nat start) * big y).
  { rewrite big_app, FL. rewrite (big_split start x ltac:(lia)).
    replace (2 ^ (width * Z.of_nat (length y + start))) with (2 ^ (width * Z.of_nat start) * 2 ^ (width * len y)) by (rewrite <- pow64_add by lia; do 2 f_equal; lia).
    rewrite <- Z.add_assoc. replace (2 ^ (width * Z.of_nat start) * big t + _) with (2 ^ (width * Z.of_nat start) * (big t + 2 ^ (width * len y) * (if c then 1 else 0))) by ring.
    rewrite V. ring. }
  destruct c.
  - destruct (small_add_from_spec (firstn start x ++ t) 1 (length y + start)) as (r & -> & R & BR & _);
      [assumption|unfold limb; lia_w|lia|lia|].
    exists r. split; [reflexivity|]. split; [assumption|]. lia.
  - eexists. split; [reflexivity|]. split; [assumption|]. lia.
Qed.

Lemma drop_zeros_spec v : exists k, v = repeat 0 k ++ drop_zeros v /\ match drop_zeros v with [] => True | x :: _ => x <> 0 end.
Proof.
  induction v as [|x t IH]; [exists O; split; constructor|]. cbn [drop_zeros]. destruct (Z.eqb_spec x 0) as [->|N].
  - destruct IH as (k & E & H). exists (S k). split; [cbn [repeat app]; f_equal; exact E|exact H].
  - exists O. split; [reflexivity|exact N].
Qed.
Lemma normalize_spec v : Forall limb v -> wf (normalize v) /\ big (normalize v) = big v.
Proof.
  intro L. unfold normalize. destruct (drop_zeros_spec (rev v)) as (k & E & H).
  assert (EV : v = rev (drop_zeros (rev v)) ++ repeat 0 k).
  { rewrite <- (rev_involutive v) at 1. rewrite E at 1. rewrite rev_app_distr. f_equal. clear. induction k as [|k IH]; [reflexivity|].
    cbn [repeat rev]. rewrite IH. clear. induction k as [|k IH]; [reflexivity|]. cbn [repeat app]. f_equal. exact IH. }
  assert (LD : Forall limb (rev (drop_zeros (rev v)))) by (rewrite EV in L; apply Forall_app in L; apply L).
  split; [|rewrite EV at 2; rewrite big_app, big_zeros; lia]. clear EV E. destruct (drop_zeros (rev v)) as [|x t]; [split; [constructor|left; reflexivity]|].
  cbn [rev] in *. apply Forall_app in LD. destruct LD as [L1 L2]. apply wf_push; [assumption|apply (Forall_inv L2)|assumption].
Qed.

Lemma long_mul_loop_spec z y : wf z -> Forall limb y -> forall index x, Forall limb x -> Z.of_nat index + len y <= capacity ->
  big x + 2 ^ (width * Z.of_nat index) * (big z * big y) < room ->
  exists r, long_mul_loop x z y index = (true, r) /\ Forall limb r /\ big r = big x + 2 ^ (width * Z.of_nat index) * (big z * big y).
Proof.
  intros Z. induction 1 as [|yi y Y YS IH]; intros index x X LE B.
  - exists x. split; [reflexivity|]. split; [assumption|]. cbn [big]. ring.
  - rewrite len_cons in LE. cbn [long_mul_loop]. cbn [big] in B |- *. unfold limb in Y.
    pose proof (big_bound z (proj1 Z)) as BZ. pose proof (big_bound y YS) as BY. pose proof (big_bound x X) as BX.
    pose proof (pow64_pos (Z.of_nat index) ltac:(lia)) as PI.
    assert (PS : 2 ^ (width * Z.of_nat (S index)) = W * 2 ^ (width * Z.of_nat index)) by (rewrite <- pow64_S by lia; f_equal; lia).
    assert (EXP : 2 ^ (width * Z.of_nat index) * (big z * (yi + W * big y)) = 2 ^ (width * Z.of_nat index) * (big z * yi) + 2 ^ (width * Z.of_nat (S index)) * (big z * big y)) by (rewrite PS; ring).
    rewrite EXP in B |- *.
    assert (N1 : 0 <= big z * yi) by (apply Z.mul_nonneg_nonneg; lia).
    assert (N2 : 0 <= 2 ^ (width * Z.of_nat (S index)) * (big z * big y)) by (rewrite PS; repeat apply Z.mul_nonneg_nonneg; lia).
    destruct (Z.eqb_spec yi 0) as [->|N].
    + destruct (IH (S index) x X ltac:(lia) ltac:(lia)) as (r & E & R & BR). exists r. split; [exact E|]. split; [assumption|]. lia.
    + assert (N3 : big z * yi <= 2 ^ (width * Z.of_nat index) * (big z * yi)) by (clear - N1 PI; nia).
      destruct (small_mul_spec z yi (proj1 Z) Y ltac:(lia)) as (zi & -> & ZL & ZB & ZW). specialize (ZW Z ltac:(lia)).
      destruct (large_add_from_spec x zi index X ZL) as (r & -> & R & BR).
      * destruct zi as [|w wt]; [cbn [length]; lia|]. apply (wf_len (w :: wt) (Z.of_nat index) ZW); [lia|congruence|]. rewrite ZB. lia.
      * rewrite ZB. lia.
      * rewrite ZB in BR. destruct (IH (S index) r R ltac:(lia) ltac:(lia)) as (r' & E & R' & BR'). exists r'. split; [exact E|]. split; [assumption|]. lia.
Qed.

Theorem large_mul_spec x y : wf x -> Forall limb y -> len y <= capacity -> 0 < big y -> big x * big y < room ->
  exists r, large_mul x y = (true, r) /\ wf r /\ big r = big x * big y.
Proof.
  intros X Y LE YP B. pose proof (big_bound x (proj1 X)) as BX.
  assert (LM : exists r, long_mul x y = (true, r) /\ wf r /\ big r = big x * big y).
  { unfold long_mul. destruct y as [|y0 y]; [cbn in YP; lia|]. rewrite len_cons in LE. pose proof (Forall_inv Y) as Y0. apply Forall_inv_tail in Y.
    cbn [big] in YP, B |- *. pose proof (big_bound y Y) as BY. unfold limb in Y0.
    assert (N1 : 0 <= big x * (W * big y)) by (repeat apply Z.mul_nonneg_nonneg; lia).
    assert (EXP : big x * (y0 + W * big y) = big x * y0 + big x * (W * big y)) by ring. rewrite EXP in B |- *.
    assert (N2 : 0 <= big x * y0) by (apply Z.mul_nonneg_nonneg; lia).
    destruct (small_mul_spec x y0 (proj1 X) Y0 ltac:(lia)) as (r & -> & R & BR & _).
    destruct (long_mul_loop_spec x y X Y 1 r R ltac:(lia)) as (r' & -> & R' & BR').
    - rewrite BR. change (Z.of_nat 1) with 1; rewrite Z.mul_1_r. replace (W * (big x * big y)) with (big x * (W * big y)) by ring. lia.
    - destruct (normalize_spec r' R') as [NW NB]. eexists. split; [reflexivity|]. split; [exact NW|]. rewrite NB, BR', BR.
      change (Z.of_nat 1) with 1; rewrite Z.mul_1_r. ring. }
  unfold large_mul. destruct y as [|y0 [|y1 y]]; [exact LM| |exact LM].
  cbn [big] in *. pose proof (Forall_inv Y) as Y0. replace (y0 + W * 0) with y0 in * by lia.
  destruct (small_mul_spec x y0 (proj1 X) Y0 B) as (r & -> & R & BR & Wr). exists r. split; [reflexivity|]. split; [apply Wr; [assumption|lia]|exact BR].
Qed.

(** *** Comparison *)
Lemma big_snoc a x : big (a ++ [x]) = big a + 2 ^ (width * len a) * x.
Proof. rewrite big_app. cbn [big]. ring. Qed.
Lemma compare_limbs_spec x : forall y, Forall limb x -> Forall limb y -> length x = length y ->
  compare_limbs (rev x) (rev y) = Z.sgn (big x - big y).
Proof.
  induction x as [|a x IH] using rev_ind; intros y X Y E.
  - destruct y; [reflexivity|discriminate].
  - destruct y as [|b y _] using rev_ind; [rewrite app_length in E; cbn in E; lia|].
    rewrite !app_length in E. cbn [length] in E. apply Forall_app in X. apply Forall_app in Y. destruct X as [X Xa]. destruct Y as [Y Yb].
    rewrite !rev_app_distr. cbn [rev app compare_limbs]. rewrite !big_snoc. replace (length y) with (length x) by lia.
    pose proof (big_bound x X) as BX. pose proof (big_bound y Y) as BY. replace (length y) with (length x) in BY by lia.
    specialize (IH y X Y ltac:(lia)). generalize dependent (2 ^ (width * len x)). intros p BX BY.
    destruct (Z.ltb_spec b a); [symmetry; apply Z.sgn_pos; nia|]. destruct (Z.ltb_spec a b); [symmetry; apply Z.sgn_neg; nia|].
    rewrite IH. f_equal. replace b with a by lia. ring.
Qed.
Theorem compare_spec x y : wf x -> wf y -> compare x y = Z.sgn (big x - big y).
Proof.
  intros X Y. unfold compare, vec_len. destruct X as [X TX]. destruct Y as [Y TY].
  assert (LT : forall x y, Forall limb x -> (y = [] \/ 2 ^ (width * (len y - 1)) <= big y) -> len x < len y -> big x < big y).
  { clear. intros x y X [->|T] L; [cbn [length] in L; lia|]. pose proof (big_bound x X) as B.
    assert (2 ^ (width * len x) <= 2 ^ (width * (len y - 1))) by (apply Z.pow_le_mono_r; [lia|pose proof width_pos; nia]). lia. }
  destruct (Z.ltb_spec (len y) (len x)) as [G|G]; [symmetry; apply Z.sgn_pos; pose proof (LT y x Y TX G); lia|].
  destruct (Z.ltb_spec (len x) (len y)) as [G2|G2]; [symmetry; apply Z.sgn_neg; pose proof (LT x y X TY G2); lia|].
  apply compare_limbs_spec; [assumption|assumption|lia].
Qed.

(** *** The most significant bits *)
Lemma wf_top v : wf v -> v <> [] -> exists l x, v = l ++ [x] /\ Forall limb l /\ limb x /\ 0 < x.
Proof.
  intros [L H] N. destruct v as [|x l _] using rev_ind; [congruence|]. apply Forall_app in L. destruct L as [L X]. apply Forall_inv in X.
  exists l, x. split; [reflexivity|]. split; [assumption|]. split; [assumption|].
  destruct H as [H|H]; [destruct l; discriminate|]. rewrite app_length, big_snoc in H. cbn [length] in H.
  replace (Z.of_nat (length l + 1) - 1) with (len l) in H by lia. pose proof (big_bound l L). unfold limb in X.
  destruct (Z.eq_dec x 0) as [->|]; [|lia]. lia.
Qed.
Lemma rindex_top l x : rindex (l ++ [x]) 0 = Ok x.
Proof. unfold rindex. rewrite rev_app_distr. reflexivity. Qed.
Lemma log2_over low k x : 0 <= k -> 0 <= low < 2 ^ k -> 0 < x -> Z.log2 (low + 2 ^ k * x) = k + Z.log2 x.
Proof.
  intros K B X. apply Z.log2_unique; [pose proof (Z.log2_nonneg x); lia|].
  pose proof (Z.log2_spec x X) as S. pose proof (Z.log2_nonneg x) as N. replace (Z.succ (k + Z.log2 x)) with (k + Z.succ (Z.log2 x)) by lia.
  rewrite !Z.pow_add_r by lia. generalize dependent (2 ^ k). intros p B. nia.
Qed.
Lemma log2_top l x : Forall limb l -> 0 < x -> Z.log2 (big (l ++ [x])) = width * len l + Z.log2 x.
Proof. intros L X. rewrite big_snoc. pose proof width_pos. apply log2_over; [nia|apply big_bound; assumption|assumption]. Qed.
Lemma log2_bound x n : 0 < x < 2 ^ n -> 0 <= Z.log2 x <= n - 1.
Proof. intros [P H]. split; [apply Z.log2_nonneg|]. assert (Z.log2 x < n) by (apply Z.log2_lt_pow2; assumption). lia. Qed.

Theorem bit_length_spec v : wf v -> 0 < big v -> bit_length v = Ok (Z.log2 (big v) + 1).
Proof.
  intros V P. destruct (wf_top v V) as (l & x & -> & L & X & XP); [intros ->; cbn in P; lia|].
  unfold bit_length, ctlz, vec_len. rewrite app_length. cbn [length]. destruct (Z.eqb_spec (Z.of_nat (length l + 1)) 0); [lia|].
  rewrite rindex_top. cbn [bind]. rewrite log2_top by assumption. unfold limb, limb_bits, width in *. destruct lw.
  - unfold shl64. change ((0 <=? 32) && (32 <? 64))%bool with true. cbn [bind]. rewrite Z.shiftl_mul_pow2 by lia. rewrite u64_small by (clear - X; lia).
    rewrite leading_zeroes_ok by (clear - X XP; lia). cbn [bind]. rewrite Z.log2_mul_pow2 by lia. f_equal. lia.
  - rewrite leading_zeroes_ok by (clear - X XP; lia). cbn [bind]. f_equal. lia.
Qed.

Lemma lor_sum a n b : 0 <= n -> 0 <= b < 2 ^ n -> Z.lor (a * 2 ^ n) b = a * 2 ^ n + b.
Proof.
  intros N B. assert (L0 : Z.land (a * 2 ^ n) b = 0).
  { apply Z.bits_inj'. intros i I. rewrite Z.land_spec, Z.bits_0. destruct (Z_lt_ge_dec i n) as [C|C].
    - rewrite Z.mul_pow2_bits_low by lia. reflexivity.
    - destruct (Z.eq_dec b 0) as [->|NB]; [rewrite Z.bits_0, andb_false_r; reflexivity|].
      rewrite (Z.bits_above_log2 b i), andb_false_r; [reflexivity|lia|]. assert (Z.log2 b < n) by (apply Z.log2_lt_pow2; lia). lia. }
  rewrite Z.add_nocarry_lxor by exact L0. rewrite Z.lxor_lor by exact L0. reflexivity.
Qed.

Lemma shl64_split x n : 0 <= x < 2 ^ 64 -> 0 < n < 64 -> shl64 x n = Ok (x mod 2 ^ (64 - n) * 2 ^ n).
Proof.
  intros X N. unfold shl64. destruct (Z.leb_spec 0 n); [|lia]. destruct (Z.ltb_spec n 64); [|lia]. cbn [andb]. f_equal.
  unfold u64. rewrite Z.shiftl_mul_pow2 by lia. replace (2 ^ 64) with (2 ^ (64 - n) * 2 ^ n) by (rewrite <- Z.pow_add_r by lia; f_equal; lia).
  rewrite Z.mul_mod_distr_r by (apply Z.pow_nonzero; lia). reflexivity.
Qed.
Lemma shr64_div x n : 0 <= n < 64 -> shr64 x n = Ok (x / 2 ^ n).
Proof. intro N. unfold shr64. destruct (Z.leb_spec 0 n); [|lia]. destruct (Z.ltb_spec n 64); [|lia]. cbn [andb]. rewrite Z.shiftr_div_pow2 by lia. reflexivity. Qed.
Lemma shl_limb_split x n : limb x -> 0 < n < width -> shl_limb x n = Ok (x mod 2 ^ (width - n) * 2 ^ n).
Proof.
  intros X N. unfold shl_limb, ulimb. rewrite limb_bits_width. destruct (Z.leb_spec 0 n); [|lia]. destruct (Z.ltb_spec n width); [|lia]. cbn [andb]. f_equal.
  rewrite Z.shiftl_mul_pow2 by lia. replace W with (2 ^ (width - n) * 2 ^ n) by (rewrite <- Z.pow_add_r by lia; f_equal; lia).
  rewrite Z.mul_mod_distr_r by (apply Z.pow_nonzero; lia). reflexivity.
Qed.
Lemma shr_limb_div x n : 0 <= n < width -> shr_limb x n = Ok (x / 2 ^ n).
Proof.
  intro N. unfold shr_limb. rewrite limb_bits_width. destruct (Z.leb_spec 0 n); [|lia]. destruct (Z.ltb_spec n width); [|lia].
  cbn [andb]. rewrite Z.shiftr_div_pow2 by lia. reflexivity.
Qed.
Lemma high_part x n k : 0 <= x < 2 ^ k -> 0 < n < k -> 0 <= x / 2 ^ (k - n) < 2 ^ n.
Proof.
  intros [A B] N. assert (0 < 2 ^ (k - n)) by (apply Z.pow_pos_nonneg; lia). split; [apply Z.div_pos; lia|]. apply Z.div_lt_upper_bound; [lia|].
  rewrite <- Z.pow_add_r by lia. replace (k - n + n) with k by lia. exact B.
Qed.

Lemma nonzero_spec l r : Forall limb l -> nonzero (l ++ r) (length r) = negb (big l =? 0).
Proof.
  intro L. unfold nonzero. rewrite rev_app_distr, <- (rev_length r), skipn_app, skipn_all, Nat.sub_diag. cbn [skipn app].
  assert (K : existsb (fun x => negb (x =? 0)) l = negb (big l =? 0)).
  { induction L as [|a l A L IH]; [reflexivity|]. cbn [existsb big]. rewrite IH. unfold limb in A. pose proof (big_bound l L). pose proof W_pos.
    destruct (Z.eqb_spec a 0) as [->|]; destruct (Z.eqb_spec (big l) 0) as [E|]; cbn [negb orb]; try rewrite E; symmetry; try apply negb_true_iff; try apply negb_false_iff; nia. }
  rewrite <- K. clear K L. induction l as [|a l IH]; [reflexivity|]. cbn [rev existsb]. rewrite existsb_app. cbn [existsb]. rewrite IH, orb_false_r. apply orb_comm.
Qed.

(** The first 64 bits of one and of two words. *)
Lemma first_bits x : 0 < x < 2 ^ 64 -> let g := Z.log2 x in leading_zeroes x = Ok (63 - g) /\ 0 <= g <= 63 /\
  2 ^ 63 <= x * 2 ^ (63 - g) < 2 ^ 64 /\ shl64 x (63 - g) = Ok (x * 2 ^ (63 - g)).
Proof.
  intros X g. assert (XP : 0 < x) by lia. pose proof (log2_bound x 64 X) as LX. fold g in LX.
  split; [apply leading_zeroes_ok; exact X|]. split; [lia|].
  pose proof (Z.log2_spec x XP) as SX. fold g in SX.
  assert (HX : 2 ^ 63 <= x * 2 ^ (63 - g) < 2 ^ 64).
  { assert (Q : 0 < 2 ^ (63 - g)) by (apply Z.pow_pos_nonneg; lia). change (2 ^ 64) with (2 * 2 ^ 63). replace (2 ^ 63) with (2 ^ g * 2 ^ (63 - g)) by (rewrite <- Z.pow_add_r by lia; f_equal; lia).
    rewrite Z.pow_succ_r in SX by lia. clear - SX Q. generalize dependent (2 ^ (63 - g)). generalize dependent (2 ^ g). intros. nia. }
  split; [exact HX|].
  unfold shl64. destruct (Z.leb_spec 0 (63 - g)); [|lia]. destruct (Z.ltb_spec (63 - g) 64); [|lia]. cbn [andb]. rewrite Z.shiftl_mul_pow2 by lia. rewrite u64_small by lia. reflexivity.
Qed.
Lemma hi64_one x : 0 < x < 2 ^ 64 -> exists h, uint64_hi64_1 x = Ok (h, false) /\ 2 ^ 63 <= h < 2 ^ 64 /\ h = x * 2 ^ (63 - Z.log2 x).
Proof.
  intro X. destruct (first_bits x X) as (LZ & LX & HX & SH). unfold uint64_hi64_1. rewrite LZ. cbn [bind]. rewrite SH. cbn [bind].
  eexists. split; [reflexivity|]. split; [exact HX|reflexivity].
Qed.
Lemma hi64_two low k x y : 0 <= k -> 0 <= low < 2 ^ k -> 0 <= y < 2 ^ 64 -> 0 < x < 2 ^ 64 ->
  let v := low + 2 ^ k * (y + 2 ^ 64 * x) in let s := Z.log2 v - 63 in 0 < s /\ exists h t, uint64_hi64_2 x y = Ok (h, t) /\
  2 ^ 63 <= h < 2 ^ 64 /\ h = v / 2 ^ s /\ (t || negb (low =? 0))%bool = negb (v mod 2 ^ s =? 0).
Proof.
  intros K BL Y X v s. subst s v. rewrite log2_over; [|assumption|assumption|lia].
  rewrite (log2_over y 64 x) by lia. destruct (first_bits x X) as (LZ & LX & HX & SH). pose proof (Z.log2_spec x (proj1 X)) as SX. remember (Z.log2 x) as g.
  replace (k + (64 + g) - 63) with (k + (g + 1)) by lia. split; [lia|].
  unfold uint64_hi64_2. rewrite LZ. cbn [bind].
  assert (PL : 0 < 2 ^ k) by (apply Z.pow_pos_nonneg; lia).
  assert (G : forall n q r, 0 <= n -> q = (y + 2 ^ 64 * x) / 2 ^ n -> r = (y + 2 ^ 64 * x) mod 2 ^ n ->
    (low + 2 ^ k * (y + 2 ^ 64 * x)) / 2 ^ (k + n) = q /\
    negb ((low + 2 ^ k * (y + 2 ^ 64 * x)) mod 2 ^ (k + n) =? 0) = (negb (r =? 0) || negb (low =? 0))%bool).
  { intros n q r N EQ ER. assert (PK : 0 < 2 ^ n) by (apply Z.pow_pos_nonneg; lia). rewrite Z.pow_add_r by lia.
    pose proof (Z.div_mod (y + 2 ^ 64 * x) (2 ^ n) ltac:(lia)) as D. pose proof (Z.mod_pos_bound (y + 2 ^ 64 * x) (2 ^ n) PK) as R.
    rewrite <- EQ, <- ER in D. rewrite <- ER in R. clear EQ ER. generalize dependent (2 ^ k). intros p BL PL. generalize dependent (2 ^ n). intros m PK D R.
    assert (E : low + p * (y + 2 ^ 64 * x) = q * (p * m) + (low + p * r)) by (rewrite D; ring). rewrite E.
    assert (BR : 0 <= low + p * r < p * m) by (clear - BL PL R PK; nia). split.
    - symmetry. apply (Z.div_unique_pos _ _ _ (low + p * r)); [exact BR|ring].
    - replace ((q * (p * m) + (low + p * r)) mod (p * m)) with (low + p * r).
      + destruct (Z.eqb_spec r 0) as [->|NR]; cbn [negb orb].
        * destruct (Z.eqb_spec low 0); destruct (Z.eqb_spec (low + p * 0) 0); try reflexivity; lia.
        * destruct (Z.eqb_spec (low + p * r) 0); [|reflexivity]. clear - e BL PL R NR. nia.
      + apply (Z.mod_unique_pos _ _ q); [exact BR|ring]. }
  destruct (G (g + 1) _ _ ltac:(lia) eq_refl eq_refl) as [G1 G2]. rewrite G1, G2. clear G1 G2 G.
  destruct (Z.eqb_spec (63 - g) 0) as [E|E].
  - replace (g + 1) with 64 by lia. replace (y + 2 ^ 64 * x) with (y + x * 2 ^ 64) by ring. rewrite Z.div_add, Z.mod_add by lia. rewrite Z.div_small, Z.mod_small by lia.
    eexists _, _. split; [reflexivity|]. split; [replace (63 - g) with 0 in HX by lia; lia|]. split; [lia|reflexivity].
  - rewrite SH. rewrite (shl64_split y) by lia. cbn [bind]. rewrite shr64_div by lia. cbn [bind fst snd].
    assert (N : 0 < 63 - g < 64) by lia. pose proof (high_part y (63 - g) 64 Y N) as HY. replace (64 - (63 - g)) with (g + 1) in * by lia.
    rewrite lor_sum by (try exact HY; lia). assert (PK : 0 < 2 ^ (g + 1)) by (apply Z.pow_pos_nonneg; lia).
    assert (PN : 0 < 2 ^ (63 - g)) by (apply Z.pow_pos_nonneg; lia).
    assert (EW : 2 ^ 64 = 2 ^ (63 - g) * 2 ^ (g + 1)) by (rewrite <- Z.pow_add_r by lia; f_equal; lia).
    replace (y + 2 ^ 64 * x) with (y + x * 2 ^ (63 - g) * 2 ^ (g + 1)) by (rewrite EW; ring).
    rewrite Z.div_add, Z.mod_add by lia. eexists _, _. split; [reflexivity|]. split; [|split; [ring|]].
    + split; [lia|]. rewrite EW in HX. assert (x < 2 ^ (g + 1)) by (replace (g + 1) with (Z.succ g) by lia; lia).
      assert (H0 : x + 1 <= 2 ^ (g + 1)) by lia. rewrite EW. clear - HY PN H0. nia.
    + f_equal. f_equal. pose proof (Z.mod_pos_bound y (2 ^ (g + 1)) PK) as M. generalize dependent (y mod 2 ^ (g + 1)). intros m M.
      destruct (Z.eqb_spec m 0) as [->|NM]; [reflexivity|]. apply Z.eqb_neq. clear - M NM PN. nia.
Qed.

(** The first 64 bits, and whether anything is left. *)
Definition top_bits (v : Z) (r : outcome (Z * bool)) : Prop := let s := Z.log2 v - 63 in exists h t, r = Ok (h, t) /\ 2 ^ 63 <= h < 2 ^ 64 /\
  if s <=? 0 then h = v * 2 ^ (- s) /\ t = false
  else h = v / 2 ^ s /\ t = negb (v mod 2 ^ s =? 0).
Lemma top_one y : 0 < y < 2 ^ 64 -> top_bits y (uint64_hi64_1 y).
Proof.
  intro Y. destruct (hi64_one y Y) as (h & EO & HB & EV). exists h, false. split; [exact EO|]. split; [exact HB|].
  pose proof (log2_bound y 64 Y). destruct (Z.leb_spec (Z.log2 y - 63) 0); [|lia]. split; [rewrite EV; do 2 f_equal; lia|reflexivity].
Qed.
Lemma top_two l r y z v : Forall limb l -> 0 <= y < 2 ^ 64 -> 0 < z < 2 ^ 64 -> v = big l + 2 ^ (width * len l) * (y + 2 ^ 64 * z) ->
  top_bits v (r0 <- uint64_hi64_2 z y ;; Ok (fst r0, snd r0 || nonzero (l ++ r) (length r))%bool).
Proof.
  intros L Y Z EV. pose proof width_pos. destruct (hi64_two (big l) (width * len l) z y) as (S & h & t & E2 & HB & EQ & ET); [nia|apply big_bound; assumption|assumption|assumption|].
  rewrite <- EV in S, EQ, ET. rewrite E2. cbn [bind fst snd]. rewrite nonzero_spec by assumption. eexists _, _. split; [reflexivity|]. split; [exact HB|].
  destruct (Z.leb_spec (Z.log2 v - 63) 0); [lia|]. split; [exact EQ|exact ET].
Qed.
End Limbs.
Lemma hi64_small c v : @wf (Limb32 c) v -> 0 < @big (Limb32 c) v -> top_bits (@big (Limb32 c) v) (@hi64 (Limb32 c) v).
Proof.
  intros V P. destruct (wf_top v V) as (l & x & -> & L & X & XP); [intros ->; cbn in P; lia|]. unfold limb in X. change width with 32 in X.
  destruct l as [|y l _] using rev_ind.
  - clear V L. cbn [app big] in *. replace (x + 2 ^ width * 0) with x in * by lia. apply top_one. lia.
  - apply Forall_app in L. destruct L as [L Y]. apply Forall_inv in Y. unfold limb in Y. change width with 32 in Y. rewrite <- app_assoc in *. cbn [app] in *.
    destruct l as [|z l _] using rev_ind.
    + cbn [app big] in *. replace (y + 2 ^ width * (x + 2 ^ width * 0)) with (x * 2 ^ 32 + y) in * by (change width with 32; lia).
      unfold hi64, vec_len, rindex. cbn [length]. change (Z.of_nat 2 =? 0) with false. change (Z.of_nat 2 =? 1) with false. change (Z.of_nat 2 =? 2) with true.
      cbn [rev app nth_error bind]. unfold uint32_hi64_2, shl64. change ((0 <=? 32) && (32 <? 64))%bool with true. cbn [bind].
      rewrite Z.shiftl_mul_pow2 by lia. rewrite u64_small by (clear - X; lia). rewrite lor_sum by lia. apply top_one. clear - X Y XP. lia.
    + apply Forall_app in L. destruct L as [L Z]. apply Forall_inv in Z. unfold limb in Z. change width with 32 in Z. rewrite <- app_assoc in *. cbn [app] in *.
      unfold hi64, vec_len, rindex. rewrite app_length. cbn [length]. destruct (Z.eqb_spec (Z.of_nat (length l + 3)) 0); [lia|].
      destruct (Z.eqb_spec (Z.of_nat (length l + 3)) 1); [lia|]. destruct (Z.eqb_spec (Z.of_nat (length l + 3)) 2); [lia|].
      rewrite rev_app_distr. cbn [rev app nth_error bind]. unfold uint32_hi64_3, shl64. change ((0 <=? 32) && (32 <? 64))%bool with true. cbn [bind].
      rewrite Z.shiftl_mul_pow2 by lia. rewrite u64_small by (clear - Y; lia). rewrite lor_sum by lia.
      apply (top_two (lw := Limb32 c) l [z; y; x]); [assumption|clear - Y Z; lia|clear - X XP; lia|]. rewrite big_app. cbn [big]. change width with 32. change (2 ^ 64) with (2 ^ 32 * 2 ^ 32). ring.
Qed.
Lemma hi64_large c v : @wf (Limb64 c) v -> 0 < @big (Limb64 c) v -> top_bits (@big (Limb64 c) v) (@hi64 (Limb64 c) v).
Proof.
  intros V P. destruct (wf_top v V) as (l & x & -> & L & X & XP); [intros ->; cbn in P; lia|]. unfold limb in X. change width with 64 in X.
  destruct l as [|y l _] using rev_ind.
  - clear V L. cbn [app big] in *. replace (x + 2 ^ width * 0) with x in * by lia. apply top_one. lia.
  - apply Forall_app in L. destruct L as [L Y]. apply Forall_inv in Y. unfold limb in Y. change width with 64 in Y. rewrite <- app_assoc in *. cbn [app] in *.
    unfold hi64, vec_len, rindex. rewrite app_length. cbn [length]. destruct (Z.eqb_spec (Z.of_nat (length l + 2)) 0); [lia|]. destruct (Z.eqb_spec (Z.of_nat (length l + 2)) 1); [lia|].
    rewrite rev_app_distr. cbn [rev app nth_error bind].
    apply (top_two (lw := Limb64 c) l [y; x]); [assumption|lia|lia|]. rewrite big_app. cbn [big]. change width with 64. ring.
Qed.
Section Limbs.
Context {lw : platform}.
Notation W := (2 ^ width).
Ltac lia_w := pose proof width_pos; pose proof W_pos; lia.
Theorem hi64_spec v : wf v -> 0 < big v -> let s := Z.log2 (big v) - 63 in exists h t, hi64 v = Ok (h, t) /\ 2 ^ 63 <= h < 2 ^ 64 /\
  if s <=? 0 then h = big v * 2 ^ (- s) /\ t = false
  else h = big v / 2 ^ s /\ t = negb (big v mod 2 ^ s =? 0).
Proof. destruct lw; [apply hi64_small|apply hi64_large]. Qed.

(** *** Shifts *)
Lemma shl_loop_spec n : 0 < n < width -> forall v, Forall limb v -> forall prev, limb prev ->
  exists t last, shl_loop v n prev = Ok (t, last) /\ Forall limb t /\ length t = length v /\ limb last /\
    big t + 2 ^ (width * len v) * (last / 2 ^ (width - n)) = big v * 2 ^ n + prev / 2 ^ (width - n).
Proof.
  intros N v. induction 1 as [|x v X V IH]; intros prev PR.
  - exists [], prev. cbn [shl_loop big length]. change (Z.of_nat 0) with 0. rewrite ?pow64_0. repeat split; try constructor; try apply PR. lia.
  - destruct (IH x X) as (t & last & E & L & EL & LL & B). cbn [shl_loop]. rewrite limb_bits_width, shl_limb_split by assumption. cbn [bind]. rewrite shr_limb_div by lia. cbn [bind].
    rewrite E. cbn [bind fst snd]. pose proof (high_part prev n width PR N) as HP. rewrite lor_sum by (try exact HP; lia).
    assert (PK : 0 < 2 ^ (width - n)) by (apply Z.pow_pos_nonneg; lia).
    assert (PN : 0 < 2 ^ n) by (apply Z.pow_pos_nonneg; lia).
    assert (EW : W = 2 ^ (width - n) * 2 ^ n) by (rewrite <- Z.pow_add_r by lia; f_equal; lia).
    pose proof (Z.mod_pos_bound x (2 ^ (width - n)) PK) as M. pose proof (Z.div_mod x (2 ^ (width - n))) as D. specialize (D ltac:(lia)).
    eexists _, _. split; [reflexivity|]. split; [constructor; [|assumption]|].
    { unfold limb. rewrite EW. clear - HP M PN PK. nia. }
    split; [cbn [length]; lia|]. split; [assumption|]. rewrite len_cons, pow64_S by lia. cbn [big].
    transitivity (x mod 2 ^ (width - n) * 2 ^ n + prev / 2 ^ (width - n) + W * (big t + 2 ^ (width * len v) * (last / 2 ^ (width - n)))); [ring|]. rewrite B.
    transitivity ((x mod 2 ^ (width - n) + 2 ^ (width - n) * (x / 2 ^ (width - n))) * 2 ^ n + prev / 2 ^ (width - n) + W * (big v * 2 ^ n)); [rewrite EW; ring|].
    rewrite (Z.add_comm (x mod _)), <- D. ring.
Qed.
Lemma shl_bits_spec v n : wf v -> 0 < n < width -> big v * 2 ^ n < room ->
  exists r, shl_bits v n = Ok (true, r) /\ wf r /\ big r = big v * 2 ^ n.
Proof.
  intros V N B. destruct V as [L T]. destruct (shl_loop_spec n N v L 0 ltac:(unfold limb; lia_w)) as (t & last & E & TL & EL & LL & BT).
  unfold shl_bits. rewrite E. cbn [bind fst snd]. rewrite limb_bits_width. rewrite shr_limb_div by lia. cbn [bind]. rewrite Z.div_0_l in BT by (apply Z.pow_nonzero; lia).
  pose proof (high_part last n width LL N) as HL. pose proof (big_bound v L) as BV. assert (1 <= 2 ^ n) by (pose proof (Z.pow_pos_nonneg 2 n); lia).
  destruct (Z.eqb_spec (last / 2 ^ (width - n)) 0) as [Z|NZ].
  - rewrite Z in BT. eexists. split; [reflexivity|]. split; [|lia]. apply (wf_intro v); [assumption|split; assumption|assumption|nia].
  - rewrite push_spec by (try assumption; try lia; rewrite EL; lia). eexists. split; [reflexivity|]. split; [|rewrite big_snoc, EL; lia].
    apply wf_push; [assumption| |assumption]. unfold limb. assert (2 ^ n <= W) by (apply Z.pow_le_mono_r; lia). lia.
Qed.
Theorem shl_spec v n : wf v -> 0 < big v -> 0 <= n -> big v * 2 ^ n < room ->
  exists r, shl v n = Ok (true, r) /\ wf r /\ big r = big v * 2 ^ n.
Proof.
  intros V P N B. unfold shl. pose proof width_pos as HW. pose proof (Z.mod_pos_bound n width) as M. pose proof (Z.div_mod n width) as D. specialize (M ltac:(lia)). specialize (D ltac:(lia)). rewrite limb_bits_width.
  assert (DP : 0 <= n / width) by (apply Z.div_pos; lia).
  assert (EP : 2 ^ n = 2 ^ (n mod width) * 2 ^ (width * (n / width))) by (rewrite <- Z.pow_add_r by lia; f_equal; lia).
  pose proof (pow64_pos (n / width) DP) as PD. assert (PM : 0 < 2 ^ (n mod width)) by (apply Z.pow_pos_nonneg; lia).
  assert (K : exists r, (if n mod width =? 0 then Ok (true, v) else shl_bits v (n mod width)) = Ok (true, r) /\ wf r /\ big r = big v * 2 ^ (n mod width)).
  { destruct (Z.eqb_spec (n mod width) 0) as [E|E]; [exists v; split; [reflexivity|]; split; [assumption|rewrite E; change (2 ^ 0) with 1; lia]|].
    apply shl_bits_spec; [assumption|lia|]. rewrite EP in B. eapply Z.le_lt_trans; [|exact B]. clear - P PM PD. nia. }
  destruct K as (r & -> & WR & BR). cbn [bind fst snd].
  destruct (Z.eqb_spec (n / width) 0) as [E|E].
  - exists r. split; [reflexivity|]. split; [assumption|]. rewrite EP, E, Z.mul_0_r. change (2 ^ 0) with 1. lia.
  - unfold shl_limbs, vec_len. 
    assert (NE : r <> []) by (intros ->; cbn in BR; clear - BR P PM; nia).
    assert (LE : len r + n / width <= capacity). { apply wf_len; [assumption|assumption|assumption|]. rewrite BR, <- Z.mul_assoc, <- EP. exact B. }
    destruct (Z.ltb_spec capacity (n / width + len r)); [lia|]. destruct (Z.eqb_spec (len r) 0) as [Z|Z]; [destruct r; [congruence|cbn [length] in Z; lia]|].
    eexists. split; [reflexivity|].
    assert (BB : big (repeat 0 (Z.to_nat (n / width)) ++ r) = big v * 2 ^ n).
    { rewrite big_app, big_zeros, repeat_length, Z2Nat.id by lia. rewrite BR, EP. ring. }
    split; [|exact BB]. split; [apply limbs_app; [apply limbs_zeros|apply WR]|right].
    rewrite app_length, repeat_length, Nat2Z.inj_add, Z2Nat.id by lia. destruct WR as [_ [|T]]; [congruence|].
    replace (n / width + len r - 1) with ((len r - 1) + n / width) by lia. rewrite pow64_add by (destruct r; [congruence|cbn [length]; lia]).
    rewrite BB, EP. rewrite BR in T. clear - T PD. nia.
Qed.

(** *** Powers of five and ten *)
Lemma pow5_loop_spec mul step : 0 < step ->
  (forall v, wf v -> 0 < big v -> big v * 5 ^ step < room -> exists r, mul v = (true, r) /\ wf r /\ big r = big v * 5 ^ step) ->
  forall fuel v exp, 0 <= exp < Z.of_nat fuel -> wf v -> 0 < big v -> big v * 5 ^ exp < room ->
  exists r k, pow5_loop fuel mul step v exp = Ok (true, r, k) /\ 0 <= k < step /\ k <= exp /\ wf r /\ 0 < big r /\ big r * 5 ^ k = big v * 5 ^ exp.
Proof.
  intros ST M. induction fuel as [|fuel IH]; intros v exp F V P B; [lia|]. cbn [pow5_loop]. destruct (Z.leb_spec step exp) as [G|G].
  - assert (E : 5 ^ exp = 5 ^ step * 5 ^ (exp - step)) by (rewrite <- Z.pow_add_r by lia; f_equal; lia).
    assert (P1 : 0 < 5 ^ step) by (apply Z.pow_pos_nonneg; lia). assert (P2 : 0 < 5 ^ (exp - step)) by (apply Z.pow_pos_nonneg; lia).
    destruct (M v V P) as (r & -> & R & BR). { rewrite E in B. eapply Z.le_lt_trans; [|exact B]. rewrite Z.mul_assoc. clear - P P1 P2. nia. }
    destruct (IH r (exp - step)) as (r' & k & EQ & K1 & K2 & R' & RP & BE); [lia|assumption|rewrite BR; apply Z.mul_pos_pos; assumption|rewrite BR, <- Z.mul_assoc, <- E; exact B|].
    exists r', k. rewrite EQ. split; [reflexivity|]. split; [exact K1|]. split; [lia|]. split; [assumption|]. split; [assumption|]. rewrite BE, BR, E. ring.
  - exists v, exp. repeat split; try lia; apply V.
Qed.
Lemma small_power_ok k : 0 <= k < 28 -> nth_error small_power_of_5 (Z.to_nat k) = Some (5 ^ k).
Proof.
  intro K. assert (H : forallb (fun i => match nth_error small_power_of_5 i with Some v => v =? 5 ^ Z.of_nat i | None => false end) (seq 0 28) = true) by reflexivity.
  rewrite forallb_forall in H. specialize (H (Z.to_nat k) ltac:(apply in_seq; lia)). destruct (nth_error small_power_of_5 (Z.to_nat k)); [|discriminate].
  f_equal. rewrite Z2Nat.id in H by lia. lia.
Qed.
Lemma large_power_ok : big large_power_of_5 = 5 ^ large_step /\ Forall limb large_power_of_5 /\ len large_power_of_5 <= capacity.
Proof.
  unfold large_power_of_5, capacity, limb_bits, limb, width. destruct lw; (split; [reflexivity|split; [repeat constructor; lia|cbn; lia]]).
Qed.
Lemma max_native_ok : max_native = 5 ^ small_step /\ limb max_native /\ 0 < small_step <= 27 /\ 5 ^ small_step < W.
Proof. unfold max_native, small_step, limb, width. destruct lw; repeat split; reflexivity || lia. Qed.
Theorem pow5_spec v exp : wf v -> 0 < big v -> 0 <= exp -> big v * 5 ^ exp < room ->
  exists r, pow5 v exp = Ok (true, r) /\ wf r /\ big r = big v * 5 ^ exp.
Proof.
  intros V P X B. unfold pow5.
  destruct (pow5_loop_spec (fun v => large_mul v large_power_of_5) large_step ltac:(unfold large_step; lia)) with (fuel := S (Z.to_nat exp)) (v := v) (exp := exp)
    as (r1 & k1 & -> & K1 & K1' & R1 & P1 & B1); [|lia|assumption|assumption|assumption|].
  { intros u U UP UB. destruct large_power_ok as (E & LL & LE). rewrite <- E in UB |- *.
    apply large_mul_spec; [assumption|assumption|assumption|rewrite E; apply Z.pow_pos_nonneg; unfold large_step; lia|exact UB]. }
  cbn [bind]. destruct max_native_ok as (E & ML & ST & MW).
  destruct (pow5_loop_spec (fun v => small_mul v max_native) small_step (proj1 ST)) with (fuel := S (Z.to_nat exp)) (v := r1) (exp := k1)
    as (r2 & k2 & -> & K2 & _ & R2 & P2 & B2); [|lia|assumption|assumption|lia|].
  { intros u U UP UB. rewrite <- E in UB |- *.
    destruct (small_mul_spec u max_native (proj1 U) ML UB) as (r & -> & RL & RB & RW). exists r. split; [reflexivity|]. split; [|assumption].
    apply RW; [assumption|rewrite E; apply Z.pow_pos_nonneg; lia]. }
  cbn [bind]. destruct (Z.eqb_spec k2 0) as [->|N].
  - exists r2. split; [reflexivity|]. split; [assumption|]. change (5 ^ 0) with 1 in B2. lia.
  - rewrite small_power_ok by lia.
    assert (PB : 0 < 5 ^ k2 <= 5 ^ small_step) by (split; [apply Z.pow_pos_nonneg; lia|apply Z.pow_le_mono_r; lia]).
    rewrite ulimb_small by lia.
    destruct (small_mul_spec r2 (5 ^ k2) (proj1 R2)) as (r & ER & RL & RB & RW); [unfold limb; lia|lia|].
    rewrite ER. exists r. split; [reflexivity|]. split; [apply RW; [assumption|lia]|lia].
Qed.
Theorem pow10_spec v exp : wf v -> 0 < big v -> 0 <= exp -> big v * 10 ^ exp < room ->
  exists r, pow10 v exp = Ok (true, r) /\ wf r /\ big r = big v * 10 ^ exp.
Proof.
  intros V P X B. unfold pow10. assert (E : 10 ^ exp = 5 ^ exp * 2 ^ exp) by (rewrite <- Z.pow_mul_l; reflexivity). rewrite E in B |- *.
  assert (P5 : 0 < 5 ^ exp) by (apply Z.pow_pos_nonneg; lia). assert (P2 : 0 < 2 ^ exp) by (apply Z.pow_pos_nonneg; lia).
  destruct (pow5_spec v exp V P X) as (r & -> & R & BR). { rewrite Z.mul_assoc in B. eapply Z.le_lt_trans; [|exact B]. pose proof (Z.mul_pos_pos _ _ P P5). clear - P2 H. nia. }
  cbn [bind fst snd]. unfold pow2. destruct (shl_spec r exp R) as (r' & E' & R' & BR'); [rewrite BR; apply Z.mul_pos_pos; assumption|assumption|rewrite BR; lia|].
  exists r'. split; [exact E'|]. split; [assumption|]. rewrite BR', BR. ring.
Qed.
Lemma bigint_of_spec x : 0 <= x < 2 ^ 64 -> wf (bigint_of x) /\ big (bigint_of x) = x.
Proof.
  intro X. enough (E : exists v, bigint_of x = normalize v /\ Forall limb v /\ big v = x).
  { destruct E as (v & -> & L & B). destruct (normalize_spec v L) as [A ->]. split; assumption. }
  unfold bigint_of. destruct (match lw with Limb32 c => or_introl (ex_intro _ c eq_refl) | Limb64 c => or_intror (ex_intro _ c eq_refl) end : (exists c, lw = Limb32 c) \/ (exists c, lw = Limb64 c)) as [[ch E]|[ch E]].
  - exists [ulimb x; ulimb (Z.shiftr x 32)]. rewrite E at 1. split; [rewrite E; reflexivity|]. split; [repeat constructor; apply ulimb_limb|].
    cbn [big]. unfold ulimb, limb_bits, width. rewrite E. rewrite Z.shiftr_div_pow2 by lia.
    rewrite (Z.mod_small (x / 2 ^ 32)) by (split; [apply Z.div_pos; lia|apply Z.div_lt_upper_bound; lia]). pose proof (Z.div_mod x (2 ^ 32) ltac:(lia)). lia.
  - exists [x]. rewrite E at 1. split; [reflexivity|]. split; [constructor; [unfold limb, width; rewrite E; exact X|constructor]|]. cbn [big]. lia.
Qed.
End Limbs.

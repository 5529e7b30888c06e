(** The tricks that handle eight digits at a time. *)
From Verif Require Import Base FloatComputeModel FloatParseModel FloatComputeProofs.
Local Open Scope Z_scope.

Fixpoint word (bs : list Z) : Z := match bs with [] => 0 | b :: t => b + 256 * word t end.
Definition bytes (bs : list Z) : Prop := Forall (fun b => 0 <= b < 256) bs.

Lemma word_bound bs : bytes bs -> 0 <= word bs < 256 ^ Z.of_nat (length bs).
Proof.
  induction bs as [|b t IH]; intro H; cbn [word length]; [cbn; lia|]. inversion H; subst.
  specialize (IH H3). rewrite Nat2Z.inj_succ, Z.pow_succ_r by lia. nia.
Qed.

Lemma split_bits x y : 0 <= x < 256 -> forall n, 0 <= n ->
  Z.testbit (x + 256 * y) n = if n <? 8 then Z.testbit x n else Z.testbit y (n - 8).
Proof.
  intros X n N. destruct (n <? 8) eqn:C.
  - rewrite <- (Z.mod_pow2_bits_low (x + 256 * y) 8) by lia.
    change (2 ^ 8) with 256. rewrite Z.mul_comm, Z.mod_add, Z.mod_small by lia. reflexivity.
  - replace n with ((n - 8) + 8) at 1 by lia. rewrite <- Z.shiftr_spec by lia.
    rewrite Z.shiftr_div_pow2 by lia. change (2 ^ 8) with 256.
    rewrite Z.mul_comm, Z.div_add, Z.div_small by lia. reflexivity.
Qed.
Lemma land_bound x u : 0 <= x < 256 -> 0 <= u < 256 -> 0 <= Z.land x u < 256.
Proof.
  intros X U. split; [apply Z.land_nonneg; lia|].
  assert (E : Z.land x u = Z.land x u mod 256); [|rewrite E; apply Z.mod_pos_bound; lia].
  change 256 with (2 ^ 8). rewrite <- Z.land_ones by lia. rewrite <- Z.land_assoc.
  rewrite (Z.land_ones u) by lia. change (2 ^ 8) with 256. rewrite (Z.mod_small u) by lia. reflexivity.
Qed.
Lemma lor_bound x u : 0 <= x < 256 -> 0 <= u < 256 -> 0 <= Z.lor x u < 256.
Proof.
  intros X U. split; [apply Z.lor_nonneg; lia|].
  destruct (Z.eq_dec (Z.lor x u) 0) as [E|NE]; [lia|].
  assert (0 <= Z.lor x u) by (apply Z.lor_nonneg; lia).
  change 256 with (2 ^ 8). apply Z.log2_lt_pow2; [lia|]. rewrite Z.log2_lor by lia.
  destruct (Z.eq_dec x 0) as [->|]; destruct (Z.eq_dec u 0) as [->|]; cbn [Z.log2];
    repeat match goal with |- context [Z.log2 ?v] => assert (Z.log2 v < 8) by (apply Z.log2_lt_pow2; lia);
      let r := fresh in remember (Z.log2 v) as r; clear dependent v end; lia.
Qed.
Lemma land_split x y u v : 0 <= x < 256 -> 0 <= u < 256 ->
  Z.land (x + 256 * y) (u + 256 * v) = Z.land x u + 256 * Z.land y v.
Proof.
  intros X U. apply Z.bits_inj'. intros n N. rewrite Z.land_spec, !split_bits by (try assumption; apply land_bound; assumption).
  destruct (n <? 8); rewrite Z.land_spec; reflexivity.
Qed.
Lemma lor_split x y u v : 0 <= x < 256 -> 0 <= u < 256 ->
  Z.lor (x + 256 * y) (u + 256 * v) = Z.lor x u + 256 * Z.lor y v.
Proof.
  intros X U. apply Z.bits_inj'. intros n N. rewrite Z.lor_spec, !split_bits by (try assumption; apply lor_bound; assumption).
  destruct (n <? 8); rewrite Z.lor_spec; reflexivity.
Qed.

(** *** is_made_of_eight_digits_fast *)
Definition digit_byte (b : Z) : bool := (48 <=? b) && (b <=? 57).
Definition fast (n : nat) (v : Z) : Z :=
  Z.land (Z.lor ((v + word (repeat 0x46 n)) mod 256 ^ Z.of_nat n) ((v - word (repeat 0x30 n)) mod 256 ^ Z.of_nat n))
         (word (repeat 0x80 n)).

Lemma mod_split a m n : 0 <= a < 256 -> 0 <= n -> (a + 256 * m) mod 256 ^ Z.succ n = a + 256 * (m mod 256 ^ n).
Proof.
  intros A N. assert (P : 0 < 256 ^ n) by (apply Z.pow_pos_nonneg; lia). rewrite Z.pow_succ_r by lia.
  symmetry. apply Z.mod_unique with (m / 256 ^ n).
  - left. pose proof (Z.mod_pos_bound m (256 ^ n) P). nia.
  - pose proof (Z.div_mod m (256 ^ n) ltac:(lia)) as D. rewrite D at 1. ring.
Qed.
Lemma low_byte a n : 0 <= n -> (a mod 256 ^ Z.succ n) mod 256 = a mod 256.
Proof.
  intro N. assert (P : 0 < 256 ^ n) by (apply Z.pow_pos_nonneg; lia). rewrite Z.pow_succ_r by lia.
  rewrite Z.rem_mul_r by lia. rewrite Z.mul_comm, Z.mod_add by lia. apply Z.mod_mod. lia.
Qed.
Lemma bit7 a : Z.testbit a 7 = Z.testbit (a mod 256) 7.
Proof. change 256 with (2 ^ 8). rewrite Z.mod_pow2_bits_low by lia. reflexivity. Qed.

Lemma bit7_mod a n : 0 <= n -> Z.testbit (a mod 256 ^ Z.succ n) 7 = Z.testbit (a mod 256) 7.
Proof. intro N. rewrite bit7, low_byte by assumption. reflexivity. Qed.

Definition sweep : bool := forallb (fun i => let b := Z.of_nat i in
  Bool.eqb (Z.testbit ((b + 0x46) mod 256) 7 || Z.testbit ((b - 0x30) mod 256) 7) (negb (digit_byte b))) (seq 0 256).
Lemma sweep_true : sweep = true.
Proof. vm_compute. reflexivity. Qed.
Lemma one_byte b : 0 <= b < 256 ->
  (Z.testbit ((b + 0x46) mod 256) 7 || Z.testbit ((b - 0x30) mod 256) 7)%bool = negb (digit_byte b).
Proof.
  intro B. pose proof sweep_true as S. unfold sweep in S. rewrite forallb_forall in S.
  specialize (S (Z.to_nat b)). cbv zeta in S. rewrite Z2Nat.id in S by lia.
  apply Bool.eqb_prop, S. apply in_seq. lia.
Qed.

Lemma fast_ok bs : bytes bs -> (fast (length bs) (word bs) =? 0) = forallb digit_byte bs.
Proof.
  induction bs as [|b t IH]; intro H; [reflexivity|]. inversion H; subst. specialize (IH H3).
  cbn [forallb length word]. unfold fast. rewrite Nat2Z.inj_succ. cbn [repeat word].
  assert (N : 0 <= Z.of_nat (length t)) by lia.
  destruct (digit_byte b) eqn:D; cbn [andb].
  - assert (DB : 48 <= b <= 57) by (unfold digit_byte in D; lia).
    replace (b + 256 * word t + (0x46 + 256 * word (repeat 0x46 (length t))))
      with ((b + 0x46) + 256 * (word t + word (repeat 0x46 (length t)))) by ring.
    replace (b + 256 * word t - (0x30 + 256 * word (repeat 0x30 (length t))))
      with ((b - 0x30) + 256 * (word t - word (repeat 0x30 (length t)))) by ring.
    rewrite !mod_split by lia. rewrite lor_split by lia. rewrite land_split by (try apply lor_bound; lia).
    assert (Z0 : Z.land (Z.lor (b + 0x46) (b - 0x30)) 0x80 = 0).
    { assert (b = 48 \/ b = 49 \/ b = 50 \/ b = 51 \/ b = 52 \/ b = 53 \/ b = 54 \/ b = 55 \/ b = 56 \/ b = 57) as C by lia.
      repeat (destruct C as [->|C]; [reflexivity|]). subst b. reflexivity. }
    rewrite Z0, Z.add_0_l. fold (fast (length t) (word t)).
    rewrite <- IH. destruct (Z.eqb_spec (fast (length t) (word t)) 0) as [->|NE]; [reflexivity|].
    apply Z.eqb_neq. lia.
  - apply Z.eqb_neq. intro E.
    assert (T : Z.testbit (Z.land (Z.lor ((b + 256 * word t + (0x46 + 256 * word (repeat 0x46 (length t)))) mod 256 ^ Z.succ (Z.of_nat (length t)))
      ((b + 256 * word t - (0x30 + 256 * word (repeat 0x30 (length t)))) mod 256 ^ Z.succ (Z.of_nat (length t))))
      (0x80 + 256 * word (repeat 0x80 (length t)))) 7 = false) by (rewrite E; reflexivity).
    rewrite Z.land_spec, Z.lor_spec in T. rewrite !bit7_mod in T by lia.
    rewrite (split_bits 0x80) in T by lia. change (7 <? 8) with true in T. cbv iota in T.
    change (Z.testbit 128 7) with true in T. rewrite andb_true_r in T.
    replace (b + 256 * word t + (0x46 + 256 * word (repeat 0x46 (length t))))
      with ((b + 0x46) + (word t + word (repeat 0x46 (length t))) * 256) in T by ring.
    replace (b + 256 * word t - (0x30 + 256 * word (repeat 0x30 (length t))))
      with ((b - 0x30) + (word t - word (repeat 0x30 (length t))) * 256) in T by ring.
    rewrite !Z.mod_add in T by lia. rewrite one_byte, D in T by assumption. discriminate.
Qed.

(** *** Eight bytes as a number, in both byte orders *)
Lemma land_ff b : 0 <= b < 256 -> Z.land b 255 = b.
Proof. intro B. change 255 with (Z.ones 8). rewrite Z.land_ones by lia. apply Z.mod_small. exact B. Qed.
Theorem byteswap_ok b0 b1 b2 b3 b4 b5 b6 b7 : bytes [b0; b1; b2; b3; b4; b5; b6; b7] ->
  byteswap (word [b7; b6; b5; b4; b3; b2; b1; b0]) = word [b0; b1; b2; b3; b4; b5; b6; b7].
Proof.
  intro B. unfold byteswap, bytes in *.
  repeat match goal with H : Forall _ (_ :: _) |- _ => let H1 := fresh in pose proof (Forall_inv H) as H1; apply Forall_inv_tail in H; cbv beta in H1 end. clear B.
  change 0xFF00000000000000 with (word [0; 0; 0; 0; 0; 0; 0; 255]). change 0x00FF000000000000 with (word [0; 0; 0; 0; 0; 0; 255; 0]).
  change 0x0000FF0000000000 with (word [0; 0; 0; 0; 0; 255; 0; 0]). change 0x000000FF00000000 with (word [0; 0; 0; 0; 255; 0; 0; 0]).
  change 0x00000000FF000000 with (word [0; 0; 0; 255; 0; 0; 0; 0]). change 0x0000000000FF0000 with (word [0; 0; 255; 0; 0; 0; 0; 0]).
  change 0x000000000000FF00 with (word [0; 255; 0; 0; 0; 0; 0; 0]). change 0x00000000000000FF with (word [255; 0; 0; 0; 0; 0; 0; 0]).
  cbn [word]. rewrite !land_split by lia. rewrite !Z.land_0_r, !land_ff by assumption.
  rewrite !Z.shiftr_div_pow2, !Z.shiftl_mul_pow2 by lia.
  rewrite !u64_small by lia.
  match goal with |- context [Z.lor (?x / 2 ^ 56) _] => replace (x / 2 ^ 56) with (word [b0; 0; 0; 0; 0; 0; 0; 0]) by (apply Z.div_unique_exact; cbn [word]; lia) end.
  match goal with |- context [?x / 2 ^ 40] => replace (x / 2 ^ 40) with (word [0; b1; 0; 0; 0; 0; 0; 0]) by (apply Z.div_unique_exact; cbn [word]; lia) end.
  match goal with |- context [?x / 2 ^ 24] => replace (x / 2 ^ 24) with (word [0; 0; b2; 0; 0; 0; 0; 0]) by (apply Z.div_unique_exact; cbn [word]; lia) end.
  match goal with |- context [?x / 2 ^ 8] => replace (x / 2 ^ 8) with (word [0; 0; 0; b3; 0; 0; 0; 0]) by (apply Z.div_unique_exact; cbn [word]; lia) end.
  match goal with |- context [?x * 2 ^ 8] => replace (x * 2 ^ 8) with (word [0; 0; 0; 0; b4; 0; 0; 0]) by (cbn [word]; lia) end.
  match goal with |- context [?x * 2 ^ 24] => replace (x * 2 ^ 24) with (word [0; 0; 0; 0; 0; b5; 0; 0]) by (cbn [word]; lia) end.
  match goal with |- context [?x * 2 ^ 40] => replace (x * 2 ^ 40) with (word [0; 0; 0; 0; 0; 0; b6; 0]) by (cbn [word]; lia) end.
  match goal with |- context [?x * 2 ^ 56] => replace (x * 2 ^ 56) with (word [0; 0; 0; 0; 0; 0; 0; b7]) by (cbn [word]; lia) end.
  cbn [word]. repeat (rewrite lor_split by (rewrite ?Z.lor_0_l, ?Z.lor_0_r; lia); rewrite ?Z.lor_0_l, ?Z.lor_0_r). reflexivity.
Qed.
Lemma little8_word c0 c1 c2 c3 c4 c5 c6 c7 :
  little8 c0 c1 c2 c3 c4 c5 c6 c7 = word (map byte [c0; c1; c2; c3; c4; c5; c6; c7]).
Proof. unfold little8. cbn [map word]. ring. Qed.
Lemma byte_bytes l : bytes (map byte l).
Proof. unfold bytes. apply Forall_map, Forall_forall. intros c _. apply Z.mod_pos_bound. lia. Qed.
Lemma read8_word {lw : platform} c0 c1 c2 c3 c4 c5 c6 c7 :
  read8 c0 c1 c2 c3 c4 c5 c6 c7 = word (map byte [c0; c1; c2; c3; c4; c5; c6; c7]).
Proof.
  unfold read8, memcpy8. destruct (big_endian choice); rewrite little8_word; [|reflexivity].
  apply (byteswap_ok (byte c0) (byte c1) (byte c2) (byte c3) (byte c4) (byte c5) (byte c6) (byte c7)).
  exact (byte_bytes [c0; c1; c2; c3; c4; c5; c6; c7]).
Qed.

(** A char in its range is a digit iff its byte is one. *)
Definition is_char (c : Z) : Prop := -128 <= c < 128.
Lemma digit_char c : is_char c -> digit_byte (byte c) = is_integer c.
Proof.
  intro C. unfold digit_byte, byte, is_integer, is_char in *. destruct (Z_lt_ge_dec c 0) as [L|L].
  - replace (c mod 256) with (c + 256) by (apply Z.mod_unique with (-1); lia). lia.
  - rewrite Z.mod_small by lia. lia.
Qed.
Lemma digit_byte_value c : is_integer c = true -> byte c = c.
Proof. unfold is_integer, byte. intro. apply Z.mod_small. lia. Qed.

Theorem is_made_ok {lw : platform} c0 c1 c2 c3 c4 c5 c6 c7 : Forall is_char [c0; c1; c2; c3; c4; c5; c6; c7] ->
  is_made_of_eight_digits_fast (read8 c0 c1 c2 c3 c4 c5 c6 c7) = forallb is_integer [c0; c1; c2; c3; c4; c5; c6; c7].
Proof.
  intro C. rewrite read8_word.
  pose proof (fast_ok (map byte [c0; c1; c2; c3; c4; c5; c6; c7]) (byte_bytes _)) as F.
  change (fast (length (map byte [c0; c1; c2; c3; c4; c5; c6; c7])) (word (map byte [c0; c1; c2; c3; c4; c5; c6; c7])) =? 0)
    with (is_made_of_eight_digits_fast (word (map byte [c0; c1; c2; c3; c4; c5; c6; c7]))) in F.
  rewrite F. clear F. cbn [map forallb].
  repeat (let H := fresh in pose proof (Forall_inv C) as H; apply Forall_inv_tail in C; rewrite (digit_char _ H)). reflexivity.
Qed.

(** *** parse_eight_digits_unrolled *)
Lemma land_mask b0 b1 b2 b3 b4 b5 b6 b7 : bytes [b0; b1; b2; b3; b4; b5; b6; b7] ->
  Z.land (word [b0; b1; b2; b3; b4; b5; b6; b7]) 0x000000FF000000FF = b0 + b4 * 2 ^ 32.
Proof.
  intro B. change 0x000000FF000000FF with (word [0xFF; 0; 0; 0; 0xFF; 0; 0; 0]). unfold bytes in B.
  repeat match goal with H : Forall _ (_ :: _) |- _ => let H1 := fresh in pose proof (Forall_inv H) as H1; apply Forall_inv_tail in H; cbv beta in H1 end.
  cbn [word]. rewrite !land_split by lia.
  change 0xFF with (Z.ones 8). rewrite !Z.land_ones, !Z.land_0_r by lia. change (2 ^ 8) with 256.
  rewrite (Z.mod_small b0), (Z.mod_small b4) by lia. change (2 ^ 32) with 4294967296. lia.
Qed.

Theorem parse_eight_ok {lw : platform} c0 c1 c2 c3 c4 c5 c6 c7 : forallb is_integer [c0; c1; c2; c3; c4; c5; c6; c7] = true ->
  parse_eight_digits_unrolled (read8 c0 c1 c2 c3 c4 c5 c6 c7) =
  fold_left (fun v c => v * 10 + (c - 48)) [c0; c1; c2; c3; c4; c5; c6; c7] 0.
Proof.
  intro D. rewrite read8_word. cbn [forallb] in D. repeat (apply andb_true_iff in D; destruct D as [? D]). clear D.
  cbn [map]. rewrite !digit_byte_value by assumption.
  unfold is_integer in *. cbn [word fold_left].
  remember (c0 - 48) as d0. remember (c1 - 48) as d1. remember (c2 - 48) as d2. remember (c3 - 48) as d3.
  remember (c4 - 48) as d4. remember (c5 - 48) as d5. remember (c6 - 48) as d6. remember (c7 - 48) as d7.
  assert (R0 : 0 <= d0 <= 9) by lia. assert (R1 : 0 <= d1 <= 9) by lia. assert (R2 : 0 <= d2 <= 9) by lia.
  assert (R3 : 0 <= d3 <= 9) by lia. assert (R4 : 0 <= d4 <= 9) by lia. assert (R5 : 0 <= d5 <= 9) by lia.
  assert (R6 : 0 <= d6 <= 9) by lia. assert (R7 : 0 <= d7 <= 9) by lia.
  unfold parse_eight_digits_unrolled.
  rewrite (u64_small (_ - 0x3030303030303030)) by lia.
  replace (c0 + _ - 0x3030303030303030) with (word [d0; d1; d2; d3; d4; d5; d6; d7]) by (cbn [word]; lia).
  clear Heqd0 Heqd1 Heqd2 Heqd3 Heqd4 Heqd5 Heqd6 Heqd7 H H0 H1 H2 H3 H4 H5 H6. clear c0 c1 c2 c3 c4 c5 c6 c7.
  assert (S8 : Z.shiftr (word [d0; d1; d2; d3; d4; d5; d6; d7]) 8 = word [d1; d2; d3; d4; d5; d6; d7]).
  { rewrite Z.shiftr_div_pow2 by lia. symmetry. apply Z.div_unique with d0; [left|]; cbn [word]; lia. }
  rewrite S8.
  rewrite (u64_small (word _ * 10)) by (cbn [word]; lia).
  replace (word [d0; d1; d2; d3; d4; d5; d6; d7] * 10 + word [d1; d2; d3; d4; d5; d6; d7])
    with (word [10 * d0 + d1; 10 * d1 + d2; 10 * d2 + d3; 10 * d3 + d4; 10 * d4 + d5; 10 * d5 + d6; 10 * d6 + d7; 10 * d7])
    by (cbn [word]; ring).
  rewrite (u64_small (word _)) by (cbn [word]; lia).
  assert (S16 : Z.shiftr (word [10 * d0 + d1; 10 * d1 + d2; 10 * d2 + d3; 10 * d3 + d4; 10 * d4 + d5; 10 * d5 + d6; 10 * d6 + d7; 10 * d7]) 16 =
    word [10 * d2 + d3; 10 * d3 + d4; 10 * d4 + d5; 10 * d5 + d6; 10 * d6 + d7; 10 * d7; 0; 0]).
  { rewrite Z.shiftr_div_pow2 by lia. symmetry. apply Z.div_unique with (10 * d0 + d1 + 256 * (10 * d1 + d2)); [left|]; cbn [word]; lia. }
  rewrite S16. rewrite !land_mask by (unfold bytes; repeat constructor; lia).
  set (e0 := 10 * d0 + d1). set (e2 := 10 * d2 + d3). set (e4 := 10 * d4 + d5). set (e6 := 10 * d6 + d7).
  assert (E0 : 0 <= e0 <= 99) by lia. assert (E2 : 0 <= e2 <= 99) by lia.
  assert (E4 : 0 <= e4 <= 99) by lia. assert (E6 : 0 <= e6 <= 99) by lia.
  assert (M1 : u64 ((e0 + e4 * 2 ^ 32) * 0x000F424000000064) = 100 * e0 + (1000000 * e0 + 100 * e4) * 2 ^ 32).
  { unfold u64. symmetry. apply Z.mod_unique with (1000000 * e4); [left|]; lia. }
  assert (M2 : u64 ((e2 + e6 * 2 ^ 32) * 0x0000271000000001) = e2 + (10000 * e2 + e6) * 2 ^ 32).
  { unfold u64. symmetry. apply Z.mod_unique with (10000 * e6); [left|]; lia. }
  rewrite M1, M2. rewrite u64_small by lia.
  rewrite Z.shiftr_div_pow2 by lia.
  replace (_ / 2 ^ 32) with (1000000 * e0 + 100 * e4 + 10000 * e2 + e6)
    by (apply Z.div_unique with (100 * e0 + e2); [left|]; lia).
  unfold u32. rewrite Z.mod_small by lia. unfold e0, e2, e4, e6. ring.
Qed.

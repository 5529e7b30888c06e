From Verif Require Import Base BitLemmas SerialModel SerialSpec.
Local Open Scope N_scope.
Ltac Zify.zify_post_hook ::= Z.div_mod_to_equations.

(** ** Memory *)
Lemma update_app pre x b post : update (pre ++ x :: post) (length pre) b = pre ++ b :: post.
Proof. induction pre as [|y pre IH]; [reflexivity|]. cbn. rewrite IH. reflexivity. Qed.

Lemma store_app pre x b post :
  store (pre ++ x :: post) (length pre) b = Ok (pre ++ b :: post).
Proof.
  unfold store. rewrite app_length. cbn [length].
  replace (Nat.ltb _ _) with true by (symmetry; apply Nat.ltb_lt; lia).
  rewrite update_app. reflexivity.
Qed.

Lemma load_app pre x post : load (pre ++ x :: post) (length pre) = Ok x.
Proof.
  unfold load. rewrite nth_error_app2, Nat.sub_diag by lia. reflexivity.
Qed.

(** ** Bytes *)
Lemma pow256 i : 2 ^ (8 * i) = 256 ^ i.
Proof. rewrite N.pow_mul_r. reflexivity. Qed.

Lemma byte_of_shift v i : N.land (N.shiftr v (8 * i)) 255 mod 256 = v / 256 ^ i mod 256.
Proof.
  rewrite shiftr_div, pow256. change 255 with (N.ones 8). rewrite land_ones_mod.
  change (2 ^ 8) with 256. rewrite N.mod_mod by lia. reflexivity.
Qed.

Lemma le_bytes_length w v : length (le_bytes w v) = w.
Proof. unfold le_bytes. rewrite map_length, seq_length. reflexivity. Qed.

Lemma be_bytes_length w v : length (be_bytes w v) = w.
Proof. unfold be_bytes. rewrite map_length, seq_length. reflexivity. Qed.

Lemma map_seq_S {A} (f : nat -> A) a n : map f (seq a (S n)) = f a :: map f (seq (S a) n).
Proof. reflexivity. Qed.

Lemma nth_byte_S v i : nth_byte v (S i) = nth_byte (v / 256) i.
Proof.
  unfold nth_byte. rewrite Nat2N.inj_succ, N.pow_succ_r', N.div_div by (try apply N.pow_nonzero; lia).
  reflexivity.
Qed.

Lemma le_bytes_S w v : le_bytes (S w) v = v mod 256 :: le_bytes w (v / 256).
Proof.
  unfold le_bytes. rewrite map_seq_S. f_equal.
  - unfold nth_byte. change (256 ^ N.of_nat 0) with 1. rewrite N.div_1_r. reflexivity.
  - rewrite <- seq_shift, map_map. apply map_ext. intro i. apply nth_byte_S.
Qed.

Lemma be_le_bytes w v : be_bytes w v = rev (le_bytes w v).
Proof.
  unfold be_bytes, le_bytes. rewrite <- map_rev.
  rewrite <- map_map with (f := fun i => (w - 1 - i)%nat) (g := nth_byte v). f_equal.
  induction w as [|w IH]; [reflexivity|].
  rewrite seq_S at 2. rewrite rev_app_distr. cbn [rev app Nat.add seq map].
  f_equal; [lia|]. rewrite <- IH, <- seq_shift, map_map. apply map_ext_in. intros i Hi. 
  apply in_seq in Hi. lia.
Qed.

Lemma le_value_bytes w : forall v, v < 256 ^ N.of_nat w -> le_value (le_bytes w v) = v.
Proof.
  induction w as [|w IH]; intros v H.
  - change (256 ^ N.of_nat 0) with 1 in H. cbn. lia.
  - rewrite le_bytes_S. cbn [le_value]. rewrite IH.
    + pose proof (N.div_mod' v 256). lia.
    + rewrite Nat2N.inj_succ, N.pow_succ_r' in H. apply N.div_lt_upper_bound; lia.
Qed.

Lemma bytes_cons b l : bytes_ok (b :: l) = true -> b < 256 /\ bytes_ok l = true.
Proof. unfold bytes_ok, byte_ok. cbn [forallb]. rewrite andb_true_iff, N.ltb_lt. tauto. Qed.

Lemma bytes_le_value bs : bytes_ok bs = true -> le_bytes (length bs) (le_value bs) = bs.
Proof.
  induction bs as [|b bs IH]; intro H; [reflexivity|].
  apply bytes_cons in H. destruct H as [Hb Hbs]. cbn [length le_value]. rewrite le_bytes_S. f_equal.
  - rewrite N.mul_comm, N.mod_add by lia. apply N.mod_small, Hb.
  - rewrite N.mul_comm, N.div_add, N.div_small by lia. rewrite N.add_0_l. apply IH, Hbs.
Qed.

Lemma le_value_lt bs : bytes_ok bs = true -> le_value bs < 256 ^ N.of_nat (length bs).
Proof.
  induction bs as [|b bs IH]; intro H; [reflexivity|].
  apply bytes_cons in H. destruct H as [Hb Hbs]. specialize (IH Hbs).
  cbn [length le_value]. rewrite Nat2N.inj_succ, N.pow_succ_r'. lia.
Qed.

Lemma le_bytes_ok w : forall v, bytes_ok (le_bytes w v) = true.
Proof.
  induction w as [|w IH]; intro v; [reflexivity|]. rewrite le_bytes_S.
  unfold bytes_ok in *. cbn [forallb]. rewrite IH, andb_true_r. apply N.ltb_lt. lia.
Qed.

Lemma bytes_ok_rev bs : bytes_ok (rev bs) = bytes_ok bs.
Proof.
  unfold bytes_ok. induction bs as [|b bs IH]; [reflexivity|].
  cbn [rev forallb]. rewrite forallb_app, IH. cbn [forallb]. rewrite andb_true_r. apply andb_comm.
Qed.

Lemma be_value_bytes w v : v < 256 ^ N.of_nat w -> be_value (be_bytes w v) = v.
Proof. intro H. unfold be_value. rewrite be_le_bytes, rev_involutive. apply le_value_bytes, H. Qed.

Lemma bytes_be_value bs : bytes_ok bs = true -> be_bytes (length bs) (be_value bs) = bs.
Proof.
  intro H. unfold be_value. rewrite be_le_bytes, <- (rev_length bs), bytes_le_value.
  - apply rev_involutive.
  - rewrite bytes_ok_rev. exact H.
Qed.

Lemma be_value_lt bs : bytes_ok bs = true -> be_value bs < 256 ^ N.of_nat (length bs).
Proof.
  intro H. unfold be_value. rewrite <- (rev_length bs). apply le_value_lt.
  rewrite bytes_ok_rev. exact H.
Qed.

(** ** serialize_le *)
Lemma shr_ok w x i : i < w -> shr w x (8 * i) = Ok (N.shiftr x (8 * i)).
Proof.
  intro H. unfold shr, promoted_bits.
  destruct (N.ltb_spec w 4).
  - destruct (N.ltb_spec (8 * i) 32); [reflexivity|lia].
  - destruct (N.ltb_spec (8 * i) (8 * w)); [reflexivity|lia].
Qed.

Lemma serialize_le_loop_spec w value n : forall index pre old post,
  length old = n -> index + N.of_nat n <= w ->
  serialize_le_loop w value n index (length pre) (pre ++ old ++ post) =
  Ok (pre ++ map (fun i => nth_byte value (N.to_nat index + i)) (seq 0 n) ++ post).
Proof.
  induction n as [|n IH]; intros index pre old post Hl Hw.
  - destruct old; [|discriminate]. reflexivity.
  - destruct old as [|x old]; [discriminate|]. injection Hl as Hl.
    cbn [serialize_le_loop app]. rewrite shr_ok by lia. cbn [bind].
    rewrite store_app. cbn [bind].
    replace (pre ++ N.land (N.shiftr value (8 * index)) 255 mod 256 :: old ++ post)
      with ((pre ++ [N.land (N.shiftr value (8 * index)) 255 mod 256]) ++ old ++ post)
      by (rewrite <- app_assoc; reflexivity).
    replace (S (length pre)) with (length (pre ++ [N.land (N.shiftr value (8 * index)) 255 mod 256]))
      by (rewrite app_length; simpl; lia).
    rewrite IH by lia. rewrite <- app_assoc. cbn [app seq map]. do 3 f_equal.
    + rewrite byte_of_shift. unfold nth_byte. rewrite Nat.add_0_r, N2Nat.id. reflexivity.
    + f_equal. rewrite <- seq_shift, map_map. apply map_ext. intro i. f_equal. lia.
Qed.

Theorem serialize_le_spec w value pre old post : length old = w ->
  serialize_le w value (length pre) (pre ++ old ++ post) =
  Ok (pre ++ le_bytes w value ++ post, (length pre + w)%nat).
Proof.
  intro H. unfold serialize_le. rewrite serialize_le_loop_spec by lia. reflexivity.
Qed.

Lemma update_length m p b : length (update m p b) = length m.
Proof.
  revert p. induction m as [|x m IH]; intros [|p]; cbn; try reflexivity. rewrite IH. reflexivity.
Qed.

Lemma store_inv m p b m' : store m p b = Ok m' -> (p < length m)%nat /\ length m' = length m.
Proof.
  unfold store. destruct (Nat.ltb_spec p (length m)); [|discriminate].
  intro E. injection E as <-. rewrite update_length. auto.
Qed.

Lemma serialize_le_oob_aux w value n : forall index p m, n <> O ->
  index + N.of_nat n <= w -> (length m < p + n)%nat ->
  serialize_le_loop w value n index p m = UB OutOfBounds.
Proof.
  induction n as [|n IH]; intros index p m Hn Hw Hl; [congruence|].
  cbn [serialize_le_loop]. rewrite shr_ok by lia. cbn [bind].
  unfold store at 1. destruct (Nat.ltb_spec p (length m)); [|reflexivity]. cbn [bind].
  apply IH; rewrite ?update_length; lia.
Qed.

Theorem serialize_le_oob w value p m : w <> O -> (length m < p + w)%nat ->
  serialize_le w value p m = UB OutOfBounds.
Proof.
  intros Hw H. unfold serialize_le. rewrite serialize_le_oob_aux by lia. reflexivity.
Qed.

(** ** deserialize_le *)
Lemma shl_ok w b i : b < 256 -> i < w -> (w < 4 -> i < 3) ->
  shl w b (8 * i) = Ok (b * 256 ^ i).
Proof.
  intros Hb Hi H3. unfold shl, promoted_bits.
  rewrite shiftl_mul, !pow256.
  destruct (N.ltb_spec w 4) as [Hw|Hw].
  - destruct (N.ltb_spec (8 * i) 32); [|lia].
    assert (b * 256 ^ i < 2 ^ 31).
    { assert (256 ^ i <= 256 ^ 2) by (apply N.pow_le_mono_r; lia).
      change (256 ^ 2) with 65536 in *. change (2 ^ 31) with 2147483648. nia. }
    destruct (N.ltb_spec (b * 256 ^ i) (2 ^ 31)); [reflexivity|lia].
  - destruct (N.ltb_spec (8 * i) (8 * w)); [|lia].
    rewrite N.mod_small; [reflexivity|].
    assert (256 ^ (i + 1) <= 256 ^ w) by (apply N.pow_le_mono_r; lia).
    rewrite N.pow_add_r in H0. change (256 ^ 1) with 256 in H0.
    pose proof (N.pow_nonzero 256 i). nia.
Qed.

Lemma deserialize_le_loop_spec w n : forall index ret pre bs post,
  bytes_ok bs = true -> length bs = n -> index + N.of_nat n = w -> w <= 8 ->
  ret < 256 ^ index ->
  deserialize_le_loop w n index ret (length pre) (pre ++ bs ++ post) =
  Ok (ret + 256 ^ index * le_value bs).
Proof.
  induction n as [|n IH]; intros index ret pre bs post Hb Hl Hw Hw8 Hr.
  - destruct bs; [|discriminate]. cbn. f_equal. lia.
  - destruct bs as [|x bs]; [discriminate|]. injection Hl as Hl.
    apply bytes_cons in Hb. destruct Hb as [Hx Hb].
    cbn [deserialize_le_loop app]. rewrite load_app. cbn [bind].
    rewrite shl_ok by lia. cbn [bind].
    rewrite N.lor_comm, <- pow256, lor_mul_add by (rewrite pow256; exact Hr).
    rewrite !pow256.
    assert (Hlt : x * 256 ^ index + ret < 256 ^ (index + 1)).
    { rewrite N.pow_add_r. change (256 ^ 1) with 256. nia. }
    rewrite (N.mod_small (_ + ret)).
    2:{ eapply N.lt_le_trans; [exact Hlt|]. apply N.pow_le_mono_r; lia. }
    replace (pre ++ x :: bs ++ post) with ((pre ++ [x]) ++ bs ++ post) by (rewrite <- app_assoc; reflexivity).
    replace (S (length pre)) with (length (pre ++ [x])) by (rewrite app_length; simpl; lia).
    rewrite IH by (auto; lia). f_equal. cbn [le_value]. rewrite N.pow_add_r. change (256 ^ 1) with 256. nia.
Qed.

Theorem deserialize_le_spec pre bs post : bytes_ok bs = true -> (length bs <= 8)%nat ->
  deserialize_le (length bs) (length pre) (pre ++ bs ++ post) = Ok (le_value bs).
Proof.
  intros Hb H8. unfold deserialize_le. rewrite deserialize_le_loop_spec; auto; try lia.
  f_equal. change (256 ^ 0) with 1. lia.
Qed.

(** ** Big endian *)
Lemma dec32_ok i : 0 < i -> i <= 8 -> dec32 i = i - 1.
Proof.
  intros H0 H8. unfold dec32. replace (i + 2 ^ 32 - 1) with ((i - 1) + 1 * 2 ^ 32) by lia.
  rewrite N.mod_add by (change (2 ^ 32) with 4294967296; lia).
  apply N.mod_small. change (2 ^ 32) with 4294967296; lia.
Qed.

Lemma mul8_mod i : i <= 8 -> (8 * i) mod 2 ^ 32 = 8 * i.
Proof. intro H. apply N.mod_small. change (2 ^ 32) with 4294967296; lia. Qed.

Lemma serialize_be_loop_spec dbg w value n : forall pre old post,
  length old = n -> N.of_nat n <= w -> w <= 8 ->
  serialize_be_loop dbg w value n (N.of_nat n) (length pre) (pre ++ old ++ post) =
  Ok (pre ++ be_bytes n value ++ post).
Proof.
  induction n as [|n IH]; intros pre old post Hl Hw H8.
  - destruct old; [|discriminate]. reflexivity.
  - destruct old as [|x old]; [discriminate|]. injection Hl as Hl.
    cbn [serialize_be_loop app].
    rewrite dec32_ok by lia. replace (N.of_nat (S n) - 1) with (N.of_nat n) by lia.
    rewrite mul8_mod by lia.
    unfold assert_.
    destruct (N.ltb_spec 0 (N.of_nat (S n))); [|lia].
    destruct (N.leb_spec (8 * N.of_nat n) (w * 8)); [|lia].
    cbn [negb]. rewrite !andb_false_r. cbn [bind].
    rewrite shr_ok by lia. cbn [bind].
    rewrite store_app. cbn [bind].
    set (b := N.land (N.shiftr value (8 * N.of_nat n)) 255 mod 256).
    replace (pre ++ b :: old ++ post) with ((pre ++ [b]) ++ old ++ post)
      by (rewrite <- app_assoc; reflexivity).
    replace (S (length pre)) with (length (pre ++ [b])) by (rewrite app_length; simpl; lia).
    rewrite IH by lia. rewrite <- app_assoc. cbn [app].
    rewrite !be_le_bytes. unfold le_bytes. rewrite seq_S, map_app, rev_app_distr. cbn [map rev app].
    do 3 f_equal. unfold b. rewrite byte_of_shift. reflexivity.
Qed.

Theorem serialize_be_spec dbg w value pre old post : length old = w -> (w <= 8)%nat ->
  serialize_be dbg w value (length pre) (pre ++ old ++ post) =
  Ok (pre ++ be_bytes w value ++ post, (length pre + w)%nat).
Proof.
  intros H H8. unfold serialize_be. rewrite serialize_be_loop_spec by lia. reflexivity.
Qed.

Lemma le_value_app a b : le_value (a ++ b) = le_value a + 256 ^ N.of_nat (length a) * le_value b.
Proof.
  induction a as [|x a IH].
  - cbn [app le_value length]. change (256 ^ N.of_nat 0) with 1. lia.
  - cbn [app le_value length]. rewrite IH, Nat2N.inj_succ, N.pow_succ_r'. lia.
Qed.

Lemma be_value_cons b bs : be_value (b :: bs) = b * 256 ^ N.of_nat (length bs) + be_value bs.
Proof.
  unfold be_value. cbn [rev]. rewrite le_value_app, rev_length. cbn [le_value]. lia.
Qed.

Lemma deserialize_be_loop_spec dbg w n : forall ret pre bs post,
  bytes_ok bs = true -> length bs = n -> N.of_nat n <= w -> w <= 8 ->
  ret mod 256 ^ N.of_nat n = 0 -> ret < 256 ^ w ->
  deserialize_be_loop dbg w n (N.of_nat n) ret (length pre) (pre ++ bs ++ post) =
  Ok (ret + be_value bs).
Proof.
  induction n as [|n IH]; intros ret pre bs post Hb Hl Hw Hw8 Hr Hr2.
  - destruct bs; [|discriminate]. cbn. f_equal. lia.
  - destruct bs as [|x bs]; [discriminate|]. injection Hl as Hl.
    apply bytes_cons in Hb. destruct Hb as [Hx Hb].
    cbn [deserialize_be_loop app]. rewrite load_app. cbn [bind].
    rewrite dec32_ok by lia. replace (N.of_nat (S n) - 1) with (N.of_nat n) by lia.
    rewrite mul8_mod by lia.
    unfold assert_. destruct (N.leb_spec (N.of_nat n) w); [|lia].
    cbn [negb]. rewrite andb_false_r. cbn [bind].
    rewrite shl_ok by lia. cbn [bind].
    assert (Hxlt : x * 256 ^ N.of_nat n < 256 ^ N.of_nat (S n)).
    { rewrite Nat2N.inj_succ, N.pow_succ_r'. pose proof (N.pow_nonzero 256 (N.of_nat n)). nia. }
    rewrite (lor_add_mod _ ret (8 * N.of_nat (S n))); [|rewrite pow256; exact Hxlt|rewrite pow256; exact Hr].
    assert (Hsum : ret + x * 256 ^ N.of_nat n < 256 ^ w).
    { pose proof (N.div_mod' ret (256 ^ N.of_nat (S n))) as D. rewrite Hr in D.
      assert (E : 256 ^ w = 256 ^ N.of_nat (S n) * 256 ^ (w - N.of_nat (S n))).
      { rewrite <- N.pow_add_r. f_equal. lia. }
      set (P := 256 ^ N.of_nat (S n)) in *. set (Q := 256 ^ (w - N.of_nat (S n))) in *.
      assert (ret / P < Q) by nia. nia. }
    rewrite pow256, N.mod_small by exact Hsum.
    replace (pre ++ x :: bs ++ post) with ((pre ++ [x]) ++ bs ++ post) by (rewrite <- app_assoc; reflexivity).
    replace (S (length pre)) with (length (pre ++ [x])) by (rewrite app_length; simpl; lia).
    rewrite IH; auto; try lia.
    + rewrite be_value_cons, Hl. f_equal. lia.
    + rewrite Nat2N.inj_succ, N.pow_succ_r' in Hr.
      pose proof (N.pow_nonzero 256 (N.of_nat n)) as NZ.
      rewrite N.mod_add by lia.
      pose proof (N.div_mod' ret (256 * 256 ^ N.of_nat n)) as D. rewrite Hr, N.add_0_r in D.
      rewrite D. rewrite (N.mul_comm 256 (256 ^ N.of_nat n)) at 1. rewrite <- N.mul_assoc.
      rewrite N.mul_comm. apply N.mod_mul. lia.
Qed.

Theorem deserialize_be_spec dbg pre bs post : bytes_ok bs = true -> (length bs <= 8)%nat ->
  deserialize_be dbg (length bs) (length pre) (pre ++ bs ++ post) = Ok (be_value bs).
Proof.
  intros Hb H8. unfold deserialize_be. rewrite deserialize_be_loop_spec; auto; try lia.
  all: try (rewrite N.mod_0_l; [reflexivity|]; apply N.pow_nonzero; lia).
Qed.

Lemma serialize_be_oob_aux dbg w value n : forall p m, n <> O ->
  N.of_nat n <= w -> w <= 8 -> (length m < p + n)%nat ->
  serialize_be_loop dbg w value n (N.of_nat n) p m = UB OutOfBounds.
Proof.
  induction n as [|n IH]; intros p m Hn Hw H8 Hl; [congruence|].
  cbn [serialize_be_loop].
  rewrite dec32_ok by lia. replace (N.of_nat (S n) - 1) with (N.of_nat n) by lia.
  rewrite mul8_mod by lia. unfold assert_.
  destruct (N.ltb_spec 0 (N.of_nat (S n))); [|lia].
  destruct (N.leb_spec (8 * N.of_nat n) (w * 8)); [|lia].
  cbn [negb]. rewrite !andb_false_r. cbn [bind]. rewrite shr_ok by lia. cbn [bind].
  unfold store at 1. destruct (Nat.ltb_spec p (length m)); [|reflexivity]. cbn [bind].
  apply IH; rewrite ?update_length; lia.
Qed.

Theorem serialize_be_oob dbg w value p m : w <> O -> (w <= 8)%nat -> (length m < p + w)%nat ->
  serialize_be dbg w value p m = UB OutOfBounds.
Proof.
  intros Hw H8 H. unfold serialize_be. rewrite serialize_be_oob_aux by lia. reflexivity.
Qed.

(** ** Round trips *)
Theorem le_write_read w v pre old post : (w <= 8)%nat -> v < 256 ^ N.of_nat w -> length old = w ->
  (r <- serialize_le w v (length pre) (pre ++ old ++ post) ;;
   deserialize_le w (length pre) (fst r)) = Ok v.
Proof.
  intros Hw Hv Hl. rewrite serialize_le_spec by exact Hl. cbn [bind fst].
  rewrite <- (le_bytes_length w v) at 1.
  rewrite deserialize_le_spec; [|apply le_bytes_ok|rewrite le_bytes_length; exact Hw].
  rewrite le_value_bytes by exact Hv. reflexivity.
Qed.

Lemma be_bytes_ok w v : bytes_ok (be_bytes w v) = true.
Proof. rewrite be_le_bytes, bytes_ok_rev. apply le_bytes_ok. Qed.

Theorem be_write_read dbg w v pre old post : (w <= 8)%nat -> v < 256 ^ N.of_nat w -> length old = w ->
  (r <- serialize_be dbg w v (length pre) (pre ++ old ++ post) ;;
   deserialize_be dbg w (length pre) (fst r)) = Ok v.
Proof.
  intros Hw Hv Hl. rewrite serialize_be_spec by assumption. cbn [bind fst].
  rewrite <- (be_bytes_length w v) at 1.
  rewrite deserialize_be_spec; [|apply be_bytes_ok|rewrite be_bytes_length; exact Hw].
  rewrite be_value_bytes by exact Hv. reflexivity.
Qed.

Theorem le_read_write pre bs post : bytes_ok bs = true -> (length bs <= 8)%nat ->
  (v <- deserialize_le (length bs) (length pre) (pre ++ bs ++ post) ;;
   serialize_le (length bs) v (length pre) (pre ++ bs ++ post)) =
  Ok (pre ++ bs ++ post, (length pre + length bs)%nat).
Proof.
  intros Hb H8. rewrite deserialize_le_spec by assumption. cbn [bind].
  rewrite serialize_le_spec by reflexivity. rewrite bytes_le_value by exact Hb. reflexivity.
Qed.

Theorem be_read_write dbg pre bs post : bytes_ok bs = true -> (length bs <= 8)%nat ->
  (v <- deserialize_be dbg (length bs) (length pre) (pre ++ bs ++ post) ;;
   serialize_be dbg (length bs) v (length pre) (pre ++ bs ++ post)) =
  Ok (pre ++ bs ++ post, (length pre + length bs)%nat).
Proof.
  intros Hb H8. rewrite deserialize_be_spec by assumption. cbn [bind].
  rewrite serialize_be_spec by auto. rewrite bytes_be_value by exact Hb. reflexivity.
Qed.

(** ** Floats *)
Definition float_ok (f : float32) : Prop := f_expo f < 256 /\ f_frac f < 2 ^ 23.

Lemma float_bits_lt f : float_ok f -> float_bits f < 256 ^ N.of_nat 4.
Proof.
  intros [He Hf]. unfold float_bits. change (256 ^ N.of_nat 4) with 4294967296.
  change (2 ^ 31) with 2147483648. change (2 ^ 23) with 8388608 in *. destruct (f_sign f); lia.
Qed.

Lemma float_of_float_bits f : float_ok f -> float_of_bits (float_bits f) = f.
Proof.
  intros [He Hf]. destruct f as [s e m]. unfold float_of_bits, float_bits. cbn [f_sign f_expo f_frac] in *.
  change (2 ^ 31) with 2147483648. change (2 ^ 23) with 8388608 in *. change (2 ^ 8) with 256.
  f_equal.
  - pose proof (N.testbit_spec' ((if s then 2147483648 else 0) + e * 8388608 + m) 31) as T.
    change (2 ^ 31) with 2147483648 in T.
    destruct (N.testbit _ 31), s; simpl N.b2n in T; try reflexivity; exfalso.
    + rewrite N.div_small in T by lia. discriminate.
    + replace (2147483648 + e * 8388608 + m) with (1 * 2147483648 + (e * 8388608 + m)) in T by lia.
      rewrite N.div_add_l, (N.div_small (e * 8388608 + m)) in T by lia. discriminate.
  - replace ((if s then 2147483648 else 0) + e * 8388608 + m)
      with (((if s then 256 else 0) + e) * 8388608 + m) by (destruct s; lia).
    rewrite N.div_add_l, (N.div_small m) by lia. rewrite N.add_0_r.
    destruct s.
    + replace (256 + e) with (e + 1 * 256) by lia. rewrite N.mod_add by lia. apply N.mod_small; lia.
    + rewrite N.add_0_l. apply N.mod_small; lia.
  - replace ((if s then 2147483648 else 0) + e * 8388608 + m)
      with (m + ((if s then 256 else 0) + e) * 8388608) by (destruct s; lia).
    rewrite N.mod_add by lia. apply N.mod_small; lia.
Qed.

Lemma be_bytes_4 v : be_bytes 4 v = [v / 16777216 mod 256; v / 65536 mod 256; v / 256 mod 256; v mod 256].
Proof.
  unfold be_bytes, nth_byte. cbn [seq map Nat.sub].
  change (256 ^ N.of_nat 3) with 16777216. change (256 ^ N.of_nat 2) with 65536.
  change (256 ^ N.of_nat 1) with 256. change (256 ^ N.of_nat 0) with 1. rewrite N.div_1_r. reflexivity.
Qed.

Lemma float_be_bytes f : float_ok f ->
  be_bytes 4 (float_bits f) = ieee_bytes (f_sign f) (f_expo f) (f_frac f).
Proof.
  intros [He Hf]. rewrite be_bytes_4. destruct f as [s e m]. unfold float_bits, ieee_bytes.
  cbn [f_sign f_expo f_frac] in *. change (2 ^ 31) with 2147483648. change (2 ^ 23) with 8388608 in *.
  set (S := if s then 128 else 0).
  assert (HS : S <= 128) by (unfold S; destruct s; lia).
  replace (if s then 2147483648 else 0) with (S * 16777216) by (unfold S; destruct s; reflexivity).
  clearbody S.
  pose proof (N.div_mod' e 2) as De. pose proof (N.mod_upper_bound e 2 ltac:(lia)) as Me.
  pose proof (N.div_mod' m 65536) as Dm. pose proof (N.mod_upper_bound m 65536 ltac:(lia)) as Mm.
  assert (Hm1 : m / 65536 < 128) by (apply N.div_lt_upper_bound; lia).
  assert (He1 : e / 2 < 128) by (apply N.div_lt_upper_bound; lia).
  assert (E : S * 16777216 + e * 8388608 + m =
    (S + e / 2) * 16777216 + ((e mod 2 * 128 + m / 65536) * 65536 + m mod 65536)) by lia.
  assert (E8 : m mod 65536 = (m / 256 mod 256) * 256 + m mod 256).
  { change 65536 with (256 * 256). rewrite (N.mod_mul_r m 256 256) by lia. lia. }
  pose proof (N.mod_upper_bound (m / 256) 256 ltac:(lia)) as M1.
  pose proof (N.mod_upper_bound m 256 ltac:(lia)) as M2.
  set (a := S + e / 2) in *. set (b := e mod 2 * 128 + m / 65536) in *.
  set (c := m / 256 mod 256) in *. set (d := m mod 256) in *.
  assert (a < 256) by (unfold a; lia). assert (b < 256) by (unfold b; lia).
  rewrite E, E8. clearbody a b c d. clear - H H0 M1 M2.
  f_equal; [|f_equal; [|f_equal; [|f_equal]]].
  - rewrite N.div_add_l, (N.div_small (_ + _)) by lia. rewrite N.add_0_r. apply N.mod_small; lia.
  - replace (a * 16777216 + (b * 65536 + (c * 256 + d))) with ((a * 256 + b) * 65536 + (c * 256 + d)) by lia.
    rewrite N.div_add_l, (N.div_small (_ + _)) by lia. rewrite N.add_0_r.
    rewrite N.add_comm, N.mod_add by lia. apply N.mod_small; lia.
  - replace (a * 16777216 + (b * 65536 + (c * 256 + d))) with ((a * 65536 + b * 256 + c) * 256 + d) by lia.
    rewrite N.div_add_l, (N.div_small d) by lia. rewrite N.add_0_r.
    replace (a * 65536 + b * 256 + c) with (c + (a * 256 + b) * 256) by lia.
    rewrite N.mod_add by lia. apply N.mod_small; lia.
  - replace (a * 16777216 + (b * 65536 + (c * 256 + d))) with (d + (a * 65536 + b * 256 + c) * 256) by lia.
    rewrite N.mod_add by lia. apply N.mod_small; lia.
Qed.

Theorem serialize_float_le_spec f pre old post : float_ok f -> length old = 4%nat ->
  serialize_float_le f (length pre) (pre ++ old ++ post) =
  Ok (pre ++ rev (ieee_bytes (f_sign f) (f_expo f) (f_frac f)) ++ post, (length pre + 4)%nat).
Proof.
  intros Hf Hl. unfold serialize_float_le. rewrite serialize_le_spec by exact Hl.
  rewrite <- float_be_bytes by exact Hf. rewrite be_le_bytes, rev_involutive. reflexivity.
Qed.

Theorem serialize_float_be_spec dbg f pre old post : float_ok f -> length old = 4%nat ->
  serialize_float_be dbg f (length pre) (pre ++ old ++ post) =
  Ok (pre ++ ieee_bytes (f_sign f) (f_expo f) (f_frac f) ++ post, (length pre + 4)%nat).
Proof.
  intros Hf Hl. unfold serialize_float_be. rewrite serialize_be_spec by (auto; lia).
  rewrite <- float_be_bytes by exact Hf. reflexivity.
Qed.

Lemma ieee_length s e m : length (ieee_bytes s e m) = 4%nat.
Proof. reflexivity. Qed.

Lemma ieee_bytes_ok f : float_ok f -> bytes_ok (ieee_bytes (f_sign f) (f_expo f) (f_frac f)) = true.
Proof. intro H. rewrite <- float_be_bytes by exact H. apply be_bytes_ok. Qed.

Lemma ieee_be_value f : float_ok f ->
  be_value (ieee_bytes (f_sign f) (f_expo f) (f_frac f)) = float_bits f.
Proof.
  intro H. rewrite <- float_be_bytes by exact H. apply be_value_bytes, float_bits_lt, H.
Qed.

Theorem deserialize_float_be_spec dbg f pre post : float_ok f ->
  deserialize_float_be dbg (length pre)
    (pre ++ ieee_bytes (f_sign f) (f_expo f) (f_frac f) ++ post) = Ok f.
Proof.
  intro H. unfold deserialize_float_be.
  rewrite <- (ieee_length (f_sign f) (f_expo f) (f_frac f)) at 1.
  rewrite deserialize_be_spec; [|apply ieee_bytes_ok, H|rewrite ieee_length; lia].
  cbn [bind]. rewrite ieee_be_value, float_of_float_bits by exact H. reflexivity.
Qed.

Theorem deserialize_float_le_spec f pre post : float_ok f ->
  deserialize_float_le (length pre)
    (pre ++ rev (ieee_bytes (f_sign f) (f_expo f) (f_frac f)) ++ post) = Ok f.
Proof.
  intro H. unfold deserialize_float_le.
  assert (L : length (rev (ieee_bytes (f_sign f) (f_expo f) (f_frac f))) = 4%nat) by reflexivity.
  rewrite <- L at 1.
  rewrite deserialize_le_spec; [|rewrite bytes_ok_rev; apply ieee_bytes_ok, H|rewrite L; lia].
  cbn [bind]. change (le_value (rev ?x)) with (be_value x).
  rewrite ieee_be_value, float_of_float_bits by exact H. reflexivity.
Qed.

(** Every 4 bytes are the representation of some float: deserialization always gives one. *)
Theorem float_of_bits_ok b : float_ok (float_of_bits b).
Proof.
  unfold float_ok, float_of_bits. cbn. split; apply N.mod_upper_bound; discriminate.
Qed.

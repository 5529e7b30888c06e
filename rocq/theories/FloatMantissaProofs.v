(** parse_mantissa of fast_float collects the significant digits in a big integer. *)
From Verif Require Import Base FloatTextSpec FloatComputeModel FloatParseModel FloatFastModel FloatBigintModel FloatDigitModel
  FloatComputeProofs FloatSwarProofs FloatLexProofs FloatBigintProofs.
Local Open Scope Z_scope.
Local Notation len l := (Z.of_nat (length l)).

(** *** Zeros *)
Lemma decimal_zero_cons c t : is_digit c -> Forall is_digit t -> (decimal (c :: t) =? 0) = ((c =? 48) && (decimal t =? 0))%bool.
Proof.
  unfold is_digit. intros C T. pose proof (decimal_nonneg t T) as DN. cbn [decimal].
  assert (P : 0 < 10 ^ len t) by (apply Z.pow_pos_nonneg; lia).
  destruct (Z.eqb_spec c 48) as [->|N]; cbn [andb]; [f_equal; lia|]. apply Z.eqb_neq. nia.
Qed.
Lemma decimal_zero_app a b : Forall is_digit a -> Forall is_digit b -> (decimal (a ++ b) =? 0) = ((decimal a =? 0) && (decimal b =? 0))%bool.
Proof.
  intros A B. induction A as [|c a C A IH]; [reflexivity|]. cbn [app].
  rewrite !decimal_zero_cons, IH by (try apply Forall_app; auto). apply andb_assoc.
Qed.
Lemma is_truncated_1_spec p : Forall is_digit p -> is_truncated_1 p = negb (decimal p =? 0).
Proof.
  induction 1 as [|c t C T IH]; [reflexivity|]. rewrite decimal_zero_cons by assumption. cbn [is_truncated_1].
  destruct (c =? 48); [exact IH|reflexivity].
Qed.
Lemma digit_bytes c : is_digit c -> byte c = c.
Proof. unfold is_digit, byte. intro C. apply Z.mod_small. lia. Qed.
Lemma memcpy8_zeros {lw : platform} c0 c1 c2 c3 c4 c5 c6 c7 : Forall is_digit [c0; c1; c2; c3; c4; c5; c6; c7] ->
  (memcpy8 c0 c1 c2 c3 c4 c5 c6 c7 =? int_cmp_zeros) = (decimal [c0; c1; c2; c3; c4; c5; c6; c7] =? 0).
Proof.
  intro D. repeat match goal with H : Forall _ (_ :: _) |- _ => let H1 := fresh in pose proof (Forall_inv H) as H1; apply Forall_inv_tail in H end.
  unfold memcpy8, little8. rewrite !digit_bytes by assumption. unfold is_digit, int_cmp_zeros in *. cbn [decimal length].
  repeat match goal with |- context [Z.of_nat ?n] => let v := eval compute in (Z.of_nat n) in change (Z.of_nat n) with v end.
  clear D. apply Bool.eq_iff_eq_true. rewrite !Z.eqb_eq. destruct (big_endian choice); lia.
Qed.

Lemma list_eight (p : list Z) : (length p < 8)%nat \/ exists c0 c1 c2 c3 c4 c5 c6 c7 t, p = c0 :: c1 :: c2 :: c3 :: c4 :: c5 :: c6 :: c7 :: t.
Proof. do 8 (destruct p as [|? p]; [left; cbn; lia|]). right. do 9 eexists. reflexivity. Qed.
Lemma forall_eight c0 c1 c2 c3 c4 c5 c6 c7 t : Forall is_digit (c0 :: c1 :: c2 :: c3 :: c4 :: c5 :: c6 :: c7 :: t) ->
  Forall is_digit [c0; c1; c2; c3; c4; c5; c6; c7] /\ Forall is_digit t.
Proof. intro D. change (Forall is_digit ([c0; c1; c2; c3; c4; c5; c6; c7] ++ t)) in D. apply Forall_app in D. exact D. Qed.

Lemma is_truncated_spec {lw : platform} p : Forall is_digit p -> is_truncated p = negb (decimal p =? 0).
Proof.
  remember (length p) as n eqn:E. assert (L : (length p <= n)%nat) by lia. clear E. revert p L.
  induction n as [|n IH]; intros p L D.
  - destruct p; [reflexivity|cbn in L; lia].
  - destruct (list_eight p) as [S|(c0 & c1 & c2 & c3 & c4 & c5 & c6 & c7 & t & ->)].
    + rewrite <- is_truncated_1_spec by assumption. do 8 (destruct p as [|? p]; [reflexivity|]). cbn in S. lia.
    + apply forall_eight in D. destruct D as [D8 DT]. cbn [is_truncated]. rewrite memcpy8_zeros by assumption.
      change (c0 :: c1 :: c2 :: c3 :: c4 :: c5 :: c6 :: c7 :: t) with ([c0; c1; c2; c3; c4; c5; c6; c7] ++ t).
      rewrite decimal_zero_app by assumption. destruct (decimal [c0; c1; c2; c3; c4; c5; c6; c7] =? 0); cbn [andb negb]; [|reflexivity].
      apply IH; [cbn in L; lia|exact DT].
Qed.

Definition leading (sig : list Z) : Prop := match sig with [] => True | c :: _ => c <> 48 end.
Lemma skip_zeros_1_spec k sig : leading sig -> skip_zeros_1 (repeat 48 k ++ sig) = sig.
Proof.
  intro L. induction k as [|k IH]; [|exact IH]. cbn [repeat app]. destruct sig as [|c sig]; [reflexivity|]. cbn [skip_zeros_1].
  cbn in L. destruct (Z.eqb_spec c 48); [contradiction|reflexivity].
Qed.
Lemma zeros_digits k : Forall is_digit (repeat 48 k).
Proof. induction k; cbn; constructor; [unfold is_digit; lia|assumption]. Qed.
Lemma decimal_zero_repeat p : Forall is_digit p -> decimal p = 0 -> p = repeat 48 (length p).
Proof.
  induction 1 as [|c t C T IH]; intro Z; [reflexivity|]. apply Z.eqb_eq in Z. rewrite decimal_zero_cons in Z by assumption.
  apply andb_true_iff in Z. destruct Z as [Z1 Z2]. cbn [length repeat]. f_equal; [lia|]. apply IH. lia.
Qed.
Lemma skip_zeros_8_spec {lw : platform} n : forall p, (length p <= n)%nat -> Forall is_digit p -> exists k, p = repeat 48 k ++ skip_zeros_8 p.
Proof.
  induction n as [|n IH]; intros p L D; [destruct p; [exists 0%nat; reflexivity|cbn in L; lia]|].
  destruct (list_eight p) as [S|(c0 & c1 & c2 & c3 & c4 & c5 & c6 & c7 & t & ->)].
  - exists 0%nat. do 8 (destruct p as [|? p]; [reflexivity|]). cbn in S. lia.
  - apply forall_eight in D. destruct D as [D8 DT]. cbn [skip_zeros_8]. rewrite memcpy8_zeros by assumption.
    destruct (Z.eqb_spec (decimal [c0; c1; c2; c3; c4; c5; c6; c7]) 0) as [Z|Z]; [|exists 0%nat; reflexivity].
    destruct (IH t) as [k K]; [cbn in L; lia|exact DT|]. exists (8 + k)%nat. apply decimal_zero_repeat in Z; [|exact D8].
    rewrite repeat_app, <- app_assoc, <- K. change (repeat 48 8) with (repeat 48 (length [c0; c1; c2; c3; c4; c5; c6; c7])). rewrite <- Z. reflexivity.
Qed.
Lemma leading_unique k sig k' sig' : leading sig -> leading sig' -> repeat 48 k ++ sig = repeat 48 k' ++ sig' -> sig = sig'.
Proof. intros L L' E. rewrite <- (skip_zeros_1_spec k sig L), E. apply skip_zeros_1_spec, L'. Qed.
Lemma skip_zeros_spec {lw : platform} k sig : Forall is_digit sig -> leading sig -> skip_zeros (repeat 48 k ++ sig) = sig.
Proof.
  intros D L. unfold skip_zeros.
  destruct (skip_zeros_8_spec _ (repeat 48 k ++ sig) (le_n _) ltac:(apply Forall_app; auto using zeros_digits)) as [j J].
  remember (skip_zeros_8 (repeat 48 k ++ sig)) as r. destruct (split_zeros r) as (i & s & -> & LS). rewrite skip_zeros_1_spec by exact LS.
  symmetry. apply (leading_unique k sig (j + i) s L LS). rewrite repeat_app, <- app_assoc. exact J.
Qed.

(** *** The inner loops *)
Section Limbs.
Context {lw : platform}.
Lemma step_fits : 0 < limb_step <= 19 /\ 10 ^ limb_step < 2 ^ width.
Proof. unfold limb_step, width. destruct lw; lia. Qed.
Lemma limb_value value counter : 0 <= value < 10 ^ counter -> 0 <= counter <= limb_step -> limb value.
Proof. intros V C. unfold limb. pose proof step_fits. assert (10 ^ counter <= 10 ^ limb_step) by (apply Z.pow_le_mono_r; lia). lia. Qed.
Lemma value_bound value counter a : 0 <= value < 10 ^ counter -> 0 <= counter -> Forall is_digit a ->
  0 <= value * 10 ^ len a + decimal a < 10 ^ (counter + len a).
Proof.
  intros V C A. pose proof (decimal_bound a A) as B. rewrite Z.pow_add_r by lia.
  assert (0 < 10 ^ len a) by (apply Z.pow_pos_nonneg; lia). nia.
Qed.

Lemma eight_loop_spec max n : forall p value counter digits, (length p <= n)%nat -> Forall is_digit p ->
  0 <= counter <= limb_step -> 0 <= value < 10 ^ counter -> digits <= max ->
  exists a q, p = a ++ q /\
    eight_loop max p value counter digits = (q, value * 10 ^ len a + decimal a, counter + len a, digits + len a) /\
    counter + len a <= limb_step /\ digits + len a <= max.
Proof.
  induction n as [|n IH]; intros p value counter digits L D C V M.
  - destruct p; [|cbn in L; lia]. exists [], []. cbn [eight_loop length decimal app]. change (10 ^ Z.of_nat 0) with 1.
    rewrite Z.mul_1_r, !Z.add_0_r. repeat split; lia.
  - assert (T : forall r, r = (p, value, counter, digits) -> exists a q, p = a ++ q /\
      r = (q, value * 10 ^ len a + decimal a, counter + len a, digits + len a) /\
      counter + len a <= limb_step /\ digits + len a <= max).
    { intros r ->. exists [], p. cbn [length decimal app]. change (10 ^ Z.of_nat 0) with 1. rewrite Z.mul_1_r, !Z.add_0_r. repeat split; lia. }
    destruct (list_eight p) as [S|(c0 & c1 & c2 & c3 & c4 & c5 & c6 & c7 & t & ->)].
    + apply T. do 8 (destruct p as [|? p]; [reflexivity|]). cbn in S. lia.
    + cbn [eight_loop]. destruct ((8 <=? limb_step - counter) && (8 <=? max - digits))%bool eqn:E; [|apply T; reflexivity].
      clear T. apply andb_true_iff in E. destruct E as [E1 E2]. apply Z.leb_le in E1, E2.
      apply forall_eight in D. destruct D as [D8 DT].
      rewrite parse_eight_ok by (apply digits_forallb; exact D8). rewrite decimal_fold, Z.mul_0_l, Z.add_0_l.
      pose proof (value_bound value counter [c0; c1; c2; c3; c4; c5; c6; c7] V ltac:(lia) D8) as VB.
      change (len [c0; c1; c2; c3; c4; c5; c6; c7]) with 8 in VB. change (10 ^ 8) with 100000000 in VB.
      assert (VL : value * 100000000 + decimal [c0; c1; c2; c3; c4; c5; c6; c7] < 2 ^ width) by (apply (limb_value _ (counter + 8)); lia).
      pose proof (decimal_nonneg _ D8) as DN. rewrite (ulimb_small (value * 100000000)) by lia. rewrite ulimb_small by lia.
      destruct (IH t (value * 100000000 + decimal [c0; c1; c2; c3; c4; c5; c6; c7]) (counter + 8) (digits + 8)) as (a & q & -> & R & C' & M');
        [cbn in L; lia|exact DT|lia|exact VB|lia|].
      exists ([c0; c1; c2; c3; c4; c5; c6; c7] ++ a), q. split; [reflexivity|]. rewrite R, decimal_app, app_length, Nat2Z.inj_add.
      change (len [c0; c1; c2; c3; c4; c5; c6; c7]) with 8. rewrite Z.pow_add_r by lia. change (10 ^ 8) with 100000000.
      split; [|lia]. f_equal; [f_equal; [f_equal; ring|lia]|lia].
Qed.
Lemma one_loop_spec max p : Forall is_digit p -> forall value counter digits,
  0 <= counter <= limb_step -> 0 <= value < 10 ^ counter -> digits <= max ->
  exists a q, p = a ++ q /\
    one_loop max p value counter digits = (q, value * 10 ^ len a + decimal a, counter + len a, digits + len a) /\
    counter + len a <= limb_step /\ digits + len a <= max /\ (q = [] \/ counter + len a = limb_step \/ digits + len a = max).
Proof.
  induction 1 as [|c t D DT IH]; intros value counter digits C V M.
  - exists [], []. cbn [one_loop length decimal app]. change (10 ^ Z.of_nat 0) with 1.
    rewrite Z.mul_1_r, !Z.add_0_r. repeat split; auto; lia.
  - cbn [one_loop]. destruct ((counter <? limb_step) && (digits <? max))%bool eqn:E.
    + apply andb_true_iff in E. destruct E as [E1 E2]. apply Z.ltb_lt in E1, E2.
      pose proof (value_bound value counter [c] V ltac:(lia) ltac:(auto)) as VB. cbn [decimal length] in VB.
      change (Z.of_nat 1) with 1 in VB. change (Z.of_nat 0) with 0 in VB. change (10 ^ 1) with 10 in VB. change (10 ^ 0) with 1 in VB. rewrite Z.mul_1_r, Z.add_0_r in VB.
      assert (VL : value * 10 + (c - 48) < 2 ^ width) by (apply (limb_value _ (counter + 1)); lia).
      unfold is_digit in D. pose proof W_pos. rewrite (ulimb_small (value * 10)), (ulimb_small (c - 48)) by lia. rewrite ulimb_small by lia.
      destruct (IH (value * 10 + (c - 48)) (counter + 1) (digits + 1)) as (a & q & -> & R & C' & M' & ST); [lia|exact VB|lia|].
      exists (c :: a), q. split; [reflexivity|]. rewrite R. cbn [decimal length]. rewrite Nat2Z.inj_succ, Z.pow_succ_r by lia.
      split; [f_equal; [f_equal; [f_equal; ring|lia]|lia]|]. repeat split; try lia. destruct ST as [->|ST]; [auto|]. right. lia.
    + exists [], (c :: t). cbn [length decimal app]. change (10 ^ Z.of_nat 0) with 1. rewrite Z.mul_1_r, !Z.add_0_r.
      split; [reflexivity|]. split; [reflexivity|]. split; [lia|]. split; [lia|]. right. apply andb_false_iff in E. rewrite !Z.ltb_ge in E. lia.
Qed.
Lemma power_ok k : 0 <= k <= 19 -> array_at powers_of_ten_uint64 k = Ok (10 ^ k).
Proof.
  intro K. assert (H : forallb (fun i => match array_at powers_of_ten_uint64 (Z.of_nat i) with Ok v => v =? 10 ^ Z.of_nat i | _ => false end) (seq 0 20) = true) by reflexivity.
  rewrite forallb_forall in H. specialize (H (Z.to_nat k) ltac:(apply in_seq; lia)). rewrite Z2Nat.id in H by lia.
  destruct (array_at powers_of_ten_uint64 k) as [v| | | | |]; try discriminate. f_equal. lia.
Qed.

Lemma digits_room n : n <= 770 -> 10 ^ n < room.
Proof. intro N. eapply Z.le_lt_trans; [apply (Z.pow_le_mono_r 10 n 770); lia|]. reflexivity. Qed.
Lemma add_native_spec v power value : wf v -> limb power -> limb value -> 0 < power -> big v * power + value < room ->
  wf (add_native v power value) /\ big (add_native v power value) = big v * power + value.
Proof.
  intros V P A PP R. unfold add_native. pose proof (proj1 (big_bound v (proj1 V))). unfold limb in *.
  destruct (small_mul_spec v power (proj1 V)) as (r & -> & RL & RB & RW); [exact P|lia|]. cbn [snd].
  destruct (small_add_spec r value) as (s & -> & SW & SB); [apply RW; assumption|exact A|lia|]. cbn [snd]. split; [exact SW|]. lia.
Qed.

(** *** The loop over one part *)
(** The digits [a] are taken, [q] is left, [more] tells whether there is something in the other part. *)
Lemma mantissa_loop_spec max more : max <= 769 -> forall fuel p v digits, (length p < fuel)%nat -> Forall is_digit p -> wf v ->
  0 <= digits < max -> big v < 10 ^ digits ->
  exists a q, p = a ++ q /\ (
  (q = [] /\ digits + len a < max /\ exists r, mantissa_loop fuel max more p v 0 0 digits = Ok (false, r, 0, 0, digits + len a) /\
     wf r /\ big r = big v * 10 ^ len a + decimal a) \/
  (digits + len a = max /\ exists r value counter extra, mantissa_loop fuel max more p v 0 0 digits = Ok (true, r, value, counter, max + Z.b2z extra) /\
     extra = (negb (decimal q =? 0) || more)%bool /\
     wf r /\ big r = if extra then 10 * (big v * 10 ^ len a + decimal a) + 1 else big v * 10 ^ len a + decimal a)).
Proof.
  intros MX fuel. induction fuel as [|fuel IH]; intros p v digits L D WF DG BV; [lia|].
  assert (VN : 0 <= big v) by (apply big_bound, WF).
  destruct p as [|c0 p0].
  { exists [], []. split; [reflexivity|]. left. cbn [length decimal]. change (Z.of_nat 0) with 0. rewrite Z.add_0_r. repeat split; [lia|].
    exists v. cbn [mantissa_loop]. repeat split; try assumption; try apply WF. change (10 ^ 0) with 1. lia. }
  cbn [mantissa_loop]. remember (c0 :: p0) as p eqn:EP.
  pose proof step_fits as SF. destruct (eight_loop_spec max (length p) p 0 0 digits (le_n _) D) as (a1 & q1 & E1 & -> & C1 & M1); [lia|change (10 ^ 0) with 1; lia|lia|].
  rewrite Z.mul_0_l, !Z.add_0_l in *. rewrite E1 in D. apply Forall_app in D. destruct D as [DA1 DQ1].
  destruct (one_loop_spec max q1 DQ1 (decimal a1) (len a1) (digits + len a1)) as (a2 & q2 & E2 & -> & C2 & M2 & ST); [lia|apply decimal_bound, DA1|lia|].
  rewrite E2 in DQ1. apply Forall_app in DQ1. destruct DQ1 as [DA2 DQ2].
  remember (a1 ++ a2) as a eqn:EA.
  assert (EPA : p = a ++ q2) by (rewrite E1, E2, EA, app_assoc; reflexivity).
  assert (LA : len a1 + len a2 = len a) by (rewrite EA, app_length; lia).
  assert (VA : decimal a1 * 10 ^ len a2 + decimal a2 = decimal a) by (rewrite EA, decimal_app; reflexivity).
  assert (DA : Forall is_digit a) by (rewrite EA; apply Forall_app; auto).
  rewrite VA. replace (digits + len a1 + len a2) with (digits + len a) in * by lia. rewrite LA in *. clear LA VA EA DA1 DA2 E1 E2 M1 C1 a1 a2 q1.
  assert (NA : 1 <= len a). { destruct a as [|x a]; [|cbn [length]; lia]. exfalso. cbn [app length] in *. subst q2. destruct ST as [ST|[ST|ST]]; [congruence|lia|lia]. }
  destruct SF as [ST1 ST2]. rewrite power_ok by lia. cbn [bind].
  pose proof (decimal_bound a DA) as DB.
  assert (PA : 0 < 10 ^ len a <= 10 ^ limb_step) by (split; [apply Z.pow_pos_nonneg; lia|apply Z.pow_le_mono_r; lia]).
  assert (SZ : big v * 10 ^ len a + decimal a < 10 ^ (digits + len a)) by (rewrite Z.pow_add_r by lia; clear - BV PA DB VN; nia).
  assert (RM : big v * 10 ^ len a + decimal a < room) by (pose proof (digits_room (digits + len a) ltac:(lia)); lia).
  rewrite ulimb_small by lia.
  destruct (add_native_spec v (10 ^ len a) (decimal a) WF) as [WR BR]; [unfold limb; lia|unfold limb; lia|lia|exact RM|].
  remember (add_native v (10 ^ len a) (decimal a)) as r eqn:ER. clear ER.
  destruct (Z.eqb_spec (digits + len a) max) as [EM|NM].
  - exists a, q2. split; [exact EPA|]. right. split; [exact EM|]. rewrite is_truncated_spec by exact DQ2.
    destruct (negb (decimal q2 =? 0) || more)%bool.
    + exists (round_up_bigint r), (decimal a), (len a), true. unfold round_up_bigint.
      pose proof W_pos. destruct (add_native_spec r 10 1 WR) as [W2 B2]; [unfold limb; lia|unfold limb; lia|lia| |].
      { rewrite BR. pose proof (digits_room (digits + len a + 1) ltac:(lia)) as RR. rewrite Z.pow_add_r in RR by lia. change (10 ^ 1) with 10 in RR. lia. }
      cbn [Z.b2z]. rewrite EM. split; [reflexivity|]. split; [reflexivity|]. split; [exact W2|]. rewrite B2, BR. ring.
    + exists r, (decimal a), (len a), false. cbn [Z.b2z]. rewrite Z.add_0_r, EM. auto.
  - destruct (IH q2 r (digits + len a)) as (a' & q' & EQ & R); [rewrite EPA, app_length in L; lia|exact DQ2|exact WR|lia|lia|].
    exists (a ++ a'), q'. split; [rewrite EPA, EQ, app_assoc; reflexivity|].
    assert (VV : big r * 10 ^ len a' + decimal a' = big v * 10 ^ len (a ++ a') + decimal (a ++ a')).
    { rewrite BR, decimal_app, app_length, Nat2Z.inj_add, Z.pow_add_r by lia. ring. }
    rewrite VV in R. rewrite app_length, Nat2Z.inj_add, Z.add_assoc in *. exact R.
Qed.

(** *** The significant digits *)
(** What parse_mantissa makes of the digits [sig]: at most [max] of them, and a 1 for any others. *)
Definition scanned (max : Z) (sig v : list Z) (digits : Z) : Prop :=
  exists a q, sig = a ++ q /\ len a <= max /\ (q <> [] -> len a = max) /\ wf v /\
    if decimal q =? 0 then big v = decimal a /\ digits = len a else big v = 10 * decimal a + 1 /\ digits = len a + 1.

Theorem parse_mantissa_spec max num ip fp k sig : 0 < max <= 769 -> Forall is_digit ip -> Forall is_digit fp ->
  integer num = ip -> (fp = [] /\ fraction num = None) \/ fraction num = Some fp ->
  ip ++ fp = repeat 48 k ++ sig -> leading sig ->
  exists v digits, parse_mantissa num max = Ok (v, digits) /\ scanned max sig v digits.
Proof.
  intros MX DI DF EI EF ES LS. unfold parse_mantissa. rewrite EI.
  destruct (split_zeros ip) as (i & si & EIP & LI).
  assert (DSI : Forall is_digit si) by (rewrite EIP in DI; apply Forall_app in DI; tauto).
  rewrite EIP, skip_zeros_spec by assumption.
  assert (MORE : match fraction num with Some fr => is_truncated fr | None => false end = negb (decimal fp =? 0)).
  { destruct EF as [[-> ->]| ->]; [reflexivity|]. apply is_truncated_spec, DF. }
  rewrite MORE.
  assert (WN : wf []) by (split; [constructor|left; reflexivity]).
  destruct (mantissa_loop_spec max (negb (decimal fp =? 0)) ltac:(lia) (S (length si)) si [] 0 ltac:(lia) DSI WN ltac:(lia) ltac:(cbn; lia))
    as (a & q & EA & [(-> & LT & r & -> & WR & BR)|(LE & r & value & counter & extra & -> & EX & WR & BR)]); cbn [bind]; cbv iota beta.
  - rewrite app_nil_r in EA. subst a. cbn [big] in BR. rewrite Z.mul_0_l, Z.add_0_l in *.
    assert (FR : exists j sf, fp = repeat 48 j ++ sf /\ (if len si =? 0 then skip_zeros fp else fp) = sf /\ sig = si ++ sf /\ Forall is_digit sf).
    { destruct (Z.eqb_spec (len si) 0) as [Z0|Z0].
      - destruct si; [|cbn [length] in Z0; lia]. destruct (split_zeros fp) as (j & sf & EFP & LF). exists j, sf.
        assert (DSF : Forall is_digit sf) by (rewrite EFP in DF; apply Forall_app in DF; tauto).
        split; [exact EFP|]. split; [rewrite EFP; apply skip_zeros_spec; assumption|]. split; [|exact DSF]. cbn [app].
        apply (leading_unique k sig (i + j) sf LS LF). rewrite <- ES, EIP, EFP, app_nil_r, repeat_app, app_assoc. reflexivity.
      - exists 0%nat, fp. split; [reflexivity|]. split; [reflexivity|]. split; [|exact DF].
        apply (leading_unique k sig i (si ++ fp) LS); [|rewrite <- ES, EIP, app_assoc; reflexivity].
        destruct si; [cbn in Z0; lia|exact LI]. }
    destruct FR as (j & sf & EFP & ESF & -> & DSF).
    assert (DONE : fp = [] -> scanned max (si ++ sf) r (len si)).
    { intro N. assert (sf = []) as -> by (rewrite N in EFP; symmetry in EFP; apply app_eq_nil in EFP; tauto).
      exists si, []. repeat split; try lia; try assumption; try apply WR. congruence. }
    destruct EF as [[N ->]| ->].
    + cbn [bind]. cbn [Z.eqb]. exists r, (len si). split; [reflexivity|]. apply DONE, N.
    + rewrite ESF. pose proof (decimal_bound si DSI) as DB.
      destruct (mantissa_loop_spec max false ltac:(lia) (S (length sf)) sf r (len si) ltac:(lia) DSF WR ltac:(lia) ltac:(lia))
        as (a & q & EA & [(-> & LT2 & s & -> & WS & BS)|(LE & s & value & counter & extra & -> & EX & WS & BS)]); cbn [bind]; cbv iota beta.
      * cbn [Z.eqb]. exists s, (len si + len a). split; [reflexivity|]. exists (si ++ a), []. rewrite app_nil_r in EA. subst a.
        rewrite app_nil_r, app_length, Nat2Z.inj_add. cbn [decimal Z.eqb]. repeat split; try lia; try apply WS; [congruence|].
        rewrite BS, BR, decimal_app. reflexivity.
      * exists s, (max + Z.b2z extra). split; [reflexivity|]. exists (si ++ a), q. rewrite EA, app_assoc, app_length, Nat2Z.inj_add, decimal_app.
        rewrite BR in BS. split; [reflexivity|]. split; [lia|]. split; [lia|]. split; [exact WS|].
        rewrite EX, orb_false_r in BS. rewrite EX, orb_false_r. destruct (decimal q =? 0); cbn [negb Z.b2z] in *; split; try assumption; lia.
  - exists r, (max + Z.b2z extra). split; [reflexivity|]. cbn [big] in BR. rewrite Z.mul_0_l, Z.add_0_l in *.
    assert (NS : si <> []). { intros ->. symmetry in EA. apply app_eq_nil in EA. destruct EA as [-> _]. cbn in LE. lia. }
    assert (sig = si ++ fp) as ->.
    { apply (leading_unique k sig i (si ++ fp) LS); [|rewrite <- ES, EIP, app_assoc; reflexivity]. destruct si; [congruence|exact LI]. }
    assert (DQ : Forall is_digit q) by (rewrite EA in DSI; apply Forall_app in DSI; tauto).
    exists a, (q ++ fp). rewrite EA, app_assoc. split; [reflexivity|]. split; [lia|]. split; [lia|]. split; [exact WR|].
    rewrite decimal_zero_app by assumption. rewrite EX, <- negb_andb in BR. rewrite EX, <- negb_andb.
    destruct ((decimal q =? 0) && (decimal fp =? 0))%bool; cbn [negb Z.b2z] in *; split; try assumption; lia.
Qed.
End Limbs.

(** The lexer of fast_float reads the longest beginning of the text that is a number. *)
From Verif Require Import Base FloatComputeModel FloatParseModel FloatComputeProofs FloatTextSpec FloatSwarProofs.
Local Open Scope Z_scope.

Notation len l := (Z.of_nat (length l)).

(** *** Digits *)
Lemma is_digit_integer c : is_digit c <-> is_integer c = true.
Proof. unfold is_digit, is_integer. split; intro; lia. Qed.
Lemma not_digit_integer c : ~ is_digit c <-> is_integer c = false.
Proof. unfold is_digit, is_integer. split; intro; lia. Qed.
Lemma digits_forallb ds : Forall is_digit ds <-> forallb is_integer ds = true.
Proof.
  rewrite forallb_forall, Forall_forall. split; intros H c I; apply is_digit_integer, H, I.
Qed.

Definition no_digit (t : list Z) : Prop := match t with [] => True | c :: _ => ~ is_digit c end.

Lemma split_digits p : exists ds rest, p = ds ++ rest /\ Forall is_digit ds /\ no_digit rest.
Proof.
  induction p as [|c p IH]; [exists [], []; cbn; auto|].
  destruct (is_integer c) eqn:I.
  - destruct IH as (ds & rest & -> & D & N). exists (c :: ds), rest. repeat split; [|exact N].
    constructor; [apply is_digit_integer, I|exact D].
  - exists [], (c :: p). repeat split; [constructor|]. cbn. apply not_digit_integer, I.
Qed.

Lemma decimal_app a b : decimal (a ++ b) = decimal a * 10 ^ len b + decimal b.
Proof.
  induction a as [|c a IH]; [cbn; lia|]. cbn [app decimal]. rewrite IH, app_length, Nat2Z.inj_add, Z.pow_add_r by lia. ring.
Qed.
Lemma decimal_bound ds : Forall is_digit ds -> 0 <= decimal ds < 10 ^ len ds.
Proof.
  induction 1 as [|c t C F IH]; [cbn; lia|]. cbn [decimal length]. rewrite Nat2Z.inj_succ, Z.pow_succ_r by lia.
  unfold is_digit in C. nia.
Qed.
Lemma decimal_zeros k : decimal (repeat 48 k) = 0.
Proof. induction k as [|k IH]; [reflexivity|]. cbn [repeat decimal]. rewrite IH. lia. Qed.
Lemma decimal_fold ds v : fold_left (fun v c => v * 10 + (c - 48)) ds v = v * 10 ^ len ds + decimal ds.
Proof.
  revert v. induction ds as [|c t IH]; intro v; [cbn; lia|]. cbn [fold_left decimal length].
  rewrite IH, Nat2Z.inj_succ, Z.pow_succ_r by lia. ring.
Qed.

(** *** The loops over digits *)
Lemma u64_idem_l a b : u64 (u64 a + b) = u64 (a + b).
Proof. unfold u64. rewrite Zplus_mod_idemp_l. reflexivity. Qed.
Lemma u64_idem_r a b : u64 (a + u64 b) = u64 (a + b).
Proof. unfold u64. rewrite Zplus_mod_idemp_r. reflexivity. Qed.
Lemma u64_mul_idem a b : u64 (a * u64 b) = u64 (a * b).
Proof. unfold u64. rewrite Zmult_mod_idemp_r. reflexivity. Qed.

Lemma digit_loop_spec ds rest i : Forall is_digit ds -> no_digit rest ->
  digit_loop (ds ++ rest) (u64 i) = (rest, u64 (i * 10 ^ len ds + decimal ds)).
Proof.
  intros D N. revert i. induction D as [|c t C F IH]; intro i.
  - cbn [app length]. destruct rest as [|c t]; cbn [digit_loop].
    + cbn [decimal]. f_equal. f_equal. cbn. lia.
    + cbn in N. rewrite (proj1 (not_digit_integer c) N). f_equal. f_equal. cbn. lia.
  - cbn [app digit_loop]. rewrite (proj1 (is_digit_integer c) C).
    rewrite u64_mul_idem, u64_idem_l, u64_idem_r, IH. f_equal. f_equal.
    cbn [length decimal]. rewrite Nat2Z.inj_succ, Z.pow_succ_r by lia. ring.
Qed.

Lemma loop_eight_spec {lw : platform} n : forall p i, (length p <= n)%nat -> Forall is_char p ->
  exists a q, p = a ++ q /\ Forall is_digit a /\
    loop_parse_if_eight_digits p (u64 i) = (q, u64 (i * 10 ^ len a + decimal a)).
Proof.
  induction n as [|n IH]; intros p i L C.
  - destruct p; [|cbn in L; lia]. exists [], []. repeat split; [constructor|]. cbn. f_equal. f_equal. lia.
  - assert (T : exists a q, p = a ++ q /\ Forall is_digit a /\ (p, u64 i) = (q, u64 (i * 10 ^ len a + decimal a))).
    { exists [], p. repeat split; [constructor|]. cbn. f_equal. f_equal. lia. }
    destruct p as [|c0 p]; [exact T|]. destruct p as [|c1 p]; [exact T|]. destruct p as [|c2 p]; [exact T|].
    destruct p as [|c3 p]; [exact T|]. destruct p as [|c4 p]; [exact T|]. destruct p as [|c5 p]; [exact T|].
    destruct p as [|c6 p]; [exact T|]. destruct p as [|c7 p]; [exact T|].
    cbn [loop_parse_if_eight_digits].
    assert (C8 : Forall is_char [c0; c1; c2; c3; c4; c5; c6; c7] /\ Forall is_char p).
    { change (c0 :: c1 :: c2 :: c3 :: c4 :: c5 :: c6 :: c7 :: p) with ([c0; c1; c2; c3; c4; c5; c6; c7] ++ p) in C.
      apply Forall_app in C. exact C. }
    destruct C8 as [C8 CP]. rewrite is_made_ok by exact C8.
    destruct (forallb is_integer [c0; c1; c2; c3; c4; c5; c6; c7]) eqn:E; [|exact T]. clear T.
    rewrite parse_eight_ok by exact E. rewrite (Z.mul_comm (u64 i)), u64_mul_idem, u64_idem_l.
    rewrite decimal_fold, Z.mul_0_l, Z.add_0_l.
    destruct (IH p (100000000 * i + decimal [c0; c1; c2; c3; c4; c5; c6; c7])) as (a & q & -> & A & R);
      [cbn in L; lia|exact CP|].
    exists ([c0; c1; c2; c3; c4; c5; c6; c7] ++ a), q. split; [reflexivity|]. split.
    + apply Forall_app. split; [apply digits_forallb, E|exact A].
    + rewrite R. f_equal. f_equal. rewrite decimal_app, app_length, Nat2Z.inj_add, Z.pow_add_r by lia.
      change (10 ^ len [c0; c1; c2; c3; c4; c5; c6; c7]) with 100000000. ring.
Qed.

(** A run of digits that ends before a non-digit is unique. *)
Lemma digits_unique a b q r : a ++ q = b ++ r -> Forall is_digit a -> Forall is_digit b -> no_digit q -> no_digit r ->
  a = b /\ q = r.
Proof.
  intros E A B. revert b E B. induction A as [|c a C A IH]; intros b E B Q R.
  - destruct b as [|d b]; [auto|]. cbn in E. subst q. inversion B; subst. contradiction.
  - destruct b as [|d b].
    + cbn in E. subst r. contradiction.
    + cbn in E. inversion E; subst. inversion B; subst. destruct (IH b) as [-> ->]; auto.
Qed.

(** Eight at a time and then one by one: the same as one by one. *)
Lemma fraction_loops {lw : platform} ds rest i : Forall is_digit ds -> no_digit rest -> Forall is_char (ds ++ rest) ->
  (let '(p, i) := loop_parse_if_eight_digits (ds ++ rest) (u64 i) in digit_loop p i) =
  (rest, u64 (i * 10 ^ len ds + decimal ds)).
Proof.
  intros D N C. destruct (loop_eight_spec (length (ds ++ rest)) (ds ++ rest) i (le_n _) C) as (a & q & E & A & ->).
  destruct (split_digits q) as (b & r & -> & B & R).
  rewrite app_assoc in E. destruct (digits_unique ds (a ++ b) rest r E D) as [-> ->]; auto.
  { apply Forall_app. auto. }
  rewrite digit_loop_spec by assumption. f_equal. f_equal.
  rewrite decimal_app, app_length, Nat2Z.inj_add, Z.pow_add_r by lia. ring.
Qed.

(** The exponent is exact up to 2^28; above it the digits that follow are dropped. *)
Definition saturated (x x' : Z) : Prop := (x' = x \/ 2 ^ 28 <= x' <= x) /\ x' < 10 * 2 ^ 28.
Lemma exponent_loop_spec ds rest : Forall is_digit ds -> no_digit rest -> forall e, 0 <= e < 10 * 2 ^ 28 ->
  exists e', exponent_loop (ds ++ rest) e = (rest, e') /\ saturated (e * 10 ^ len ds + decimal ds) e'.
Proof.
  intros D N. induction D as [|c t C F IH]; intros e E.
  - cbn [app]. exists e. split; [|split; [left; cbn; lia|lia]]. destruct rest as [|c t]; [reflexivity|].
    cbn [exponent_loop]. cbn in N. rewrite (proj1 (not_digit_integer c) N). reflexivity.
  - cbn [app exponent_loop]. rewrite (proj1 (is_digit_integer c) C). unfold is_digit in C.
    pose proof (decimal_bound t F) as DB. assert (P : 0 < 10 ^ len t) by (apply Z.pow_pos_nonneg; lia).
    destruct (e <? 0x10000000) eqn:S.
    + destruct (IH (10 * e + (c - 48))) as (e' & R & S'); [lia|]. exists e'. split; [exact R|].
      cbn [length decimal]. rewrite Nat2Z.inj_succ, Z.pow_succ_r by lia.
      replace (e * (10 * 10 ^ len t) + ((c - 48) * 10 ^ len t + decimal t))
        with ((10 * e + (c - 48)) * 10 ^ len t + decimal t) by ring. exact S'.
    + destruct (IH e E) as (e' & R & S'). exists e'. split; [exact R|]. destruct S' as [S' LT]. split; [right|exact LT].
      cbn [length decimal]. rewrite Nat2Z.inj_succ, Z.pow_succ_r by lia. change (2 ^ 28) with 0x10000000.
      assert (G : 0x10000000 <= e * 10 ^ len t + decimal t) by nia.
      assert (U : e * 10 ^ len t + decimal t <= e * (10 * 10 ^ len t) + ((c - 48) * 10 ^ len t + decimal t)) by nia.
      change (2 ^ 28) with 0x10000000 in S'. lia.
Qed.

(** *** The explicit exponent *)
Definition rule_of (f : chars_format) : exponent_rule :=
  match f with General => Optional | Scientific => Required | Fixed => Forbidden | Hex => Forbidden end.
Definition saturated_signed (x x' : Z) : Prop := if x <? 0 then saturated (- x) (- x') else saturated x x'.

Lemma saturated_zero x : saturated x 0 -> x = 0.
Proof. intros [[H|H] _]; lia. Qed.
Lemma decimal_nonneg ds : Forall is_digit ds -> 0 <= decimal ds.
Proof. intro F. apply decimal_bound in F. lia. Qed.

(** What parse_exponent finds in a text that does not start with a digit. *)
Lemma parse_exponent_spec fmt q : no_digit q ->
  match parse_exponent fmt q with
  | (rest, Some x') => exists xt x, q = xt ++ rest /\ exponent_text (rule_of fmt) xt x /\ saturated_signed x x' /\ no_digit rest /\
      (forall xt' x1 u, q = xt' ++ u -> exponent_text (rule_of fmt) xt' x1 -> (length xt' <= length xt)%nat)
  | (_, None) => forall xt' x1 u, q = xt' ++ u -> ~ exponent_text (rule_of fmt) xt' x1
  end.
Proof.
  intro Q. unfold parse_exponent.
  assert (SZ : saturated_signed 0 0) by (split; [left|]; reflexivity).
  destruct (has_bit fmt scientific_bit) eqn:SB; cbn [andb].
  2:{ assert (RF : rule_of fmt = Forbidden) by (destruct fmt; (reflexivity || discriminate SB)). rewrite RF.
      exists [], 0. refine (conj eq_refl (conj _ (conj _ (conj _ _)))); [constructor; discriminate|exact SZ|exact Q|].
      intros xt' x1 u _ X. inversion X; subst; [cbn; lia|congruence]. }
  assert (RF : rule_of fmt <> Forbidden) by (destruct fmt; (discriminate || (cbn in SB; discriminate SB))).
  destruct (starts q 101 || starts q 69)%bool eqn:ST.
  - destruct q as [|c q]; [discriminate ST|]. cbn [tl].
    assert (CE : c = 101 \/ c = 69) by (cbn in ST; lia).
    set (sn := if starts q 45 then (true, tl q) else if starts q 43 then (false, tl q) else (false, q)).
    assert (SN : exists s neg q', sn = (neg, q') /\ q = s ++ q' /\ exponent_sign s neg /\
      (s = [] -> match q with c :: _ => c <> 45 /\ c <> 43 | [] => True end)).
    { unfold sn. destruct q as [|d q]; cbn [starts tl].
      - exists [], false, []. repeat split; constructor.
      - destruct (Z.eqb_spec d 45) as [->|N1]; [exists [45], true, q; repeat split; [constructor|discriminate|discriminate]|].
        destruct (Z.eqb_spec d 43) as [->|N2]; [exists [43], false, q; repeat split; [constructor|discriminate|discriminate]|].
        exists [], false, (d :: q). repeat split; [constructor|assumption|assumption]. }
    destruct SN as (s & neg & q' & -> & -> & S & S0).
    (* any exponent text at this place has the same sign *)
    assert (SAME : forall xt' x1 u, c :: s ++ q' = xt' ++ u -> exponent_text (rule_of fmt) xt' x1 ->
      xt' = [] \/ exists ds, xt' = c :: s ++ ds /\ Forall is_digit ds /\ ds <> [] /\ q' = ds ++ u).
    { intros xt' x1 u E X. inversion X as [r R|r c' s' neg' ds R C' S' D NE]; subst; [left; reflexivity|]. right.
      cbn in E. inversion E as [[E1 E2]]. subst c'. exists ds.
      assert (s' = s /\ q' = ds ++ u) as [-> ->]; [|auto].
      rewrite <- app_assoc in E2.
      destruct ds as [|d ds]; [congruence|]. inversion D; subst. unfold is_digit in *.
      inversion S; subst; inversion S'; subst; cbn in E2; cbn in S0;
        try (injection E2; intros; subst; split; reflexivity);
        try (injection E2; intros; subst; exfalso; lia);
        try (split; [reflexivity|exact E2]);
        try (rewrite E2 in S0; specialize (S0 eq_refl); cbn in S0; exfalso; lia). }
    destruct (split_digits q') as (ds & rest & -> & D & N).
    destruct ds as [|d ds].
    + cbn [app] in *.
      assert (M : match rest with c :: _ => negb (is_integer c) | [] => true end = true).
      { destruct rest as [|d rest]; [reflexivity|]. cbn in N. rewrite (proj1 (not_digit_integer d) N). reflexivity. }
      rewrite M.
      assert (NONE : forall xt' x1 u, c :: s ++ rest = xt' ++ u -> exponent_text (rule_of fmt) xt' x1 -> xt' = []).
      { intros xt' x1 u E X. destruct (SAME _ _ _ E X) as [->|(ds & _ & D' & NE & E')]; [reflexivity|].
        destruct ds as [|d ds]; [congruence|]. subst rest. cbn in N. inversion D'; subst. contradiction. }
      destruct (has_bit fmt fixed_bit) eqn:FB; cbn [negb].
      * exists [], 0. refine (conj eq_refl (conj _ (conj _ (conj _ _)))); [|exact SZ|exact Q|].
        { constructor. destruct fmt; (discriminate || (cbn in FB; discriminate FB)). }
        intros xt' x1 u E X. rewrite (NONE _ _ _ E X). cbn. lia.
      * intros xt' x1 u E X. pose proof (NONE _ _ _ E X). subst xt'.
        assert (RR : rule_of fmt = Required) by (destruct fmt; (reflexivity || discriminate FB || discriminate SB)).
        rewrite RR in X. inversion X; congruence.
    + assert (M : match (d :: ds) ++ rest with c :: _ => negb (is_integer c) | [] => true end = false).
      { cbn. inversion D; subst. rewrite (proj1 (is_digit_integer d) H1). reflexivity. }
      rewrite M. destruct (exponent_loop_spec (d :: ds) rest D N 0 ltac:(lia)) as (e' & -> & SAT).
      rewrite Z.mul_0_l, Z.add_0_l in SAT. pose proof (decimal_nonneg _ D) as DN.
      exists (c :: s ++ d :: ds), (if neg then - decimal (d :: ds) else decimal (d :: ds)).
      split; [cbn; rewrite <- app_assoc; reflexivity|]. split; [constructor; try assumption; discriminate|]. split; [|split; [exact N|]].
      * unfold saturated_signed. destruct neg.
        -- destruct (Z.ltb_spec (- decimal (d :: ds)) 0); [rewrite !Z.opp_involutive; exact SAT|].
           assert (Z0 : decimal (d :: ds) = 0) by lia. rewrite Z0 in *. destruct SAT as [[->|SAT] LT]; [split; [left; reflexivity|exact LT]|lia].
        -- destruct (Z.ltb_spec (decimal (d :: ds)) 0); [lia|]. exact SAT.
      * intros xt' x1 u E X. destruct (SAME _ _ _ E X) as [->|(ds' & -> & D' & NE & E')]; [cbn; lia|].
        assert (L : (length ds' <= length (d :: ds))%nat).
        { destruct (split_digits u) as (a & r & -> & A & R). rewrite app_assoc in E'.
          destruct (digits_unique _ _ _ _ E' D) as [E1 E2]; auto; [apply Forall_app; auto|].
          rewrite E1, app_length. lia. }
        cbn [length]. rewrite !app_length. lia.
  - assert (NONE : forall xt' x1 u, q = xt' ++ u -> exponent_text (rule_of fmt) xt' x1 -> xt' = []).
    { intros xt' x1 u E X. inversion X; subst; [reflexivity|]. cbn in ST. exfalso.
      destruct H0 as [-> | ->]; cbn in ST; discriminate. }
    destruct (has_bit fmt fixed_bit) eqn:FB; cbn [negb].
    + exists [], 0. refine (conj eq_refl (conj _ (conj _ (conj _ _)))); [|exact SZ|exact Q|].
      { constructor. destruct fmt; (discriminate || (cbn in FB; discriminate FB)). }
      intros xt' x1 u E X. rewrite (NONE _ _ _ E X). cbn. lia.
    + intros xt' x1 u E X. pose proof (NONE _ _ _ E X). subst xt'.
      assert (RR : rule_of fmt = Required) by (destruct fmt; (reflexivity || discriminate FB || discriminate SB)).
      rewrite RR in X. inversion X; congruence.
Qed.

(** *** More than 19 digits *)
Lemma split_zeros l : exists k sig, l = repeat 48 k ++ sig /\ match sig with [] => True | c :: _ => c <> 48 end.
Proof.
  induction l as [|c l (k & sig & -> & SG)]; [exists 0%nat, []; auto|].
  destruct (Z.eq_dec c 48) as [->|N]; [exists (S k), sig; auto|]. exists 0%nat, (c :: repeat 48 k ++ sig). auto.
Qed.
Lemma zero_loop_zeros k t n : zero_loop (repeat 48 k ++ t) n = zero_loop t (n - Z.of_nat k).
Proof.
  revert n. induction k as [|k IH]; intro n; [cbn [repeat app]; f_equal; lia|].
  cbn [repeat app zero_loop]. change ((48 =? 48) || (48 =? 46))%bool with true. change (48 =? 48) with true. cbv iota.
  rewrite IH. f_equal. lia.
Qed.
Lemma zero_loop_point t n : zero_loop (46 :: t) n = zero_loop t n.
Proof. reflexivity. Qed.
Lemma zero_loop_stop c t n : is_digit c -> c <> 48 -> zero_loop (c :: t) n = n.
Proof.
  unfold is_digit. intros D N. cbn [zero_loop]. destruct ((c =? 48) || (c =? 46))%bool eqn:E; [lia|reflexivity].
Qed.
Lemma zero_loop_le t n : zero_loop t n <= n.
Proof.
  revert n. induction t as [|c t IH]; intro n; cbn [zero_loop]; [lia|]. destruct ((c =? 48) || (c =? 46))%bool; [|lia].
  destruct (c =? 48); [specialize (IH (n - 1))|specialize (IH n)]; lia.
Qed.

(** The number of digits without the leading zeros. *)
Lemma decimal_leading c t : is_digit c -> c <> 48 -> Forall is_digit t -> 10 ^ len t <= decimal (c :: t).
Proof. unfold is_digit. intros. cbn [decimal]. pose proof (decimal_nonneg t H1). nia. Qed.

Lemma zero_loop_count ip point fp more : Forall is_digit ip -> Forall is_digit fp -> (point = [] /\ fp = []) \/ point = [46] ->
  let n := zero_loop (ip ++ point ++ fp ++ more) (len ip + len fp) in
  (n <= 19 -> decimal (ip ++ fp) < 10 ^ 19) /\
  (19 < n -> 10 ^ 19 <= decimal (ip ++ fp)).
Proof.
  intros I F P. destruct (split_zeros ip) as (k & si & -> & SI). apply Forall_app in I. destruct I as [IZ I].
  cbv zeta. rewrite <- !app_assoc, zero_loop_zeros, app_length, repeat_length.
  rewrite (decimal_app (repeat 48 k)), decimal_zeros, Z.mul_0_l, Z.add_0_l.
  rewrite Nat2Z.inj_add. replace (Z.of_nat k + len si + len fp - Z.of_nat k) with (len si + len fp) by lia.
  destruct si as [|c si].
  - (* the integer part is zero *)
    cbn [app length]. destruct (split_zeros fp) as (j & sf & -> & SF). apply Forall_app in F. destruct F as [FZ F].
    rewrite (decimal_app (repeat 48 j)), decimal_zeros, Z.mul_0_l, !Z.add_0_l.
    assert (E : zero_loop (point ++ (repeat 48 j ++ sf) ++ more) (len (repeat 48 j ++ sf)) =
                zero_loop (sf ++ more) (len sf)).
    { destruct P as [[-> P]| ->].
      - apply app_eq_nil in P. destruct P as [P ->]. destruct j; [|discriminate]. reflexivity.
      - cbn [app]. rewrite zero_loop_point, <- app_assoc, zero_loop_zeros. f_equal.
        rewrite app_length, repeat_length. lia. }
    rewrite E. destruct sf as [|c sf].
    + cbn [app decimal length]. split; [lia|]. intro G. pose proof (zero_loop_le more (Z.of_nat 0)). lia.
    + inversion F; subst. cbn [app]. rewrite zero_loop_stop by assumption.
      pose proof (decimal_leading c sf H1 SF H2). pose proof (proj2 (decimal_bound _ F)). cbn [length] in *.
      split; intro G.
      * eapply Z.lt_le_trans; [exact H0|]. apply Z.pow_le_mono_r; lia.
      * eapply Z.le_trans; [|exact H]. apply Z.pow_le_mono_r; lia.
  - inversion I; subst. cbn [app]. rewrite zero_loop_stop by assumption.
    assert (A : Forall is_digit (si ++ fp)) by (apply Forall_app; auto).
    pose proof (decimal_leading c (si ++ fp) H1 SI A) as G1.
    assert (A' : Forall is_digit (c :: si ++ fp)) by (constructor; auto).
    pose proof (proj2 (decimal_bound _ A')) as G2. cbn [length] in *. rewrite app_length in *.
    split; intro G.
    + eapply Z.lt_le_trans; [exact G2|]. apply Z.pow_le_mono_r; lia.
    + eapply Z.le_trans; [|exact G1]. apply Z.pow_le_mono_r; lia.
Qed.

Lemma nineteen_loop_spec l : Forall is_digit l -> forall i, 0 <= i < 10 ^ 19 ->
  exists a p, l = a ++ p /\ nineteen_loop l i = (p, i * 10 ^ len a + decimal a) /\
    i * 10 ^ len a + decimal a < 10 ^ 19 /\ (10 ^ 18 <= i * 10 ^ len a + decimal a \/ p = []).
Proof.
  induction 1 as [|c t C F IH]; intros i B.
  - exists [], []. cbn [length decimal]. rewrite Z.mul_1_r, Z.add_0_r. repeat split; auto; lia.
  - cbn [nineteen_loop]. unfold is_digit in C. destruct (i <? minimal_nineteen_digit_integer) eqn:L.
    + unfold minimal_nineteen_digit_integer in L.
      rewrite (u64_small (i * 10)), (u64_small (c - 48)) by lia. rewrite u64_small by lia.
      destruct (IH (i * 10 + (c - 48))) as (a & p & -> & R & LT & ST); [lia|].
      exists (c :: a), p. cbn [length decimal]. rewrite Nat2Z.inj_succ, Z.pow_succ_r by lia.
      replace (i * (10 * 10 ^ len a) + ((c - 48) * 10 ^ len a + decimal a)) with ((i * 10 + (c - 48)) * 10 ^ len a + decimal a) by ring.
      auto.
    + unfold minimal_nineteen_digit_integer in L. exists [], (c :: t). cbn [length decimal app].
      rewrite Z.mul_1_r, Z.add_0_r. repeat split; try lia; left; lia.
Qed.

(** The result of [shorten]: everything, or the first nineteen digits and the number of the others. *)
Definition shortened (d e : Z) (many : bool) (e' m : Z) : Prop :=
  if many then exists k r, 1 <= k /\ e' = e + k /\ 10 ^ 18 <= m < 10 ^ 19 /\ d = m * 10 ^ k + r /\ 0 <= r < 10 ^ k
  else m = d /\ e' = e /\ d < 10 ^ 19.

Lemma shorten_spec ip point fp more eoi frac exp : Forall is_digit ip -> Forall is_digit fp ->
  (point = [] /\ fp = [] /\ frac = None) \/ (point = [46] /\ frac = Some fp) ->
  let d := decimal (ip ++ fp) in
  let '(many, e', m) := shorten (ip ++ point ++ fp ++ more) eoi ip frac (len ip + len fp) exp (- len fp + exp) (u64 d) in
  shortened d (exp - len fp) many e' m.
Proof.
  intros I F P d. pose proof (decimal_bound _ (proj2 (Forall_app _ _ _) (conj I F))) as DB. fold d in DB.
  unfold shorten. pose proof (zero_loop_count ip point fp more I F) as ZC.
  specialize (ZC ltac:(destruct P as [(-> & -> & _)|(-> & _)]; auto)). cbv zeta in ZC. fold d in ZC.
  assert (SMALL : d < 10 ^ 19 -> shortened d (exp - len fp) false (- len fp + exp) (u64 d)).
  { intro S. unfold shortened. rewrite u64_small by lia. repeat split; [lia|exact S]. }
  destruct (19 <? len ip + len fp) eqn:C1.
  2:{ apply SMALL. eapply Z.lt_le_trans; [apply DB|]. rewrite app_length. apply Z.pow_le_mono_r; lia. }
  destruct (19 <? zero_loop (ip ++ point ++ fp ++ more) (len ip + len fp)) eqn:C2; [|apply SMALL, ZC; lia].
  destruct ZC as [_ ZC]. specialize (ZC ltac:(lia)). clear SMALL.
  destruct (nineteen_loop_spec ip I 0 ltac:(lia)) as (a & p & EI & -> & LT & ST). rewrite Z.mul_0_l, Z.add_0_l in *.
  unfold minimal_nineteen_digit_integer. destruct (1000000000000000000 <=? decimal a) eqn:C3.
  - unfold shortened. exists (len p + len fp), (decimal (p ++ fp)).
    assert (PF : Forall is_digit (p ++ fp)) by (rewrite EI in I; apply Forall_app in I; apply Forall_app; tauto).
    pose proof (decimal_bound _ PF) as PB. rewrite app_length, Nat2Z.inj_add in PB.
    assert (DE : d = decimal a * 10 ^ (len p + len fp) + decimal (p ++ fp)).
    { unfold d. rewrite EI, <- app_assoc, decimal_app, app_length, Nat2Z.inj_add. reflexivity. }
    repeat split; try lia.
    destruct (Z.eq_dec (len p + len fp) 0) as [Z0|]; [|lia]. rewrite Z0 in *. change (10 ^ 0) with 1 in *. lia.
  - destruct ST as [ST| ->]; [lia|]. rewrite app_nil_r in EI. subst a.
    assert (FR : match frac with Some fr => fr | None => [] end = fp) by (destruct P as [(_ & -> & ->)|(_ & ->)]; reflexivity).
    rewrite FR. pose proof (decimal_nonneg _ I) as IN.
    destruct (nineteen_loop_spec fp F (decimal ip) ltac:(lia)) as (b & q & EF & -> & LT2 & ST2).
    unfold shortened, distance. exists (len q), (decimal q).
    assert (QF : Forall is_digit q) by (rewrite EF in F; apply Forall_app in F; tauto).
    pose proof (decimal_bound _ QF) as QB.
    assert (DE : d = (decimal ip * 10 ^ len b + decimal b) * 10 ^ len q + decimal q).
    { unfold d. rewrite EF, !decimal_app, app_length, Nat2Z.inj_add, Z.pow_add_r by lia. ring. }
    assert (Q1 : 1 <= len q).
    { destruct (Z.eq_dec (len q) 0) as [Z0|]; [|lia]. rewrite Z0 in DE, QB. change (10 ^ 0) with 1 in *. lia. }
    repeat split; try lia. destruct ST2 as [|ST2]; [assumption|]. subst q. cbn in Q1. lia.
Qed.

(** *** parse_number_string *)
(** What is known about a number that was read. *)
Record lexed (fmt : chars_format) (s : list Z) (neg : bool) (ip fp xt rest : list Z) (point : list Z) (x x' : Z) (pns : parsed) : Prop := {
  lx_text : s = ((if neg then [45] else []) ++ ip ++ point ++ fp ++ xt) ++ rest;
  lx_ip : Forall is_digit ip;
  lx_fp : Forall is_digit fp;
  lx_some : ip ++ fp <> [];
  lx_point : (point = [] /\ fp = [] /\ fraction pns = None) \/ (point = [46] /\ fraction pns = Some fp);
  lx_exp : exponent_text (rule_of fmt) xt x;
  lx_sat : saturated_signed x x';
  lx_last : lastmatch pns = rest;
  lx_neg : negative pns = neg;
  lx_int : integer pns = ip;
  lx_short : shortened (decimal (ip ++ fp)) (x' - len fp) (too_many_digits pns) (exponent pns) (num_mantissa pns)
}.

(** The first digits and the point of a number at the beginning of a text are those found greedily. *)
Lemma greedy r neg ip point fp q t' neg' d' e' u' :
  Forall is_digit ip -> Forall is_digit fp -> no_digit q ->
  (point = [] /\ fp = [] /\ (forall c t, q = c :: t -> c <> 46)) \/ point = [46] ->
  (neg = false -> match ip ++ point ++ fp ++ q with c :: _ => c <> 45 | [] => True end) ->
  (if neg then [45] else []) ++ ip ++ point ++ fp ++ q = t' ++ u' -> number_text r t' neg' d' e' ->
  neg' = neg /\ ip ++ fp <> [] /\
  ((exponent_text r [] 0 /\ (length t' <= length ((if neg then [45%Z] else []) ++ ip ++ point ++ fp))%nat) \/
   exists xt' x1, t' = (if neg then [45] else []) ++ ip ++ point ++ fp ++ xt' /\ exponent_text r xt' x1 /\ q = xt' ++ u').
Proof.
  intros I F Q P NN E X. inversion X as [neg1 ip' point' fp' xt' x1 I' F' S' P' XT]. subst t' neg1 d' e'. clear X.
  (* the sign *)
  assert (H0 : neg' = neg /\ ip ++ point ++ fp ++ q = ip' ++ point' ++ fp' ++ xt' ++ u').
  { rewrite <- !app_assoc in E. destruct neg, neg'; cbn [app] in E.
    - inversion E. auto.
    - exfalso. destruct ip' as [|c ip'].
      + cbn [app] in *. destruct P' as [[-> ->]| ->]; [congruence|]. cbn in E. discriminate.
      + inversion I'; subst. cbn in E. inversion E; subst. unfold is_digit in *. lia.
    - specialize (NN eq_refl). rewrite E in NN. cbn in NN. congruence.
    - auto. }
  destruct H0 as [-> E']. clear E NN. split; [reflexivity|].
  (* the integer part *)
  assert (H1 : (exists c t ipr, ip = ip' ++ c :: ipr /\ point' ++ fp' ++ xt' ++ u' = c :: t) \/ (ip' = ip /\ point ++ fp ++ q = point' ++ fp' ++ xt' ++ u')).
  { assert (ND : no_digit (point ++ fp ++ q)).
    { destruct P as [(-> & -> & _)| ->]; [exact Q|]. cbn. unfold is_digit. lia. }
    clear - I I' E' ND. revert ip' I' E'. induction I as [|c ip C I IH]; intros ip' I' E'.
    - destruct ip' as [|c' ip']; [right; auto|]. inversion I'; subst. cbn [app] in E'. rewrite E' in ND. cbn in ND. contradiction.
    - destruct ip' as [|c' ip'].
      + left. exists c, (ip ++ point ++ fp ++ q), ip. split; [reflexivity|]. cbn in E'. rewrite E'. reflexivity.
      + cbn in E'. inversion E'; subst. inversion I'; subst. destruct (IH ip') as [(c0 & t & ipr & -> & E2)|[-> E2]]; auto.
        left. exists c0, t, ipr. auto. }
  destruct H1 as [(c & t & ipr & -> & E2)|[-> E2]].
  { apply Forall_app in I. destruct I as [_ I]. inversion I; subst. unfold is_digit in H1.
    assert (point' = [] /\ fp' = []) as [-> ->].
    { destruct P' as [P'| ->]; [exact P'|]. cbn in E2. inversion E2. lia. }
    assert (xt' = []) as ->.
    { inversion XT; subst; [reflexivity|]. cbn in E2. inversion E2. lia. }
    split; [destruct ip'; discriminate|]. left. rewrite !app_nil_r.
    split; [inversion XT; subst; constructor; assumption|]. rewrite !app_length. lia. }
  (* the point *)
  destruct P' as [[-> ->]| ->].
  - cbn [app] in E2. rewrite app_nil_r in S'. split; [destruct ip; [congruence|discriminate]|].
    destruct P as [(-> & -> & NP)| ->].
    + right. exists xt', x1. cbn [app] in *. repeat split; auto.
    + cbn [app] in E2. left.
      assert (xt' = []) as ->.
      { inversion XT; subst; [reflexivity|]. cbn in E2. inversion E2. lia. }
      split; [inversion XT; subst; constructor; assumption|]. cbn [app]. rewrite !app_nil_r, !app_length. lia.
  - cbn [app] in E2. destruct P as [(-> & -> & NP)| ->].
    { cbn [app] in E2. destruct (NP _ _ E2). reflexivity. }
    cbn [app] in E2. inversion E2 as [E3]. clear E2.
    (* the fraction *)
    assert (H1 : (exists c t fpr, fp = fp' ++ c :: fpr /\ xt' ++ u' = c :: t) \/ (fp' = fp /\ q = xt' ++ u')).
    { clear - F F' E3 Q. revert fp' F' E3. induction F as [|c fp C F IH]; intros fp' F' E3.
      - destruct fp' as [|c' fp']; [right; auto|]. inversion F'; subst. cbn [app] in E3. rewrite E3 in Q. cbn in Q. contradiction.
      - destruct fp' as [|c' fp'].
        + left. exists c, (fp ++ q), fp. split; [reflexivity|]. cbn in E3. rewrite E3. reflexivity.
        + cbn in E3. inversion E3; subst. inversion F'; subst. destruct (IH fp') as [(c0 & t & fpr & -> & E2)|[-> E2]]; auto.
          left. exists c0, t, fpr. auto. }
    destruct H1 as [(c & t & fpr & -> & E4)|[-> ->]].
    + apply Forall_app in F. destruct F as [_ F]. inversion F; subst. unfold is_digit in H1.
      assert (xt' = []) as ->.
      { inversion XT; subst; [reflexivity|]. cbn in E4. inversion E4. lia. }
      split; [destruct ip; [destruct fp'; discriminate|discriminate]|]. left.
      split; [inversion XT; subst; constructor; assumption|]. cbn [app]. rewrite app_nil_r, !app_length. cbn [length]. rewrite !app_length. lia.
    + split; [exact S'|]. right. exists xt', x1. repeat split; auto.
Qed.

(** The platform does not matter. *)
Lemma loop8_platform (lw lw' : platform) : forall n p i, (length p <= n)%nat ->
  loop_parse_if_eight_digits (lw := lw) p i = loop_parse_if_eight_digits (lw := lw') p i.
Proof.
  induction n as [|n IH]; intros p i L; [destruct p; [reflexivity|cbn in L; lia]|].
  destruct p as [|c0 [|c1 [|c2 [|c3 [|c4 [|c5 [|c6 [|c7 p]]]]]]]]; try reflexivity. cbn [loop_parse_if_eight_digits length] in *.
  rewrite !read8_word. destruct (is_made_of_eight_digits_fast _); [apply IH; lia|reflexivity].
Qed.
Lemma parse_platform (lw lw' : platform) fmt s : parse_number_string (lw := lw) fmt s = parse_number_string (lw := lw') fmt s.
Proof.
  unfold parse_number_string. destruct (deref s); [|reflexivity..]. cbn [bind]. destruct (_ && _)%bool; [reflexivity|].
  destruct (digit_loop _ 0) as [p i]. rewrite (loop8_platform lw lw' _ (tl p) i (le_n _)). reflexivity.
Qed.

Theorem parse_number_string_spec {lw : platform} fmt s : s <> [] -> Forall is_char s ->
  exists pns, parse_number_string fmt s = Ok pns /\
  if valid pns
  then exists neg ip fp xt rest point x x', lexed fmt s neg ip fp xt rest point x x' pns /\
         forall t' u' neg' d' e', s = t' ++ u' -> number_text (rule_of fmt) t' neg' d' e' ->
           (length t' <= length ((if neg then [45%Z] else []) ++ ip ++ point ++ fp ++ xt))%nat
  else forall t' u' neg' d' e', s = t' ++ u' -> ~ number_text (rule_of fmt) t' neg' d' e'.
Proof.
  intros NE C. destruct s as [|c0 s0]; [congruence|]. clear NE. unfold parse_number_string. cbn [deref bind].
  assert (SGN : exists neg p, (c0 =? 45) = neg /\ (if neg then tl (c0 :: s0) else c0 :: s0) = p /\
    c0 :: s0 = (if neg then [45] else []) ++ p /\ Forall is_char p /\ (neg = false -> match p with c :: _ => c <> 45 | [] => True end)).
  { destruct (Z.eqb_spec c0 45) as [->|N].
    - exists true, s0. cbn. repeat split; auto. + inversion C; assumption. + discriminate.
    - exists false, (c0 :: s0). cbn. repeat split; auto. }
  destruct SGN as (neg & p & -> & -> & ES & CP & NN). rewrite ES. clear ES C c0 s0.
  destruct (split_digits p) as (ip & p1 & -> & I & N1).
  assert (PT : exists point fp q, p1 = point ++ fp ++ q /\ Forall is_digit fp /\ no_digit q /\
    ((starts p1 46 = false /\ point = [] /\ fp = [] /\ (forall c t, q = c :: t -> c <> 46)) \/ (starts p1 46 = true /\ point = [46]))).
  { destruct p1 as [|c p1]; [exists [], [], []; repeat split; auto; left; repeat split; discriminate|].
    cbn [starts]. destruct (Z.eqb_spec c 46) as [->|NP].
    - destruct (split_digits p1) as (fp & q & -> & F & N). exists [46], fp, q. repeat split; auto.
    - exists [], [], (c :: p1). repeat split; auto. left. repeat split; auto. intros c' t E. inversion E; subst. exact NP. }
  destruct PT as (point & fp & q & -> & F & N2 & PT).
  assert (PG : (point = [] /\ fp = [] /\ (forall c t, q = c :: t -> c <> 46)) \/ point = [46]) by tauto.
  (* no number begins here unless there is a digit *)
  destruct (neg && match ip ++ point ++ fp ++ q with [] => true | c :: _ => negb (is_integer c) && negb (c =? 46) end)%bool eqn:ERR.
  { apply andb_true_iff in ERR. destruct ERR as [-> ERR]. exists (report_parse_error (ip ++ point ++ fp ++ q)). split; [reflexivity|]. cbn [valid report_parse_error].
    intros t' u' neg' d' e' E X. destruct (greedy _ true _ _ _ _ _ _ _ _ _ I F N2 PG NN E X) as (_ & S & _).
    destruct ip as [|c ip].
    - cbn [app] in *. destruct PG as [(-> & -> & _)| ->]; [congruence|]. cbn in ERR. discriminate.
    - cbn in ERR. inversion I; subst. rewrite (proj1 (is_digit_integer c) H1) in ERR. discriminate. }
  clear ERR.
  change 0 with (u64 0) at 1. rewrite digit_loop_spec by assumption. rewrite Z.mul_0_l, Z.add_0_l.
  assert (DI : distance (ip ++ point ++ fp ++ q) (point ++ fp ++ q) = len ip) by (unfold distance; rewrite app_length; lia).
  assert (SI : span_of (ip ++ point ++ fp ++ q) (point ++ fp ++ q) = ip).
  { unfold span_of. rewrite (app_length ip). replace (_ + _ - _)%nat with (length ip + 0)%nat by lia.
    rewrite firstn_app_2. cbn. apply app_nil_r. }
  rewrite DI, SI. clear DI SI.
  set (mid := if starts (point ++ fp ++ q) 46 then _ else _).
  assert (MID : exists frac, mid = (q, u64 (decimal (ip ++ fp)), - len fp, frac) /\
    ((point = [] /\ fp = [] /\ frac = None) \/ (point = [46] /\ frac = Some fp))).
  { subst mid. destruct PT as [(-> & -> & -> & _)|(-> & ->)].
    - exists None. rewrite app_nil_r. cbn. auto.
    - exists (Some fp). split; [|auto]. cbn [app tl].
      assert (CF : Forall is_char (fp ++ q)) by (apply Forall_app in CP; destruct CP as [_ CP]; inversion CP; assumption).
      pose proof (fraction_loops fp q (decimal ip) F N2 CF) as FL.
      destruct (loop_parse_if_eight_digits (fp ++ q) (u64 (decimal ip))) as [p' i']. rewrite FL.
      assert (DF : distance (fp ++ q) q = len fp) by (unfold distance; rewrite app_length; lia).
      assert (SF : span_of (fp ++ q) q = fp).
      { unfold span_of. rewrite app_length. replace (_ + _ - _)%nat with (length fp + 0)%nat by lia.
        rewrite firstn_app_2. cbn. apply app_nil_r. }
      rewrite DF, SF, decimal_app. reflexivity. }
  destruct MID as (frac & -> & FR).
  replace (len ip - - len fp) with (len ip + len fp) by lia.
  destruct (Z.eqb_spec (len ip + len fp) 0) as [Z0|Z0].
  { exists (report_parse_error q). split; [reflexivity|]. cbn [valid report_parse_error].
    intros t' u' neg' d' e' E X. destruct (greedy _ neg _ _ _ _ _ _ _ _ _ I F N2 PG NN E X) as (_ & S & _).
    apply S. destruct ip; [|cbn [length] in Z0; lia]. destruct fp; [reflexivity|cbn [length] in Z0; lia]. }
  pose proof (parse_exponent_spec fmt q N2) as PE. destruct (parse_exponent fmt q) as [rest [x'|]].
  - destruct PE as (xt & x & -> & XT & SAT & NR & LONG).
    pose proof (shorten_spec ip point fp (xt ++ rest) (point ++ fp ++ xt ++ rest) frac x' I F FR) as SH. cbv zeta in SH.
    destruct (shorten (ip ++ point ++ fp ++ xt ++ rest) (point ++ fp ++ xt ++ rest) ip frac (len ip + len fp) x' (- len fp + x')
      (u64 (decimal (ip ++ fp)))) as [[many e'] m].
    eexists. split; [reflexivity|]. cbn [valid].
    exists neg, ip, fp, xt, rest, point, x, x'. split.
    + constructor; cbn; auto.
      * rewrite <- !app_assoc. reflexivity.
      * intro S. apply Z0. apply app_eq_nil in S. destruct S as [-> ->]. reflexivity.
    + intros t' u' neg' d' e0 E X. destruct (greedy _ neg _ _ _ _ _ _ _ _ _ I F N2 PG NN E X) as (_ & _ & [[_ L]|(xt' & x1 & -> & X' & E')]).
      * rewrite !app_length in *. lia.
      * specialize (LONG _ _ _ E' X'). rewrite !app_length. lia.
  - exists (report_parse_error rest). split; [reflexivity|]. cbn [valid report_parse_error].
    intros t' u' neg' d' e0 E X. destruct (greedy _ neg _ _ _ _ _ _ _ _ _ I F N2 PG NN E X) as (_ & _ & [[X0 _]|(xt' & x1 & -> & X' & E')]).
    + exact (PE [] 0 q eq_refl X0).
    + exact (PE _ _ _ E' X').
Qed.

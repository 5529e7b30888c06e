(** fast_float::from_chars finds the longest beginning that denotes something and rounds it correctly. *)
From Verif Require Import FloatPlatform Base FloatSpec FloatTextSpec FloatFromSpec FloatComputeModel FloatParseModel FloatFastModel FloatBigintModel FloatDigitModel FloatFromModel
  FloatRoundProofs FloatComputeProofs FloatEiselProofs FloatSwarProofs FloatLexProofs FloatNamesProofs FloatFastProofs FloatDigitProofs FloatSlowProofs.
Local Open Scope Z_scope.
Local Notation len l := (Z.of_nat (length l)).

Section From.
Context {lw : platform} (b : binary) (f : format) (SUP : supported b f).
Local Notation mb := (mantissa_explicit_bits b).

Definition out_of_range (n d : Z) : bool := (n =? infinity f) || ((n =? 0) && negb (d =? 0)).
Lemma out_of_range_ok n d : out_of_range n d = true <-> n = infinity f \/ n = 0 /\ d <> 0.
Proof.
  unfold out_of_range. destruct (Z.eqb_spec n (infinity f)); destruct (Z.eqb_spec n 0); destruct (Z.eqb_spec d 0); cbn; split; intro H;
    try reflexivity; try discriminate; try (left; assumption); try (right; split; assumption); destruct H as [H|[H1 H2]]; contradiction.
Qed.

Lemma least_middle : middle f 0 = 1 /\ 2 * 2 ^ (mb + 1) * 10 ^ max_exponent_fast_path b * 2 ^ unit_exp f < middle f (infinity f - 1) /\
  10 ^ max_exponent_fast_path b < 2 * 2 ^ unit_exp f /\ 0 < infinity f /\ min_exponent_fast_path b = - max_exponent_fast_path b.
Proof. destruct SUP; vm_compute; repeat split; discriminate. Qed.

(** What the fast path takes is within the range. *)
Lemma fast_in_range m e n : 0 <= m <= 2 ^ (mb + 1) -> min_exponent_fast_path b <= e <= max_exponent_fast_path b ->
  nearest_decimal f m e n -> out_of_range n m = false.
Proof.
  intros M E H. destruct least_middle as (L0 & LI & LU & IP & ME). unfold nearest_decimal, dec_num, dec_den in H.
  apply (proj1 (nearest_unfold f _ _ _)) in H. destruct H as (R & LO & HI).
  assert (P1 : 0 < 10 ^ Z.max e 0 <= 10 ^ max_exponent_fast_path b) by (split; [apply Z.pow_pos_nonneg|apply Z.pow_le_mono_r]; lia).
  assert (P2 : 0 < 10 ^ Z.max (- e) 0 <= 10 ^ max_exponent_fast_path b) by (split; [apply Z.pow_pos_nonneg|apply Z.pow_le_mono_r]; lia).
  assert (UP : 0 < 2 ^ unit_exp f) by (apply Z.pow_pos_nonneg; clear - SUP; destruct SUP; cbn; lia).
  remember (10 ^ Z.max e 0) as u eqn:EU. remember (10 ^ Z.max (- e) 0) as w eqn:EW. clear EU EW.
  remember (2 ^ unit_exp f) as U eqn:EUU. clear EUU. remember (10 ^ max_exponent_fast_path b) as X eqn:EX. clear EX. remember (2 ^ (mb + 1)) as Y eqn:EY. clear EY.
  unfold out_of_range. destruct (Z.eqb_spec n (infinity f)) as [NI|NI]; cbn [orb].
  - exfalso. rewrite NI in LO. destruct (LO IP) as [A _].
    assert (A1 : m * u <= Y * X) by (clear - M P1; nia). assert (A2 : 2 * (m * u) * U <= 2 * Y * X * U) by (clear - A1 UP; nia).
    remember (middle f (infinity f - 1)) as z eqn:EZ. clear EZ.
    assert (Z0 : 0 <= 2 * Y * X * U) by (clear - M P1 UP; assert (0 <= Y * X) by nia; nia).
    clear - A A2 LI P2 Z0. nia.
  - destruct (Z.eqb_spec n 0) as [N0|N0]; cbn [andb]; [|reflexivity]. destruct (Z.eqb_spec m 0) as [M0|M0]; [reflexivity|]. exfalso.
    rewrite N0 in HI. destruct (HI IP) as [A _]. rewrite L0 in A. assert (1 <= m * u) by (clear - M M0 P1; nia).
    clear - A H UP LU P2. nia.
Qed.

(** The test for the range on the adjusted mantissa. *)
Lemma am_range am n d m : am_pattern b am n -> n <= infinity f -> (m = 0 <-> d = 0) ->
  ((negb (m =? 0) && (mantissa am =? 0) && (power2 am =? 0)) || (power2 am =? infinite_power b))%bool = out_of_range n d.
Proof.
  intros A N MD. unfold out_of_range. pose proof (infinity_value b f SUP) as IV. pose proof (B_bounds b f SUP) as BB.
  assert (IP : 255 <= infinite_power b) by (clear - SUP; destruct SUP; cbn; lia).
  replace (m =? 0) with (d =? 0) by (destruct (Z.eqb_spec m 0), (Z.eqb_spec d 0); tauto || reflexivity).
  remember (2 ^ mb) as B eqn:EB. unfold am_pattern in A. cbv zeta in A. rewrite <- EB in A.
  assert (E1 : (power2 am =? infinite_power b) = (n =? infinity f)).
  { rewrite IV in *. apply eq_true_iff_eq. rewrite !Z.eqb_eq. destruct A as [(M & P & ->)|(M & P & ->)].
    - split; intro H; nia.
    - split; intro H; nia. }
  assert (E2 : ((mantissa am =? 0) && (power2 am =? 0))%bool = (n =? 0)).
  { apply eq_true_iff_eq. rewrite andb_true_iff, !Z.eqb_eq. destruct A as [(M & P & ->)|(M & P & ->)]; split; intro H; nia. }
  rewrite E1, <- andb_assoc, E2, orb_comm, (andb_comm (negb _)). reflexivity.
Qed.

Lemma am_eqb_pattern am am' n n' : am_eqb am am' = true -> am_pattern b am n -> am_pattern b am' n' -> n = n'.
Proof.
  unfold am_eqb. rewrite andb_true_iff, !Z.eqb_eq. intros [E1 E2] A A'. unfold am_pattern in *. cbv zeta in *. rewrite E1, E2 in A.
  pose proof (B_bounds b f SUP). lia.
Qed.
Lemma am_pattern_power am n : am_pattern b am n -> 0 <= power2 am.
Proof. intros [A|A]; lia. Qed.

(** A cut off mantissa and the next one enclose the number. *)
Lemma shortened_begins d e e' m : shortened d e true e' m ->
  dec_num m e' * dec_den e <= dec_num d e * dec_den e' /\ dec_num d e * dec_den e' <= dec_num (m + 1) e' * dec_den e.
Proof.
  intros (k & r & K & -> & M & -> & R). destruct (dec_cross m (m * 10 ^ k + r) e k ltac:(lia)) as (c & C & A1 & A2).
  destruct (dec_cross (m + 1) (m * 10 ^ k + r) e k ltac:(lia)) as (c' & C' & B1 & B2).
  split; [rewrite A1, A2; nia|rewrite B1, B2; nia].
Qed.

(** *** A lexed number *)
Theorem from_chars_pns_spec rm pns ip fp e : Forall is_digit ip -> Forall is_digit fp -> integer pns = ip ->
  (fp = [] /\ fraction pns = None) \/ fraction pns = Some fp ->
  shortened (decimal (ip ++ fp)) e (too_many_digits pns) (exponent pns) (num_mantissa pns) ->
  exists n, nearest_decimal f (decimal (ip ++ fp)) e n /\
    from_chars_pns b f rm pns = Ok {| res_rest := lastmatch pns;
      res_ec := if out_of_range n (decimal (ip ++ fp)) then OutOfRange else NoError;
      res_value := Some (signed_pattern f (negative pns) n) |}.
Proof.
  intros FI FF EI EF SH.
  assert (D0 : 0 <= decimal (ip ++ fp)) by (apply decimal_nonneg, Forall_app; auto).
  assert (MB : 0 <= num_mantissa pns < 10 ^ 19 /\ (num_mantissa pns = 0 <-> decimal (ip ++ fp) = 0)).
  { unfold shortened in SH. destruct (too_many_digits pns).
    - destruct SH as (k & r & K & _ & M & D & R). assert (0 < 10 ^ k) by (apply Z.pow_pos_nonneg; lia). split; [lia|]. split; intro; nia.
    - destruct SH as (-> & _ & D). split; [lia|reflexivity]. }
  destruct MB as [MB MD]. unfold from_chars_pns.
  destruct (fast_path_spec b f SUP rm pns ltac:(lia)) as (o & -> & FP). cbn [bind]. destruct o as [v|].
  - destruct FP as (n & -> & NR & TM & EB & MM). rewrite TM in SH. destruct SH as (EM & EE & _). rewrite EM, EE in NR.
    exists n. split; [exact NR|]. rewrite (fast_in_range (decimal (ip ++ fp)) e n); [reflexivity|lia|lia|exact NR].
  - clear FP. destruct (compute_float_spec b f SUP (exponent pns) (num_mantissa pns) ltac:(lia)) as (am & n & CF & AP & NR). rewrite CF. cbn [bind].
    pose proof (am_pattern_power am n AP) as PP. replace (0 <=? power2 am) with true by lia. rewrite andb_true_r.
    (* the last steps *)
    assert (LAST : forall am n, am_pattern b am n -> nearest_decimal f (decimal (ip ++ fp)) e n ->
      exists n, nearest_decimal f (decimal (ip ++ fp)) e n /\
      Ok {| res_rest := lastmatch pns; res_ec := if ((negb (num_mantissa pns =? 0) && (mantissa am =? 0) && (power2 am =? 0)) || (power2 am =? infinite_power b))%bool then OutOfRange else NoError;
            res_value := Some (to_float b (negative pns) am) |} =
      Ok {| res_rest := lastmatch pns; res_ec := if out_of_range n (decimal (ip ++ fp)) then OutOfRange else NoError;
        res_value := Some (signed_pattern f (negative pns) n) |}).
    { clear am n CF AP NR PP. intros am n AP NR. exists n. split; [exact NR|]. rewrite (to_float_pattern b f SUP am n (negative pns) AP).
      rewrite (am_range am n (decimal (ip ++ fp))); [reflexivity|exact AP| |exact MD].
      apply (proj1 (nearest_unfold f _ _ _)) in NR. apply NR. }
    destruct (too_many_digits pns) eqn:TM.
    + rewrite u64_small by lia.
      destruct (compute_float_spec b f SUP (exponent pns) (num_mantissa pns + 1) ltac:(lia)) as (am' & n' & CF' & AP' & NR'). rewrite CF'. cbn [bind].
      destruct (shortened_begins _ _ _ _ SH) as [B1 B2].
      destruct (am_eqb am am') eqn:EQ; cbn [negb bind].
      * replace (power2 am <? 0) with false by lia. cbn [bind]. apply (LAST am n AP).
        pose proof (am_eqb_pattern _ _ _ _ EQ AP AP') as NN. rewrite <- NN in NR'.
        refine (nearest_between f _ _ _ _ _ _ _ n _ _ _ B1 B2 NR NR'); try apply dec_den_pos; apply (supported_good b f SUP).
      * (* the slow path *)
        assert (QB : smallest_power_of_ten b <= exponent pns <= largest_power_of_ten b).
        { assert (MP : 10 ^ 18 <= num_mantissa pns) by (destruct SH as (? & ? & ? & ? & ? & ?); lia).
          unfold compute_float in CF, CF'. replace (num_mantissa pns =? 0) with false in CF by lia. replace (num_mantissa pns + 1 =? 0) with false in CF' by lia.
          cbn [orb] in CF, CF'. destruct (Z.ltb_spec (exponent pns) (smallest_power_of_ten b)).
          { assert (am = am') as -> by congruence. unfold am_eqb in EQ. rewrite !Z.eqb_refl in EQ. discriminate. }
          destruct (Z.ltb_spec (largest_power_of_ten b) (exponent pns)).
          { assert (am = am') as -> by congruence. unfold am_eqb in EQ. rewrite !Z.eqb_refl in EQ. discriminate. }
          lia. }
        destruct (slow_path_spec b f SUP pns ip fp e FI FF EI EF SH QB) as (am0 & am1 & n1 & -> & PN & DC & AP1 & NR1). cbn [bind].
        replace (power2 am0 <? 0) with true by lia. rewrite DC. cbn [bind]. apply (LAST am1 n1 AP1 NR1).
    + cbn [bind]. replace (power2 am <? 0) with false by lia. cbn [bind]. apply (LAST am n AP). destruct SH as (<- & <- & _). exact NR.
Qed.

(** *** The saturated exponent *)
Lemma tiny d e L : 0 <= d < 10 ^ L -> 0 <= L -> e + L <= -400 -> nearest_decimal f d e 0.
Proof.
  intros D L0 E. unfold nearest_decimal, dec_num, dec_den. rewrite Z.max_r, Z.max_l by lia. apply (proj2 (nearest_unfold f _ _ _)).
  destruct least_middle as (M0 & _ & _ & IP & _). split; [lia|]. split; [lia|]. intros _. change (10 ^ 0) with 1. rewrite M0, Z.mul_1_r, Z.mul_1_l.
  assert (U : 2 * 2 ^ unit_exp f <= 10 ^ 400) by (clear - SUP; destruct SUP; vm_compute; discriminate).
  assert (UP : 0 < 2 ^ unit_exp f) by (apply Z.pow_pos_nonneg; clear - SUP; destruct SUP; cbn; lia).
  assert (X : 10 ^ L * 10 ^ 400 <= 10 ^ (- e)) by (rewrite <- Z.pow_add_r by lia; apply Z.pow_le_mono_r; lia).
  remember (10 ^ 400) as y. remember (10 ^ L) as z. remember (10 ^ (- e)) as w. remember (2 ^ unit_exp f) as u.
  assert (2 * d * u < w) by (clear - U UP X D; assert (2 * d * u < z * y) by nia; lia). lia.
Qed.
Lemma zero_decimal e : nearest_decimal f 0 e 0.
Proof.
  unfold nearest_decimal, dec_num. rewrite Z.mul_0_l. apply (proj2 (nearest_unfold f _ _ _)).
  destruct least_middle as (M0 & _ & _ & IP & _). split; [lia|]. split; [lia|]. intros _. rewrite M0. pose proof (dec_den_pos e). lia.
Qed.

Lemma saturation_harmless ip fp x x' n : Forall is_digit ip -> Forall is_digit fp -> saturated_signed x x' ->
  - 2 ^ 28 < x < 2 ^ 28 \/ len ip + len fp + 400 <= 2 ^ 28 ->
  nearest_decimal f (decimal (ip ++ fp)) (x' - len fp) n -> nearest_decimal f (decimal (ip ++ fp)) (x - len fp) n.
Proof.
  intros FI FF S C NR. assert (FD : Forall is_digit (ip ++ fp)) by (apply Forall_app; auto).
  pose proof (decimal_bound _ FD) as DB. rewrite app_length, Nat2Z.inj_add in DB. pose proof (supported_good b f SUP) as G.
  remember (decimal (ip ++ fp)) as d eqn:ED. clear ED FD FI FF.
  assert (DN : forall e, 0 <= dec_num d e) by (intro e; unfold dec_num; assert (0 < 10 ^ Z.max e 0) by (apply Z.pow_pos_nonneg; lia); nia).
  assert (UN : forall n2, nearest_decimal f d (x' - len fp) n2 -> nearest_decimal f d (x - len fp) n2 -> nearest_decimal f d (x - len fp) n).
  { intros n2 A1 A2. pose proof (nearest_unique f G _ _ n n2 (dec_den_pos _) (DN _) NR A1) as ->. exact A2. }
  destruct (Z.eq_dec x x') as [E|NE]; [rewrite E; exact NR|].
  destruct (Z.eq_dec d 0) as [D0|D0]; [apply (UN 0); rewrite D0; apply zero_decimal|].
  assert (LP : largest_power_of_ten b <= 308) by (clear - SUP; destruct SUP; cbn; lia).
  unfold saturated_signed, saturated in S. destruct (Z.ltb_spec x 0) as [N|N]; destruct S as [[S|S] _]; try lia.
  - apply (UN 0); apply (tiny d _ (len ip + len fp)); lia.
  - apply (UN (infinity f)); apply (too_large b f SUP); lia.
Qed.

(** *** The text *)
Lemma same_start s (t u t' u' : list Z) : s = t ++ u -> s = t' ++ u' -> length t = length t' -> t = t' /\ u = u'.
Proof.
  intros -> E. revert t' E. induction t as [|c t IH]; intros [|c' t'] E L; try discriminate; [auto|].
  cbn [app] in E. injection E as -> E. cbn [length] in L. destruct (IH t' E ltac:(lia)) as [-> ->]. auto.
Qed.
Lemma longest_unique r s t u m t' u' m' : longest r s t u m -> longest r s t' u' m' -> t = t' /\ u = u' /\ m = m'.
Proof.
  intros (E & D & MX) (E' & D' & MX'). pose proof (MX _ _ _ E' D'). pose proof (MX' _ _ _ E D).
  destruct (same_start s t u t' u' E E' ltac:(lia)) as [-> ->]. split; [reflexivity|]. split; [reflexivity|]. apply (denotes_unique _ _ _ _ D D').
Qed.

Lemma exponent_starts r xt x : exponent_text r xt x -> match xt with [] => True | c :: _ => c = 101 \/ c = 69 end.
Proof. intros []; [exact I|assumption]. Qed.
Lemma before_unique (a xt a' xt' : list Z) : Forall (fun c => c <> 101 /\ c <> 69) a -> Forall (fun c => c <> 101 /\ c <> 69) a' ->
  match xt with [] => True | c :: _ => c = 101 \/ c = 69 end -> match xt' with [] => True | c :: _ => c = 101 \/ c = 69 end ->
  a ++ xt = a' ++ xt' -> xt = xt'.
Proof.
  intros F. revert a'. induction F as [|c a C F IH]; intros a' F' S S' E.
  - destruct F' as [|c a' C' F']; [exact E|]. cbn [app] in E. rewrite E in S. cbn in S. lia.
  - destruct F' as [|c' a' C' F']; [cbn [app] in E; rewrite <- E in S'; cbn in S'; lia|]. cbn [app] in E. injection E as -> E.
    apply (IH a' F' S S' E).
Qed.

Theorem from_chars_total rm fmt s : Forall is_char s ->
  (no_beginning (rule_of fmt) s /\ from_chars b f rm fmt s = Ok {| res_rest := s; res_ec := InvalidArgument; res_value := None |}) \/
  exists t u m res, longest (rule_of fmt) s t u m /\ from_chars b f rm fmt s = Ok res /\ res_rest res = u /\
    match m with
    | Special neg w => res_ec res = NoError /\ res_value res = Some (signed_pattern f neg (match w with Nan => nan_pattern f | Infinite => infinity f end))
    | Number neg d e => exists n x x' k, nearest_decimal f d (x' - k) n /\ e = x - k /\ 0 <= k /\ written_exponent (rule_of fmt) t x /\ saturated_signed x x' /\
        res_ec res = (if out_of_range n d then OutOfRange else NoError) /\ res_value res = Some (signed_pattern f neg n) /\
        (moderate (rule_of fmt) t m -> nearest_decimal f d e n)
    end.
Proof.
  intro C. destruct (list_eq_dec Z.eq_dec s []) as [->|NE].
  { left. split; [|reflexivity]. intros t u m E D. symmetry in E. apply app_eq_nil in E. destruct E as [-> ->].
    inversion D as [t0 neg d e N|t0 neg w N]; subst.
    - destruct (number_start _ _ _ _ _ N) as (c & b0 & E & _). destruct neg; discriminate.
    - apply special_text_body in N. destruct N as (b0 & E & B). symmetry in E. apply app_eq_nil in E. destruct E as [_ ->].
      pose proof (body_not_sign _ _ [] B). cbn in H. exact H. }
  assert (FC : from_chars b f rm fmt s = (pns <- parse_number_string fmt s ;; if valid pns then from_chars_pns b f rm pns
      else parse_infnan (limits_quiet_nan f) (limits_infinity f) (2 ^ sign_bit f) s)) by (destruct s; [congruence|reflexivity]).
  rewrite FC. destruct (parse_number_string_spec fmt s NE C) as (pns & -> & PS). cbn [bind]. destruct (valid pns).
  - right. destruct PS as (neg & ip & fp & xt & rest & point & x & x' & LX & MX). destruct LX.
    remember ((if neg then [45] else []) ++ ip ++ point ++ fp ++ xt) as t eqn:ET.
    assert (NT : number_text (rule_of fmt) t neg (decimal (ip ++ fp)) (x - len fp)).
    { rewrite ET. constructor; try assumption. destruct lx_point as [(P1 & P2 & _)|(P & _)]; auto. }
    destruct (from_chars_pns_spec rm pns ip fp (x' - len fp)) as (n & NR & FE); try assumption.
    { destruct lx_point as [(_ & P2 & P3)|(_ & P)]; auto. }
    assert (WE : written_exponent (rule_of fmt) t x).
    { exists ((if neg then [45] else []) ++ ip ++ point ++ fp), xt. split; [rewrite ET, <- !app_assoc; reflexivity|]. split; [|exact lx_exp].
      assert (DG : forall l, Forall is_digit l -> Forall (fun c => c <> 101 /\ c <> 69) l).
      { intros l F. eapply Forall_impl; [|exact F]. unfold is_digit. cbv beta. lia. }
      apply Forall_app. split; [destruct neg; repeat constructor; lia|]. apply Forall_app. split; [apply DG; assumption|].
      apply Forall_app. split; [|apply DG; assumption]. destruct lx_point as [(-> & _)|(-> & _)]; repeat constructor; lia. }
    exists t, rest, (Number neg (decimal (ip ++ fp)) (x - len fp)). eexists. split; [|split; [exact FE|]].
    + split; [exact lx_text|]. split; [constructor; exact NT|]. intros t' u' m' E D. inversion D as [t0 neg0 d e N|t0 neg0 w N]; subst t0.
      * eapply MX; eassumption.
      * exfalso. apply (not_both _ _ _ _ _ rest _ _ _ u' NT N). congruence.
    + split; [exact lx_last|]. exists n, x, x', (len fp). rewrite lx_neg. split; [exact NR|]. split; [reflexivity|]. split; [lia|].
      split; [exact WE|]. split; [exact lx_sat|]. split; [reflexivity|]. split; [reflexivity|].
      intros MO. apply (saturation_harmless ip fp x x' n lx_ip lx_fp lx_sat); [|exact NR].
      destruct MO as [L|(x1 & (bf & xt1 & E1 & F1 & X1) & B1)]; [right|left].
      * rewrite ET, !app_length in L. lia.
      * destruct WE as (bf2 & xt2 & E2 & F2 & X2). rewrite E1 in E2.
        rewrite (before_unique _ _ _ _ F1 F2 (exponent_starts _ _ _ X1) (exponent_starts _ _ _ X2) E2) in X1.
        rewrite (exponent_unique _ _ _ _ _ X2 X1). exact B1.
  - destruct (parse_infnan_spec (limits_quiet_nan f) (limits_infinity f) (2 ^ sign_bit f) s NE C) as (res & -> & [(t & neg & w & ES & ST & MX & EC & EV)|(NO & E1 & E2 & E3)]).
    + right. exists t, (res_rest res), (Special neg w), res. split.
      * split; [exact ES|]. split; [constructor; exact ST|]. intros t' u' m' E D. inversion D as [t0 neg0 d e N|t0 neg0 w0 N]; subst t0.
        { exfalso. eapply PS; eassumption. } { eapply MX; eassumption. }
      * split; [reflexivity|]. split; [reflexivity|]. split; [exact EC|]. rewrite EV. f_equal. unfold signed_pattern. destruct neg, w; reflexivity.
    + left. split.
      * intros t u m E D. inversion D as [t0 neg0 d e N|t0 neg0 w0 N]; subst t0; [eapply PS; eassumption|eapply NO; eassumption].
      * destruct res as [r1 r2 r3]. cbn in E1, E2, E3. subst. reflexivity.
Qed.

Theorem from_chars_found rm fmt s t u m : Forall is_char s -> longest (rule_of fmt) s t u m -> moderate (rule_of fmt) t m ->
  exists bits range, conversion f m bits range /\
    from_chars b f rm fmt s = Ok {| res_rest := u; res_ec := if range then OutOfRange else NoError; res_value := Some bits |}.
Proof.
  intros C LG MO. destruct (from_chars_total rm fmt s C) as [(NB & _)|(t' & u' & m' & res & LG' & -> & EU & H)].
  { exfalso. destruct LG as (E & D & _). exact (NB _ _ _ E D). }
  destruct (longest_unique _ _ _ _ _ _ _ _ LG LG') as (<- & <- & <-). destruct res as [r1 r2 r3]. cbn [res_rest res_ec res_value] in *. subst r1.
  destruct m as [neg d e|neg w].
  - destruct H as (n & x & x' & k & _ & _ & _ & _ & _ & -> & -> & NR). exists (signed_pattern f neg n), (out_of_range n d).
    split; [|reflexivity]. constructor; [exact (NR MO)|apply out_of_range_ok].
  - destruct H as (-> & ->). exists (signed_pattern f neg match w with Nan => nan_pattern f | Infinite => infinity f end), false.
    split; [|reflexivity]. destruct w; constructor.
Qed.
Theorem from_chars_not_found rm fmt s : Forall is_char s -> no_beginning (rule_of fmt) s ->
  from_chars b f rm fmt s = Ok {| res_rest := s; res_ec := InvalidArgument; res_value := None |}.
Proof.
  intros C NB. destruct (from_chars_total rm fmt s C) as [(_ & E)|(t' & u' & m' & res & (E & D & _) & _)]; [exact E|]. exfalso. exact (NB _ _ _ E D).
Qed.
Theorem conversion_unique m bits range bits' range' : (match m with Number _ d _ => 0 <= d | _ => True end) ->
  conversion f m bits range -> conversion f m bits' range' -> bits = bits' /\ range = range'.
Proof.
  intros D H H'. pose proof (supported_good b f SUP) as G. destruct H as [neg d e n range NR RG|neg|neg]; inversion H' as [? ? ? n' ? NR' RG'|?|?]; subst; try (split; reflexivity).
  assert (0 <= dec_num d e) by (unfold dec_num; assert (0 < 10 ^ Z.max e 0) by (apply Z.pow_pos_nonneg; lia); nia).
  pose proof (nearest_unique f G _ _ n n' (dec_den_pos e) H NR NR') as ->. split; [reflexivity|].
  destruct range, range'; try reflexivity; [symmetry; apply RG', RG; reflexivity|apply RG, RG'; reflexivity].
Qed.
End From.

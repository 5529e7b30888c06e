From Verif Require Import Base BitLemmas ListLemmas UnicodeModel UnicodeSpec.
Local Open Scope N_scope.
Ltac Zify.zify_post_hook ::= Z.div_mod_to_equations.

(** ** The continuation loop *)
Lemma at_end_cons cstr x p : at_end cstr (x :: p) = false.
Proof. apply andb_false_r. Qed.

(** Number of loop iterations started at index [i]. *)
Fixpoint iters (fuel : nat) (b i : N) : nat :=
  match fuel with
  | O => O
  | S f => if more b i then S (iters f b (i + 1)) else O
  end.

Definition acc (c : N) (xs : list N) : N :=
  fold_left (fun c x => N.lor (N.shiftl c 6 mod 2 ^ 32) (N.land x 63)) xs c.

Definition finish (b i c : N) (p : list N) : outcome iter :=
  if 32 <=? 6 * (i - 1) then UB ShiftOverflow
  else Ok (Iter (N.lor c (N.shiftl (N.shiftr (N.shiftl b (i + 1) mod 256) (i + 1)) (6 * (i - 1)) mod 2 ^ 32)) p).

Lemma cont_loop_full cstr fuel : forall b i c xs q,
  length xs = iters fuel b i -> (iters fuel b i < fuel)%nat ->
  cont_loop cstr fuel b i c (xs ++ q) = finish b (i + N.of_nat (length xs)) (acc c xs) q.
Proof.
  induction fuel as [|f IH]; intros b i c xs q Hx Hf; [lia|].
  cbn [cont_loop iters] in *. destruct (more b i) eqn:M.
  - destruct xs as [|x xs]; [discriminate|]. injection Hx as Hx. cbn [app]. rewrite at_end_cons. cbn [deref tl bind]. rewrite IH by lia. cbn [acc fold_left length].
    f_equal. lia.
  - destruct xs; [|discriminate]. cbn [app length acc fold_left]. rewrite N.add_0_r. reflexivity.
Qed.

Lemma cont_loop_short cstr fuel : forall b i c p,
  (length p < iters fuel b i)%nat -> 
  cont_loop cstr fuel b i c p = if cstr then UB OutOfBounds else Ok (Iter 0 []).
Proof.
  induction fuel as [|f IH]; intros b i c p Hp; cbn [iters] in Hp; [lia|].
  cbn [cont_loop]. destruct (more b i) eqn:M; [|lia].
  destruct p as [|x p].
  - destruct cstr; reflexivity.
  - rewrite at_end_cons. cbn [deref tl bind]. apply IH. simpl in Hp. lia.
Qed.

(** ** What the first byte says *)
Lemma lead_sweep b : b < 256 -> 128 <= b ->
  N.land b 128 =? 0 = false /\ (iters 9 b 2 + 2)%nat = seq_len b /\ (iters 9 b 2 < 9)%nat /\
  (2 <= seq_len b)%nat.
Proof.
  intros H1 H2.
  pose proof (sweep (fun b => if 128 <=? b then
     negb (N.land b 128 =? 0) && Nat.eqb (iters 9 b 2 + 2) (seq_len b) && Nat.ltb (iters 9 b 2) 9 &&
     Nat.leb 2 (seq_len b) else true) 256) as S.
  specialize (S ltac:(vm_compute; reflexivity) b H1). cbv beta in S.
  apply N.leb_le in H2. rewrite H2 in S.
  rewrite !andb_true_iff in S. destruct S as [[[S1 S2] S3] S4].
  apply negb_true_iff in S1. apply Nat.eqb_eq in S2. apply Nat.ltb_lt in S3. apply Nat.leb_le in S4. auto.
Qed.

Lemma ascii_sweep b : b < 128 -> N.land b 128 =? 0 = true /\ seq_len b = 1%nat.
Proof.
  intro H.
  pose proof (sweep (fun b => (N.land b 128 =? 0) && Nat.eqb (seq_len b) 1) 128 ltac:(vm_compute; reflexivity) b H) as S.
  cbv beta in S. apply andb_true_iff in S. destruct S as [S1 S2]. apply Nat.eqb_eq in S2. auto.
Qed.

Lemma payload_sweep b n : b < 256 -> 128 <= b -> seq_len b = n -> (n <= 6)%nat ->
  N.shiftr (N.shiftl b (N.of_nat n + 1) mod 256) (N.of_nat n + 1) = b mod 2 ^ (7 - N.of_nat n) /\
  b mod 2 ^ (7 - N.of_nat n) < 2 ^ (7 - N.of_nat n).
Proof.
  intros H1 H2 Hn H6. split; [|apply N.mod_upper_bound, N.pow_nonzero; discriminate].
  pose proof (sweep (fun b => if (128 <=? b) && Nat.leb (seq_len b) 6 then
     (N.shiftr (N.shiftl b (N.of_nat (seq_len b) + 1) mod 256) (N.of_nat (seq_len b) + 1) =?
      b mod 2 ^ (7 - N.of_nat (seq_len b))) else true) 256 ltac:(vm_compute; reflexivity) b H1) as S.
  cbv beta in S. rewrite Hn in S. apply N.leb_le in H2. apply Nat.leb_le in H6. rewrite H2, H6 in S.
  apply N.eqb_eq, S.
Qed.

(** ** Accumulation of six bit groups *)
Definition acc' (c : N) (xs : list N) : N := fold_left (fun a x => 64 * a + x mod 64) xs c.

Lemma land63 x : N.land x 63 = x mod 64.
Proof. change 63 with (N.ones 6). rewrite N.land_ones. reflexivity. Qed.

Lemma acc_step c x : c < 2 ^ 26 -> N.lor (N.shiftl c 6 mod 2 ^ 32) (N.land x 63) = 64 * c + x mod 64.
Proof.
  intro H. rewrite land63, shiftl_mul. change (2 ^ 6) with 64.
  rewrite N.mod_small by (change (2 ^ 32) with 4294967296; change (2 ^ 26) with 67108864 in H; lia).
  change 64 with (2 ^ 6) at 1. rewrite lor_mul_add by (change (2 ^ 6) with 64; apply N.mod_upper_bound; lia).
  change (2 ^ 6) with 64. lia.
Qed.

Lemma acc_acc' xs : forall c, c * 64 ^ N.of_nat (length xs) + 64 ^ N.of_nat (length xs) <= 2 ^ 32 ->
  acc c xs = acc' c xs.
Proof.
  induction xs as [|x xs IH]; intros c H; [reflexivity|].
  unfold acc, acc' in *. cbn [fold_left].
  cbn [length] in H. rewrite Nat2N.inj_succ, N.pow_succ_r' in H.
  pose proof (N.pow_nonzero 64 (N.of_nat (length xs)) ltac:(lia)) as NZ.
  set (P := 64 ^ N.of_nat (length xs)) in *.
  rewrite acc_step.
  - apply IH. fold P. pose proof (N.mod_upper_bound x 64 ltac:(lia)). nia.
  - change (2 ^ 26) with 67108864. change (2 ^ 32) with 4294967296 in H. nia.
Qed.

Lemma acc'_split xs : forall c, acc' c xs = c * 64 ^ N.of_nat (length xs) + acc' 0 xs.
Proof.
  induction xs as [|x xs IH]; intro c.
  - cbn. lia.
  - unfold acc' in *. cbn [fold_left length]. rewrite Nat2N.inj_succ, N.pow_succ_r'.
    rewrite (IH (64 * c + x mod 64)), (IH (64 * 0 + x mod 64)). lia.
Qed.

Lemma acc'_lt xs : acc' 0 xs < 64 ^ N.of_nat (length xs).
Proof.
  induction xs as [|x xs IH] using rev_ind; [reflexivity|].
  unfold acc' in *. rewrite fold_left_app, app_length. cbn [fold_left length].
  rewrite Nat2N.inj_add, N.pow_add_r. change (64 ^ N.of_nat 1) with 64.
  pose proof (N.mod_upper_bound x 64 ltac:(lia)). lia.
Qed.

(** ** One step on arbitrary input *)
Lemma front_seq_cases p : bytes_ok p = true ->
  truncated p \/ exists s q, front_seq p s q.
Proof.
  intro Hp. destruct p as [|b r]; [left; exact I|].
  cbn [truncated]. destruct (Nat.lt_ge_cases (length (b :: r)) (seq_len b)) as [H|H]; [left; exact H|].
  right. exists (firstn (seq_len b) (b :: r)), (skipn (seq_len b) (b :: r)).
  assert (S : exists n, seq_len b = S n).
  { unfold seq_len. repeat match goal with |- context [if ?x then _ else _] => destruct x end; eauto. }
  destruct S as [n Hn]. exists b, (firstn n r). split; [|split].
  - rewrite Hn. reflexivity.
  - symmetry. apply firstn_skipn.
  - rewrite firstn_length. lia.
Qed.

Lemma bytes_cons b l : bytes_ok (b :: l) = true -> b < 256 /\ bytes_ok l = true.
Proof. unfold bytes_ok, byte_ok. cbn [forallb]. rewrite andb_true_iff, N.ltb_lt. tauto. Qed.

Lemma bytes_app a b : bytes_ok (a ++ b) = true -> bytes_ok a = true /\ bytes_ok b = true.
Proof. unfold bytes_ok. rewrite forallb_app, andb_true_iff. tauto. Qed.

Lemma next_full cstr p s q : bytes_ok p = true -> front_seq p s q ->
  next_char cstr p = if Nat.leb (length s) 6 then Ok (Iter (seq_value s) q) else UB ShiftOverflow.
Proof.
  intros Hp [b [t [-> [-> Hl]]]].
  cbn [app] in Hp. apply bytes_cons in Hp. destruct Hp as [Hb Ht].
  unfold next_char. cbn [app]. rewrite at_end_cons. cbn [deref bind tl].
  destruct (N.lt_ge_cases b 128) as [H|H].
  - destruct (ascii_sweep b H) as [-> Hs]. rewrite Hs in Hl.
    destruct t; [|discriminate]. cbn [app length Nat.leb seq_value].
    apply N.ltb_lt in H. rewrite H. reflexivity.
  - destruct (lead_sweep b Hb H) as [-> [Hi [Hi9 H2]]].
    destruct t as [|x t]; [cbn [length] in Hl; lia|].
    cbn [app]. rewrite at_end_cons. cbn [deref bind tl].
    rewrite cont_loop_full.
    2:{ cbn [length] in Hl. lia. }
    2:{ exact Hi9. }
    cbn [length] in Hl.
    assert (Hi2 : 2 + N.of_nat (length t) = N.of_nat (seq_len b)) by lia. rewrite Hi2.
    unfold finish.
    destruct (Nat.leb_spec (length (b :: x :: t)) 6) as [H6|H6].
    + cbn [length] in H6.
      destruct (N.leb_spec 32 (6 * (N.of_nat (seq_len b) - 1))) as [H32|H32]; [lia|].
      destruct (payload_sweep b (seq_len b) Hb H eq_refl ltac:(lia)) as [-> Hpl].
      rewrite acc_acc'.
      2:{ rewrite land63. pose proof (N.mod_upper_bound x 64 ltac:(lia)) as Hx.
          assert (HP : 64 ^ N.of_nat (length t) <= 64 ^ 4) by (apply N.pow_le_mono_r; lia).
          change (64 ^ 4) with 16777216 in HP. change (2 ^ 32) with 4294967296. nia. }
      rewrite land63.
      assert (Ha : acc' (x mod 64) t = acc' 0 (x :: t)) by reflexivity.
      rewrite Ha. pose proof (acc'_lt (x :: t)) as Hlt.
      assert (Hpow : 64 ^ N.of_nat (length (x :: t)) = 2 ^ (6 * (N.of_nat (seq_len b) - 1))).
      { change 64 with (2 ^ 6). rewrite <- N.pow_mul_r. f_equal. cbn [length]. lia. }
      rewrite Hpow in Hlt.
      rewrite shiftl_mul.
      set (P := 2 ^ (6 * (N.of_nat (seq_len b) - 1))) in *.
      assert (Hmod : (b mod 2 ^ (7 - N.of_nat (seq_len b)) * P) mod 2 ^ 32 = b mod 2 ^ (7 - N.of_nat (seq_len b)) * P).
      { apply N.mod_small.
        assert (2 ^ (7 - N.of_nat (seq_len b)) * P <= 2 ^ 32).
        { unfold P. rewrite <- N.pow_add_r. apply N.pow_le_mono_r; lia. }
        assert (0 < P) by (unfold P; pose proof (N.pow_nonzero 2 (6 * (N.of_nat (seq_len b) - 1))); lia).
        nia. }
      rewrite Hmod.
      rewrite N.lor_comm. unfold P. rewrite lor_mul_add by exact Hlt.
      cbn [seq_value]. apply N.ltb_ge in H. rewrite H.
      change (fold_left _ (x :: t) ?z) with (acc' z (x :: t)).
      rewrite (acc'_split (x :: t) (b mod _)). rewrite Hpow.
      replace (length (b :: x :: t)) with (seq_len b) by (cbn [length]; lia).
      fold P. reflexivity.
    + cbn [length] in H6.
      destruct (N.leb_spec 32 (6 * (N.of_nat (seq_len b) - 1))) as [H32|H32]; [reflexivity|lia].
Qed.

Lemma next_truncated cstr p : bytes_ok p = true -> truncated p ->
  next_char cstr p = if cstr then UB OutOfBounds else Ok (Iter 0 []).
Proof.
  intros Hp Ht. unfold next_char. destruct p as [|b r].
  - destruct cstr; reflexivity.
  - cbn [truncated] in Ht. apply bytes_cons in Hp. destruct Hp as [Hb Hr].
    rewrite at_end_cons. cbn [deref bind tl].
    destruct (N.lt_ge_cases b 128) as [H|H].
    { destruct (ascii_sweep b H) as [_ E]. rewrite E in Ht. cbn [length] in Ht. lia. }
    destruct (lead_sweep b Hb H) as [-> [Hi [Hi9 H2]]].
    destruct r as [|x r].
    + destruct cstr; reflexivity.
    + rewrite at_end_cons. cbn [deref bind tl].
      apply cont_loop_short. cbn [length] in Ht. lia.
Qed.

Lemma front_seq_det p s q s' q' : front_seq p s q -> front_seq p s' q' -> s = s' /\ q = q'.
Proof.
  intros [b [t [-> [-> L]]]] [b' [t' [-> [E L']]]].
  cbn [app] in E. injection E as <- E. rewrite <- L' in L. cbn [length] in L.
  apply app_len_inv in E; [|lia]. destruct E as [-> ->]. auto.
Qed.

Lemma front_not_truncated p s q : front_seq p s q -> truncated p -> False.
Proof.
  intros [b [t [-> [-> L]]]] T. cbn [app truncated] in T. cbn [length] in *.
  rewrite app_length in T. lia.
Qed.

Lemma front_seq_shorter p s q : front_seq p s q -> (length q < length p)%nat.
Proof. intros [b [t [-> [-> L]]]]. cbn [app length]. rewrite app_length. lia. Qed.

Lemma front_seq_bytes p s q : bytes_ok p = true -> front_seq p s q -> bytes_ok q = true.
Proof. intros Hp [b [t [-> [-> L]]]]. apply bytes_app in Hp. tauto. Qed.

(** ** The whole conversion *)
Definition stops (cstr : bool) (q : list N) (x : outcome (list N)) (cs : list N) : Prop :=
  (zero_front q /\ x = Ok cs) \/
  (overlong_front q /\ x = UB ShiftOverflow) \/
  (truncated q /\ x = if cstr then UB OutOfBounds else Ok cs).

Lemma to_utf32_loop_spec cstr fuel : forall p it, bytes_ok p = true ->
  next_char cstr p = Ok it -> (length p < fuel)%nat ->
  exists cs q, walks p cs q /\ stops cstr q (to_utf32_loop cstr fuel it) cs.
Proof.
  induction fuel as [|f IH]; intros p it Hp Hn Hf; [lia|].
  cbn [to_utf32_loop].
  destruct (front_seq_cases p Hp) as [T|[s [q F]]].
  - rewrite (next_truncated cstr p Hp T) in Hn. destruct cstr; [discriminate|].
    injection Hn as <-. cbn [it_c]. cbn. exists [], p. split; [constructor|].
    right. right. auto.
  - rewrite (next_full cstr p s q Hp F) in Hn.
    destruct (Nat.leb_spec (length s) 6) as [H6|H6]; [|discriminate].
    injection Hn as <-. cbn [it_c it_p].
    destruct (N.eqb_spec (seq_value s) 0) as [Z|Z].
    + exists [], p. split; [constructor|]. left. split; [|reflexivity].
      exists s, q. auto.
    + pose proof (front_seq_bytes p s q Hp F) as Hq.
      pose proof (front_seq_shorter p s q F) as Hs.
      destruct (next_char cstr q) as [it'|e|r| | |] eqn:Hn'.
      * cbn [bind]. destruct (IH q it' Hq Hn' ltac:(lia)) as [cs [r [W S]]].
        exists (seq_value s :: cs), r. split; [econstructor; eauto|].
        destruct S as [[S ->]|[[S ->]|[S ->]]]; [left|right; left|right; right]; (split; [exact S|]).
        -- reflexivity.
        -- reflexivity.
        -- destruct cstr; reflexivity.
      * exfalso. destruct (front_seq_cases q Hq) as [T|[s' [q' F']]].
        -- rewrite (next_truncated cstr q Hq T) in Hn'. destruct cstr; discriminate.
        -- rewrite (next_full cstr q s' q' Hq F') in Hn'. destruct (Nat.leb _ _); discriminate.
      * cbn [bind]. exists [seq_value s], q. split; [econstructor; eauto; constructor|].
        destruct (front_seq_cases q Hq) as [T|[s' [q' F']]].
        -- rewrite (next_truncated cstr q Hq T) in Hn'. destruct cstr; [|discriminate].
           injection Hn' as <-. right. right. auto.
        -- rewrite (next_full cstr q s' q' Hq F') in Hn'.
           destruct (Nat.leb_spec (length s') 6); [discriminate|]. injection Hn' as <-.
           right. left. split; [|reflexivity]. exists s', q'. split; [exact F'|lia].
      * exfalso. destruct (front_seq_cases q Hq) as [T|[s' [q' F']]].
        -- rewrite (next_truncated cstr q Hq T) in Hn'. destruct cstr; discriminate.
        -- rewrite (next_full cstr q s' q' Hq F') in Hn'. destruct (Nat.leb _ _); discriminate.
      * exfalso. destruct (front_seq_cases q Hq) as [T|[s' [q' F']]].
        -- rewrite (next_truncated cstr q Hq T) in Hn'. destruct cstr; discriminate.
        -- rewrite (next_full cstr q s' q' Hq F') in Hn'. destruct (Nat.leb _ _); discriminate.
      * exfalso. destruct (front_seq_cases q Hq) as [T|[s' [q' F']]].
        -- rewrite (next_truncated cstr q Hq T) in Hn'. destruct cstr; discriminate.
        -- rewrite (next_full cstr q s' q' Hq F') in Hn'. destruct (Nat.leb _ _); discriminate.
Qed.

Theorem to_utf32_spec cstr p : bytes_ok p = true ->
  exists cs q, walks p cs q /\ stops cstr q (to_utf32 cstr p) cs.
Proof.
  intro Hp. unfold to_utf32.
  destruct (front_seq_cases p Hp) as [T|[s [q F]]].
  - destruct cstr.
    + rewrite (next_truncated true p Hp T). cbn [bind]. exists [], p. split; [constructor|].
      right. right. auto.
    + pose proof (next_truncated false p Hp T) as Hn. cbv iota in Hn. rewrite Hn. cbn [bind].
      apply to_utf32_loop_spec; [exact Hp|exact Hn|lia].
  - pose proof (next_full cstr p s q Hp F) as Hn.
    destruct (Nat.leb_spec (length s) 6).
    + rewrite Hn. cbn [bind]. apply to_utf32_loop_spec; [exact Hp|exact Hn|lia].
    + rewrite Hn. cbn [bind]. exists [], p. split; [constructor|]. right. left.
      split; [|reflexivity]. exists s, q. split; [exact F|lia].
Qed.

Lemma walks_det p cs q : walks p cs q -> forall cs' q', walks p cs' q' ->
  (zero_front q \/ overlong_front q \/ truncated q) ->
  (zero_front q' \/ overlong_front q' \/ truncated q') -> cs = cs' /\ q = q'.
Proof.
  assert (ST : forall p s q, front_seq p s q -> (length s <= 6)%nat -> seq_value s <> 0 ->
               (zero_front p \/ overlong_front p \/ truncated p) -> False).
  { intros p0 s0 q0 F L V [[s1 [q1 [F1 [L1 V1]]]]|[[s1 [q1 [F1 L1]]]|T]].
    - destruct (front_seq_det _ _ _ _ _ F F1) as [-> ->]. contradiction.
    - destruct (front_seq_det _ _ _ _ _ F F1) as [-> ->]. lia.
    - exact (front_not_truncated _ _ _ F T). }
  induction 1 as [p|p s q c cs r F L V NZ W IH]; intros cs' q' W' S S'.
  - inversion W' as [|? s q c cs r F L V NZ W]; subst; [auto|].
    exfalso. eapply ST; eauto.
  - inversion W' as [|? s' q0 c' cs0 r' F' L' V' NZ' W0]; subst.
    + exfalso. eapply ST; eauto.
    + destruct (front_seq_det _ _ _ _ _ F F') as [<- <-].
      destruct (IH cs0 q' W0 S S') as [-> ->]. auto.
Qed.

Lemma stops_excl q : ~ (zero_front q /\ overlong_front q) /\ ~ (zero_front q /\ truncated q) /\
  ~ (overlong_front q /\ truncated q).
Proof.
  repeat split.
  - intros [[s [r [F [L _]]]] [s' [r' [F' L']]]]. destruct (front_seq_det _ _ _ _ _ F F') as [<- <-]. lia.
  - intros [[s [r [F _]]] T]. exact (front_not_truncated _ _ _ F T).
  - intros [[s [r [F _]]] T]. exact (front_not_truncated _ _ _ F T).
Qed.

(** Exact outcome of the conversion of a span and of a C string. *)
Theorem span_ok_iff p cs : bytes_ok p = true ->
  (to_utf32_span p = Ok cs <-> exists q, walks p cs q /\ (zero_front q \/ truncated q)).
Proof.
  intro Hp. unfold to_utf32_span. destruct (to_utf32_spec false p Hp) as [cs0 [q0 [W S]]].
  destruct (stops_excl q0) as [X1 [X2 X3]].
  split.
  - intro E. rewrite E in S. destruct S as [[S E1]|[[S E1]|[S E1]]]; try discriminate;
      injection E1 as ->; exists q0; auto.
  - intros [q [W' S']].
    assert (D : cs0 = cs /\ q0 = q).
    { eapply walks_det; eauto.
      - destruct S as [[S _]|[[S _]|[S _]]]; auto.
      - tauto. }
    destruct D as [-> ->]. destruct S as [[S E]|[[S E]|[S E]]]; try exact E. exfalso. tauto.
Qed.

Theorem span_ub_iff p r : bytes_ok p = true ->
  (to_utf32_span p = UB r <-> r = ShiftOverflow /\ exists cs q, walks p cs q /\ overlong_front q).
Proof.
  intro Hp. unfold to_utf32_span. destruct (to_utf32_spec false p Hp) as [cs0 [q0 [W S]]].
  destruct (stops_excl q0) as [X1 [X2 X3]].
  split.
  - intro E. rewrite E in S. destruct S as [[S E1]|[[S E1]|[S E1]]]; try discriminate.
    injection E1 as ->. split; [reflexivity|]. exists cs0, q0. auto.
  - intros [-> [cs [q [W' S']]]].
    assert (D : cs0 = cs /\ q0 = q).
    { eapply walks_det; eauto. destruct S as [[S _]|[[S _]|[S _]]]; auto. }
    destruct D as [-> ->]. destruct S as [[S E]|[[S E]|[S E]]]; try exact E; exfalso; tauto.
Qed.

Theorem span_total p : bytes_ok p = true ->
  (exists cs, to_utf32_span p = Ok cs) \/ to_utf32_span p = UB ShiftOverflow.
Proof.
  intro Hp. unfold to_utf32_span. destruct (to_utf32_spec false p Hp) as [cs0 [q0 [W S]]].
  destruct S as [[S E]|[[S E]|[S E]]]; rewrite E; eauto.
Qed.

Theorem cstr_ok_iff p cs : bytes_ok p = true ->
  (to_utf32_cstr p = Ok cs <-> exists q, walks p cs q /\ zero_front q).
Proof.
  intro Hp. unfold to_utf32_cstr. destruct (to_utf32_spec true p Hp) as [cs0 [q0 [W S]]].
  destruct (stops_excl q0) as [X1 [X2 X3]].
  split.
  - intro E. rewrite E in S. destruct S as [[S E1]|[[S E1]|[S E1]]]; try discriminate;
      injection E1 as ->; exists q0; auto.
  - intros [q [W' S']].
    assert (D : cs0 = cs /\ q0 = q).
    { eapply walks_det; eauto. destruct S as [[S _]|[[S _]|[S _]]]; auto. }
    destruct D as [-> ->]. destruct S as [[S E]|[[S E]|[S E]]]; try exact E; exfalso; tauto.
Qed.

Theorem cstr_oob_iff p : bytes_ok p = true ->
  (to_utf32_cstr p = UB OutOfBounds <-> exists cs q, walks p cs q /\ truncated q).
Proof.
  intro Hp. unfold to_utf32_cstr. destruct (to_utf32_spec true p Hp) as [cs0 [q0 [W S]]].
  destruct (stops_excl q0) as [X1 [X2 X3]].
  split.
  - intro E. rewrite E in S. destruct S as [[S E1]|[[S E1]|[S E1]]]; try discriminate.
    exists cs0, q0. auto.
  - intros [cs [q [W' S']]].
    assert (D : cs0 = cs /\ q0 = q).
    { eapply walks_det; eauto. destruct S as [[S _]|[[S _]|[S _]]]; auto. }
    destruct D as [-> ->]. destruct S as [[S E]|[[S E]|[S E]]]; try exact E; exfalso; tauto.
Qed.

(** ** Raw iteration over a span *)
Lemma next_span_iff p : bytes_ok p = true ->
  (overlong_front p /\ next_char false p = UB ShiftOverflow) \/
  (~ overlong_front p /\ exists it, next_char false p = Ok it /\
     (it = Iter 0 [] /\ truncated p \/
      exists s, front_seq p s (it_p it) /\ it_c it = seq_value s)).
Proof.
  intro Hp. destruct (front_seq_cases p Hp) as [T|[s [q F]]].
  - right. split.
    + intros [s [q [F _]]]. exact (front_not_truncated _ _ _ F T).
    + exists (Iter 0 []). split; [exact (next_truncated false p Hp T)|]. auto.
  - pose proof (next_full false p s q Hp F) as E.
    destruct (Nat.leb_spec (length s) 6) as [L|L].
    + right. split.
      * intros [s' [q' [F' L']]]. destruct (front_seq_det _ _ _ _ _ F F') as [<- <-]. lia.
      * eexists. split; [exact E|]. right. exists s. auto.
    + left. split; [|exact E]. exists s, q. split; [exact F|lia].
Qed.

Lemma advance_end n : advance false n (Iter 0 []) = Ok (Iter 0 []).
Proof. induction n as [|n IH]; [reflexivity|exact IH]. Qed.

Lemma advance_span n : forall it, bytes_ok (it_p it) = true ->
  advance false n it = UB ShiftOverflow \/
  exists it', advance false n it = Ok it' /\
    ((length (it_p it) < n)%nat -> it' = Iter 0 []) /\ (exists pre, it_p it = pre ++ it_p it').
Proof.
  induction n as [|n IH]; intros it Hp.
  - right. exists it. split; [reflexivity|]. split; [lia|]. exists []. reflexivity.
  - cbn [advance]. destruct (next_span_iff (it_p it) Hp) as [[_ ->]|[_ [it' [-> D]]]]; [left; reflexivity|].
    cbn [bind].
    destruct D as [[-> T]|[s [F V]]].
    + rewrite advance_end. right. exists (Iter 0 []). split; [reflexivity|]. split; [auto|].
      exists (it_p it). symmetry. apply app_nil_r.
    + pose proof (front_seq_bytes _ _ _ Hp F) as Hq. pose proof (front_seq_shorter _ _ _ F) as Hs.
      destruct (IH it' Hq) as [->|[it'' [-> [Z [pre E]]]]]; [left; reflexivity|].
      right. exists it''. split; [reflexivity|]. split; [intro; apply Z; lia|].
      destruct F as [b [t [-> [F _]]]]. exists ((b :: t) ++ pre). rewrite F, E at 1.
      rewrite <- app_assoc. reflexivity.
Qed.

Theorem iterate_span p n : bytes_ok p = true ->
  iterate false n p = UB ShiftOverflow \/
  exists it, iterate false n p = Ok it /\
    ((length p <= n)%nat -> it = Iter 0 []) /\ (exists pre, p = pre ++ it_p it).
Proof.
  intro Hp. pose proof (advance_span (S n) (Iter 0 p) Hp) as A.
  cbn [advance it_p] in A. unfold iterate.
  destruct A as [A|[it [A [Z E]]]]; [left; exact A|]. right. exists it. split; [exact A|].
  split; [intro; apply Z; lia|exact E].
Qed.

(** ** C strings *)
Lemma walks_app p cs q : walks p cs q -> forall a, walks (p ++ a) cs (q ++ a).
Proof.
  induction 1 as [p|p s q c cs r F L V NZ W IH]; intro a; [constructor|].
  apply walk_cons with (s := s) (q := q ++ a); auto.
  destruct F as [b [t [-> [-> Hl]]]]. exists b, t. rewrite app_assoc. auto.
Qed.

Lemma walks_trans p cs q cs' r : walks p cs q -> walks q cs' r -> walks p (cs ++ cs') r.
Proof. induction 1; intro W'; [exact W'|]. cbn [app]. econstructor; eauto. Qed.

Theorem cstr_inside s cs after : bytes_ok s = true -> bytes_ok after = true ->
  walks s cs [] -> to_utf32_cstr (s ++ 0 :: after) = Ok cs.
Proof.
  intros Hs Ha W.
  assert (Hb : bytes_ok (s ++ 0 :: after) = true).
  { unfold bytes_ok in *. rewrite forallb_app, Hs. cbn [forallb]. rewrite Ha. reflexivity. }
  apply cstr_ok_iff; [exact Hb|]. exists (0 :: after). split.
  - exact (walks_app _ _ _ W (0 :: after)).
  - exists [0], after. split; [|split; [cbn; lia|reflexivity]].
    exists 0, []. auto.
Qed.

Theorem cstr_truncated s cs q : bytes_ok s = true -> walks s cs q -> q <> [] -> truncated q ->
  (nul_completes q -> to_utf32_cstr (s ++ [0]) = Ok cs) /\
  (~ nul_completes q -> exists r, to_utf32_cstr (s ++ [0]) = UB r).
Proof.
  intros Hs W Hq T.
  assert (Hb : bytes_ok (s ++ [0]) = true).
  { unfold bytes_ok in *. rewrite forallb_app, Hs. reflexivity. }
  pose proof (walks_app _ _ _ W [0]) as W0.
  split.
  - intros [F [L V]]. apply cstr_ok_iff; [exact Hb|]. exists (q ++ [0]). split; [exact W0|].
    exists (q ++ [0]), []. rewrite app_length. cbn [length]. split; [exact F|]. split; [lia|exact V].
  - intro NC. destruct q as [|b t]; [contradiction|]. cbn [truncated] in T.
    destruct (Nat.eq_dec (S (length (b :: t))) (seq_len b)) as [E|E].
    + assert (F : front_seq ((b :: t) ++ [0]) ((b :: t) ++ [0]) []).
      { exists b, (t ++ [0]). split; [reflexivity|]. split; [symmetry; apply app_nil_r|].
        rewrite app_length. cbn [length] in *. lia. }
      destruct (Nat.lt_ge_cases (length (b :: t)) 6) as [L|L].
      * exists OutOfBounds. apply cstr_oob_iff; [exact Hb|].
        exists (cs ++ [seq_value ((b :: t) ++ [0])]), []. split; [|exact I].
        eapply walks_trans; [exact W0|].
        econstructor; [exact F| |reflexivity| |constructor].
        -- rewrite app_length. cbn [length] in *. lia.
        -- intro V. apply NC. split; [exact F|]. auto.
      * exists ShiftOverflow. destruct (to_utf32_spec true _ Hb) as [cs' [q' [W' S]]].
        assert (O : overlong_front ((b :: t) ++ [0])).
        { exists ((b :: t) ++ [0]), []. split; [exact F|]. rewrite app_length. cbn [length] in *. lia. }
        assert (D : cs' = cs /\ q' = (b :: t) ++ [0]).
        { eapply walks_det; eauto. destruct S as [[S _]|[[S _]|[S _]]]; auto. }
        destruct D as [-> ->]. destruct (stops_excl ((b :: t) ++ [0])) as [X1 [X2 X3]].
        destruct S as [[S _]|[[S E1]|[S _]]]; [exfalso; tauto|exact E1|exfalso; tauto].
    + exists OutOfBounds. apply cstr_oob_iff; [exact Hb|]. exists cs, ((b :: t) ++ [0]).
      split; [exact W0|]. cbn [app truncated]. cbn [length] in *. rewrite app_length. cbn [length]. lia.
Qed.

(** ** Encoding *)
Lemma or128 y : y < 64 -> N.lor 128 y = 128 + y.
Proof. intro H. apply (lor_add_mod y 128 6); [exact H|reflexivity]. Qed.

Lemma cont_tailb c n k : n = 6 * k -> cont c n mod 256 = tailb c k.
Proof.
  intros ->. unfold cont, tailb. rewrite land63, shiftr_div, N.pow_mul_r. change (2 ^ 6) with 64.
  pose proof (N.mod_upper_bound (c / 64 ^ k) 64 ltac:(lia)).
  rewrite or128 by assumption. apply N.mod_small. lia.
Qed.

Lemma lead_byte base m w k c : N.land 0 m = 0 -> m = N.ones w -> base mod 2 ^ w = 0 ->
  base + 2 ^ w <= 256 -> c / 64 ^ k < 2 ^ w ->
  N.lor base (N.land (N.shiftr c (6 * k)) m) mod 256 = base + c / 64 ^ k.
Proof.
  intros _ -> Hb Hs Hc. rewrite land_ones_mod, shiftr_div, N.pow_mul_r. change (2 ^ 6) with 64.
  rewrite (N.mod_small (c / 64 ^ k)) by exact Hc.
  rewrite (lor_add_mod _ base w Hc Hb). apply N.mod_small. lia.
Qed.

Definition padded (s : list N) : list (option N) :=
  map Some s ++ Some 0 :: repeat None (6 - length s).

Theorem to_utf8_char_ok dbg c : encodable c -> to_utf8_char dbg c = Ok (padded (utf8 c)).
Proof.
  unfold encodable. intro H. change (2 ^ 31) with 2147483648 in H.
  unfold to_utf8_char, utf8, num_bytes.
  change (2 ^ 7) with 128. change (2 ^ 11) with 2048. change (2 ^ 16) with 65536.
  change (2 ^ 21) with 2097152. change (2 ^ 26) with 67108864.
  destruct (N.leb_spec c 0x7f) as [H1|H1].
  { assert (E : c <? 128 = true) by (apply N.ltb_lt; lia). rewrite E.
    cbn [set_from set_at bind repeat length Nat.ltb Nat.leb firstn skipn app].
    rewrite N.mod_small by lia. reflexivity. }
  assert (E : c <? 128 = false) by (apply N.ltb_ge; lia). rewrite E. clear E.
  assert (CT : forall k n, n = 6 * k -> cont c n mod 256 = tailb c k) by (intros; apply cont_tailb; assumption).
  destruct (N.leb_spec c 0x7ff) as [H2|H2].
  { assert (E : c <? 2048 = true) by (apply N.ltb_lt; lia). rewrite E. 
    cbn [set_from set_at bind repeat length Nat.ltb Nat.leb firstn skipn app].
    rewrite (CT 0 0) by reflexivity.
    change 6 with (6 * 1). rewrite (lead_byte 0xc0 0x1f 5 1 c); try reflexivity.
    - discriminate.
    - change (64 ^ 1) with 64. change (2 ^ 5) with 32. lia. }
  assert (E : c <? 2048 = false) by (apply N.ltb_ge; lia). rewrite E. clear E.
  destruct (N.leb_spec c 0xffff) as [H3|H3].
  { assert (E : c <? 65536 = true) by (apply N.ltb_lt; lia). rewrite E. 
    cbn [set_from set_at bind repeat length Nat.ltb Nat.leb firstn skipn app].
    rewrite (CT 0 0), (CT 1 6) by reflexivity.
    change 12 with (6 * 2). rewrite (lead_byte 0xe0 0xf 4 2 c); try reflexivity.
    - discriminate.
    - change (64 ^ 2) with 4096. change (2 ^ 4) with 16. lia. }
  assert (E : c <? 65536 = false) by (apply N.ltb_ge; lia). rewrite E. clear E.
  destruct (N.leb_spec c 0x1fffff) as [H4|H4].
  { assert (E : c <? 2097152 = true) by (apply N.ltb_lt; lia). rewrite E. 
    cbn [set_from set_at bind repeat length Nat.ltb Nat.leb firstn skipn app].
    rewrite (CT 0 0), (CT 1 6), (CT 2 12) by reflexivity.
    change 18 with (6 * 3). rewrite (lead_byte 0xf0 0x7 3 3 c); try reflexivity.
    - discriminate.
    - change (64 ^ 3) with 262144. change (2 ^ 3) with 8. lia. }
  assert (E : c <? 2097152 = false) by (apply N.ltb_ge; lia). rewrite E. clear E.
  destruct (N.leb_spec c 0x3ffffff) as [H5|H5].
  { assert (E : c <? 67108864 = true) by (apply N.ltb_lt; lia). rewrite E. 
    cbn [set_from set_at bind repeat length Nat.ltb Nat.leb firstn skipn app].
    rewrite (CT 0 0), (CT 1 6), (CT 2 12), (CT 3 18) by reflexivity.
    change 24 with (6 * 4). rewrite (lead_byte 0xf8 0x3 2 4 c); try reflexivity.
    - discriminate.
    - change (64 ^ 4) with 16777216. change (2 ^ 2) with 4. lia. }
  assert (E : c <? 67108864 = false) by (apply N.ltb_ge; lia). rewrite E. clear E.
  destruct (N.leb_spec c 0x7fffffff) as [H6|H6]; [|lia].
  cbn [set_from set_at bind repeat length Nat.ltb Nat.leb firstn skipn app].
  rewrite (CT 0 0), (CT 1 6), (CT 2 12), (CT 3 18), (CT 4 24) by reflexivity.
  change 30 with (6 * 5). rewrite (lead_byte 0xfc 0x1 1 5 c); try reflexivity.
  - discriminate.
  - change (64 ^ 5) with 1073741824. change (2 ^ 1) with 2. lia.
Qed.

Theorem to_utf8_char_big dbg c : 2 ^ 31 <= c ->
  to_utf8_char dbg c = Ok (Some 0 :: repeat None 6).
Proof.
  change (2 ^ 31) with 2147483648. intro H. unfold to_utf8_char, num_bytes.
  repeat match goal with |- context [c <=? ?n] => replace (c <=? n) with false by (symmetry; apply N.leb_gt; lia) end.
  reflexivity.
Qed.

(** ** Decoding of encodings *)
Lemma horner c k : 64 * (c / 64 ^ (k + 1)) + tailb c k mod 64 = c / 64 ^ k.
Proof.
  unfold tailb. rewrite N.pow_add_r. change (64 ^ 1) with 64.
  rewrite <- N.div_div by (try apply N.pow_nonzero; lia).
  set (y := c / 64 ^ k). lia.
Qed.

Lemma utf8_value c : encodable c ->
  seq_value (utf8 c) = c /\ (length (utf8 c) <= 6)%nat /\
  (forall q, front_seq (utf8 c ++ q) (utf8 c) q) /\ bytes_ok (utf8 c) = true.
Proof.
  unfold encodable. intro H. change (2 ^ 31) with 2147483648 in H.
  assert (T : forall k, tailb c k < 256).
  { intro k. unfold tailb. pose proof (N.mod_upper_bound (c / 64 ^ k) 64 ltac:(lia)). lia. }
  assert (G : forall base n k,
    utf8 c = base + c / 64 ^ k :: map (fun i => tailb c (N.of_nat i)) (rev (seq 0 (N.to_nat k))) ->
    n = S (N.to_nat k) -> (n <= 6)%nat -> (2 <= n)%nat ->
    base = 256 - 2 ^ (8 - N.of_nat n) -> c / 64 ^ k < 2 ^ (7 - N.of_nat n) ->
    seq_value (utf8 c) = c /\ (length (utf8 c) <= 6)%nat /\
    (forall q, front_seq (utf8 c ++ q) (utf8 c) q) /\ bytes_ok (utf8 c) = true).
  { intros base n k E Hn Hn6 Hn2 Hb Hc. rewrite E.
    assert (L : length (base + c / 64 ^ k :: map (fun i => tailb c (N.of_nat i)) (rev (seq 0 (N.to_nat k)))) = n).
    { cbn [length]. rewrite map_length, rev_length, seq_length. lia. }
    set (h := c / 64 ^ k) in *.
    assert (HL : seq_len (base + h) = n /\ 128 <= base + h /\ base + h < 256 /\ (base + h) mod 2 ^ (7 - N.of_nat n) = h).
    { assert (Hh : h < 32).
      { eapply N.lt_le_trans; [exact Hc|]. change 32 with (2 ^ 5). apply N.pow_le_mono_r; lia. }
      pose proof (sweep (fun h => forallb (fun n => if h <? 2 ^ (7 - N.of_nat n) then
         Nat.eqb (seq_len (256 - 2 ^ (8 - N.of_nat n) + h)) n && (128 <=? 256 - 2 ^ (8 - N.of_nat n) + h) &&
         (256 - 2 ^ (8 - N.of_nat n) + h <? 256) &&
         ((256 - 2 ^ (8 - N.of_nat n) + h) mod 2 ^ (7 - N.of_nat n) =? h) else true) [2;3;4;5;6]%nat) 32
         ltac:(vm_compute; reflexivity) h Hh) as S.
      cbv beta in S. rewrite forallb_forall in S. specialize (S n).
      assert (I : In n [2;3;4;5;6]%nat) by (cbn [In]; lia). specialize (S I).
      apply N.ltb_lt in Hc. rewrite Hc in S. rewrite <- Hb in S.
      rewrite !andb_true_iff in S. destruct S as [[[S1 S2] S3] S4].
      apply Nat.eqb_eq in S1. apply N.leb_le in S2. apply N.ltb_lt in S3. apply N.eqb_eq in S4. auto. }
    destruct HL as [HL1 [HL2 [HL3 HL4]]].
    split; [|split; [|split]].
    - unfold seq_value. rewrite L. apply N.ltb_ge in HL2. rewrite HL2, HL4. unfold h.
      clear - n. 
      assert (FH : forall k, fold_left (fun a x => 64 * a + x mod 64)
                (map (fun i => tailb c (N.of_nat i)) (rev (seq 0 k))) (c / 64 ^ N.of_nat k) = c).
      { induction k0 as [|k0 IH].
        - cbn. apply N.div_1_r.
        - rewrite seq_S, rev_app_distr. cbn [plus rev app map fold_left].
          rewrite Nat2N.inj_succ, <- N.add_1_r, horner. exact IH. }
      specialize (FH (N.to_nat k)). rewrite N2Nat.id in FH. exact FH.
    - rewrite L. exact Hn6.
    - intro q. exists (base + h), (map (fun i => tailb c (N.of_nat i)) (rev (seq 0 (N.to_nat k)))).
      split; [reflexivity|]. split; [reflexivity|]. rewrite L. symmetry. exact HL1.
    - unfold bytes_ok. cbn [forallb]. unfold byte_ok at 1.
      apply N.ltb_lt in HL3. rewrite HL3. cbn [andb]. apply forallb_forall.
      intros x Hx. apply in_map_iff in Hx. destruct Hx as [i [<- _]]. apply N.ltb_lt, T. }
  revert G. unfold utf8.
  change (2 ^ 7) with 128. change (2 ^ 11) with 2048. change (2 ^ 16) with 65536.
  change (2 ^ 21) with 2097152. change (2 ^ 26) with 67108864. intro G.
  destruct (N.ltb_spec c 128) as [H1|H1].
  { clear G. destruct (ascii_sweep c H1) as [_ S]. split; [|split; [|split]].
    - unfold seq_value. apply N.ltb_lt in H1. rewrite H1. reflexivity.
    - cbn. lia.
    - intro q. exists c, []. rewrite S. auto.
    - unfold bytes_ok, byte_ok. cbn [forallb]. rewrite andb_true_r. apply N.ltb_lt. lia. }
  destruct (N.ltb_spec c 2048) as [H2|H2].
  { apply (G 192 2%nat 1); try reflexivity; try lia.
    change (c / 64 < 32). lia. }
  destruct (N.ltb_spec c 65536) as [H3|H3].
  { apply (G 224 3%nat 2); try reflexivity; try lia.
    change (c / 4096 < 16). lia. }
  destruct (N.ltb_spec c 2097152) as [H4|H4].
  { apply (G 240 4%nat 3); try reflexivity; try lia.
    change (c / 262144 < 8). lia. }
  destruct (N.ltb_spec c 67108864) as [H5|H5].
  { apply (G 248 5%nat 4); try reflexivity; try lia.
    change (c / 16777216 < 4). lia. }
  apply (G 252 6%nat 5); try reflexivity; try lia.
  change (c / 1073741824 < 2). lia.
Qed.

Lemma utf8_prefix c c' t : encodable c -> encodable c' -> utf8 c' = utf8 c ++ t -> c = c'.
Proof.
  intros H H' E. destruct (utf8_value c H) as [V [_ [F _]]]. destruct (utf8_value c' H') as [V' [_ [F' _]]].
  specialize (F t). specialize (F' []). rewrite app_nil_r, E in F'.
  destruct (front_seq_det _ _ _ _ _ F F') as [Es _].
  rewrite <- V, <- V', E. rewrite <- Es. reflexivity.
Qed.

Lemma utf8_nonzero c : encodable c -> c <> 0 -> ~ In 0 (utf8 c).
Proof.
  unfold encodable. intros H NZ. unfold utf8, tailb.
  repeat match goal with |- context [if ?b then _ else _] => destruct b end; cbn [In]; lia.
Qed.

Lemma walks_utf8 cs : Forall (fun c => encodable c /\ c <> 0) cs -> walks (flat_map utf8 cs) cs [].
Proof.
  induction 1 as [|c cs [H NZ] _ IH]; [constructor|]. cbn [flat_map].
  destruct (utf8_value c H) as [V [L [F _]]].
  apply walk_cons with (s := utf8 c) (q := flat_map utf8 cs); auto.
Qed.

Lemma flat_utf8_bytes cs : Forall (fun c => encodable c /\ c <> 0) cs -> bytes_ok (flat_map utf8 cs) = true.
Proof.
  induction 1 as [|c cs [H NZ] _ IH]; [reflexivity|]. cbn [flat_map]. unfold bytes_ok in *.
  rewrite forallb_app, IH. destruct (utf8_value c H) as [_ [_ [_ B]]]. unfold bytes_ok in B. rewrite B. reflexivity.
Qed.

Lemma c_string_padded s l : ~ In 0 s -> c_string (map Some s ++ Some 0 :: l) = Ok s.
Proof.
  induction s as [|b s IH]; intro H; [reflexivity|].
  cbn [map app c_string]. destruct (N.eqb_spec b 0) as [->|NZ]; [exfalso; apply H; left; reflexivity|].
  rewrite IH; [reflexivity|]. intro Hi. apply H. right. exact Hi.
Qed.

Lemma to_utf8_filter dbg cs : to_utf8 dbg cs = Ok (flat_map utf8 (filter transmitted cs)).
Proof.
  induction cs as [|c cs IH]; [reflexivity|]. cbn [to_utf8 filter]. unfold transmitted at 1.
  destruct (N.ltb_spec c (2 ^ 31)) as [H|H].
  - rewrite to_utf8_char_ok by exact H. cbn [bind]. rewrite andb_true_r.
    destruct (N.ltb_spec 0 c) as [H0|H0].
    + unfold padded. rewrite c_string_padded by (apply utf8_nonzero; [exact H|lia]).
      cbn [bind]. rewrite IH. reflexivity.
    + assert (c = 0) by lia. subst c. cbn [utf8]. cbn. rewrite IH. reflexivity.
  - rewrite to_utf8_char_big by exact H. rewrite andb_false_r. cbn. rewrite IH. reflexivity.
Qed.

Lemma transmitted_spec c : transmitted c = true <-> encodable c /\ c <> 0.
Proof. unfold transmitted, encodable. rewrite andb_true_iff, !N.ltb_lt. lia. Qed.

Lemma filter_all cs : Forall (fun c => encodable c /\ c <> 0) cs -> filter transmitted cs = cs.
Proof.
  induction 1 as [|c cs H _ IH]; [reflexivity|]. cbn [filter].
  apply transmitted_spec in H. rewrite H, IH. reflexivity.
Qed.

Theorem utf32_of_utf8 dbg cs after : Forall (fun c => encodable c /\ c <> 0) cs -> bytes_ok after = true ->
  exists b, to_utf8 dbg cs = Ok b /\ to_utf32_span b = Ok cs /\ to_utf32_cstr (b ++ 0 :: after) = Ok cs.
Proof.
  intros H Ha. exists (flat_map utf8 cs). rewrite to_utf8_filter, filter_all by exact H.
  split; [reflexivity|]. split.
  - apply span_ok_iff; [apply flat_utf8_bytes, H|]. exists []. split; [apply walks_utf8, H|]. right. exact I.
  - apply cstr_inside; [apply flat_utf8_bytes, H|exact Ha|apply walks_utf8, H].
Qed.

Theorem utf8_of_utf32 dbg b : bytes_ok b = true ->
  ((exists cs, Forall (fun c => encodable c /\ c <> 0) cs /\ b = flat_map utf8 cs) <->
   exists cs, to_utf32_span b = Ok cs /\ to_utf8 dbg cs = Ok b).
Proof.
  intro Hb. split.
  - intros [cs [H ->]]. exists cs. destruct (utf32_of_utf8 dbg cs [] H eq_refl) as [b [E1 [E2 _]]].
    rewrite to_utf8_filter, filter_all in E1 by exact H. injection E1 as <-.
    split; [exact E2|]. rewrite to_utf8_filter, filter_all by exact H. reflexivity.
  - intros [cs [E1 E2]]. rewrite to_utf8_filter in E2. injection E2 as E2.
    exists (filter transmitted cs). split; [|symmetry; exact E2].
    apply Forall_forall. intros c Hc. apply filter_In in Hc. apply transmitted_spec. tauto.
Qed.

Lemma flat_filter dbg cs : to_utf8 dbg cs = to_utf8 dbg (filter transmitted cs).
Proof.
  rewrite !to_utf8_filter. do 2 f_equal. induction cs as [|c cs IH]; [reflexivity|].
  cbn [filter]. destruct (transmitted c) eqn:E; [|exact IH]. cbn [filter]. rewrite E, <- IH. reflexivity.
Qed.

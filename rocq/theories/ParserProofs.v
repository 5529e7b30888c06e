(** Proofs about string_parser, read_number and to_string. *)
From Verif Require Import Base ListLemmas StringModel ParserModel ParserSpec ParserCallSpec.
Local Open Scope Z_scope.

(** ** Spaces and prefixes *)
Lemma is_space_iff c : is_space c = true <-> space c.
Proof. unfold is_space, space. cbn [In]. rewrite !orb_true_iff, !Z.eqb_eq. lia. Qed.
Lemma is_space_false c : is_space c = false <-> ~ space c.
Proof. rewrite <- is_space_iff. destruct (is_space c); split; congruence. Qed.

Lemma substr_from_app a b : substr_from (a ++ b) (N.of_nat (length a)) = Ok b.
Proof.
  unfold substr_from, size. rewrite app_length. destruct (N.ltb_spec (N.of_nat (length a + length b)) (N.of_nat (length a))); [lia|].
  rewrite Nat2N.id, skipn_app_exact. reflexivity.
Qed.

Lemma count_spaces_spec s : forall pos, exists ws t,
  s = ws ++ t /\ maximal space ws t /\ count_spaces s pos = (pos + N.of_nat (length ws))%N.
Proof.
  induction s as [|c s IH]; intro pos; cbn [count_spaces].
  - exists [], []. repeat split; [constructor|intros ? ? ?; discriminate|cbn; lia].
  - destruct (is_space c) eqn:E; cbn [negb].
    + destruct (IH (pos + 1)%N) as (ws & t & -> & [F M] & ->). exists (c :: ws), t.
      apply is_space_iff in E. repeat split; [constructor; auto|exact M|cbn [length]; lia].
    + exists [], (c :: s). apply is_space_false in E.
      repeat split; [constructor|intros c' s' H; injection H as <- <-; exact E|cbn; lia].
Qed.

Lemma skip_whitespaces_spec s : exists ws t,
  s = ws ++ t /\ maximal space ws t /\ skip_whitespaces s = (t, Ok tt).
Proof.
  destruct (count_spaces_spec s 0) as (ws & t & E & M & C). exists ws, t. repeat split; try apply M; auto.
  unfold skip_whitespaces. rewrite C, N.add_0_l. rewrite E, substr_from_app. reflexivity.
Qed.

Lemma maximal_unique P a b a' b' : maximal P a b -> maximal P a' b' -> a ++ b = a' ++ b' -> a = a' /\ b = b'.
Proof.
  intros [F M] [F' M']. revert a' F'. induction a as [|x a IH]; intros [|y a'] F' E; cbn [app] in *.
  - auto.
  - exfalso. inversion F'. eapply (M y); [symmetry; exact (eq_sym E)|assumption].
  - exfalso. inversion F. eapply (M' x); [symmetry; exact E|assumption].
  - injection E as -> E. inversion F; inversion F'; subst. destruct (IH H2 _ H6 E) as [-> ->]. auto.
Qed.

Lemma count_spaces_comma_true s : forall pos, exists ws t,
  s = ws ++ t /\ maximal space ws t /\ count_spaces_comma s pos true = (pos + N.of_nat (length ws))%N.
Proof.
  induction s as [|c s IH]; intro pos; cbn [count_spaces_comma].
  - exists [], []. repeat split; [constructor|intros ? ? ?; discriminate|cbn; lia].
  - destruct (is_space c) eqn:E; cbn [negb].
    + destruct (IH (pos + 1)%N) as (ws & t & -> & [F M] & ->). exists (c :: ws), t.
      apply is_space_iff in E. repeat split; [constructor; auto|exact M|cbn [length]; lia].
    + exists [], (c :: s). apply is_space_false in E.
      repeat split; [constructor|intros c' s' H; injection H as <- <-; exact E|cbn; destruct (c =? 44); lia].
Qed.

Lemma count_spaces_comma_spec s : forall pos, exists pre t,
  s = pre ++ t /\ spaces_comma pre t /\ count_spaces_comma s pos false = (pos + N.of_nat (length pre))%N.
Proof.
  induction s as [|c s IH]; intro pos; cbn [count_spaces_comma].
  - exists [], []. split; [reflexivity|]. split; [|cbn; lia]. left.
    repeat split; [constructor|intros ? ? ?; discriminate|discriminate].
  - destruct (is_space c) eqn:E.
    + destruct (IH (pos + 1)%N) as (pre & t & -> & S & ->). apply is_space_iff in E. exists (c :: pre), t.
      split; [reflexivity|]. split; [|cbn [length]; lia]. destruct S as [[[F M] Nc]|(a & b & -> & Fa & M)].
      * left. repeat split; [constructor; auto|exact M|exact Nc].
      * right. exists (c :: a), b. repeat split; [constructor; auto|apply M|apply M].
    + destruct (Z.eqb_spec c 44) as [->|Nc].
      * destruct (count_spaces_comma_true s (pos + 1)%N) as (ws & t & -> & M & ->).
        exists (44 :: ws), t. split; [reflexivity|]. split; [|cbn [length]; lia].
        right. exists [], ws. repeat split; [constructor|apply M|apply M].
      * exists [], (c :: s). split; [reflexivity|]. split; [|cbn; lia]. left. apply is_space_false in E.
        repeat split; [constructor|intros c' s' H; injection H as <- <-; exact E|intros r H; injection H; lia].
Qed.

Lemma skip_whitespaces_and_comma_spec s : exists pre t,
  s = pre ++ t /\ spaces_comma pre t /\ skip_whitespaces_and_comma s = (t, Ok tt).
Proof.
  destruct (count_spaces_comma_spec s 0) as (ws & t & E & M & C). exists ws, t. repeat split; auto.
  unfold skip_whitespaces_and_comma. rewrite C, N.add_0_l. rewrite E, substr_from_app. reflexivity.
Qed.

Lemma skip_inclusive_until_found c pre rest : ~ In c pre -> skip_inclusive_until c (pre ++ c :: rest) = (rest, Ok tt).
Proof.
  induction pre as [|x pre IH]; intro H; cbn [app skip_inclusive_until].
  - rewrite Z.eqb_refl. reflexivity.
  - destruct (Z.eqb_spec x c) as [->|_]; [exfalso; apply H; left; reflexivity|].
    apply IH. intro J. apply H. right. exact J.
Qed.
Lemma skip_inclusive_until_none c s : ~ In c s -> skip_inclusive_until c s = ([], Ok tt).
Proof.
  induction s as [|x s IH]; intro H; cbn [skip_inclusive_until]; [reflexivity|].
  destruct (Z.eqb_spec x c) as [->|_]; [exfalso; apply H; left; reflexivity|].
  apply IH. intro J. apply H. right. exact J.
Qed.

Lemma find_in_some cs x : In x cs -> find_in cs x = Some x.
Proof.
  induction cs as [|c cs IH]; intro H; [destruct H|]. cbn [find_in]. destruct (Z.eqb_spec c x) as [->|N]; [reflexivity|].
  apply IH. destruct H as [H|H]; [congruence|exact H].
Qed.
Lemma find_in_none cs x : ~ In x cs -> find_in cs x = None.
Proof.
  induction cs as [|c cs IH]; intro H; [reflexivity|]. cbn [find_in]. destruct (Z.eqb_spec c x) as [->|N].
  - exfalso. apply H. left. reflexivity.
  - apply IH. intro J. apply H. right. exact J.
Qed.
Lemma skip_one_of_found cs pre c rest : In c cs -> Forall (fun x => ~ In x cs) pre ->
  skip_inclusive_until_one_of cs (pre ++ c :: rest) = (rest, Ok c).
Proof.
  intros H F. induction F as [|x pre Hx F IH]; cbn [app skip_inclusive_until_one_of].
  - rewrite find_in_some by exact H. reflexivity.
  - rewrite find_in_none by exact Hx. exact IH.
Qed.
Lemma skip_one_of_none cs s : Forall (fun x => ~ In x cs) s -> skip_inclusive_until_one_of cs s = ([], Ok 0).
Proof.
  intros F. induction F as [|x pre Hx F IH]; cbn [skip_inclusive_until_one_of]; [reflexivity|].
  rewrite find_in_none by exact Hx. exact IH.
Qed.

Lemma find_if_split (p : Z -> bool) s : exists a b, s = a ++ b /\ Forall (fun c => p c = false) a /\
  (forall c r, b = c :: r -> p c = true) /\ find_if p s = N.of_nat (length a).
Proof.
  induction s as [|c s IH]; cbn [find_if].
  - exists [], []. repeat split; [constructor|discriminate].
  - destruct (p c) eqn:E.
    + exists [], (c :: s). repeat split; [constructor|intros c' r H; injection H as <- <-; exact E].
    + destruct IH as (a & b & -> & F & M & ->). exists (c :: a), b.
      repeat split; [constructor; auto|exact M|cbn [length]; lia].
Qed.

Lemma read_until_spec p s : exists w rest, s = w ++ rest /\ read_until p s = (rest, Ok w) /\
  Forall (fun c => p c = false) w /\ (forall c r, rest = c :: r -> p c = true).
Proof.
  destruct (find_if_split p s) as (a & b & E & F & M & C). exists a, b. repeat split; auto.
  unfold read_until. rewrite C. destruct (N.ltb_spec (N.of_nat (length a)) (size s)) as [L|L].
  - unfold substr. destruct (N.ltb_spec (size s) 0); [lia|].
    rewrite N.sub_0_r, N.min_l by lia. rewrite Nat2N.id. cbn [skipn N.to_nat].
    rewrite E, firstn_app_exact, substr_from_app. reflexivity.
  - unfold size in L. rewrite E, app_length in L. destruct b; [|cbn [length] in L; lia].
    rewrite app_nil_r in E. rewrite E. reflexivity.
Qed.

Lemma read_until_maximal p P s : (forall c, p c = false <-> P c) ->
  exists w rest, s = w ++ rest /\ maximal P w rest /\ read_until p s = (rest, Ok w).
Proof.
  intro H. destruct (read_until_spec p s) as (w & rest & E & R & F & M). exists w, rest. repeat split; auto.
  - eapply Forall_impl; [|exact F]. intros c. apply H.
  - intros c r Er Pc. apply H in Pc. rewrite (M _ _ Er) in Pc. discriminate.
Qed.

Lemma read_word_spec s : exists w rest, s = w ++ rest /\ maximal (fun c => ~ space c) w rest /\ read_word s = (rest, Ok w).
Proof. apply read_until_maximal. intro c. apply is_space_false. Qed.
Lemma read_word_until_spec u s : exists w rest, s = w ++ rest /\ maximal (fun c => ~ space c /\ c <> u) w rest /\
  read_word_until u s = (rest, Ok w).
Proof.
  apply read_until_maximal. intro c. rewrite orb_false_iff, is_space_false, Z.eqb_neq. reflexivity.
Qed.
Lemma read_chars_until_spec u s : exists w rest, s = w ++ rest /\ maximal (fun c => c <> u) w rest /\
  read_chars_until u s = (rest, Ok w).
Proof. apply read_until_maximal. intro c. apply Z.eqb_neq. Qed.

Lemma read_chars_spec n s : read_chars n s = (skipn (N.to_nat n) s, Ok (firstn (N.to_nat n) s)).
Proof.
  unfold read_chars, andthen, get_view, fail, set_view, ret. unfold substr_from, size.
  destruct (N.ltb_spec (N.of_nat (length s)) (N.min n (N.of_nat (length s)))); [lia|].
  destruct (N.min_spec n (N.of_nat (length s))) as [[L ->]|[L ->]]; [reflexivity|].
  rewrite Nat2N.id, skipn_all, firstn_all, skipn_all2, firstn_all2 by lia. reflexivity.
Qed.

Lemma read_char_cons c s : read_char (c :: s) = (s, Ok c).
Proof.
  unfold read_char, andthen, throw_if_empty, get_view, fail, set_view, ret, front, substr_from, size.
  destruct (N.ltb_spec (N.of_nat (length (c :: s))) 1); [cbn [length] in *; lia|]. reflexivity.
Qed.
Lemma read_char_nil : read_char [] = ([], Throw InvalidArgument).
Proof. reflexivity. Qed.
Lemma peek_char_cons c s : peek_char (c :: s) = (c :: s, Ok c).
Proof. reflexivity. Qed.
Lemma peek_char_n_spec n s : peek_char_n n s =
  (s, match nth_error s (N.to_nat n) with Some c => Ok c | None => Throw InvalidArgument end).
Proof.
  unfold peek_char_n, andthen, get_view, fail, view_at, size.
  destruct (N.leb_spec (N.of_nat (length s)) n) as [L|L].
  - rewrite (proj2 (nth_error_None s (N.to_nat n))) by lia. reflexivity.
  - destruct (nth_error s (N.to_nat n)) eqn:E; [reflexivity|]. apply nth_error_None in E. lia.
Qed.

(** ** Digits *)
Lemma digit_value_spec base c : 2 <= base <= 36 ->
  (digit_value c < base -> digit base c (digit_value c)) /\ (base <= digit_value c -> ~ is_digit base c).
Proof.
  intro B. unfold digit_value, is_digit, digit.
  destruct (Z.leb_spec 48 c); destruct (Z.leb_spec c 57); cbn [andb];
    destruct (Z.leb_spec 97 c); destruct (Z.leb_spec c 122); cbn [andb];
    destruct (Z.leb_spec 65 c); destruct (Z.leb_spec c 90); cbn [andb];
    (split; [intro; lia|intros L [d D]; lia]).
Qed.
Lemma digit_fun base c d d' : digit base c d -> digit base c d' -> d = d'.
Proof. unfold digit. lia. Qed.
Lemma digit_is base c d : digit base c d -> is_digit base c.
Proof. intro H. exists d. exact H. Qed.

Lemma denotes_app base ds v : denotes base ds v -> 0 <= base -> 0 <= v < base ^ Z.of_nat (length ds).
Proof.
  intros H B. induction H as [|ds v c d H IH [D _]]; [cbn; lia|].
  rewrite app_length, Nat2Z.inj_add. cbn [length]. rewrite Z.pow_add_r by lia. change (Z.of_nat 1) with 1. rewrite Z.pow_1_r. nia.
Qed.
Lemma denotes_digits base ds v : denotes base ds v -> Forall (is_digit base) ds.
Proof.
  induction 1 as [|ds v c d H IH D]; [constructor|]. apply Forall_app. split; [exact IH|].
  constructor; [exact (digit_is _ _ _ D)|constructor].
Qed.
Lemma denotes_exists base ds : Forall (is_digit base) ds -> exists v, denotes base ds v.
Proof.
  induction ds as [|c ds IH] using rev_ind; intro F; [exists 0; constructor|].
  apply Forall_app in F. destruct F as [F G]. destruct (IH F) as [v H]. inversion G as [|? ? [d D] ?]; subst.
  exists (v * base + d). constructor; auto.
Qed.
Lemma denotes_fun base ds v v' : denotes base ds v -> denotes base ds v' -> v = v'.
Proof.
  intro H. revert v'. induction H as [|ds v c d H IH D]; intros v' H'.
  - inversion H' as [E|ds v c d ? ? E]; [reflexivity|]. destruct ds; discriminate.
  - inversion H' as [E|ds' v'' c' d' H2 D2 E]; [destruct ds; discriminate|].
    apply app_inj_tail in E. destruct E as [-> ->]. rewrite (IH _ H2). rewrite (digit_fun _ _ _ _ D D2). reflexivity.
Qed.
Lemma denotes_nonneg base ds v : denotes base ds v -> 0 <= base -> 0 <= v.
Proof. intros H B. apply (denotes_app _ _ _ H B). Qed.

Lemma scan_digits_spec base s : 2 <= base <= 36 -> forall n pre v, denotes base pre v -> exists ds rest v',
  s = ds ++ rest /\ Forall (is_digit base) ds /\ first_not (is_digit base) rest /\ denotes base (pre ++ ds) v' /\
  scan_digits base s n v = ((n + N.of_nat (length ds))%N, v').
Proof.
  intro B. induction s as [|c s IH]; intros n pre v H; cbn [scan_digits].
  - exists [], [], v. rewrite (app_nil_r pre). repeat split; auto; [intros ? ? ?; discriminate|f_equal; cbn [length]; lia].
  - destruct (digit_value_spec base c B) as [D1 D2]. destruct (Z.ltb_spec (digit_value c) base) as [L|L].
    + specialize (D1 L). destruct (IH (n + 1)%N (pre ++ [c]) _ (den_snoc _ _ _ _ _ H D1)) as (ds & rest & v' & -> & F & M & R & ->).
      exists (c :: ds), rest, v'. rewrite <- app_assoc in R. repeat split; auto.
      * constructor; [exact (digit_is _ _ _ D1)|exact F].
      * f_equal. cbn [length]. lia.
    + specialize (D2 L). exists [], (c :: s), v. rewrite (app_nil_r pre).
      repeat split; auto; [intros c1 s1 E; injection E as <- <-; exact D2|f_equal; cbn [length]; lia].
Qed.

Lemma scan_digits_exact base ds v rest : 2 <= base <= 36 -> denotes base ds v -> first_not (is_digit base) rest ->
  scan_digits base (ds ++ rest) 0 0 = (N.of_nat (length ds), v).
Proof.
  intros B H M. destruct (scan_digits_spec base (ds ++ rest) B 0 [] 0 (den_nil _)) as (ds' & rest' & v' & E & F' & M' & H' & ->).
  destruct (maximal_unique (is_digit base) ds rest ds' rest') as [-> ->]; [split|split| |]; try assumption.
  - exact (denotes_digits _ _ _ H).
  - cbn [app] in H'. rewrite (denotes_fun _ _ _ _ H H'). f_equal.
Qed.

Lemma fits_iff t v : fits t v = true <-> in_range (is_signed t) (bits t) v.
Proof.
  unfold fits, min_value, max_value, in_range. rewrite andb_true_iff, !Z.leb_le. destruct (is_signed t); lia.
Qed.

(** ** from_chars and the rest of read_number *)
Definition clip (t : ity) (v : Z) : Z := if fits t v then v else 0.

Lemma finish_from_chars_pos dbg t base ds v rest : 2 <= base <= 36 -> ds <> [] -> denotes base ds v ->
  first_not (is_digit base) rest ->
  finish_number dbg 0 (from_chars t base (ds ++ rest)) (ds ++ rest) = (rest, Ok (clip t v)).
Proof.
  intros B N H M. unfold from_chars. pose proof (denotes_digits _ _ _ H) as F.
  assert (E : match ds ++ rest with c :: _ => is_signed t && (c =? 45) | [] => false end = false).
  { destruct ds as [|c ds]; [congruence|]. cbn [app]. inversion F as [|? ? [d D] ?]; subst. unfold digit in D.
    destruct (Z.eqb_spec c 45); [lia|]. apply andb_false_r. }
  rewrite E, (scan_digits_exact base ds v rest) by auto.
  assert (L : (0 < N.of_nat (length ds))%N) by (destruct ds; [congruence|cbn [length]; lia]).
  destruct (N.eqb_spec (N.of_nat (length ds)) 0); [lia|]. unfold clip.
  destruct (fits t v); unfold finish_number, andthen, fail, get_view, set_view, ret; cbn [fc_ec fc_len fc_value].
  - destruct (N.ltb_spec 0 (N.of_nat (length ds))); [|lia]. destruct dbg; cbn [assert_]; rewrite substr_from_app; reflexivity.
  - destruct (N.ltb_spec 0 (N.of_nat (length ds))); [|lia]. destruct dbg; cbn [assert_]; rewrite substr_from_app; reflexivity.
Qed.

Lemma finish_from_chars_neg dbg t base ds v rest : is_signed t = true -> 2 <= base <= 36 -> ds <> [] -> denotes base ds v ->
  first_not (is_digit base) rest ->
  finish_number dbg 0 (from_chars t base (45 :: ds ++ rest)) (45 :: ds ++ rest) = (rest, Ok (clip t (- v))).
Proof.
  intros S B N H M. unfold from_chars. cbn [tl]. rewrite S, Z.eqb_refl. cbn [andb].
  rewrite (scan_digits_exact base ds v rest) by auto.
  assert (L : (0 < N.of_nat (length ds))%N) by (destruct ds; [congruence|cbn [length]; lia]).
  destruct (N.eqb_spec (N.of_nat (length ds)) 0); [lia|]. unfold clip.
  assert (E : substr_from (45 :: ds ++ rest) (N.of_nat (length ds) + 1) = Ok rest).
  { rewrite <- (substr_from_app (45 :: ds) rest). f_equal. cbn [length]. lia. }
  destruct (fits t (- v)); unfold finish_number, andthen, fail, get_view, set_view, ret; cbn [fc_ec fc_len fc_value].
  - destruct (N.ltb_spec 0 (N.of_nat (length ds) + 1)); [|lia]. destruct dbg; cbn [assert_]; rewrite E; reflexivity.
  - destruct (N.ltb_spec 0 (N.of_nat (length ds) + 1)); [|lia]. destruct dbg; cbn [assert_]; rewrite E; reflexivity.
Qed.

Lemma scan_none base s : 2 <= base <= 36 -> first_not (is_digit base) s -> scan_digits base s 0 0 = (0%N, 0).
Proof. intros B M. apply (scan_digits_exact base [] 0 s B (den_nil _) M). Qed.

Lemma finish_from_chars_invalid dbg t base s : 2 <= base <= 36 -> first_not (is_digit base) s ->
  (forall r, is_signed t = true -> s = 45 :: r -> first_not (is_digit base) r) ->
  finish_number dbg 0 (from_chars t base s) s = (s, Throw InvalidArgument).
Proof.
  intros B M MS. unfold from_chars. destruct s as [|c s].
  - rewrite scan_none by auto. reflexivity.
  - destruct (is_signed t && (c =? 45)) eqn:E.
    + apply andb_true_iff in E. destruct E as [E1 E2]. apply Z.eqb_eq in E2. subst c. cbn [tl].
      rewrite scan_none by (auto; apply (MS s E1 eq_refl)). reflexivity.
    + rewrite scan_none by auto. reflexivity.
Qed.

(** ** read_number *)
Lemma read_number_skip dbg t s ws r : s = ws ++ r -> maximal space ws r ->
  read_number dbg t s = (b <~ (if is_signed t then ret (Some 10) else detect_base) ;;
    match b with None => ret 0 | Some base => s <~ get_view ;; finish_number dbg 0 (from_chars t base s) end) r.
Proof.
  intros -> M. unfold read_number. unfold andthen at 1.
  destruct (skip_whitespaces_spec (ws ++ r)) as (ws' & r' & E & M' & ->).
  destruct (maximal_unique _ _ _ _ _ M M' E) as [<- <-]. reflexivity.
Qed.

Lemma read_number_signed dbg t s ws r v rest : is_signed t = true -> s = ws ++ r -> maximal space ws r ->
  signed_text r v rest -> read_number dbg t s = (rest, Ok (clip t v)).
Proof.
  intros S E M T. rewrite (read_number_skip dbg t s ws r E M), S. unfold andthen, ret, get_view. destruct T.
  - apply finish_from_chars_pos; auto; lia.
  - apply finish_from_chars_neg; auto; lia.
Qed.

Lemma first_not_dec P s : (forall c, P c \/ ~ P c) -> first_not P s \/ exists c s', s = c :: s' /\ P c.
Proof.
  intro D. destruct s as [|c s]; [left; intros ? ? ?; discriminate|].
  destruct (D c) as [H|H]; [right; eauto|left]. intros c' s' E. injection E as <- <-. exact H.
Qed.
Lemma is_digit_dec base c : 2 <= base <= 36 -> is_digit base c \/ ~ is_digit base c.
Proof.
  intro B. destruct (digit_value_spec base c B) as [H1 H2]. destruct (Z.lt_ge_cases (digit_value c) base) as [L|L].
  - left. exact (digit_is _ _ _ (H1 L)).
  - right. auto.
Qed.
Lemma digits_split base s : 2 <= base <= 36 -> exists ds rest v, s = ds ++ rest /\ denotes base ds v /\ first_not (is_digit base) rest.
Proof.
  intro B. destruct (scan_digits_spec base s B 0 [] 0 (den_nil _)) as (ds & rest & v & E & _ & M & H & _).
  exists ds, rest, v. auto.
Qed.
Lemma digits_split_ne base c s : 2 <= base <= 36 -> is_digit base c -> exists ds rest v,
  c :: s = c :: ds ++ rest /\ denotes base (c :: ds) v /\ first_not (is_digit base) rest.
Proof.
  intros B D. destruct (digits_split base (c :: s) B) as (ds & rest & v & E & H & M). destruct ds as [|c' ds].
  - exfalso. cbn [app] in E. apply (M c s (eq_sym E) D).
  - cbn [app] in E. injection E as <- ->. exists ds, rest, v. auto.
Qed.

Lemma signed_total r : (exists v rest, signed_text r v rest) \/
  (first_not (is_digit 10) r /\ forall r', r = 45 :: r' -> first_not (is_digit 10) r').
Proof.
  destruct (first_not_dec (is_digit 10) r) as [N|(c & s & -> & D)]; [intro; apply is_digit_dec; lia| |].
  - destruct r as [|c r]; [right; split; [exact N|discriminate]|].
    destruct (Z.eq_dec c 45) as [->|Nc].
    + destruct (first_not_dec (is_digit 10) r) as [N2|(c & s & -> & D)]; [intro; apply is_digit_dec; lia| |].
      * right. split; [exact N|]. intros r' E. injection E as <-. exact N2.
      * left. destruct (digits_split_ne 10 c s ltac:(lia) D) as (ds & rest & v & E & H & M).
        rewrite E. exists (- v), rest. apply (st_neg (c :: ds)); auto. discriminate.
    + right. split; [exact N|]. intros r' E. injection E. congruence.
  - left. destruct (digits_split_ne 10 c s ltac:(lia) D) as (ds & rest & v & E & H & M).
    rewrite E. exists v, rest. apply (st_pos (c :: ds)); auto. discriminate.
Qed.

Lemma read_number_signed_throw dbg t s ws r : is_signed t = true -> s = ws ++ r -> maximal space ws r ->
  first_not (is_digit 10) r -> (forall r', r = 45 :: r' -> first_not (is_digit 10) r') ->
  read_number dbg t s = (r, Throw InvalidArgument).
Proof.
  intros S E M N N2. rewrite (read_number_skip dbg t s ws r E M), S. unfold andthen, ret, get_view.
  apply finish_from_chars_invalid; auto. lia.
Qed.

(** Classification of the characters looked at by the detection of the base. *)
Lemma dec_digit c : is_digit 10 c <-> 48 <= c <= 57.
Proof. unfold is_digit, digit. split; [intros [d D]; lia|intro; exists (c - 48); lia]. Qed.
Lemma oct_digit c : is_digit 8 c <-> 48 <= c <= 55.
Proof. unfold is_digit, digit. split; [intros [d D]; lia|intro; exists (c - 48); lia]. Qed.
Lemma bin_digit c : is_digit 2 c <-> 48 <= c <= 49.
Proof. unfold is_digit, digit. split; [intros [d D]; lia|intro; exists (c - 48); lia]. Qed.
Lemma hex_digit c : is_digit 16 c <-> is_hex_digit c = true.
Proof.
  unfold is_hex_digit. rewrite !orb_true_iff, !andb_true_iff, !Z.leb_le. unfold is_digit, digit. split; [intros [d D]; lia|].
  intros [[H|H]|H]; [exists (c - 48)|exists (c - 87)|exists (c - 55)]; lia.
Qed.

Lemma andthen_ok {A B} (m : op A) (k : A -> op B) s s' x : m s = (s', Ok x) -> andthen m k s = k x s'.
Proof. intro H. unfold andthen. rewrite H. reflexivity. Qed.

Lemma detect_dec c s : c <> 48 -> detect_base (c :: s) = (c :: s, Ok (Some 10)).
Proof. intro N. unfold detect_base, andthen. rewrite peek_char_cons. destruct (Z.eqb_spec c 48); [congruence|reflexivity]. Qed.
Lemma detect_nil : detect_base [] = ([], Throw InvalidArgument).
Proof. reflexivity. Qed.
Definition detect_zero (s : list Z) : list Z * outcome (option Z) :=
  match s with
  | [] => (s, Ok None)
  | c :: s' =>
      if c =? 120 then match s' with [] => (s, Ok None) | c' :: _ => if is_hex_digit c' then (s', Ok (Some 16)) else (s, Ok None) end
      else if c =? 98 then match s' with [] => (s, Ok None) | c' :: _ => if (c' =? 48) || (c' =? 49) then (s', Ok (Some 2)) else (s, Ok None) end
      else if (48 <=? c) && (c <=? 55) then (s, Ok (Some 8))
      else if (c <? 48) || (57 <? c) then (s, Ok None) else (s, Ok (Some 10))
  end.
Lemma detect_48 s : detect_base (48 :: s) = detect_zero s.
Proof.
  unfold detect_base. rewrite (andthen_ok _ _ _ _ _ (peek_char_cons 48 s)). change (48 =? 48) with true. cbv beta iota.
  rewrite (andthen_ok _ _ _ _ _ (read_char_cons 48 s)). rewrite (andthen_ok get_view _ s s s eq_refl).
  destruct s as [|c s]; [reflexivity|].
  rewrite (andthen_ok _ _ _ _ _ (peek_char_cons c s)). unfold detect_zero. destruct (Z.eqb_spec c 120) as [->|N].
  - destruct s as [|c' s]; [reflexivity|]. destruct (N.ltb_spec (size (120 :: c' :: s)) 2) as [L|L]; [unfold size in L; cbn [length] in L; lia|].
    rewrite (andthen_ok _ _ _ _ _ (peek_char_n_spec 1 (120 :: c' :: s))).
    destruct (is_hex_digit c'); [|reflexivity]. rewrite (andthen_ok _ _ _ _ _ (read_char_cons _ _)). reflexivity.
  - destruct (Z.eqb_spec c 98) as [->|N2].
    + destruct s as [|c' s]; [reflexivity|]. destruct (N.ltb_spec (size (98 :: c' :: s)) 2) as [L|L]; [unfold size in L; cbn [length] in L; lia|].
      rewrite (andthen_ok _ _ _ _ _ (peek_char_n_spec 1 (98 :: c' :: s))).
      destruct ((c' =? 48) || (c' =? 49)); [|reflexivity]. rewrite (andthen_ok _ _ _ _ _ (read_char_cons _ _)). reflexivity.
    + unfold ret. destruct ((48 <=? c) && (c <=? 55)); [reflexivity|]. destruct ((c <? 48) || (57 <? c)); reflexivity.
Qed.

Lemma read_number_unsigned dbg t s ws r v rest : is_signed t = false -> s = ws ++ r -> maximal space ws r ->
  unsigned_text r v rest -> read_number dbg t s = (rest, Ok (clip t v)).
Proof.
  intros S E M T. rewrite (read_number_skip dbg t s ws r E M), S. clear s ws E M.
  unfold andthen at 1. inversion T as [ds v0 rest0 N H M|ds v0 rest0 N H M|ds v0 rest0 N H M|c ds v0 rest0 Nc H M|c ds v0 rest0 Nc H M|rest0 M X Bn]; subst.
  - rewrite detect_48. destruct ds as [|c ds]; [congruence|]. cbn [app detect_zero].
    change (120 =? 120) with true. cbv beta iota. pose proof (denotes_digits _ _ _ H) as F. inversion F as [|? ? D ?]; subst.
    apply hex_digit in D. rewrite D. unfold andthen, get_view. apply (finish_from_chars_pos dbg t 16 (c :: ds)); auto. lia.
  - rewrite detect_48. destruct ds as [|c ds]; [congruence|]. cbn [app detect_zero].
    change (98 =? 120) with false. change (98 =? 98) with true. cbv beta iota.
    pose proof (denotes_digits _ _ _ H) as F. inversion F as [|? ? D ?]; subst.
    apply bin_digit in D. assert (D' : (c =? 48) || (c =? 49) = true) by (rewrite orb_true_iff, !Z.eqb_eq; lia). rewrite D'.
    unfold andthen, get_view. apply (finish_from_chars_pos dbg t 2 (c :: ds)); auto. lia.
  - rewrite detect_48. destruct ds as [|c ds]; [congruence|]. cbn [app detect_zero].
    pose proof (denotes_digits _ _ _ H) as F. inversion F as [|? ? D ?]; subst. apply oct_digit in D.
    destruct (Z.eqb_spec c 120); [lia|]. destruct (Z.eqb_spec c 98); [lia|].
    assert (D' : (48 <=? c) && (c <=? 55) = true) by (rewrite andb_true_iff, !Z.leb_le; lia). rewrite D'.
    unfold andthen, get_view. apply (finish_from_chars_pos dbg t 8 (c :: ds)); auto. lia.
  - rewrite detect_dec by exact Nc. unfold andthen, get_view.
    apply (finish_from_chars_pos dbg t 10 (c :: ds)); auto; [lia|discriminate].
  - rewrite detect_48. cbn [detect_zero]. rewrite oct_digit in Nc.
    pose proof (denotes_digits _ _ _ H) as F. inversion F as [|? ? D ?]; subst. apply dec_digit in D.
    destruct (Z.eqb_spec c 120); [lia|]. destruct (Z.eqb_spec c 98); [lia|].
    destruct ((48 <=? c) && (c <=? 55)) eqn:G; [rewrite andb_true_iff, !Z.leb_le in G; lia|].
    destruct ((c <? 48) || (57 <? c)) eqn:G2; [rewrite orb_true_iff, !Z.ltb_lt in G2; lia|].
    unfold andthen, get_view. apply (finish_from_chars_pos dbg t 10 (c :: ds)); auto; [lia|discriminate].
  - rewrite detect_48.
    assert (C : clip t 0 = 0). { unfold clip. destruct (fits t 0); reflexivity. } rewrite C.
    assert (Q : detect_zero rest = (rest, Ok None)).
    { destruct rest as [|c s]; [reflexivity|]. unfold detect_zero. pose proof (M c s eq_refl) as Nd. rewrite dec_digit in Nd.
      destruct (Z.eqb_spec c 120) as [->|N].
      - destruct s as [|c' s]; [reflexivity|]. specialize (X c' s eq_refl). rewrite hex_digit in X.
        destruct (is_hex_digit c'); [congruence|reflexivity].
      - destruct (Z.eqb_spec c 98) as [->|N2].
        + destruct s as [|c' s]; [reflexivity|]. specialize (Bn c' s eq_refl). rewrite bin_digit in Bn.
          destruct (Z.eqb_spec c' 48); [lia|]. destruct (Z.eqb_spec c' 49); [lia|]. reflexivity.
        + destruct ((48 <=? c) && (c <=? 55)) eqn:G; [rewrite andb_true_iff, !Z.leb_le in G; lia|].
          destruct ((c <? 48) || (57 <? c)) eqn:G2; [reflexivity|]. rewrite orb_false_iff, !Z.ltb_ge in G2. lia. }
    rewrite Q. reflexivity.
Qed.

Lemma unsigned_total r : (exists v rest, unsigned_text r v rest) \/ first_not (is_digit 10) r.
Proof.
  destruct (first_not_dec (is_digit 10) r) as [N|(c & s & -> & D)]; [intro; apply is_digit_dec; lia|right; exact N|left].
  destruct (Z.eq_dec c 48) as [->|Nc].
  2:{ destruct (digits_split_ne 10 c s ltac:(lia) D) as (ds & rest & v & E & H & M). rewrite E. exists v, rest.
      apply ut_dec; auto. }
  clear D. destruct s as [|c s].
  { exists 0, []. apply ut_zero; [intros ? ? ?; discriminate|discriminate|discriminate]. }
  destruct (is_digit_dec 10 c ltac:(lia)) as [D|D].
  - destruct (is_digit_dec 8 c ltac:(lia)) as [D8|D8].
    + destruct (digits_split_ne 8 c s ltac:(lia) D8) as (ds & rest & v & E & H & M). rewrite E. exists v, rest.
      apply (ut_oct (c :: ds)); auto. discriminate.
    + destruct (digits_split_ne 10 c s ltac:(lia) D) as (ds & rest & v & E & H & M). rewrite E. exists v, rest.
      apply ut_dec0; auto.
  - assert (M10 : first_not (is_digit 10) (c :: s)) by (intros c' s' E; injection E as <- <-; exact D).
    destruct (Z.eq_dec c 120) as [->|Nx].
    + destruct s as [|c s]; [exists 0, [120]; apply ut_zero; auto; discriminate|].
      destruct (is_digit_dec 16 c ltac:(lia)) as [D16|D16].
      * destruct (digits_split_ne 16 c s ltac:(lia) D16) as (ds & rest & v & E & H & M). rewrite E. exists v, rest.
        apply (ut_hex (c :: ds)); auto. discriminate.
      * exists 0, (120 :: c :: s). apply ut_zero; auto; [|discriminate]. intros c' r E. injection E as <- <-. exact D16.
    + destruct (Z.eq_dec c 98) as [->|Nb].
      * destruct s as [|c s]; [exists 0, [98]; apply ut_zero; auto; discriminate|].
        destruct (is_digit_dec 2 c ltac:(lia)) as [D2|D2].
        -- destruct (digits_split_ne 2 c s ltac:(lia) D2) as (ds & rest & v & E & H & M). rewrite E. exists v, rest.
           apply (ut_bin (c :: ds)); auto. discriminate.
        -- exists 0, (98 :: c :: s). apply ut_zero; auto; [discriminate|]. intros c' r E. injection E as <- <-. exact D2.
      * exists 0, (c :: s). apply ut_zero; auto; intros c' r E; injection E; congruence.
Qed.

Lemma read_number_unsigned_throw dbg t s ws r : is_signed t = false -> s = ws ++ r -> maximal space ws r ->
  first_not (is_digit 10) r -> read_number dbg t s = (r, Throw InvalidArgument).
Proof.
  intros S E M N. rewrite (read_number_skip dbg t s ws r E M), S. unfold andthen at 1.
  destruct r as [|c r]; [reflexivity|]. rewrite detect_dec.
  - unfold andthen, get_view. apply finish_from_chars_invalid; auto; [lia|]. intros ? H. congruence.
  - intros ->. apply (N 48 r eq_refl). apply dec_digit. lia.
Qed.

(** ** to_string *)
Lemma digit_char_ok base d : 2 <= base <= 36 -> 0 <= d < base -> digit base (digit_char d) d /\ ~ 65 <= digit_char d <= 90 /\ (d <> 0 -> digit_char d <> 48).
Proof. intros B D. unfold digit_char, digit. destruct (Z.ltb_spec d 10); lia. Qed.

Lemma write_digits_spec base : 2 <= base <= 36 -> forall fuel v acc, 0 <= v < 2 ^ Z.of_nat fuel -> (0 < fuel)%nat -> exists ds,
  write_digits fuel base v acc = ds ++ acc /\ denotes base ds v /\ ds <> [] /\ canonical ds /\ (length ds <= fuel)%nat.
Proof.
  intro B. induction fuel as [|fuel IH]; intros v acc V L; [lia|]. cbn [write_digits].
  destruct (Z.ltb_spec v base) as [S|S].
  - destruct (digit_char_ok base (v mod base) B) as (D & U & Z0); [apply Z.mod_pos_bound; lia|].
    rewrite Z.mod_small in * by lia. exists [digit_char v].
    repeat split; [|discriminate| |constructor; [exact U|constructor]|cbn; lia].
    + apply (den_snoc base [] 0 _ v (den_nil _)) in D. exact D.
    + destruct (Z.eq_dec v 0) as [->|Nv]; [left; reflexivity|right]. exists (digit_char v), []. auto.
  - assert (Q : 0 < v / base) by (apply Z.div_str_pos; lia).
    assert (V2 : 0 <= v / base < 2 ^ Z.of_nat fuel).
    { split; [lia|]. rewrite Nat2Z.inj_succ, Z.pow_succ_r in V by lia.
      apply Z.div_lt_upper_bound; [lia|]. nia. }
    assert (L2 : (0 < fuel)%nat). { destruct fuel; [cbn in V2; lia|lia]. }
    destruct (IH (v / base) (digit_char (v mod base) :: acc) V2 L2) as (ds & -> & H & N & [C U] & Ln).
    destruct (digit_char_ok base (v mod base) B) as (D & Ud & _); [apply Z.mod_pos_bound; lia|].
    exists (ds ++ [digit_char (v mod base)]). rewrite <- app_assoc. split; [reflexivity|]. split.
    + pose proof (den_snoc base ds _ _ _ H D) as G. replace (v / base * base + v mod base) with v in G; [exact G|].
      rewrite (Z.div_mod v base) at 1 by lia. lia.
    + split; [destruct ds; discriminate|]. split; [split|rewrite app_length; cbn [length]; lia].
      * right. destruct C as [->|(c & ds' & -> & Nc)].
        { exfalso. assert (digit base 48 0) by (unfold digit; lia).
          pose proof (denotes_fun _ _ _ _ H (den_snoc base [] 0 48 0 (den_nil _) H0)). lia. }
        exists c, (ds' ++ [digit_char (v mod base)]). auto.
      * apply Forall_app. split; [exact U|]. constructor; [exact Ud|constructor].
Qed.

Lemma to_int_bounds b : 2 <= to_int b <= 36.
Proof. destruct b; cbn; lia. Qed.

Lemma to_string_spec dbg t v b : 1 <= bits t <= 126 -> in_range (is_signed t) (bits t) v -> exists ds,
  to_string dbg t v b = Ok (written (is_signed t) (to_int b) v ds) /\
  ds <> [] /\ denotes (to_int b) ds (Z.abs v) /\ canonical ds.
Proof.
  intros B R. unfold to_string, to_chars.
  assert (V : 0 <= Z.abs v < 2 ^ Z.of_nat (S (Z.to_nat (Z.log2 (Z.abs v))))).
  { split; [lia|]. destruct (Z.eq_dec (Z.abs v) 0) as [->|Nv]; [reflexivity|].
    rewrite Nat2Z.inj_succ, Z2Nat.id by apply Z.log2_nonneg. apply Z.log2_spec. lia. }
  destruct (write_digits_spec (to_int b) (to_int_bounds b) _ (Z.abs v) [] V ltac:(lia)) as (ds & -> & H & N & C & L).
  rewrite app_nil_r. exists ds. split; [|auto].
  assert (L2 : Z.of_nat (length ds) <= bits t).
  { destruct (Z.eq_dec (Z.abs v) 0) as [E|Nv]; [rewrite E in L; cbn in L; lia|].
    enough (Z.log2 (Z.abs v) < bits t) by lia. unfold in_range in R.
    assert (2 ^ bits t = 2 * 2 ^ (bits t - 1)) by (rewrite <- Z.pow_succ_r by lia; f_equal; lia).
    assert (0 < 2 ^ (bits t - 1)) by (apply Z.pow_pos_nonneg; lia).
    apply Z.log2_lt_pow2; [lia|]. destruct (is_signed t); lia. }
  unfold buf_size, written. unfold in_range in R. destruct (is_signed t) eqn:Sg.
  - cbn [length app]. destruct (Z.ltb_spec v 0) as [Vn|Vn]; cbn [length app].
    + destruct (Z.leb_spec (Z.of_nat (S (length ds))) (128 - Z.of_nat 0)); [|lia].
      destruct (Z.leb_spec (Z.of_nat 0 + Z.of_nat (length (45 :: ds))) 128); [|cbn [length] in *; lia]. destruct dbg; reflexivity.
    + destruct (Z.leb_spec (Z.of_nat (length ds)) (128 - Z.of_nat 0)); [|lia].
      destruct (Z.leb_spec (Z.of_nat 0 + Z.of_nat (length ds)) 128); [|lia]. destruct dbg; reflexivity.
  - destruct (Z.ltb_spec v 0); [lia|].
    assert (P : exists p, (match b with bin => [48; 98] | oct => [48] | dec => [] | hex => [48; 120] end) = p /\ (length p <= 2)%nat /\
      p = (if to_int b =? 2 then [48; 98] else if to_int b =? 8 then [48] else if to_int b =? 16 then [48; 120] else [])).
    { destruct b; eexists; (split; [reflexivity|split; [cbn; lia|reflexivity]]). }
    destruct P as (p & -> & Lp & <-).
    destruct (Z.leb_spec (Z.of_nat (length ds)) (128 - Z.of_nat (length p))); [|lia].
    destruct (Z.leb_spec (Z.of_nat (length p) + Z.of_nat (length ds)) 128); [|lia]. destruct dbg; reflexivity.
Qed.

Lemma to_string_injective dbg dbg' t v v' b s : 1 <= bits t <= 126 ->
  in_range (is_signed t) (bits t) v -> in_range (is_signed t) (bits t) v' ->
  to_string dbg t v b = Ok s -> to_string dbg' t v' b = Ok s -> v = v'.
Proof.
  intros B R R' E E'.
  destruct (to_string_spec dbg t v b B R) as (ds & W & N & H & _).
  destruct (to_string_spec dbg' t v' b B R') as (ds' & W' & N' & H' & _).
  rewrite E in W. rewrite E' in W'. injection W as W. injection W' as W'. rewrite W in W'. unfold written in W'.
  apply app_inv_head in W'. pose proof (denotes_digits _ _ _ H) as F. pose proof (denotes_digits _ _ _ H') as F'.
  assert (Nm : forall base, ~ is_digit base 45) by (intros base [d D]; unfold digit in D; lia).
  destruct (Z.ltb_spec v 0) as [V|V], (Z.ltb_spec v' 0) as [V'|V']; cbn [app] in W'.
  - injection W' as ->. pose proof (denotes_fun _ _ _ _ H H'). lia.
  - exfalso. destruct ds' as [|c ds']; [congruence|]. injection W' as <- _. inversion F'. eapply Nm; eassumption.
  - exfalso. destruct ds as [|c ds]; [congruence|]. injection W' as -> _. inversion F. eapply Nm; eassumption.
  - rewrite W' in H. pose proof (denotes_fun _ _ _ _ H H'). lia.
Qed.

(** ** Round trips *)
Lemma digit_not_space base c : is_digit base c -> ~ space c.
Proof. intros [d D]. unfold digit in D. unfold space. cbn [In]. lia. Qed.
Lemma clip_in t v : in_range (is_signed t) (bits t) v -> clip t v = v.
Proof. intro R. unfold clip. rewrite (proj2 (fits_iff t v) R). reflexivity. Qed.

Lemma round_trip_unsigned dbg t v b ws rest : is_signed t = false -> 1 <= bits t <= 126 -> 0 <= v < 2 ^ bits t ->
  Forall space ws -> ends_number (to_int b) v rest ->
  exists s, to_string dbg t v b = Ok s /\ read_number dbg t (ws ++ s ++ rest) = (rest, Ok v).
Proof.
  intros S B R W [M Z0].
  assert (R' : in_range (is_signed t) (bits t) v) by (rewrite S; exact R).
  destruct (to_string_spec dbg t v b B R') as (ds & -> & N & H & C & _).
  eexists. split; [reflexivity|]. rewrite S. unfold written. destruct (Z.ltb_spec v 0); [lia|]. cbn [app].
  rewrite Z.abs_eq in H by lia. replace (Ok v) with (Ok (clip t v)) by (rewrite (clip_in t v R'); reflexivity).
  pose proof (denotes_digits _ _ _ H) as F.
  destruct b; cbn [to_int Z.eqb Pos.eqb app] in *; rewrite <- ?app_assoc; cbn [app];
    (eapply read_number_unsigned; [exact S|reflexivity|split; [exact W|]|]).
  all: try (intros c s E; injection E as <- <-; unfold space; cbn [In]; lia).
  - apply ut_bin; auto.
  - apply ut_oct; auto.
  - intros c s E. destruct ds as [|c' ds]; [congruence|]. injection E as <- <-. inversion F. subst. eapply digit_not_space. eassumption.
  - destruct C as [->|(c & ds' & -> & Nc)].
    + assert (v = 0). { assert (D : digit 10 48 0) by (unfold digit; lia). exact (denotes_fun _ _ _ _ H (den_snoc 10 [] 0 48 0 (den_nil _) D)). }
      subst v. destruct (Z0 eq_refl eq_refl) as [X Y]. apply ut_zero; auto.
    + apply ut_dec; auto.
  - apply ut_hex; auto.
Qed.

Lemma round_trip_signed dbg t v ws rest : is_signed t = true -> 1 <= bits t <= 126 -> - 2 ^ (bits t - 1) <= v < 2 ^ (bits t - 1) ->
  Forall space ws -> first_not (is_digit 10) rest ->
  exists s, to_string dbg t v dec = Ok s /\ read_number dbg t (ws ++ s ++ rest) = (rest, Ok v).
Proof.
  intros S B R W M.
  assert (R' : in_range (is_signed t) (bits t) v) by (rewrite S; exact R).
  destruct (to_string_spec dbg t v dec B R') as (ds & -> & N & H & C & _).
  eexists. split; [reflexivity|]. rewrite S. unfold written. cbn [app to_int] in *.
  pose proof (denotes_digits _ _ _ H) as F. replace (Ok v) with (Ok (clip t v)) by (rewrite (clip_in t v R'); reflexivity).
  destruct (Z.ltb_spec v 0) as [V|V]; cbn [app].
  - eapply read_number_signed; [exact S|reflexivity|split; [exact W|]|].
    + intros c s E. injection E as <- <-. unfold space. cbn [In]. lia.
    + rewrite Z.abs_neq in H by lia. rewrite <- (Z.opp_involutive v). apply st_neg; auto.
  - eapply read_number_signed; [exact S|reflexivity|split; [exact W|]|].
    + intros c s E. destruct ds as [|c' ds]; [congruence|]. injection E as <- <-. inversion F. subst. eapply digit_not_space. eassumption.
    + rewrite Z.abs_eq in H by lia. apply st_pos; auto.
Qed.

(** The same digits read in two bases *)
Lemma denotes_two b1 b2 ds v w : 0 <= b1 < b2 -> denotes b1 ds v -> denotes b2 ds w -> 0 <= v <= w /\ (v <> 0 -> 0 < w) /\
  ((2 <= length ds)%nat -> hd 48 ds <> 48 -> v < w).
Proof.
  intros B H. revert w. induction H as [|ds v c d H IH D]; intros w H2.
  - inversion H2 as [E|ds' v' c' d' H3 D2 E]; [cbn [length]; lia|destruct ds'; discriminate].
  - inversion H2 as [E|ds' v' c' d' H3 D2 E]; [destruct ds; discriminate|].
    apply app_inj_tail in E. destruct E as [-> ->]. destruct (IH _ H3) as (I1 & I2 & I3).
    assert (d' = d) by (unfold digit in D, D2; lia). subst d'.
    assert (0 <= d) by (unfold digit in D; lia).
    split; [nia|]. split; [nia|]. intros L C. rewrite app_length in L. cbn [length] in L.
    assert (0 < v).
    { destruct ds as [|x ds]; [cbn [length] in L; lia|]. cbn [app hd] in C. clear - H C B.
      assert (G : forall l u, denotes b1 l u -> forall x l', l = x :: l' -> x <> 48 -> 0 < u).
      { clear. intros l u H. induction H as [|l u c d H IH D]; intros x l' E Nx; [discriminate|].
        destruct l as [|y l].
        - injection E as -> <-. inversion H; [|destruct ds; discriminate]. unfold digit in D. lia.
        - injection E as -> <-. specialize (IH x l eq_refl Nx). unfold digit in D. nia. }
      exact (G _ _ H x ds eq_refl C). }
    nia.
Qed.

Lemma signed_text_fun r v rest v' rest' : signed_text r v rest -> signed_text r v' rest' -> v = v' /\ rest = rest'.
Proof.
  assert (Nm : ~ is_digit 10 45) by (rewrite dec_digit; lia).
  intros T T'.
  assert (Hd : forall ds (x : Z) (s : list Z) u, denotes 10 (x :: ds) u -> is_digit 10 x).
  { intros ds x s u H. apply denotes_digits in H. inversion H. assumption. }
  inversion T as [ds u r0 N H M E1 E2 E3|ds u r0 N H M E1 E2 E3]; inversion T' as [ds' u' r0' N' H' M' E1' E2' E3'|ds' u' r0' N' H' M' E1' E2' E3']; subst.
  - destruct (maximal_unique (is_digit 10) _ _ _ _ (conj (denotes_digits _ _ _ H) M) (conj (denotes_digits _ _ _ H') M') (eq_sym E1')) as [-> ->].
    split; [exact (denotes_fun _ _ _ _ H H')|reflexivity].
  - exfalso. destruct ds as [|x ds]; [congruence|]. injection E1' as <- _. apply Nm. exact (Hd ds 45 [] _ H).
  - exfalso. destruct ds' as [|x ds']; [congruence|]. injection E1' as -> _. apply Nm. exact (Hd ds' 45 [] _ H').
  - injection E1' as E1'.
    destruct (maximal_unique (is_digit 10) _ _ _ _ (conj (denotes_digits _ _ _ H) M) (conj (denotes_digits _ _ _ H') M') (eq_sym E1')) as [-> ->].
    split; [f_equal; exact (denotes_fun _ _ _ _ H H')|reflexivity].
Qed.

Lemma unsigned_text_nonneg r v rest : unsigned_text r v rest -> 0 <= v.
Proof. inversion 1; subst; try (eapply denotes_nonneg; [eassumption|]); lia. Qed.
Lemma unsigned_text_no_space r v rest : unsigned_text r v rest -> maximal space [] r.
Proof.
  intro T. split; [constructor|]. intros c s ->. inversion T; subst; unfold space; cbn [In]; try lia.
  match goal with H : denotes 10 (c :: _) _ |- _ => apply denotes_digits in H; inversion H; subst end.
  match goal with H : is_digit 10 c |- _ => apply dec_digit in H; lia end.
Qed.
Lemma below_pow2 n m : 0 <= n -> 0 <= m -> n < 2 ^ Z.succ (Z.log2 n + m).
Proof.
  intros N M. destruct (Z.eq_dec n 0) as [->|Nn]; [apply Z.pow_pos_nonneg; cbn; lia|].
  pose proof (Z.log2_spec n ltac:(lia)) as [_ L]. pose proof (Z.log2_nonneg n).
  eapply Z.lt_le_trans; [exact L|]. apply Z.pow_le_mono_r; lia.
Qed.
Lemma unsigned_text_fun r v rest v' rest' : unsigned_text r v rest -> unsigned_text r v' rest' -> v = v' /\ rest = rest'.
Proof.
  intros T T'. pose proof (unsigned_text_nonneg _ _ _ T) as P. pose proof (unsigned_text_nonneg _ _ _ T') as P'.
  set (t := {| is_signed := false; bits := Z.succ (Z.log2 v + Z.log2 v') |}).
  pose proof (read_number_unsigned false t r [] r v rest eq_refl eq_refl (unsigned_text_no_space _ _ _ T) T) as E.
  pose proof (read_number_unsigned false t r [] r v' rest' eq_refl eq_refl (unsigned_text_no_space _ _ _ T) T') as E'.
  rewrite E in E'. rewrite !clip_in in E'.
  - injection E' as -> ->. auto.
  - cbn. split; [lia|]. replace (Z.log2 v + Z.log2 v') with (Z.log2 v' + Z.log2 v) by lia. apply below_pow2; [lia|apply Z.log2_nonneg].
  - cbn. split; [lia|]. apply below_pow2; [lia|apply Z.log2_nonneg].
Qed.

Lemma read_back_signed dbg t v b s : is_signed t = true -> 1 <= bits t <= 126 -> - 2 ^ (bits t - 1) <= v < 2 ^ (bits t - 1) ->
  to_string dbg t v b = Ok s ->
  (read_number dbg t s = ([], Ok v) <-> b = dec \/ Z.abs v < Z.min (to_int b) 10).
Proof.
  intros Sg B R E.
  assert (R' : in_range (is_signed t) (bits t) v) by (rewrite Sg; exact R).
  assert (Edec : b = dec -> read_number dbg t s = ([], Ok v)).
  { intros ->. destruct (round_trip_signed dbg t v [] [] Sg B R) as (s' & E' & H); [constructor|intros ? ? ?; discriminate|].
    rewrite E in E'. injection E' as <-. cbn [app] in H. rewrite app_nil_r in H. exact H. }
  destruct (to_string_spec dbg t v b B R') as (ds & W & N & H & Can). rewrite E in W. injection W as ->. pose proof (proj1 Can) as C.
  rewrite Sg. unfold written. cbn [app]. set (sg := if v <? 0 then [45] else []) in *.
  assert (Esg : sg = if v <? 0 then [45] else []) by reflexivity.
  (* the text starts with no space *)
  pose proof (denotes_digits _ _ _ H) as F.
  assert (M : maximal space [] (sg ++ ds)).
  { split; [constructor|]. intros c r Q. unfold sg in Q. destruct (v <? 0); cbn [app] in Q.
    - injection Q as <- _. unfold space. cbn [In]. lia.
    - subst ds. inversion F. eapply digit_not_space. eassumption. }
  split.
  - intro Rd. destruct (Z.lt_ge_cases (Z.abs v) (Z.min (to_int b) 10)) as [L|L]; [right; exact L|].
    assert (Bd : b = dec \/ to_int b <> 10) by (destruct b; cbn; auto; right; lia).
    destruct Bd as [Bd|Bd]; [left; exact Bd|exfalso].
    destruct (signed_total (sg ++ ds)) as [(u & rest & T)|[N1 N2]].
    2:{ rewrite (read_number_signed_throw dbg t (sg ++ ds) [] (sg ++ ds) Sg eq_refl M N1 N2) in Rd. discriminate. }
    rewrite (read_number_signed dbg t (sg ++ ds) [] (sg ++ ds) u rest Sg eq_refl M T) in Rd. injection Rd as -> Rv.
    assert (D10 : denotes 10 ds (Z.abs u) /\ (Z.abs u = u /\ sg = [] \/ Z.abs u = - u /\ sg = [45])).
    { clear Rv. inversion T as [ds' u' r0 N' H' M' E1 E2 E3|ds' u' r0 N' H' M' E1 E2 E3]; subst; rewrite app_nil_r in E1;
        pose proof (denotes_nonneg _ _ _ H' ltac:(lia)) as Pu; pose proof (denotes_digits _ _ _ H') as F'.
      - rewrite Z.abs_eq by lia. unfold sg in E1 |- *. destruct (v <? 0); cbn [app] in E1; [|subst; auto].
        exfalso. destruct ds' as [|x ds']; [discriminate|]. injection E1 as -> _. inversion F'; subst.
        match goal with Q : is_digit 10 45 |- _ => apply dec_digit in Q; lia end.
      - rewrite Z.abs_opp, Z.abs_eq by lia. rewrite Z.opp_involutive. unfold sg in E1 |- *. destruct (v <? 0); cbn [app] in E1.
        + injection E1 as ->. auto.
        + exfalso. destruct ds as [|x ds]; [discriminate|]. injection E1 as <- _. inversion F; subst.
          match goal with Q : is_digit _ 45 |- _ => destruct Q as [d Q]; unfold digit in Q; lia end. }
    destruct D10 as [D10 Sgn].
    assert (Ln : (2 <= length ds)%nat).
    { destruct ds as [|x [|y ds]]; [congruence| |cbn [length]; lia]. exfalso.
      pose proof (denotes_app _ _ _ H ltac:(destruct b; cbn; lia)) as A1. pose proof (denotes_app _ _ _ D10 ltac:(lia)) as A2.
      cbn [length] in A1, A2. change (Z.of_nat 1) with 1 in *. rewrite Z.pow_1_r in *.
      inversion H as [Q|p0 v0 c0 d0 H0 D0 Q1 Q2]. apply (app_inj_tail p0 []) in Q1. destruct Q1 as [-> ->].
      inversion H0; [|destruct ds; discriminate].
      inversion D10 as [Q3|p1 v1 c1 d1 H1 D1 Q3 Q4]. apply (app_inj_tail p1 []) in Q3. destruct Q3 as [-> ->].
      inversion H1; [|destruct ds; discriminate]. unfold digit in D0, D1. lia. }
    assert (Hc : hd 48 ds <> 48). { destruct C as [->|(c & ds' & -> & Nc)]; [cbn [length] in Ln; lia|exact Nc]. }
    assert (Ne : Z.abs v <> Z.abs u).
    { destruct (Z.lt_ge_cases (to_int b) 10) as [Lb|Lb].
      - destruct (denotes_two (to_int b) 10 ds _ _ ltac:(destruct b; cbn in *; lia) H D10) as (_ & _ & Q). specialize (Q Ln Hc). lia.
      - destruct (denotes_two 10 (to_int b) ds _ _ ltac:(lia) D10 H) as (_ & _ & Q). specialize (Q Ln Hc). lia. }
    unfold clip in Rv. destruct (fits t u); [congruence|]. subst v. destruct b; cbn in L; lia.
  - intros [Q|L]; [specialize (Edec Q); rewrite Sg in Edec; exact Edec|].
    assert (Es : to_string dbg t v dec = Ok (written (is_signed t) 10 v ds)).
    { destruct (to_string_spec dbg t v dec B R') as (ds' & -> & N' & H' & C'). f_equal. f_equal. cbn [to_int] in *.
      assert (One : forall base l, denotes base l (Z.abs v) -> 2 <= base <= 36 -> l <> [] -> canonical l -> Z.abs v < base -> Z.abs v < 10 -> l = [48 + Z.abs v]).
      { clear. intros base l H Bb N [C _] Lb L10. destruct l as [|x [|y l]]; [congruence| |].
        - inversion H as [Q|p0 v0 c0 d0 H0 D0 Q1 Q2]. apply (app_inj_tail p0 []) in Q1. destruct Q1 as [-> ->].
          inversion H0; [|destruct ds; discriminate]. subst. unfold digit in D0. cbn [app]. f_equal. lia.
        - exfalso. destruct C as [C|(c & l' & E & Nc)]; [discriminate|]. injection E as <- <-.
          destruct (denotes_exists (base + 1) (x :: y :: l)) as [w W].
          + apply denotes_digits in H. eapply Forall_impl; [|exact H]. intros a [d D]. exists d. unfold digit in *. lia.
          + (* value at least base *)
            assert (G : forall l u, denotes base l u -> forall x y l', l = x :: y :: l' -> x <> 48 -> base <= u).
            { clear. intros l u H. induction H as [|l u c d H IH D]; intros x y l' E Nx; [discriminate|].
              destruct l as [|z [|z2 l]]; [discriminate| |].
              - injection E as -> -> <-. inversion H as [Q|p0 v0 c0 d0 H0 D0 Q1 Q2]. apply (app_inj_tail p0 []) in Q1. destruct Q1 as [-> ->].
                inversion H0; [|destruct ds; discriminate]. unfold digit in *. nia.
              - injection E as -> -> <-. specialize (IH x y l eq_refl Nx). unfold digit in D. nia. }
            specialize (G _ _ H x y l eq_refl Nc). lia. }
      rewrite (One 10 ds'), (One (to_int b) ds); auto; try lia; try apply to_int_bounds. }
    destruct (round_trip_signed dbg t v [] [] Sg B R) as (s' & E' & G); [constructor|intros ? ? ?; discriminate|].
    rewrite Es in E'. injection E' as <-. rewrite Sg in G. unfold written in G. cbn [app Z.eqb Pos.eqb] in G. rewrite app_nil_r in G. exact G.
Qed.

(** ** Sequences of calls *)
Lemma read_float_spec {V} dbg (zero : V) fc s ws r : fc_contract fc -> s = ws ++ r -> maximal space ws r ->
  match fc_ec (fc r) with
  | ec_invalid => read_float dbg zero fc s = (r, Throw InvalidArgument)
  | _ => read_float dbg zero fc s = (skipn (N.to_nat (fc_len (fc r))) r,
           Ok (match fc_ec (fc r), fc_value (fc r) with ec_ok, Some v => v | _, _ => zero end))
  end.
Proof.
  intros K -> M. destruct (skip_whitespaces_spec (ws ++ r)) as (ws' & r' & E & M' & W).
  destruct (maximal_unique _ _ _ _ _ M M' E) as [<- <-].
  assert (Q : read_float dbg zero fc (ws ++ r) = finish_number dbg zero (fc r) r).
  { unfold read_float. rewrite (andthen_ok _ _ _ _ _ W). reflexivity. }
  rewrite Q. destruct (K r) as [K1 K2]. unfold finish_number, andthen, fail, get_view, set_view, ret, substr_from, size.
  destruct (fc_ec (fc r)) eqn:Ec; try congruence; try reflexivity; specialize (K2 ltac:(discriminate));
    (destruct (N.ltb_spec 0 (fc_len (fc r))); [|lia]);
    (destruct (N.ltb_spec (N.of_nat (length r)) (fc_len (fc r))); [lia|]);
    destruct dbg; cbn [assert_]; reflexivity.
Qed.

Lemma one_of_split (cs s : list Z) : Forall (fun x => ~ In x cs) s \/
  exists pre c rest, s = pre ++ c :: rest /\ In c cs /\ Forall (fun x => ~ In x cs) pre.
Proof.
  induction s as [|x s IH]; [left; constructor|]. destruct (in_dec Z.eq_dec x cs) as [J|J].
  - right. exists [], x, s. repeat split; auto.
  - destruct IH as [F|(pre & c & rest & -> & Jc & F)]; [left; constructor; auto|].
    right. exists (x :: pre), c, rest. repeat split; auto.
Qed.
Lemma until_split (c : Z) s : ~ In c s \/ exists pre rest, s = pre ++ c :: rest /\ ~ In c pre.
Proof.
  induction s as [|x s IH]; [left; intros []|]. destruct (Z.eq_dec x c) as [->|N].
  - right. exists [], s. split; [reflexivity|intros []].
  - destruct IH as [F|(pre & rest & -> & F)].
    + left. intros [H|H]; [congruence|exact (F H)].
    + right. exists (x :: pre), rest. split; [reflexivity|]. intros [H|H]; [congruence|exact (F H)].
Qed.

Lemma read_number_total dbg t s : exists ws r, s = ws ++ r /\ maximal space ws r /\
  ((exists lit v rest, r = lit ++ rest /\ lit <> [] /\ read_number dbg t s = (rest, Ok (clip t v)) /\
     (if is_signed t then signed_text r v rest else unsigned_text r v rest)) \/
   (read_number dbg t s = (r, Throw InvalidArgument) /\ first_not (is_digit 10) r /\
     (is_signed t = true -> forall r', r = 45 :: r' -> first_not (is_digit 10) r'))).
Proof.
  destruct (skip_whitespaces_spec s) as (ws & r & E & M & _). exists ws, r. split; [exact E|]. split; [exact M|].
  destruct (is_signed t) eqn:Sg.
  - destruct (signed_total r) as [(v & rest & T)|[N1 N2]].
    + left. pose proof (read_number_signed dbg t s ws r v rest Sg E M T) as R. inversion T; subst.
      * exists ds, v, rest. auto.
      * exists (45 :: ds), (- v0), rest. repeat split; auto. discriminate.
    + right. split; [eapply read_number_signed_throw; eauto|]. auto.
  - destruct (unsigned_total r) as [(v & rest & T)|N1].
    + left. pose proof (read_number_unsigned dbg t s ws r v rest Sg E M T) as R.
      assert (Q : exists lit, r = lit ++ rest /\ lit <> []).
      { inversion T; subst; [exists (48 :: 120 :: ds)|exists (48 :: 98 :: ds)|exists (48 :: ds)|exists (c :: ds)|exists (48 :: c :: ds)|exists [48]];
          (split; [reflexivity|discriminate]). }
      destruct Q as (lit & Q1 & Q2). exists lit, v, rest. auto.
    + right. split; [eapply read_number_unsigned_throw; eauto|]. split; [exact N1|discriminate].
Qed.

Lemma perform_ok dbg c s s' r : good_call c -> perform dbg c s = (s', r) -> step_ok c s s' r.
Proof.
  intros G P.
  assert (WV : forall A (f : A -> value) (m : op A) s1 o, m s = (s1, o) ->
    with_value f m s = (s1, match o with Ok x => Ok (f x) | Throw e => Throw e | UB u => UB u | Abort => Abort | Terminate => Terminate | Diverge => Diverge end)).
  { intros A f m s1 o E. unfold with_value, andthen, ret. rewrite E. destruct o; reflexivity. }
  unfold step_ok. destruct c; cbn [perform] in P.
  - destruct (skip_whitespaces_spec s) as (a & b & E & _ & R). rewrite (WV _ _ _ _ _ R) in P. injection P as <- <-.
    exists a. split; [exact E|]. split; [discriminate|constructor].
  - destruct (skip_whitespaces_and_comma_spec s) as (a & b & E & _ & R). rewrite (WV _ _ _ _ _ R) in P. injection P as <- <-.
    exists a. split; [exact E|]. split; [discriminate|constructor].
  - destruct (until_split c s) as [N|(pre & rest & E & N)].
    + rewrite (WV _ _ _ _ _ (skip_inclusive_until_none c s N)) in P. injection P as <- <-.
      exists s. rewrite app_nil_r. split; [reflexivity|]. split; [discriminate|constructor].
    + rewrite E in P. rewrite E in WV. rewrite (WV _ _ _ _ _ (skip_inclusive_until_found c pre rest N)) in P. injection P as <- <-.
      exists (pre ++ [c]). rewrite <- app_assoc. split; [exact E|]. split; [discriminate|constructor].
  - destruct (one_of_split cs s) as [N|(pre & c & rest & E & J & N)].
    + rewrite (WV _ _ _ _ _ (skip_one_of_none cs s N)) in P. injection P as <- <-.
      exists s. rewrite app_nil_r. split; [reflexivity|]. split; [discriminate|constructor].
    + rewrite E in P. rewrite E in WV. rewrite (WV _ _ _ _ _ (skip_one_of_found cs pre c rest J N)) in P. injection P as <- <-.
      exists (pre ++ [c]). rewrite <- app_assoc. split; [exact E|]. split; [discriminate|constructor].
  - destruct (read_word_spec s) as (a & b & E & _ & R). rewrite (WV _ _ _ _ _ R) in P. injection P as <- <-.
    exists a. split; [exact E|]. split; [intros w Q; injection Q; auto|constructor].
  - destruct (read_word_until_spec c s) as (a & b & E & _ & R). rewrite (WV _ _ _ _ _ R) in P. injection P as <- <-.
    exists a. split; [exact E|]. split; [intros w Q; injection Q; auto|constructor].
  - destruct (read_number_total dbg t s) as (ws & r0 & E & M & [(lit & v & rest & E2 & _ & R & _)|(R & _ & _)]);
      rewrite (WV _ _ _ _ _ R) in P; injection P as <- <-.
    + exists (ws ++ lit). rewrite <- app_assoc, <- E2. split; [exact E|]. split; [discriminate|constructor].
    + exists ws. split; [exact E|]. split; [reflexivity|]. right. split; [constructor|apply M].
  - destruct (skip_whitespaces_spec s) as (ws & r0 & E & M & _).
    pose proof (read_float_spec dbg 0 fc s ws r0 G E M) as R. destruct (G r0) as [_ K].
    destruct (fc_ec (fc r0)) eqn:Ec.
    2:{ rewrite (WV _ _ _ _ _ R) in P. injection P as <- <-. exists ws. split; [exact E|]. split; [reflexivity|]. right. split; [constructor|apply M]. }
    all: rewrite (WV _ _ _ _ _ R) in P; injection P as <- <-;
      exists (ws ++ firstn (N.to_nat (fc_len (fc r0))) r0); rewrite <- app_assoc, firstn_skipn; split; [exact E|]; split; [discriminate|constructor].
  - destruct s as [|x s].
    + rewrite (WV _ _ _ _ _ read_char_nil) in P. injection P as <- <-. exists []. repeat split. left. reflexivity.
    + rewrite (WV _ _ _ _ _ (read_char_cons x s)) in P. injection P as <- <-. exists [x].
      split; [reflexivity|]. split; [discriminate|]. exists x. auto.
  - destruct s as [|x s].
    + injection P as <- <-. exists []. repeat split. left. reflexivity.
    + rewrite (WV _ _ _ _ _ (peek_char_cons x s)) in P. injection P as <- <-. exists [].
      split; [reflexivity|]. split; [discriminate|]. exists x. auto.
  - rewrite (WV _ _ _ _ _ (peek_char_n_spec n s)) in P. destruct (nth_error s (N.to_nat n)) eqn:En; injection P as <- <-; exists [].
    + split; [reflexivity|]. split; [discriminate|]. eexists. auto.
    + repeat split. left. reflexivity.
  - rewrite (WV _ _ _ _ _ (read_chars_spec n s)) in P. injection P as <- <-. exists (firstn (N.to_nat n) s).
    rewrite firstn_skipn. split; [reflexivity|]. split; [intros w Q; injection Q; auto|constructor].
  - destruct (read_chars_until_spec c s) as (a & b & E & _ & R). rewrite (WV _ _ _ _ _ R) in P. injection P as <- <-.
    exists a. split; [exact E|]. split; [intros w Q; injection Q; auto|constructor].
Qed.

Lemma perform_all_ok dbg cs s s' rs : Forall good_call cs -> perform_all dbg cs s = (s', rs) ->
  (exists taken, s = taken ++ s') /\ Forall (fun r => is_ok r = true \/ r = Throw InvalidArgument) rs.
Proof.
  intro G. revert s s' rs. induction G as [|c cs Gc G IH]; intros s s' rs P; cbn [perform_all] in P.
  - injection P as <- <-. split; [exists []; reflexivity|constructor].
  - destruct (perform dbg c s) as [s1 r] eqn:E1. destruct (perform_all dbg cs s1) as [s2 rs'] eqn:E2. injection P as <- <-.
    destruct (perform_ok _ _ _ _ _ Gc E1) as (t1 & -> & R). destruct (IH _ _ _ E2) as [(t2 & ->) F].
    split; [exists (t1 ++ t2); apply app_assoc|]. constructor; [|exact F].
    destruct r; try contradiction; [left; constructor|right]. destruct R as [-> _]. reflexivity.
Qed.

(** Infinities and NaNs, and the uniqueness of what a text denotes. *)
From Verif Require Import Base FloatComputeModel FloatParseModel FloatComputeProofs FloatTextSpec FloatSwarProofs FloatLexProofs.
Local Open Scope Z_scope.

(** *** fastfloat_strncasecmp *)
Definition flag (d : Z) : bool := (d =? 0) || (d =? 32).

Lemma land32 x : Z.land x 32 = if Z.testbit x 5 then 32 else 0.
Proof.
  apply Z.bits_inj'. intros n N. rewrite Z.land_spec. change 32 with (2 ^ 5) at 1. rewrite Z.pow2_bits_eqb by lia.
  destruct (Z.eqb_spec 5 n) as [<-|NE].
  - rewrite andb_true_r. destruct (Z.testbit x 5); reflexivity.
  - rewrite andb_false_r. destruct (Z.testbit x 5); [|rewrite Z.bits_0; reflexivity].
    change 32 with (2 ^ 5). rewrite Z.pow2_bits_eqb by lia. symmetry. apply Z.eqb_neq. exact NE.
Qed.
Lemma flag_ldiff x : flag x = true <-> Z.ldiff x 32 = 0.
Proof.
  split.
  - unfold flag. intro H. assert (x = 0 \/ x = 32) as [-> | ->] by lia; reflexivity.
  - intro H. assert (E : x = Z.lor (Z.land x 32) (Z.ldiff x 32)).
    { apply Z.bits_inj'. intros n N. rewrite Z.lor_spec, Z.land_spec, Z.ldiff_spec.
      destruct (Z.testbit x n), (Z.testbit 32 n); reflexivity. }
    rewrite H, Z.lor_0_r, land32 in E. unfold flag. destruct (Z.testbit x 5); rewrite E; reflexivity.
Qed.
Lemma flag_lor a b : flag (Z.lor a b) = (flag a && flag b)%bool.
Proof.
  apply Bool.eq_iff_eq_true. rewrite andb_true_iff, !flag_ldiff.
  assert (E : Z.ldiff (Z.lor a b) 32 = Z.lor (Z.ldiff a 32) (Z.ldiff b 32)).
  { apply Z.bits_inj'. intros n N. rewrite !Z.lor_spec, !Z.ldiff_spec, Z.lor_spec.
    destruct (Z.testbit a n), (Z.testbit b n), (Z.testbit 32 n); reflexivity. }
  rewrite E. apply Z.lor_eq_0_iff.
Qed.

Definition letter (y : Z) : Prop := 97 <= y <= 122.
Lemma lxor_letter x y : is_char x -> letter y -> flag (Z.lxor (byte x) (byte y)) = true <-> same_letter x y.
Proof.
  intros X Y. unfold letter, same_letter in *. assert (BY : byte y = y) by (apply Z.mod_small; lia). rewrite BY.
  assert (SM : forall k, 0 <= k < 128 -> byte x = k <-> x = k).
  { intros k K. unfold byte, is_char in *. destruct (Z_lt_ge_dec x 0) as [L|L].
    - replace (x mod 256) with (x + 256) by (apply Z.mod_unique with (-1); lia). lia.
    - rewrite Z.mod_small by lia. tauto. }
  assert (LX : forall v, Z.lxor (byte x) y = v <-> byte x = Z.lxor v y).
  { intro v. split; intro H.
    - rewrite <- H, Z.lxor_assoc, Z.lxor_nilpotent, Z.lxor_0_r. reflexivity.
    - rewrite H, Z.lxor_assoc, Z.lxor_nilpotent, Z.lxor_0_r. reflexivity. }
  unfold flag. rewrite orb_true_iff, !Z.eqb_eq, !LX, Z.lxor_0_l. rewrite (SM y) by lia.
  assert (B5 : Z.lxor 32 y = y - 32).
  { assert (E : forallb (fun i => Z.lxor 32 (Z.of_nat i) =? Z.of_nat i - 32) (seq 97 26) = true) by (vm_compute; reflexivity).
    rewrite forallb_forall in E. specialize (E (Z.to_nat y)). rewrite Z2Nat.id in E by lia.
    apply Z.eqb_eq, E, in_seq. lia. }
  rewrite B5, (SM (y - 32)) by lia. lia.
Qed.

Lemma running_diff_spec b : Forall letter b -> forall a diff, Forall is_char a -> (length b <= length a)%nat ->
  exists d, running_diff a b diff = Ok d /\ (flag d = true <-> flag diff = true /\ same_letters (firstn (length b) a) b).
Proof.
  induction 1 as [|y b Y B IH]; intros a diff A L.
  - exists diff. split; [reflexivity|]. cbn. split; [intro; split; [assumption|constructor]|tauto].
  - destruct a as [|x a]; [cbn in L; lia|]. inversion A; subst. cbn [running_diff deref bind tl].
    destruct (IH a (Z.lor diff (Z.lxor (byte x) (byte y))) H2) as (d & -> & E); [cbn in L; lia|].
    exists d. split; [reflexivity|]. rewrite E, flag_lor, andb_true_iff, lxor_letter by assumption.
    cbn [length firstn]. split.
    + intros ((? & ?) & ?). split; [assumption|]. constructor; assumption.
    + intros (? & S). inversion S; subst. tauto.
Qed.
Lemma strncasecmp_spec a b : Forall letter b -> Forall is_char a -> (length b <= length a)%nat ->
  exists r, fastfloat_strncasecmp a b = Ok r /\ (r = true <-> same_letters (firstn (length b) a) b).
Proof.
  intros B A L. unfold fastfloat_strncasecmp. destruct (running_diff_spec b B a 0 A L) as (d & -> & E). cbn [bind].
  exists (flag d). split; [reflexivity|]. rewrite E. split; [tauto|]. intro. split; [reflexivity|assumption].
Qed.

Lemma letters_nan : Forall letter str_nan. Proof. unfold letter. repeat constructor; lia. Qed.
Lemma letters_inf : Forall letter (firstn 3 str_inf). Proof. unfold letter. repeat constructor; lia. Qed.
Lemma letters_inity : Forall letter (skipn 3 str_inf). Proof. unfold letter. repeat constructor; lia. Qed.

(** *** nan(...) *)
Lemma nan_loop_spec p :
  match nan_loop p with
  | Some q => exists cs, p = cs ++ 41 :: q /\ Forall n_char cs
  | None => forall cs q, Forall n_char cs -> p <> cs ++ 41 :: q
  end.
Proof.
  induction p as [|c p IH]; cbn [nan_loop]; [intros [|] q _; discriminate|].
  destruct (Z.eqb_spec c 41) as [->|N]; [exists []; split; [reflexivity|constructor]|].
  destruct (((97 <=? c) && (c <=? 122)) || ((65 <=? c) && (c <=? 90)) || ((48 <=? c) && (c <=? 57)) || (c =? 95))%bool eqn:B.
  - destruct (nan_loop p) as [q|].
    + destruct IH as (cs & -> & F). exists (c :: cs). split; [reflexivity|]. constructor; [unfold n_char; lia|exact F].
    + intros cs q F E. destruct cs as [|c' cs]; cbn in E; [congruence|]. inversion E; subst. inversion F; subst. exact (IH cs q H2 eq_refl).
  - intros cs q F E. destruct cs as [|c' cs]; cbn in E; [congruence|]. inversion E; subst. inversion F; subst. unfold n_char in H1. lia.
Qed.

Lemma nan_chars_unique cs cs' q q' : cs ++ 41 :: q = cs' ++ 41 :: q' -> Forall n_char cs -> Forall n_char cs' -> cs = cs' /\ q = q'.
Proof.
  intros E F. revert cs' E. induction F as [|c cs C F IH]; intros cs' E F'.
  - destruct cs' as [|c' cs']; cbn in E; [inversion E; auto|]. inversion E; subst. inversion F'; subst. unfold n_char in H1. lia.
  - destruct cs' as [|c' cs']; cbn in E; [inversion E; subst; unfold n_char in C; lia|]. inversion E; subst. inversion F'; subst.
    destruct (IH cs') as [-> ->]; auto.
Qed.

(** *** Where the words can be *)
Lemma same_letters_length t w : same_letters t w -> length t = length w.
Proof. induction 1 as [|? ? ? ? ? ? IH]; cbn; [reflexivity|f_equal; exact IH]. Qed.
Lemma firstn_prefix (t u : list Z) n : length t = n -> firstn n (t ++ u) = t.
Proof. intros <-. rewrite firstn_app, Nat.sub_diag, firstn_all. cbn. apply app_nil_r. Qed.
Lemma skipn_prefix (t u : list Z) n : length t = n -> skipn n (t ++ u) = u.
Proof. intros <-. rewrite skipn_app, Nat.sub_diag, skipn_all. reflexivity. Qed.

(** The texts without the sign. *)
Inductive special_body : list Z -> special -> Prop :=
| body_nan t : same_letters t word_nan -> special_body t Nan
| body_nan_chars t cs : same_letters t word_nan -> Forall n_char cs -> special_body (t ++ 40 :: cs ++ [41]) Nan
| body_inf t : same_letters t word_inf -> special_body t Infinite
| body_infinity t : same_letters t word_infinity -> special_body t Infinite.
Lemma special_text_body t neg w : special_text t neg w <-> exists b, t = (if neg then [45] else []) ++ b /\ special_body b w.
Proof.
  split.
  - intro H. inversion H; subst; eexists; split; try reflexivity; [constructor 1|constructor 2|constructor 3|constructor 4]; assumption.
  - intros (b & -> & H). inversion H; subst; [constructor 1|constructor 2|constructor 3|constructor 4]; assumption.
Qed.
(** The first three characters tell which word it is. *)
Lemma body_start b w : special_body b w ->
  exists a1 a2 a3 t, b = a1 :: a2 :: a3 :: t /\ same_letters [a1; a2; a3] (match w with Nan => word_nan | Infinite => word_inf end).
Proof.
  intro H. inversion H as [t S|t cs S C|t S|t S]; subst; unfold same_letters, word_nan, word_inf, word_infinity in *;
    repeat match goal with X : Forall2 _ _ (_ :: _) |- _ => inversion X; subst; clear X | X : Forall2 _ _ [] |- _ => inversion X; subst; clear X end;
    do 3 eexists; eexists; (split; [reflexivity|]); repeat (apply Forall2_cons; [assumption|]); apply Forall2_nil.
Qed.
Lemma body_not_sign b w u : special_body b w -> match b ++ u with c :: _ => 65 <= c <= 122 | [] => False end.
Proof.
  intro H. destruct (body_start _ _ H) as (a1 & a2 & a3 & t & -> & S). cbn.
  destruct w; unfold same_letters, word_nan, word_inf in S; inversion S; subst; unfold same_letter in *; lia.
Qed.

(** A number and a word cannot begin at the same place. *)
Lemma number_start r t neg d e : number_text r t neg d e ->
  exists c b, t = (if neg then [45] else []) ++ c :: b /\ (is_digit c \/ c = 46) .
Proof.
  intro H. inversion H as [n ip point fp xt x I F S P X]; subst. destruct ip as [|c ip].
  - cbn [app] in *. destruct P as [[-> ->]| ->]; [congruence|]. exists 46, (fp ++ xt). auto.
  - inversion I; subst. exists c, (ip ++ point ++ fp ++ xt). auto.
Qed.
Lemma not_both r t neg d e u t' neg' w u' : number_text r t neg d e -> special_text t' neg' w -> t ++ u = t' ++ u' -> False.
Proof.
  intros N S E. destruct (number_start _ _ _ _ _ N) as (c & b & -> & C). apply special_text_body in S. destruct S as (b' & -> & S).
  pose proof (body_not_sign _ _ u' S) as B. rewrite <- !app_assoc in E. unfold is_digit in C.
  destruct neg, neg'; cbn [app] in E.
  - inversion E as [E1]. rewrite <- E1 in B. lia.
  - rewrite <- E in B. lia.
  - inversion E. lia.
  - rewrite <- E in B. lia.
Qed.

Theorem parse_infnan_spec quiet_nan inf sign s : s <> [] -> Forall is_char s ->
  exists res, parse_infnan quiet_nan inf sign s = Ok res /\
  ((exists t neg w, s = t ++ res_rest res /\ special_text t neg w /\
      (forall t' u' neg' w', s = t' ++ u' -> special_text t' neg' w' -> (length t' <= length t)%nat) /\
      res_ec res = NoError /\ res_value res = Some ((if neg then sign else 0) + match w with Nan => quiet_nan | Infinite => inf end)) \/
   ((forall t' u' neg' w', s = t' ++ u' -> ~ special_text t' neg' w') /\
      res_rest res = s /\ res_ec res = InvalidArgument /\ res_value res = None)).
Proof.
  intros NE C. destruct s as [|c0 s0]; [congruence|]. clear NE. unfold parse_infnan. cbn [deref bind].
  assert (SGN : exists neg p, (c0 =? 45) = neg /\ (if neg then tl (c0 :: s0) else c0 :: s0) = p /\
    c0 :: s0 = (if neg then [45] else []) ++ p /\ Forall is_char p /\ (neg = false -> match p with c :: _ => c <> 45 | [] => True end)).
  { destruct (Z.eqb_spec c0 45) as [->|N].
    - exists true, s0. cbn. repeat split; auto. + inversion C; assumption. + discriminate.
    - exists false, (c0 :: s0). cbn. repeat split; auto. }
  destruct SGN as (neg & p & -> & -> & ES & CP & NN). rewrite ES. clear ES C c0 s0.
  assert (BODY : forall t' u' neg' w', (if neg then [45] else []) ++ p = t' ++ u' -> special_text t' neg' w' ->
    exists b, t' = (if neg then [45] else []) ++ b /\ special_body b w' /\ p = b ++ u').
  { intros t' u' neg' w' E S. apply special_text_body in S. destruct S as (b & -> & B). exists b.
    pose proof (body_not_sign _ _ u' B) as BN. rewrite <- app_assoc in E.
    destruct neg, neg'; cbn [app] in *.
    - inversion E. auto.
    - rewrite <- E in BN. lia.
    - specialize (NN eq_refl). rewrite E in NN. congruence.
    - auto. }
  assert (VAL : forall v, (if neg then sign + v else v) = (if neg then sign else 0) + v) by (intro; destruct neg; lia).
  assert (BAD : (forall b w u', special_body b w -> p <> b ++ u') ->
    exists res, Ok {| res_rest := (if neg then [45] else []) ++ p; res_ec := InvalidArgument; res_value := None |} = Ok res /\
  ((exists t neg0 w, (if neg then [45] else []) ++ p = t ++ res_rest res /\ special_text t neg0 w /\
      (forall t' u' neg' w', (if neg then [45] else []) ++ p = t' ++ u' -> special_text t' neg' w' -> (length t' <= length t)%nat) /\
      res_ec res = NoError /\ res_value res = Some ((if neg0 then sign else 0) + match w with Nan => quiet_nan | Infinite => inf end)) \/
   ((forall t' u' neg' w', (if neg then [45] else []) ++ p = t' ++ u' -> ~ special_text t' neg' w') /\
      res_rest res = (if neg then [45] else []) ++ p /\ res_ec res = InvalidArgument /\ res_value res = None))).
  { intro NB. eexists. split; [reflexivity|]. right. cbn. repeat split.
    intros t' u' neg' w' E S. destruct (BODY _ _ _ _ E S) as (b & _ & B & Ep). exact (NB _ _ _ B Ep). }
  destruct (3 <=? len p) eqn:L3.
  2:{ apply BAD. intros b w u' B Ep. destruct (body_start _ _ B) as (a1 & a2 & a3 & t & -> & _). rewrite Ep in L3. cbn in L3. lia. }
  destruct (strncasecmp_spec p str_nan letters_nan CP) as (rn & -> & RN); [change (length str_nan) with 3%nat; lia|]. cbn [bind].
  change (length str_nan) with 3%nat in RN.
  (* the word *)
  assert (W : forall b w u', special_body b w -> p = b ++ u' -> same_letters (firstn 3 p) (match w with Nan => word_nan | Infinite => word_inf end)).
  { intros b w u' B ->. destruct (body_start _ _ B) as (a1 & a2 & a3 & t & -> & S). exact S. }
  assert (DIF : forall l, same_letters l word_nan -> same_letters l word_inf -> False).
  { intros l S1 S2. unfold same_letters, word_nan, word_inf, same_letter in *. inversion S1; subst. inversion S2; subst. lia. }
  assert (P3 : p = firstn 3 p ++ skipn 3 p) by (symmetry; apply firstn_skipn).
  destruct rn.
  - apply proj1 in RN. specialize (RN eq_refl). set (q := skipn 3 p) in *.
    set (rest := if starts q 40 then _ else q).
    assert (RS : exists b, p = b ++ rest /\ special_body b Nan /\
      forall b' w' u', special_body b' w' -> p = b' ++ u' -> (length b' <= length b)%nat).
    { assert (ONLY : forall b' w' u', special_body b' w' -> p = b' ++ u' ->
        length b' = 3%nat \/ exists cs, b' = firstn 3 p ++ 40 :: cs ++ [41] /\ Forall n_char cs /\ q = 40 :: cs ++ 41 :: u').
      { intros b' w' u' B' Ep. pose proof (W _ _ _ B' Ep) as W'. destruct w'; [|destruct (DIF _ RN W')].
        inversion B' as [t S|t cs S NC|t S|t S]; subst b'.
        - left. apply same_letters_length in S. exact S.
        - right. exists cs. apply same_letters_length in S. cbn in S.
          assert (F3 : firstn 3 p = t) by (rewrite Ep, <- app_assoc; apply firstn_prefix, S).
          rewrite F3. repeat split; auto. unfold q. rewrite Ep, <- app_assoc, skipn_prefix by exact S.
          cbn. rewrite <- app_assoc. reflexivity. }
      assert (F3 : length (firstn 3 p) = 3%nat) by (apply same_letters_length in RN; exact RN).
      assert (PLAIN : (forall cs u', Forall n_char cs -> q <> 40 :: cs ++ 41 :: u') -> rest = q ->
        exists b, p = b ++ rest /\ special_body b Nan /\
          forall b' w' u', special_body b' w' -> p = b' ++ u' -> (length b' <= length b)%nat).
      { intros NO ->. exists (firstn 3 p). repeat split; [exact P3|constructor; exact RN|].
        intros b' w' u' B' Ep. destruct (ONLY _ _ _ B' Ep) as [->|(cs & _ & NC & Eq)]; [lia|]. destruct (NO _ _ NC Eq). }
      destruct q as [|c q'] eqn:EQ; [apply PLAIN; [discriminate|reflexivity]|].
      subst rest. cbn [starts tl] in *. destruct (Z.eqb_spec c 40) as [->|NP].
      - pose proof (nan_loop_spec q') as NL. destruct (nan_loop q') as [q2|].
        + destruct NL as (cs & -> & NC). exists (firstn 3 p ++ 40 :: cs ++ [41]). repeat split.
          * rewrite <- app_assoc. cbn. rewrite <- app_assoc. exact P3.
          * constructor; assumption.
          * intros b' w' u' B' Ep. destruct (ONLY _ _ _ B' Ep) as [->|(cs' & -> & NC' & Eq)]; [rewrite app_length; lia|].
            inversion Eq as [E1]. destruct (nan_chars_unique _ _ _ _ E1 NC NC') as [-> _]. lia.
        + apply PLAIN; [|reflexivity]. intros cs u' NC E. inversion E. exact (NL _ _ NC H0).
      - apply PLAIN; [|reflexivity]. intros cs u' _ E. inversion E. congruence. }
    destruct RS as (b & Eb & B & LONG). eexists. split; [reflexivity|]. left.
    exists ((if neg then [45] else []) ++ b), neg, Nan. cbn [res_rest res_ec res_value]. split; [|split; [|split; [|split; [reflexivity|rewrite VAL; reflexivity]]]].
    + rewrite <- app_assoc, <- Eb. reflexivity.
    + apply special_text_body. eauto.
    + intros t' u' neg' w' E S. destruct (BODY _ _ _ _ E S) as (b' & -> & B' & Ep). specialize (LONG _ _ _ B' Ep).
      rewrite !app_length. lia.
  - assert (RN' : ~ same_letters (firstn 3 p) word_nan) by (intro X; apply RN in X; discriminate). clear RN.
    destruct (strncasecmp_spec p (firstn 3 str_inf) letters_inf CP) as (ri & -> & RI); [cbn; lia|]. cbn [bind].
    change (length (firstn 3 str_inf)) with 3%nat in RI.
    destruct ri.
    + apply proj1 in RI. specialize (RI eq_refl).
      set (lg := if 8 <=? len p then _ else _).
      assert (LG : exists long, lg = Ok long /\ (long = true <-> same_letters (firstn 8 p) word_infinity)).
      { subst lg. destruct (8 <=? len p) eqn:L8.
        - destruct (strncasecmp_spec (skipn 3 p) (skipn 3 str_inf) letters_inity) as (rl & -> & RL).
          + rewrite P3 in CP. apply Forall_app in CP. tauto.
          + rewrite (skipn_length 3 p). change (length (skipn 3 str_inf)) with 5%nat. lia.
          + exists rl. split; [reflexivity|]. rewrite RL. change (length (skipn 3 str_inf)) with 5%nat.
            change (firstn 3 str_inf) with word_inf in RI.
            assert (F8 : firstn 8 p = firstn 3 p ++ firstn 5 (skipn 3 p)).
            { rewrite <- (firstn_skipn 3 (firstn 8 p)), firstn_firstn. f_equal. rewrite skipn_firstn_comm. reflexivity. }
            rewrite F8. change word_infinity with (word_inf ++ skipn 3 str_inf). split; intro S.
            * apply Forall2_app; assumption.
            * apply Forall2_app_inv_r in S. destruct S as (l1 & l2 & S1 & S2 & E).
              assert (l1 = firstn 3 p /\ l2 = firstn 5 (skipn 3 p)) as [-> ->]; [|exact S2].
              apply same_letters_length in S1. change (length word_inf) with 3%nat in S1.
              assert (LF : length (firstn 3 p) = 3%nat) by (rewrite firstn_length; lia).
              split.
              -- rewrite <- (firstn_prefix (firstn 3 p) (firstn 5 (skipn 3 p)) 3 LF), E. symmetry. apply firstn_prefix, S1.
              -- rewrite <- (skipn_prefix (firstn 3 p) (firstn 5 (skipn 3 p)) 3 LF), E. symmetry. apply skipn_prefix, S1.
        - exists false. split; [reflexivity|]. split; [discriminate|]. intro S. apply same_letters_length in S.
          rewrite firstn_length in S. change (length word_infinity) with 8%nat in S. lia. }
      destruct LG as (long & -> & LONG). cbn [bind].
      assert (RS : exists b, p = b ++ skipn (if long then 8%nat else 3%nat) p /\ special_body b Infinite /\
        forall b' w' u', special_body b' w' -> p = b' ++ u' -> (length b' <= length b)%nat).
      { exists (firstn (if long then 8%nat else 3%nat) p). split; [symmetry; apply firstn_skipn|]. split.
        - destruct long; [apply body_infinity, LONG; reflexivity|apply body_inf; exact RI].
        - intros b' w' u' B' Ep. pose proof (W _ _ _ B' Ep) as W'.
          inversion B' as [t S|t cs S NC|t S|t S]; subst.
          + destruct (RN' W').
          + destruct (RN' W').
          + apply same_letters_length in S. change (length word_inf) with 3%nat in S. rewrite firstn_length. destruct long; lia.
          + pose proof (same_letters_length _ _ S) as SL. change (length word_infinity) with 8%nat in SL.
            assert (long = true) as ->.
            { apply LONG. rewrite (firstn_prefix b' u' 8 SL). exact S. }
            rewrite firstn_length, app_length. lia. }
      destruct RS as (b & Eb & B & LG2). eexists. split; [reflexivity|]. left.
      exists ((if neg then [45] else []) ++ b), neg, Infinite. cbn [res_rest res_ec res_value].
      split; [|split; [|split; [|split; [reflexivity|rewrite VAL; reflexivity]]]].
      * rewrite <- app_assoc, <- Eb. reflexivity.
      * apply special_text_body. eauto.
      * intros t' u' neg' w' E S. destruct (BODY _ _ _ _ E S) as (b' & -> & B' & Ep). specialize (LG2 _ _ _ B' Ep).
        rewrite !app_length. lia.
    + apply BAD. intros b w u' B Ep. pose proof (W _ _ _ B Ep) as W'. destruct w; [exact (RN' W')|].
      assert (false = true) by (apply RI; exact W'). discriminate.
Qed.

(** *** A text denotes at most one thing *)
Lemma exponent_no_digit r xt x : exponent_text r xt x -> no_digit xt.
Proof. intro H. inversion H; subst; cbn; [exact I|]. unfold is_digit. lia. Qed.
Lemma exponent_unique r r' xt x x' : exponent_text r xt x -> exponent_text r' xt x' -> x = x'.
Proof.
  intros H H'. inversion H as [? R|? c s neg ds R C S D NE]; subst.
  - inversion H'; subst. reflexivity.
  - inversion H' as [|? c' s' neg' ds' R' C' S' D' NE']; subst.
    assert (neg' = neg /\ ds' = ds) as [-> ->]; [|reflexivity].
    destruct ds as [|d ds]; [congruence|]. destruct ds' as [|d' ds']; [congruence|].
    inversion D; subst. inversion D'; subst. unfold is_digit in *. clear H H'.
    inversion S; subst; inversion S'; subst; cbn in H2; inversion H2; subst; auto; lia.
Qed.
Lemma number_unique r r' t neg d e neg' d' e' : number_text r t neg d e -> number_text r' t neg' d' e' ->
  neg = neg' /\ d = d' /\ e = e'.
Proof.
  intros H H'.
  assert (neg = neg') as <-.
  { destruct (number_start _ _ _ _ _ H) as (c & b & E & C). destruct (number_start _ _ _ _ _ H') as (c' & b' & E' & C').
    rewrite E in E'. unfold is_digit in *. destruct neg, neg'; cbn in E'; inversion E'; subst; auto; lia. }
  inversion H as [n ip point fp xt x I F S P X]; subst. inversion H' as [n ip' point' fp' xt' x' I' F' S' P' X'].
  subst n. split; [reflexivity|]. apply app_inv_head in H0.
  assert (ND : forall pt f y rr z, (pt = [] /\ f = []) \/ pt = [46] -> exponent_text rr y z -> no_digit (pt ++ f ++ y)).
  { intros pt f y rr z [[-> ->]| ->] Y; [apply (exponent_no_digit _ _ _ Y)|]. cbn. unfold is_digit. lia. }
  destruct (digits_unique _ _ _ _ H0 I' I) as [-> E]; [eapply ND; eassumption|eapply ND; eassumption|].
  assert (fp' = fp /\ xt' = xt) as [-> ->].
  { destruct P as [[-> ->]| ->]; destruct P' as [[-> ->]| ->]; cbn [app] in E.
    - auto.
    - rewrite <- E in X. inversion X; lia.
    - rewrite E in X'. inversion X'; lia.
    - inversion E as [E2]. apply (digits_unique _ _ _ _ E2 F' F); [apply (exponent_no_digit _ _ _ X')|apply (exponent_no_digit _ _ _ X)]. }
  rewrite (exponent_unique _ _ _ _ _ X X'). auto.
Qed.
Lemma special_unique t neg w neg' w' : special_text t neg w -> special_text t neg' w' -> neg = neg' /\ w = w'.
Proof.
  intros H H'. apply special_text_body in H. apply special_text_body in H'.
  destruct H as (b & -> & B). destruct H' as (b' & E & B').
  pose proof (body_not_sign _ _ [] B) as N. pose proof (body_not_sign _ _ [] B') as N'. rewrite app_nil_r in N, N'.
  assert (neg = neg' /\ b = b') as [-> <-].
  { destruct neg, neg'; cbn in E; subst; try lia; auto. inversion E; auto. }
  split; [reflexivity|].
  destruct (body_start _ _ B) as (a1 & a2 & a3 & t & -> & S). destruct (body_start _ _ B') as (c1 & c2 & c3 & t' & E' & S').
  inversion E'; subst. unfold same_letters, same_letter, word_nan, word_inf in *.
  destruct w, w'; auto; inversion S; subst; inversion S'; subst; lia.
Qed.
Theorem denotes_unique r t m m' : denotes r t m -> denotes r t m' -> m = m'.
Proof.
  intros H H'. inversion H as [t1 neg d e N|t1 neg w N]; subst; inversion H' as [t2 neg' d' e' N'|t2 neg' w' N']; subst.
  - destruct (number_unique _ _ _ _ _ _ _ _ _ N N') as (-> & -> & ->). reflexivity.
  - destruct (not_both _ _ _ _ _ [] _ _ _ [] N N' eq_refl).
  - destruct (not_both _ _ _ _ _ [] _ _ _ [] N' N eq_refl).
  - destruct (special_unique _ _ _ _ _ N N') as (-> & ->). reflexivity.
Qed.

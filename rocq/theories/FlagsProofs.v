(** Proofs about flags. *)
From Verif Require Import Base ListLemmas FlagsModel FlagsSpec.
Local Open Scope Z_scope.

Lemma write_length b i v : length (write_bit b i v) = length b.
Proof. revert i; induction b as [|x b IH]; intros [|i]; cbn; auto. Qed.
Lemma write_nth b i v j : (i < length b)%nat -> nth j (write_bit b i v) false = if Nat.eqb j i then v else nth j b false.
Proof.
  revert i j; induction b as [|x b IH]; intros [|i] [|j] L; cbn [length] in L; cbn; try lia; auto.
  rewrite IH by lia. reflexivity.
Qed.
Lemma map2_length f a b : length a = length b -> length (bitset_map2 f a b) = length a.
Proof. revert b; induction a as [|x a IH]; intros [|y b] L; cbn in *; try lia. rewrite IH; lia. Qed.
Lemma map2_nth f a b j : length a = length b -> (j < length a)%nat -> nth j (bitset_map2 f a b) false = f (nth j a false) (nth j b false).
Proof.
  revert b j; induction a as [|x a IH]; intros [|y b] [|j] L J; cbn in *; try lia; auto. apply IH; lia.
Qed.
Lemma eqb_nth a b : length a = length b -> (bitset_eqb a b = true <-> forall j, (j < length a)%nat -> nth j a false = nth j b false).
Proof.
  revert b; induction a as [|x a IH]; intros [|y b] L; cbn [length] in L; try lia.
  - cbn. split; [intros _ j J; lia|reflexivity].
  - cbn [bitset_eqb]. rewrite andb_true_iff, eqb_true_iff, IH by lia. split.
    + intros [-> H] [|j] J; [reflexivity|]. cbn [length] in J. cbn. apply H. lia.
    + intros H. split; [exact (H 0%nat ltac:(cbn; lia))|]. intros j J. apply (H (S j)). cbn. lia.
Qed.
Lemma nth_map_const {A} (f : bool -> A) b j d : (j < length b)%nat -> nth j (map f b) d = f (nth j b false).
Proof. revert j; induction b as [|x b IH]; intros [|j] L; cbn in *; try lia; auto. apply IH. lia. Qed.
Lemma forallb_nth (f : bool -> bool) b : forallb f b = true <-> forall j, (j < length b)%nat -> f (nth j b false) = true.
Proof.
  induction b as [|x b IH]; cbn [forallb].
  - split; [intros _ j J; cbn in J; lia|reflexivity].
  - rewrite andb_true_iff, IH. split.
    + intros [E H] [|j] J; [exact E|]. apply H. cbn in J. lia.
    + intros H. split; [exact (H 0%nat ltac:(cbn; lia))|]. intros j J. apply (H (S j)). cbn. lia.
Qed.

Section Flags.
Variables (dbg : bool) (n : Z).
Hypothesis Hn : 0 < n < 2 ^ 64.
Local Notation ok b := (Z.of_nat (length b) = n).

Lemma size_t_in e : 0 <= e < n -> size_t e = e.
Proof. intro H. unfold size_t. apply Z.mod_small. lia. Qed.
Lemma member_nth b e : 0 <= e -> (members b e <-> nth (Z.to_nat e) b false = true).
Proof. intro H. unfold members. intuition. Qed.

Lemma empty_ok : ok (empty_bits n).
Proof. unfold empty_bits. rewrite repeat_length. lia. Qed.
Lemma empty_nth j : nth j (empty_bits n) false = false.
Proof. unfold empty_bits. revert j. induction (Z.to_nat n) as [|k IH]; intros [|j]; cbn; auto. Qed.

Lemma set_in b e v : ok b -> 0 <= e < n -> exists b', bitset_set b (size_t e) v = Ok b' /\ ok b' /\
  forall x, 0 <= x < n -> (members b' x <-> x = e /\ v = true \/ x <> e /\ members b x).
Proof.
  intros Ob He. unfold bitset_set. rewrite size_t_in by exact He. destruct (Z.ltb_spec e (Z.of_nat (length b))); [|lia].
  eexists. split; [reflexivity|]. split; [rewrite write_length; exact Ob|]. intros x Hx. rewrite !member_nth by lia.
  rewrite write_nth by lia. destruct (Nat.eqb_spec (Z.to_nat x) (Z.to_nat e)) as [E|E].
  - assert (x = e) by lia. subst. intuition congruence.
  - assert (x <> e) by lia. intuition.
Qed.
Lemma index_in b e : ok b -> 0 <= e < n -> exists v, bitset_index b (size_t e) = Ok v /\ (v = true <-> members b e).
Proof.
  intros Ob He. unfold bitset_index. rewrite size_t_in by exact He. destruct (Z.ltb_spec e (Z.of_nat (length b))); [|lia].
  eexists. split; [reflexivity|]. rewrite member_nth by lia. reflexivity.
Qed.
Lemma set_each_in l : Forall (fun e => 0 <= e < n) l -> forall b, ok b -> exists b', set_each b l = Ok b' /\ ok b' /\
  forall x, 0 <= x < n -> (members b' x <-> In x l \/ members b x).
Proof.
  induction 1 as [|e l He _ IH]; intros b Ob; cbn [set_each].
  - exists b. split; [reflexivity|]. split; [exact Ob|]. intros x Hx. cbn [In]. tauto.
  - destruct (set_in b e true Ob He) as (b1 & -> & O1 & M1). cbn [bind]. destruct (IH b1 O1) as (b2 & -> & O2 & M2).
    exists b2. split; [reflexivity|]. split; [exact O2|]. intros x Hx. rewrite M2, M1 by exact Hx. cbn [In].
    destruct (Z.eq_dec x e); intuition congruence.
Qed.
Lemma empty_members x : ~ members (empty_bits n) x.
Proof. intros [_ H]. rewrite empty_nth in H. discriminate. Qed.
Lemma list_in l : Forall (fun e => 0 <= e < n) l -> exists b', flags_list n l = Ok b' /\ ok b' /\
  forall x, 0 <= x < n -> (members b' x <-> In x l).
Proof.
  intro F. destruct (set_each_in l F _ empty_ok) as (b & E & O & M). exists b. split; [exact E|]. split; [exact O|].
  intros x Hx. rewrite M by exact Hx. pose proof (empty_members x). tauto.
Qed.
Lemma const_in (b : list bool) (v : bool) x : ok b -> 0 <= x < n -> (members (map (fun _ => v) b) x <-> v = true).
Proof. intros O Hx. rewrite member_nth by lia. rewrite nth_map_const by lia. reflexivity. Qed.
Lemma flip_in (b : list bool) x : ok b -> 0 <= x < n -> (members (map negb b) x <-> ~ members b x).
Proof. intros O Hx. rewrite !member_nth by lia. rewrite nth_map_const by lia. destruct (nth (Z.to_nat x) b false); cbn; intuition. Qed.
Lemma map2_in f a b x : ok a -> ok b -> 0 <= x < n ->
  (members (bitset_map2 f a b) x <-> f (nth (Z.to_nat x) a false) (nth (Z.to_nat x) b false) = true).
Proof. intros Oa Ob Hx. rewrite member_nth by lia. rewrite map2_nth by lia. reflexivity. Qed.
Lemma map2_ok f a b : ok a -> ok b -> ok (bitset_map2 f a b).
Proof. intros Oa Ob. rewrite map2_length; lia. Qed.
Lemma and_in a b x : ok a -> ok b -> 0 <= x < n -> (members (flags_and a b) x <-> members a x /\ members b x).
Proof.
  intros Oa Ob Hx. unfold flags_and. rewrite map2_in by auto. rewrite !member_nth by lia.
  destruct (nth (Z.to_nat x) a false), (nth (Z.to_nat x) b false); cbn; intuition.
Qed.
Lemma or_in a b x : ok a -> ok b -> 0 <= x < n -> (members (flags_or a b) x <-> members a x \/ members b x).
Proof.
  intros Oa Ob Hx. unfold flags_or. rewrite map2_in by auto. rewrite !member_nth by lia.
  destruct (nth (Z.to_nat x) a false), (nth (Z.to_nat x) b false); cbn; intuition.
Qed.
Lemma xor_in a b x : ok a -> ok b -> 0 <= x < n -> (members (flags_xor a b) x <-> ~ (members a x <-> members b x)).
Proof.
  intros Oa Ob Hx. unfold flags_xor. rewrite map2_in by auto. rewrite !member_nth by lia.
  destruct (nth (Z.to_nat x) a false), (nth (Z.to_nat x) b false); cbn; intuition.
Qed.
Lemma nth_all (P : bool -> Prop) b : ok b -> ((forall j, (j < length b)%nat -> P (nth j b false)) <->
  forall e, 0 <= e < n -> P (nth (Z.to_nat e) b false)).
Proof.
  intro O. split; intros H.
  - intros e He. apply H. lia.
  - intros j J. specialize (H (Z.of_nat j) ltac:(lia)). rewrite Nat2Z.id in H. exact H.
Qed.
Lemma none_in b : ok b -> (flags_is_clear b = true <-> forall e, 0 <= e < n -> ~ members b e).
Proof.
  intro O. unfold flags_is_clear, bitset_none. rewrite forallb_nth. rewrite (nth_all (fun v => negb v = true) b O).
  split; intros H e He; specialize (H e He); rewrite member_nth in * by lia; destruct (nth (Z.to_nat e) b false); cbn in *; congruence.
Qed.
Lemma all_in b : ok b -> (flags_is_set b = true <-> forall e, 0 <= e < n -> members b e).
Proof.
  intro O. unfold flags_is_set, bitset_all. rewrite forallb_nth. rewrite (nth_all (fun v => v = true) b O).
  split; intros H e He; specialize (H e He); rewrite member_nth in * by lia; exact H.
Qed.
Lemma eq_in a b : ok a -> ok b -> (flags_eq a b = true <-> forall e, 0 <= e < n -> (members a e <-> members b e)).
Proof.
  intros Oa Ob. unfold flags_eq. rewrite eqb_nth by lia. split.
  - intros H e He. rewrite !member_nth by lia. rewrite H by lia. reflexivity.
  - intros H j J. specialize (H (Z.of_nat j) ltac:(lia)). rewrite !member_nth, Nat2Z.id in H by lia.
    destruct (nth j a false), (nth j b false); intuition.
Qed.
Lemma print_in b : ok b -> printed n (members b) (flags_print b).
Proof.
  intro O. unfold flags_print, bitset_text. split; [rewrite rev_length, map_length; exact O|].
  intros e [He1 He2]. rewrite rev_nth; rewrite map_length; [|lia].
  replace (length b - S (Z.to_nat (n - 1 - e)))%nat with (Z.to_nat e) by lia.
  rewrite nth_map_const by lia. rewrite member_nth by lia. destruct (nth (Z.to_nat e) b false); intuition congruence.
Qed.

(** One instruction *)
Definition good (s : nat -> list bool) : Prop := forall r, ok (s r).

Lemma becomes_update s r b (T : Z -> Prop) : good s -> ok b -> (forall x, 0 <= x < n -> (members b x <-> T x)) ->
  good (update s r b) /\ becomes n (sets s) (sets (update s r b)) r T.
Proof.
  intros G O M. split.
  - intro x. unfold update. destruct (Nat.eqb x r); auto.
  - split.
    + intros e He. unfold sets, update. rewrite Nat.eqb_refl. apply M. exact He.
    + intros x e Nx He. unfold sets, update. destruct (Nat.eqb_spec x r); [contradiction|reflexivity].
Qed.
Lemma store_becomes s r m b (T : Z -> Prop) : good s -> m = Ok b -> ok b -> (forall x, 0 <= x < n -> (members b x <-> T x)) ->
  exists s', store s r m = Ok (s', o_none) /\ good s' /\ becomes n (sets s) (sets s') r T.
Proof.
  intros G -> O M. exists (update s r b). split; [reflexivity|]. apply becomes_update; auto.
Qed.
Lemma store_set s r m (T : Z -> Prop) : good s ->
  (exists b, m = Ok b /\ ok b /\ forall x, 0 <= x < n -> (members b x <-> T x)) ->
  exists s', store s r m = Ok (s', o_none) /\ good s' /\ becomes n (sets s) (sets s') r T.
Proof. intros G (b & E & O & M). exact (store_becomes s r m b T G E O M). Qed.

Lemma swallow_set b e v : ok b -> 0 <= e < n -> exists b', flags_set dbg n b e v = Ok b' /\ ok b' /\
  forall x, 0 <= x < n -> (members b' x <-> x = e /\ v = true \/ x <> e /\ members b x).
Proof.
  intros O He. destruct (set_in b e v O He) as (b' & E & O' & M). exists b'. split; [|auto].
  unfold flags_set. destruct (Z.ltb_spec e n); [|lia]. destruct dbg; cbn [assert_ bind]; rewrite E; reflexivity.
Qed.

Lemma step_ok s i : good s -> proper n i -> exists s' o, step dbg n s i = Ok (s', o) /\ good s' /\
  effect n (sets s) i (sets s') /\ observed n (sets s) i o.
Proof.
  intros G P.
  assert (ST : forall r m (T : Z -> Prop), (exists b, m = Ok b /\ ok b /\ forall x, 0 <= x < n -> (members b x <-> T x)) ->
    exists s' o, store s r m = Ok (s', o) /\ good s' /\ becomes n (sets s) (sets s') r T /\ o = o_none).
  { intros r m T H. destruct (store_set s r m T G H) as (s' & E & G' & B). exists s', o_none. auto. }
  assert (QU : forall m (Q : obs -> Prop), (exists o, m = Ok o /\ Q o) ->
    exists s' o, query s m = Ok (s', o) /\ good s' /\ unchanged n (sets s) (sets s') /\ Q o).
  { intros m Q (o & -> & H). exists s, o. split; [reflexivity|]. split; [exact G|]. split; [intros x e He; reflexivity|exact H]. }
  assert (ML : forall f b, ok b -> ok (@map bool bool f b)) by (intros f b O; rewrite map_length; exact O).
  destruct i; cbn [step effect observed proper] in *; try apply ST; try apply QU.
  - (* i_bool *) exists (flags_bool n v). split; [reflexivity|]. unfold flags_bool. destruct v.
    + split; [apply ML, empty_ok|]. intros x Hx. apply (const_in _ true); auto. apply empty_ok.
    + split; [apply empty_ok|]. intros x Hx. pose proof (empty_members x). intuition discriminate.
  - apply list_in. exact P.
  - destruct (list_in [e]) as (b & E & O & M); [repeat constructor; apply P|]. exists b. split; [exact E|]. split; [exact O|].
    intros x Hx. rewrite M by exact Hx. cbn [In]. intuition.
  - destruct (list_in [e1; e2]) as (b & E & O & M); [repeat constructor; apply P|]. exists b. split; [exact E|]. split; [exact O|].
    intros x Hx. rewrite M by exact Hx. cbn [In]. intuition.
  - apply swallow_set; auto.
  - destruct (set_in (s r) e v (G r) P) as (b & E & O & M). exists b. split; [|auto].
    unfold flags_assign, bitset_assign. unfold bitset_set in E. destruct (size_t e <? Z.of_nat (length (s r))); [exact E|discriminate].
  - exists (flags_set_all (s r) v). split; [reflexivity|]. unfold flags_set_all, bitset_set_all, bitset_reset_all.
    destruct v; (split; [apply ML, G|intros x Hx; apply const_in; auto; apply G]).
  - (* clear *) assert (Q : flags_clear dbg n (s r) e = flags_set dbg n (s r) e false) by reflexivity. rewrite Q.
    destruct (swallow_set (s r) e false (G r) P) as (b & E & O & M). exists b. split; [exact E|]. split; [exact O|].
    intros x Hx. rewrite M by exact Hx. intuition discriminate.
  - eexists. split; [reflexivity|]. split; [apply ML, G|]. intros x Hx. unfold flags_clear_all, bitset_reset_all. rewrite const_in by (auto; apply G).
    intuition discriminate.
  - eexists. split; [reflexivity|]. split; [apply ML, G|]. intros x Hx. apply flip_in; [apply G|auto].
  - eexists. split; [reflexivity|]. split; [apply map2_ok; apply G|]. intros e He. apply and_in; auto; apply G.
  - eexists. split; [reflexivity|]. split; [apply map2_ok; apply G|]. intros e He. apply or_in; auto; apply G.
  - eexists. split; [reflexivity|]. split; [apply map2_ok; apply G|]. intros e He. apply xor_in; auto; apply G.
  - eexists. split; [reflexivity|]. split; [apply map2_ok; apply G|]. intros e He. apply and_in; auto; apply G.
  - eexists. split; [reflexivity|]. split; [apply map2_ok; apply G|]. intros e He. apply or_in; auto; apply G.
  - eexists. split; [reflexivity|]. split; [apply map2_ok; apply G|]. intros e He. apply xor_in; auto; apply G.
  - eexists. split; [reflexivity|]. split; [apply ML, G|]. intros e He. apply flip_in; [apply G|auto].
  - destruct (swallow_set (s x) e true (G x) P) as (b & E & O & M). exists b. split; [exact E|]. split; [exact O|].
    intros y Hy. rewrite M by exact Hy. unfold sets. destruct (Z.eq_dec y e); intuition.
  - destruct (index_in (s x) e (G x) P) as (v & E & M). exists (o_bool v). split; [|exact M].
    unfold flags_get. destruct (Z.ltb_spec e n); [|destruct P; lia]. destruct dbg; cbn [assert_ bind]; rewrite E; reflexivity.
  - destruct (index_in (s x) e (G x) P) as (v & E & M). exists (o_bool v). split; [|exact M].
    unfold flags_index. rewrite E. reflexivity.
  - eexists. split; [reflexivity|]. apply none_in, G.
  - eexists. split; [reflexivity|]. apply all_in, G.
  - eexists. split; [reflexivity|]. apply eq_in; apply G.
  - eexists. split; [reflexivity|]. unfold flags_ne. cbv beta iota. rewrite negb_true_iff. fold (flags_eq (s x) (s y)).
    unfold enumerator, sets. rewrite <- (eq_in (s x) (s y) (G x) (G y)). destruct (flags_eq (s x) (s y)); intuition congruence.
  - eexists. split; [reflexivity|]. apply G.
  - eexists. split; [reflexivity|]. apply print_in, G.
Qed.

Lemma run_ok p : Forall (proper n) p -> forall s, good s -> exists s' os, run dbg n s p = Ok (s', os) /\ good s' /\
  behaves n (sets s) p os (sets s').
Proof.
  induction 1 as [|i p Hi _ IH]; intros s G; cbn [run].
  - exists s, []. split; [reflexivity|]. split; [exact G|constructor].
  - destruct (step_ok s i G Hi) as (s1 & o & -> & G1 & E & O). cbn [bind]. destruct (IH s1 G1) as (s2 & os & -> & G2 & B).
    cbn [bind]. exists s2, (o :: os). split; [reflexivity|]. split; [exact G2|]. econstructor; eassumption.
Qed.

(** Values that are not enumerators *)
Lemma size_t_out e : - 2 ^ 63 <= e < 2 ^ 63 \/ 0 <= e < 2 ^ 64 -> ~ 0 <= e < n -> n <= 2 ^ 63 -> n <= size_t e.
Proof.
  intros T E B. unfold size_t. destruct (Z.lt_ge_cases e 0) as [L|L].
  - destruct T as [T|T]; [|lia]. rewrite <- (Z_mod_plus_full e 1). rewrite Z.mod_small; lia.
  - rewrite Z.mod_small; lia.
Qed.
Lemma out_of_range b e : ok b -> - 2 ^ 63 <= e < 2 ^ 63 \/ 0 <= e < 2 ^ 64 -> ~ 0 <= e < n -> n <= 2 ^ 63 ->
  (forall v, flags_set dbg n b e v = (if dbg then Abort else Ok b)) /\
  flags_clear dbg n b e = (if dbg then Abort else Ok b) /\
  flags_get dbg n b e = (if dbg && (n <=? e) then Abort else UB OutOfBounds) /\
  flags_index b e = UB OutOfBounds /\ (forall v, flags_assign b e v = UB OutOfBounds).
Proof.
  intros O T E B. pose proof (size_t_out e T E B) as L.
  assert (S : forall v, flags_set dbg n b e v = (if dbg then Abort else Ok b)).
  { intro v. unfold flags_set, bitset_set. destruct (Z.ltb_spec (size_t e) (Z.of_nat (length b))); [lia|].
    destruct dbg; [|reflexivity]. destruct (e <? n); reflexivity. }
  split; [exact S|]. split; [exact (S false)|].
  unfold flags_get, flags_index, flags_assign, bitset_index, bitset_assign.
  destruct (Z.ltb_spec (size_t e) (Z.of_nat (length b))); [lia|]. split; [|split; reflexivity].
  rewrite Z.ltb_antisym. destruct dbg; [|reflexivity]. destruct (n <=? e); reflexivity.
Qed.
Lemma list_out l : Exists (fun e => ~ 0 <= e < n) l -> Forall (fun e => - 2 ^ 63 <= e < 2 ^ 63 \/ 0 <= e < 2 ^ 64) l -> n <= 2 ^ 63 ->
  flags_list n l = Throw OutOfRange.
Proof.
  intros X T B. unfold flags_list. generalize empty_ok. generalize (empty_bits n). revert T.
  induction X as [e l He|e l X IH]; intros T b O; apply Forall_cons_iff in T; destruct T as [T1 T2]; cbn [set_each].
  - unfold bitset_set. destruct (Z.ltb_spec (size_t e) (Z.of_nat (length b))); [|reflexivity].
    pose proof (size_t_out e T1 He B). lia.
  - unfold bitset_set. destruct (Z.ltb_spec (size_t e) (Z.of_nat (length b))); [|reflexivity].
    cbn [bind]. apply IH; [assumption|]. rewrite write_length. exact O.
Qed.
End Flags.

(** The specification determines the observations. *)
Section Det.
Variable n : Z.
Definition same_sets (S T : nat -> Z -> Prop) : Prop := forall x e, enumerator n e -> (S x e <-> T x e).
Lemma becomes_same S T S' T' r F G : same_sets S T -> becomes n S S' r F -> becomes n T T' r G ->
  (forall e, enumerator n e -> (F e <-> G e)) -> same_sets S' T'.
Proof.
  intros Q [A1 A2] [B1 B2] FG x e He. destruct (Nat.eq_dec x r) as [->|N].
  - rewrite A1, B1 by exact He. apply FG. exact He.
  - rewrite A2, B2 by assumption. apply Q. exact He.
Qed.
Lemma effect_same S T S' T' i : same_sets S T -> effect n S i S' -> effect n T i T' -> same_sets S' T'.
Proof.
  intros Q A B. destruct i; cbn [effect] in A, B;
    try (intros z e0 H0; rewrite (A z e0 H0), (B z e0 H0); apply Q; exact H0);
    apply (becomes_same _ _ _ _ _ _ _ Q A B); intros e0 H0;
    pose proof (fun z => Q z e0 H0) as QQ; pose proof (QQ r) as Q1;
    try pose proof (QQ x) as Q2; try pose proof (QQ y) as Q3; clear QQ; tauto.
Qed.
Lemma bool_same (v w : bool) P Q : (v = true <-> P) -> (w = true <-> Q) -> (P <-> Q) -> v = w.
Proof. intros A B C. destruct v, w; intuition. Qed.
Lemma observed_same S T i o o' : same_sets S T -> proper n i -> observed n S i o -> observed n T i o' -> o = o'.
Proof.
  intros Q Pr A B. destruct i; cbn [observed] in A, B; try congruence; destruct o; try contradiction; destruct o'; try contradiction; f_equal.
  - apply (bool_same _ _ _ _ A B). apply Q. exact Pr.
  - apply (bool_same _ _ _ _ A B). apply Q. exact Pr.
  - apply (bool_same _ _ _ _ A B). split; intros H e He; [rewrite <- (Q x e He)|rewrite (Q x e He)]; auto.
  - apply (bool_same _ _ _ _ A B). split; intros H e He; [rewrite <- (Q x e He)|rewrite (Q x e He)]; auto.
  - apply (bool_same _ _ _ _ A B). split; intros H e He; [rewrite <- (Q x e He), <- (Q y e He)|rewrite (Q x e He), (Q y e He)]; auto.
  - apply (bool_same _ _ _ _ A B). split; intros H K; apply H; intros e He; [rewrite (Q x e He), (Q y e He)|rewrite <- (Q x e He), <- (Q y e He)]; auto.
  - congruence.
  - destruct A as [A1 A2], B as [B1 B2]. apply (nth_ext _ _ 0 0); [lia|]. intros k L.
    assert (He : enumerator n (n - 1 - Z.of_nat k)) by (unfold enumerator; lia).
    specialize (A2 _ He). specialize (B2 _ He). replace (Z.to_nat (n - 1 - (n - 1 - Z.of_nat k))) with k in * by lia.
    specialize (Q x _ He). destruct (Z.eq_dec (nth k s 0) (nth k s0 0)) as [E|E]; [exact E|exfalso].
    assert (N : ~ S x (n - 1 - Z.of_nat k)). { intro J. apply E. rewrite (proj1 A2 J), (proj1 B2 (proj1 Q J)). reflexivity. }
    apply E. rewrite (proj2 A2 N), (proj2 B2 (fun J => N (proj2 Q J))). reflexivity.
Qed.
Lemma behaves_same S p os S' : behaves n S p os S' -> forall T os' T', Forall (proper n) p -> same_sets S T -> behaves n T p os' T' -> os = os'.
Proof.
  induction 1 as [S|S i S1 p o os S' E O B IH]; intros T os' T' Pr Q B'; inversion B'; subst; [reflexivity|].
  apply Forall_cons_iff in Pr. destruct Pr as [P1 P2]. f_equal.
  - eapply observed_same; eassumption.
  - eapply IH; [exact P2| |eassumption]. eapply effect_same; eassumption.
Qed.
End Det.

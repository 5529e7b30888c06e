From Verif Require Import Base ListLemmas MiscModel MiscSpec MiscProofs UtilModel UtilProofs EnumModel EnumSpec.
Local Open Scope Z_scope.

Lemma enum_inc_ok t size e : is_enum t size -> 0 <= e < size -> enum_inc t e = Ok (e + 1).
Proof.
  intros (B & S0 & V) H. assert (G : good t) by (unfold good; lia).
  assert (V1 : is_value t (e + 1)).
  { apply is_value_range. apply is_value_range in V. unfold min_value in *. pose proof (pow2_half (bits t)).
    destruct (is_signed t); lia. }
  unfold enum_inc, promote. destruct (Z.ltb_spec (bits t) 32) as [L|L].
  - change (is_signed int_type) with true. cbv iota.
    assert (F : fits int_type (e + 1) = true).
    { apply fits_spec. unfold is_value. cbn [is_signed int_type bits].
      assert (e + 1 < 2 ^ bits t).
      { destruct (pow2_half (bits t)); [lia|]. unfold is_value in V1. destruct (is_signed t); lia. }
      assert (2 ^ bits t <= 2 ^ 31) by (apply Z.pow_le_mono_r; lia). change (32 - 1) with 31. lia. }
    rewrite F. cbn [bind]. rewrite convert_id; auto.
  - destruct (is_signed t) eqn:Sg.
    + assert (F : fits t (e + 1) = true) by (apply fits_spec; assumption).
      rewrite F. cbn [bind]. rewrite convert_id; auto.
    + rewrite !convert_id; auto. cbn [bind]. rewrite convert_id; auto.
Qed.

Lemma enum_loop_ok t size : is_enum t size -> forall k fuel e, e = size - Z.of_nat k -> 0 <= e -> (k < fuel)%nat ->
  enum_loop fuel t e size = Ok (map (fun i => e + Z.of_nat i) (seq 0 k)).
Proof.
  intro H. induction k as [|k IH]; intros fuel e E P F; (destruct fuel as [|fuel]; [lia|]); cbn [enum_loop].
  - unfold enum_ne. replace (e =? size) with true by lia. reflexivity.
  - unfold enum_ne. replace (e =? size) with false by lia. cbn [negb].
    rewrite (enum_inc_ok t size) by (try assumption; lia). cbn [bind].
    rewrite IH by lia. cbn [bind seq map]. rewrite <- seq_shift, map_map. do 2 f_equal; [lia|].
    apply List.map_ext. intro i. lia.
Qed.

Lemma nth_error_map_seq {A} (g : nat -> A) n i : (i < n)%nat -> nth_error (map g (seq 0 n)) i = Some (g i).
Proof.
  intro H. rewrite nth_error_map. rewrite (nth_error_nth' _ 0%nat) by (rewrite seq_length; lia).
  cbn. rewrite seq_nth by lia. reflexivity.
Qed.

Lemma enum_iterate_ok t size fuel : is_enum t size -> size < Z.of_nat fuel ->
  exists l, enum_iterate fuel t size = Ok l /\ enumerates size l.
Proof.
  intros H F. destruct (H) as (_ & P & _). exists (map Z.of_nat (seq 0 (Z.to_nat size))). split.
  - unfold enum_iterate, enum_begin, enum_end. rewrite (enum_loop_ok t size H (Z.to_nat size)) by lia.
    f_equal. 
  - split; rewrite map_length, seq_length; [lia|]. intros i Hi. apply nth_error_map_seq. lia.
Qed.

Lemma enum_advance_ok t size : is_enum t size -> forall d e, 0 <= e -> e + Z.of_nat d <= size ->
  enum_advance d t e = Ok (e + Z.of_nat d).
Proof.
  intro H. induction d as [|d IH]; intros e P Q; cbn [enum_advance].
  - f_equal. lia.
  - rewrite (enum_inc_ok t size) by (try assumption; lia). cbn [bind]. rewrite IH by lia. f_equal. lia.
Qed.

Lemma enum_next_ok t size : is_enum t size -> forall fuel e n, 0 <= e -> 0 <= n < 2 ^ 64 -> e + n <= size ->
  n / enum_maxd t < Z.of_nat fuel -> enum_next fuel t e n = Ok (e + n).
Proof.
  intros H. assert (B : 1 < bits t) by (destruct H; lia). assert (M : 0 < enum_maxd t).
  { unfold enum_maxd, max_value. cbn [is_signed bits]. assert (2 ^ 1 <= 2 ^ (bits t - 1)) by (apply Z.pow_le_mono_r; lia).
    change (2 ^ 1) with 2 in *. lia. }
  induction fuel as [|fuel IH]; intros e n P N Q F.
  - pose proof (Z.div_pos n (enum_maxd t)). lia.
  - cbn [enum_next]. destruct (Z.ltb_spec (enum_maxd t) n) as [L|L].
    + rewrite Z.mod_small by lia. rewrite (enum_advance_ok t size) by (try assumption; lia). cbn [bind].
      rewrite IH; try lia.
      * f_equal. lia.
      * rewrite div_step by lia. lia.
    + unfold to_difference. replace (n <=? enum_maxd t) with true by lia. cbn [bind].
      rewrite (enum_advance_ok t size) by (try assumption; lia). f_equal. lia.
Qed.

(** ** enum_array *)
Lemma deref_ok {A} (a : list A) i : 0 <= i < Z.of_nat (length a) -> exists v, deref a i = Ok v /\ reads a i v.
Proof.
  intro H. unfold deref. replace (i <? 0) with false by lia.
  destruct (nth_error a (Z.to_nat i)) as [v|] eqn:E.
  - exists v. split; [reflexivity|]. split; [lia|exact E].
  - apply nth_error_None in E. lia.
Qed.
Lemma deref_reads {A} (a : list A) i v : reads a i v -> deref a i = Ok v.
Proof. intros [H E]. unfold deref. replace (i <? 0) with false by lia. rewrite E. reflexivity. Qed.
Lemma reads_range {A} (a : list A) i v : reads a i v -> 0 <= i < Z.of_nat (length a).
Proof. intros [H E]. assert (nth_error a (Z.to_nat i) <> None) by congruence. apply nth_error_Some in H0. lia. Qed.

Lemma array_get_ok {A} dbg (a : list A) i v : Z.of_nat (length a) <= 2 ^ 64 -> reads a i v -> array_get dbg a i = Ok v.
Proof.
  intros L R. pose proof (reads_range _ _ _ R). unfold array_get. rewrite Z.mod_small by lia.
  replace (i <? Z.of_nat (length a)) with true by lia. unfold assert_. rewrite Bool.andb_false_r. cbn [bind].
  apply deref_reads. exact R.
Qed.
Lemma array_get_total {A} dbg (a : list A) i : Z.of_nat (length a) <= 2 ^ 64 -> 0 <= i < Z.of_nat (length a) ->
  exists v, array_get dbg a i = Ok v /\ reads a i v.
Proof. intros L H. destruct (deref_ok a i H) as (v & _ & R). exists v. split; [apply array_get_ok|]; assumption. Qed.

Lemma replace_nth {A} (a : list A) k v j : (k < length a)%nat ->
  nth_error (firstn k a ++ v :: skipn (S k) a) j = if Nat.eqb j k then Some v else nth_error a j.
Proof.
  revert k j. induction a as [|x a IH]; intros k j H; [cbn in H; lia|].
  destruct k as [|k]; destruct j as [|j]; try reflexivity.
  cbn [firstn app nth_error Nat.eqb]. change (skipn (S (S k)) (x :: a)) with (skipn (S k) a). apply IH. cbn in H. lia.
Qed.
Lemma replace_length {A} (a : list A) k v : (k < length a)%nat -> length (firstn k a ++ v :: skipn (S k) a) = length a.
Proof. intro H. rewrite app_length. cbn [length]. rewrite firstn_length, skipn_length. lia. Qed.

Lemma array_set_ok {A} dbg (a : list A) i v : Z.of_nat (length a) <= 2 ^ 64 -> 0 <= i < Z.of_nat (length a) ->
  exists a', array_set dbg a i v = Ok a' /\ length a' = length a /\ reads a' i v /\
    forall j w, j <> i -> (reads a' j w <-> reads a j w).
Proof.
  intros L H. unfold array_set. rewrite Z.mod_small by lia.
  replace (i <? Z.of_nat (length a)) with true by lia. unfold assert_. rewrite Bool.andb_false_r. cbn [bind].
  destruct (deref_ok a i H) as (x & E & _). rewrite E. cbn [bind].
  eexists. split; [reflexivity|]. split; [apply replace_length; lia|]. split.
  - split; [lia|]. rewrite replace_nth by lia. rewrite Nat.eqb_refl. reflexivity.
  - intros j w N. unfold reads. split; intros [P R]; (split; [exact P|]); rewrite replace_nth in * by lia;
      destruct (Nat.eqb_spec (Z.to_nat j) (Z.to_nat i)); try lia; assumption.
Qed.
Lemma array_bad {A} dbg (a : list A) i v : Z.of_nat (length a) <= i mod 2 ^ 64 ->
  array_get dbg a i = (if dbg then Abort else UB OutOfBounds) /\
  array_set dbg a i v = (if dbg then Abort else UB OutOfBounds).
Proof.
  intro H. unfold array_get, array_set. replace (i mod 2 ^ 64 <? Z.of_nat (length a)) with false by lia.
  destruct dbg; cbn [assert_ andb negb bind]; [split; reflexivity|].
  assert (E : deref a (i mod 2 ^ 64) = UB OutOfBounds).
  { unfold deref. destruct (_ <? 0); [reflexivity|].
    destruct (nth_error a (Z.to_nat (i mod 2 ^ 64))) eqn:E; [|reflexivity].
    assert (nth_error a (Z.to_nat (i mod 2 ^ 64)) <> None) by congruence. apply nth_error_Some in H0.
    pose proof (Z.mod_pos_bound i (2 ^ 64)). lia. }
  rewrite E. split; reflexivity.
Qed.

(** ** zip_with_enum *)
Definition pair_up {A} (k : nat) (b : list A) : list (A * Z) := combine b (map (fun i => Z.of_nat (k + i)) (seq 0 (length b))).
Lemma pair_up_cons {A} k (x : A) b : pair_up k (x :: b) = (x, Z.of_nat k) :: pair_up (S k) b.
Proof.
  unfold pair_up. cbn [length seq map combine]. f_equal; [f_equal; f_equal; lia|]. f_equal.
  rewrite <- seq_shift, map_map. apply List.map_ext. intro i. f_equal. lia.
Qed.
Lemma update_middle {A} (c b : list A) x y : firstn (length c) (c ++ x :: b) ++ y :: skipn (S (length c)) (c ++ x :: b) = c ++ y :: b.
Proof.
  rewrite firstn_app, Nat.sub_diag, firstn_all2, firstn_O, app_nil_r by lia. do 2 f_equal.
  induction c; [reflexivity|exact IHc].
Qed.

Lemma enum_zip_loop_ok {A} t size (f : Z -> A -> A) e0 : is_enum t size -> forall b c fuel,
  Z.of_nat (length c + length b) = size -> (length b < fuel)%nat ->
  enum_zip_loop fuel t f (c ++ b) (Z.of_nat (length c), Z.of_nat (length c)) (size, e0)
  = Ok (pair_up (length c) b, c ++ map (fun p => f (snd p) (fst p)) (pair_up (length c) b)).
Proof.
  intro H. induction b as [|x b IH]; intros c fuel L F; (destruct fuel as [|fuel]; [cbn in F; lia|]); cbn [enum_zip_loop fst snd].
  - replace (Z.of_nat (length c) =? size) with true by (cbn in L; lia). reflexivity.
  - cbn [length] in L, F. replace (Z.of_nat (length c) =? size) with false by lia. cbn [negb].
    assert (R : deref (c ++ x :: b) (Z.of_nat (length c)) = Ok x).
    { apply deref_reads. split; [lia|]. rewrite Nat2Z.id, nth_error_app2, Nat.sub_diag by lia. reflexivity. }
    rewrite R. cbn [bind]. rewrite Nat2Z.id, update_middle.
    rewrite std_next_ok by (rewrite app_length; cbn [length]; lia). cbn [bind enum_advance].
    rewrite (enum_inc_ok t size) by (try assumption; lia). cbn [bind].
    specialize (IH (c ++ [f (Z.of_nat (length c)) x]) fuel). rewrite app_length in IH. cbn [length] in IH.
    replace (c ++ f (Z.of_nat (length c)) x :: b) with ((c ++ [f (Z.of_nat (length c)) x]) ++ b) by (rewrite <- app_assoc; reflexivity).
    replace (Z.of_nat (length c) + 1) with (Z.of_nat (length c + 1)) by lia.
    rewrite IH by lia. cbn [bind fst snd]. rewrite pair_up_cons. cbn [map fst snd].
    replace (length c + 1)%nat with (S (length c)) by lia. rewrite <- app_assoc. reflexivity.
Qed.

Lemma zip_with_enum_ok {A} t size (f : Z -> A -> A) (a : list A) fuel : is_enum t size ->
  Z.of_nat (length a) = size -> size < Z.of_nat fuel ->
  exists l a', zip_with_enum fuel t size f a = Ok (l, a') /\ length l = length a /\ length a' = length a /\
    (forall i x, nth_error a i = Some x -> nth_error l i = Some (x, Z.of_nat i) /\ nth_error a' i = Some (f (Z.of_nat i) x)).
Proof.
  intros H L F. assert (B : 1 < bits t) by (destruct H; lia).
  assert (S64 : 0 <= size < 2 ^ 64).
  { destruct H as (B2 & P & V). assert (B1 : 0 < bits t) by lia. split; [exact P|]. apply is_value_range in V. pose proof (range_width t B1).
    unfold min_value, max_value in *. destruct (pow2_half (bits t) B1).
    assert (2 ^ bits t <= 2 ^ 64) by (apply Z.pow_le_mono_r; lia). destruct (is_signed t); lia. }
  unfold zip_with_enum, enum_zip_end, enum_iterable_size. rewrite Z.mod_small by lia.
  replace (Z.min (Z.of_nat (length a)) size) with size by lia.
  rewrite next_std_exact by lia. replace (0 + size <=? Z.of_nat (length a)) with true by lia. cbn [bind].
  rewrite (enum_next_ok t size); try lia; try assumption; try (unfold enum_begin; lia).
  2:{ assert (size / enum_maxd t <= size); [|lia]. apply Z.div_le_upper_bound.
      - unfold enum_maxd, max_value. cbn [is_signed bits]. assert (2 ^ 1 <= 2 ^ (bits t - 1)) by (apply Z.pow_le_mono_r; lia).
        change (2 ^ 1) with 2 in *. lia.
      - unfold enum_maxd, max_value. cbn [is_signed bits]. assert (2 ^ 1 <= 2 ^ (bits t - 1)) by (apply Z.pow_le_mono_r; lia).
        change (2 ^ 1) with 2 in *. nia. }
  cbn [bind]. unfold enum_begin. rewrite !Z.add_0_l.
  pose proof (enum_zip_loop_ok t size f size H a [] fuel) as E. cbn [app length Nat.add] in E. change (Z.of_nat 0) with 0 in E.
  rewrite E by lia. eexists _, _. split; [reflexivity|].
  assert (LP : forall k (b : list A), length (pair_up k b) = length b).
  { intros k b. unfold pair_up. rewrite combine_length, map_length, seq_length. lia. }
  assert (NP : forall (b : list A) k i x, nth_error b i = Some x -> nth_error (pair_up k b) i = Some (x, Z.of_nat (k + i))).
  { clear. induction b as [|y b IH]; intros k [|i] x; try discriminate; rewrite pair_up_cons; cbn [nth_error].
    - intro E. injection E as ->. rewrite Nat.add_0_r. reflexivity.
    - intro E. rewrite (IH _ _ _ E). do 3 f_equal. lia. }
  rewrite map_length, !LP. split; [reflexivity|split; [reflexivity|]]. intros i x N.
  split; [apply (NP _ 0%nat); exact N|]. rewrite nth_error_map, (NP _ 0%nat _ _ N). reflexivity.
Qed.

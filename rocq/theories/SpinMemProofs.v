(** Proofs about spin_lock in the memory model of C++. *)
From Verif Require Import Base SpinModel SpinMemModel SpinMemSpec.
From Coq Require Import Relations Wf_nat.

Lemma same_order_eq : forall a b, same_order a b = true -> a = b.
Proof. destruct a, b; cbn; congruence. Qed.

Lemma owner_held : forall c p t n, phase_at c p t n = Some owner ->
  exists k, k < n /\ p k = Some (t, Tas (lock_order c) false) /\ forall j o, k < j < n -> p j <> Some (t, Clear o).
Proof.
  intros c p t. induction n as [|n IH]; [discriminate|]. cbn.
  assert (Keep : (forall o, p n <> Some (t, Clear o)) -> phase_at c p t n = Some owner ->
    exists k, k < S n /\ p k = Some (t, Tas (lock_order c) false) /\ forall j o, k < j < S n -> p j <> Some (t, Clear o)).
  { intros N H. destruct (IH H) as (k & L & E & Q). exists k. split; [lia|]. split; [exact E|].
    intros j o B. destruct (Nat.eq_dec j n) as [->|]; [apply N|apply Q; lia]. }
  destruct (p n) as [[u e]|] eqn:E; [|intros H; apply Keep; [discriminate|exact H]].
  destruct (Nat.eqb_spec u t) as [->|U]; [|intros H; apply Keep; [congruence|exact H]].
  destruct (phase_at c p t n) as [q|] eqn:P; [|discriminate].
  destruct q, e; cbn; try discriminate.
  - destruct (same_order o (lock_order c)) eqn:O; [|discriminate]. apply same_order_eq in O. subst o. destruct r; [discriminate|]. intros _.
    exists n. split; [lia|]. split; [exact E|]. intros; lia.
  - destruct (same_order o (unlock_order c)); discriminate.
  - intros _. apply Keep; [congruence|reflexivity].
  - intros _. apply Keep; [congruence|reflexivity].
Qed.

Lemma op_phase : forall c p, threads c p -> forall i t e, p i = Some (t, e) -> exists q q', phase_at c p t i = Some q /\ after c q e = Some q'.
Proof.
  intros c p T i t e E. destruct (T t (S i)) as [q' H]. cbn in H. rewrite E, Nat.eqb_refl in H.
  destruct (phase_at c p t i) as [q|]; [|discriminate]. exists q, q'. auto.
Qed.

(** accesses and unlocks *)
Definition inside (e : event) : bool := match e with Read _ _ | Write _ _ | Clear _ => true | _ => false end.

Lemma inside_held : forall c p, threads c p -> forall i t e, p i = Some (t, e) -> inside e = true ->
  exists k, k < i /\ p k = Some (t, Tas (lock_order c) false) /\ forall j o, k < j < i -> p j <> Some (t, Clear o).
Proof.
  intros c p T i t e E I. destruct (op_phase c p T i t e E) as (q & q' & P & A). apply owner_held.
  rewrite P. destruct q, e; cbn in *; congruence.
Qed.
Lemma clear_order : forall c p, threads c p -> forall i t o, p i = Some (t, Clear o) -> o = unlock_order c.
Proof.
  intros c p T i t o E. destruct (op_phase c p T i t _ E) as (q & q' & P & A). destruct q; cbn in A; try discriminate.
  destruct (same_order o (unlock_order c)) eqn:S; [apply same_order_eq; exact S|discriminate].
Qed.
Lemma tas_order : forall c p, threads c p -> forall i t o r, p i = Some (t, Tas o r) -> o = lock_order c.
Proof.
  intros c p T i t o r E. destruct (op_phase c p T i t _ E) as (q & q' & P & A). destruct q; cbn in A; try discriminate.
  destruct (same_order o (lock_order c)) eqn:S; [apply same_order_eq; exact S|discriminate].
Qed.

Lemma hb_trans : forall X i j k, hb X i j -> hb X j k -> hb X i k.
Proof. intros X i j k. apply t_trans. Qed.
Lemma hb_sb : forall X i j t e e', i < j -> ops X i = Some (t, e) -> ops X j = Some (t, e') -> hb X i j.
Proof. intros X i j t e e' L E E'. apply t_step. left. split; [exact L|]. exists t, e, e'. auto. Qed.

Lemma released_once : forall X i j k, released_by X i j -> released_by X i k -> j = k.
Proof.
  intros X i j k (L & t & o & o' & A & B & N) (L' & t' & p & p' & A' & B' & N'). rewrite A in A'. injection A' as <- <-.
  destruct (Nat.lt_trichotomy j k) as [H|[H|H]]; [|exact H|].
  - destruct (N' j o'); [lia|exact B].
  - destruct (N k p'); [lia|exact B'].
Qed.

(** Between two acquisitions in the modification order there is the unlock of the first. *)
Lemma sections : forall c X, threads c (ops X) -> flag_rules X -> forall n b, mo X n = Some b -> acquires X b ->
  forall m a, m < n -> mo X m = Some a -> acquires X a ->
  exists k u, m < k < n /\ mo X k = Some u /\ released_by X a u /\ (c = code -> hb X u b).
Proof.
  intros c X T F n. induction n as [n IH] using lt_wf_ind. intros b Mb (tb & ob & Eb) m a L Ma Aa.
  destruct n as [|n']; [lia|].
  destruct (mo_dense X F _ _ Mb) as [u Mu]. destruct (mo_only X F _ _ Mu) as (tu & e & Eu & On).
  assert (V := rmw_next X F _ _ _ _ _ _ _ _ Mu Eu Mb Eb). destruct e; try discriminate. clear V On.
  destruct (inside_held c _ T u tu _ Eu eq_refl) as (a' & La & Ea' & Q).
  destruct (mo_all X F _ _ _ Ea' eq_refl) as [p Mp].
  assert (Lp : p < n'). { apply (coherent X F p n' a' u Mp Mu). eapply hb_sb; eassumption. }
  assert (R : released_by X a' u). { split; [exact La|]. exists tu, (lock_order c), o. auto. }
  assert (S : c = code -> hb X u b).
  { intros ->. apply t_step. right. left. exists n', (S n'), tu, tb, false.
    split; [lia|]. split; [exact Mu|]. split; [exact Mb|].
    rewrite (clear_order _ _ T _ _ _ Eu) in Eu. rewrite (tas_order _ _ T _ _ _ _ Eb) in Eb. cbn in Eu, Eb.
    split; [exact Eu|]. split; [exact Eb|]. intros; lia. }
  assert (Aa' : acquires X a') by (exists tu, (lock_order c); exact Ea').
  destruct (Nat.lt_trichotomy p m) as [Lt|[->|Gt]].
  - destruct (IH m L a Ma Aa p a' Lt Mp Aa') as (k & u' & Lk & Mk & R' & _).
    rewrite <- (released_once X _ _ _ R R') in Mk. assert (n' = k) by (eapply mo_once; eassumption). lia.
  - assert (a = a') by congruence. subst a'. exists n', u. split; [lia|]. auto.
  - destruct (IH p ltac:(lia) a' Mp Aa' m a Gt Ma Aa) as (k & u' & Lk & Mk & R' & H).
    exists k, u'. split; [lia|]. split; [exact Mk|]. split; [exact R'|]. intros C.
    eapply hb_trans; [apply H; exact C|]. eapply hb_trans; [|apply S; exact C]. eapply hb_sb; eassumption.
Qed.

Lemma acquired_order : forall X, threads code (ops X) -> flag_rules X -> forall a b, acquires X a -> acquires X b -> a <> b ->
  (exists u, released_by X a u /\ hb X u b) \/ (exists u, released_by X b u /\ hb X u a).
Proof.
  intros X T F a b Aa Ab N. destruct Aa as (ta & oa & Ea). destruct Ab as (tb & ob & Eb).
  destruct (mo_all X F _ _ _ Ea eq_refl) as [m Mm]. destruct (mo_all X F _ _ _ Eb eq_refl) as [n Mn].
  assert (Aa : acquires X a) by (exists ta, oa; exact Ea). assert (Ab : acquires X b) by (exists tb, ob; exact Eb).
  destruct (Nat.lt_trichotomy m n) as [L|[->|L]]; [left| |right].
  - destruct (sections _ X T F n b Mn Ab m a L Mm Aa) as (k & u & _ & _ & R & H). eauto.
  - congruence.
  - destruct (sections _ X T F m a Mm Aa n b L Mn Ab) as (k & u & _ & _ & R & H). eauto.
Qed.

Lemma inside_order : forall X, threads code (ops X) -> flag_rules X -> forall i j t e u f, i <> j ->
  ops X i = Some (t, e) -> ops X j = Some (u, f) -> inside e = true -> inside f = true -> hb X i j \/ hb X j i.
Proof.
  intros X T F.
  assert (Half : forall i j t e u f a b, ops X i = Some (t, e) -> ops X j = Some (u, f) ->
    a < i -> ops X a = Some (t, Tas Acquire false) -> (forall k o, a < k < i -> ops X k <> Some (t, Clear o)) ->
    b < j -> ops X b = Some (u, Tas Acquire false) -> (exists c, released_by X a c /\ hb X c b) -> hb X i j).
  { intros i j t e u f a b Ei Ej La Ea Qa Lb Eb (c & (Lc & t' & o & o' & Ea' & Ec & Qc) & H).
    rewrite Ea in Ea'. injection Ea' as <- <-.
    assert (Hj : hb X c j) by (eapply hb_trans; [exact H|eapply hb_sb; eassumption]).
    destruct (Nat.lt_trichotomy i c) as [L|[->|L]]; [|exact Hj|].
    - eapply hb_trans; [eapply hb_sb; eassumption|exact Hj].
    - destruct (Qa c o'); [lia|exact Ec]. }
  intros i j t e u f N Ei Ej Ie If.
  destruct (inside_held _ _ T i t e Ei Ie) as (a & La & Ea & Qa). destruct (inside_held _ _ T j u f Ej If) as (b & Lb & Eb & Qb).
  destruct (Nat.eq_dec a b) as [<-|Nab].
  - rewrite Ea in Eb. injection Eb as <-. destruct (Nat.lt_trichotomy i j) as [L|[->|L]]; [left|congruence|right]; eapply hb_sb; eassumption.
  - destruct (acquired_order X T F a b) as [H|H]; [exists t, Acquire; exact Ea|exists u, Acquire; exact Eb|exact Nab|left|right].
    + eapply Half; eassumption.
    + eapply Half; eassumption.
Qed.

Lemma no_race : forall X, threads code (ops X) -> flag_rules X -> race_free X.
Proof.
  intros X T F i j (t & e & t' & e' & x & Ei & Ej & N & [v ->] & We).
  eapply inside_order; try eassumption; try reflexivity; [intros ->; congruence|].
  destruct We as [[w ->]|[w ->]]; reflexivity.
Qed.

Lemma last_write : forall X, threads code (ops X) -> flag_rules X -> data_rules X -> forall j t x v, ops X j = Some (t, Read x v) ->
  (v = initial X x /\ forall i u w, ops X i = Some (u, Write x w) -> hb X j i) \/
  (exists i u, ops X i = Some (u, Write x v) /\ hb X i j /\ forall k u' w, ops X k = Some (u', Write x w) -> k = i \/ hb X k i \/ hb X j k).
Proof.
  intros X T F D j t x v Ej. assert (H := D (no_race X T F) j t x v Ej). destruct (source X j) as [i|].
  - destruct H as ([u Ei] & H & Q). right. exists i, u. split; [exact Ei|]. split; [exact H|]. intros k u' w Ek.
    destruct (Nat.eq_dec k i) as [->|N]; [auto|].
    destruct (inside_order X T F k i _ _ _ _ N Ek Ei eq_refl eq_refl) as [A|A]; [auto|].
    destruct (inside_order X T F k j _ _ _ _ ltac:(congruence) Ek Ej eq_refl eq_refl) as [B|B]; [|auto].
    destruct (Q k u' w Ek A B).
  - destruct H as [E Q]. left. split; [exact E|]. intros i u w Ei.
    destruct (inside_order X T F i j _ _ _ _ ltac:(congruence) Ei Ej eq_refl eq_refl) as [B|B]; [|exact B]. destruct (Q i u w Ei B).
Qed.

(** ** Interleaved executions *)
From Verif Require SpinSpec SpinProofs.

Lemma flag_ops_snoc : forall tr t e, flag_ops (tr ++ [(t, e)]) = flag_ops tr ++ (if on_flag e then [length tr] else []).
Proof.
  intros tr t e. unfold flag_ops. rewrite app_length. cbn [length]. rewrite Nat.add_1_r, seq_S, filter_app. f_equal.
  - apply filter_ext_in. intros i I. apply in_seq in I. rewrite nth_error_app1 by lia. reflexivity.
  - cbn. rewrite nth_error_app2, Nat.sub_diag by lia. reflexivity.
Qed.
Lemma flag_ops_in : forall tr i, In i (flag_ops tr) <-> exists t e, nth_error tr i = Some (t, e) /\ on_flag e = true.
Proof.
  intros tr i. unfold flag_ops. rewrite filter_In, in_seq. split.
  - intros [_ H]. destruct (nth_error tr i) as [[t e]|]; [|discriminate]. exists t, e. auto.
  - intros (t & e & E & O). rewrite E. split; [|exact O]. assert (i < length tr) by (apply nth_error_Some; congruence). lia.
Qed.
Lemma flag_ops_lt : forall tr i, In i (flag_ops tr) -> i < length tr.
Proof. intros tr i H. apply flag_ops_in in H. destruct H as (t & e & E & _). apply nth_error_Some. congruence. Qed.
Lemma nth_snoc : forall {A} (l : list A) x n y, nth_error (l ++ [x]) n = Some y -> nth_error l n = Some y \/ (n = length l /\ x = y).
Proof.
  intros A l x n y H. destruct (Nat.lt_ge_cases n (length l)) as [L|L]; [left; rewrite nth_error_app1 in H; auto|right].
  rewrite nth_error_app2 in H by lia. destruct (n - length l) as [|k] eqn:K; cbn in H; [|destruct k; discriminate].
  split; [lia|congruence].
Qed.
Lemma flag_ops_sorted : forall tr n k i j, nth_error (flag_ops tr) n = Some i -> nth_error (flag_ops tr) k = Some j -> n < k -> i < j.
Proof.
  induction tr as [|[t e] tr IH] using rev_ind; intros n k i j Hn Hk L; [destruct n; discriminate|].
  rewrite flag_ops_snoc in Hn, Hk. destruct (on_flag e); [|rewrite app_nil_r in Hn, Hk; eauto].
  apply nth_snoc in Hn. apply nth_snoc in Hk. destruct Hn as [Hn|[-> <-]], Hk as [Hk|[-> <-]].
  - eauto.
  - apply flag_ops_lt. eapply nth_error_In; eassumption.
  - assert (k < length (flag_ops tr)) by (apply nth_error_Some; congruence). lia.
  - lia.
Qed.
Lemma flag_ops_lt_iff : forall tr n k i j, nth_error (flag_ops tr) n = Some i -> nth_error (flag_ops tr) k = Some j -> i < j -> n < k.
Proof.
  intros tr n k i j Hn Hk L. destruct (Nat.lt_trichotomy n k) as [H|[->|H]]; [exact H| |].
  - assert (i = j) by congruence. lia.
  - assert (j < i) by (eapply flag_ops_sorted; eassumption). lia.
Qed.

Lemma interleaved_hb : forall m tr i j, hb (interleaved m tr) i j -> i < j.
Proof.
  intros m tr i j H. induction H as [i j [[L _]|[(n & k & t & t' & r & L & Mn & Mk & _)|[]]]|i j k _ IH1 _ IH2]; [exact L| |lia].
  eapply flag_ops_sorted; [exact Mn|exact Mk|exact L].
Qed.

(** the value of the flag in the state is that left by the last operation on it *)
Definition flag_known (s : state) (tr : list (nat * event)) : Prop :=
  (flag_ops tr = [] /\ flag s = false) \/ exists l j u e, flag_ops tr = l ++ [j] /\ nth_error tr j = Some (u, e) /\ flag s = leaves e.
Definition rmw_known (tr : list (nat * event)) : Prop :=
  (forall i t o r, nth_error (flag_ops tr) 0 = Some i -> nth_error tr i = Some (t, Tas o r) -> r = false) /\
  (forall n j u e i t o r, nth_error (flag_ops tr) n = Some j -> nth_error tr j = Some (u, e) -> nth_error (flag_ops tr) (S n) = Some i ->
     nth_error tr i = Some (t, Tas o r) -> r = leaves e).

Lemma step_flag : forall c s t a s' e, step c s t a = Some (s', e) ->
  (on_flag e = false -> flag s' = flag s) /\ (on_flag e = true -> flag s' = leaves e) /\ (forall o r, e = Tas o r -> r = flag s).
Proof.
  intros c s t a s' e H. destruct a; cbn in H; destruct (spinning s t); try discriminate; injection H as <- <-; cbn;
    (split; [|split]); intros; try discriminate; try reflexivity; congruence.
Qed.

Lemma interleaved_flag : forall c m l s tr, exec c (init m) l = Some (s, tr) -> flag_known s tr /\ rmw_known tr.
Proof.
  intros c m. induction l as [|[t a] l IH] using rev_ind; intros s tr E.
  - injection E as <- <-. split; [left; split; reflexivity|]. split; [discriminate|intros [|n]; discriminate].
  - rewrite SpinProofs.exec_snoc in E. destruct (exec c (init m) l) as [[s1 tr1]|]; [|discriminate].
    destruct (step c s1 t a) as [[s2 e]|] eqn:St; [|discriminate]. injection E as <- <-.
    destruct (IH s1 tr1 eq_refl) as [K [R0 R1]]. destruct (step_flag _ _ _ _ _ _ St) as (S1 & S2 & S3).
    assert (Old : forall i x, In i (flag_ops tr1) -> nth_error (tr1 ++ [(t, e)]) i = x -> nth_error tr1 i = x).
    { intros i x I H. rewrite nth_error_app1 in H by (apply flag_ops_lt; exact I). exact H. }
    destruct (on_flag e) eqn:O.
    + unfold flag_known, rmw_known. rewrite flag_ops_snoc, O. split.
      * right. exists (flag_ops tr1), (length tr1), t, e. split; [reflexivity|]. split; [|apply S2; reflexivity].
        rewrite nth_error_app2, Nat.sub_diag by lia. reflexivity.
      * assert (New : forall x, nth_error (tr1 ++ [(t, e)]) (length tr1) = Some x -> x = (t, e)).
        { intros x H. rewrite nth_error_app2, Nat.sub_diag in H by lia. cbn in H. congruence. }
        split.
        -- intros i u o r Hi Ei. apply nth_snoc in Hi. destruct Hi as [Hi|[Z <-]].
           ++ eapply R0; [exact Hi|]. apply Old; [eapply nth_error_In; exact Hi|exact Ei].
           ++ apply New in Ei. injection Ei as -> <-. rewrite (S3 o r eq_refl).
              destruct K as [[_ K]|(l' & j & u' & e' & K & _)]; [exact K|]. rewrite K, app_length in Z. cbn in Z. lia.
        -- intros n j u f i v o r Hj Ej Hi Ei. apply nth_snoc in Hi. apply nth_snoc in Hj.
           destruct Hi as [Hi|[Z <-]].
           ++ assert (S n < length (flag_ops tr1)) by (apply nth_error_Some; congruence). destruct Hj as [Hj|[? _]]; [|lia].
              eapply R1; [exact Hj| |exact Hi|]; apply Old; try eassumption; eapply nth_error_In; eassumption.
           ++ apply New in Ei. injection Ei as -> <-. rewrite (S3 o r eq_refl). destruct Hj as [Hj|[? _]]; [|lia].
              destruct K as [[K _]|(l' & j' & u' & e' & K & E' & Fl)]; [rewrite K in Z; cbn in Z; lia|].
              rewrite Fl. assert (j' = j). { rewrite K, app_length in Z. cbn in Z. rewrite K in Hj. apply nth_snoc in Hj.
                destruct Hj as [Hj|[_ Hj]]; [|exact Hj]. assert (n < length l') by (apply nth_error_Some; congruence). lia. }
              subst j'. assert (A : nth_error tr1 j = Some (u, f)). { apply Old; [eapply nth_error_In; exact Hj|exact Ej]. } congruence.
    + assert (Fo : flag_ops (tr1 ++ [(t, e)]) = flag_ops tr1) by (rewrite flag_ops_snoc, O, app_nil_r; reflexivity).
      unfold flag_known, rmw_known. rewrite Fo. split; [|split].
      * destruct K as [[K1 K2]|(l' & j & u & f & K & Ej & Fl)]; [left|right].
        -- split; [exact K1|]. rewrite S1 by reflexivity. exact K2.
        -- exists l', j, u, f. split; [exact K|]. split; [|rewrite S1 by reflexivity; exact Fl].
           rewrite nth_error_app1; [exact Ej|]. apply nth_error_Some. congruence.
      * intros i u o r Hi Ei. eapply R0; [exact Hi|]. apply Old; [eapply nth_error_In; exact Hi|exact Ei].
      * intros n j u f i v o r Hj Ej Hi Ei. eapply R1; [exact Hj| |exact Hi|]; apply Old; try eassumption; eapply nth_error_In; eassumption.
Qed.

Lemma interleaved_flag_rules : forall c m l s tr, exec c (init m) l = Some (s, tr) -> flag_rules (interleaved m tr).
Proof.
  intros c m l s tr E. destruct (interleaved_flag _ _ _ _ _ E) as [_ [R0 R1]]. constructor; cbn [mo ops interleaved].
  - intros n i H. apply flag_ops_in. eapply nth_error_In. exact H.
  - intros i t e H O. apply In_nth_error. apply flag_ops_in. eauto.
  - intros n k i Hn Hk. destruct (Nat.lt_trichotomy n k) as [H|[H|H]]; [|exact H|].
    + assert (i < i) by (eapply flag_ops_sorted; [exact Hn|exact Hk|exact H]). lia.
    + assert (i < i) by (eapply flag_ops_sorted; [exact Hk|exact Hn|exact H]). lia.
  - intros n i H. destruct (nth_error (flag_ops tr) n) as [j|] eqn:N; [eauto|]. apply nth_error_None in N.
    assert (S n < length (flag_ops tr)) by (apply nth_error_Some; congruence). lia.
  - exact R0.
  - exact R1.
  - intros n k i j Hn Hk H. apply interleaved_hb in H. eapply flag_ops_lt_iff; eassumption.
Qed.

Lemma last_write_spec : forall tr x j,
  match last_write_before tr x j with
  | None => forall i u w, i < j -> nth_error tr i <> Some (u, Write x w)
  | Some i => i < j /\ (exists u w, nth_error tr i = Some (u, Write x w)) /\ forall k u w, i < k < j -> nth_error tr k <> Some (u, Write x w)
  end.
Proof.
  intros tr x. induction j as [|j IH]; cbn; [intros; lia|].
  assert (Keep : (forall u w, nth_error tr j <> Some (u, Write x w)) ->
    match last_write_before tr x j with
    | None => forall i u w, i < S j -> nth_error tr i <> Some (u, Write x w)
    | Some i => i < S j /\ (exists u w, nth_error tr i = Some (u, Write x w)) /\ forall k u w, i < k < S j -> nth_error tr k <> Some (u, Write x w)
    end).
  { intros N. destruct (last_write_before tr x j) as [i|].
    - destruct IH as (L & W & Q). split; [lia|]. split; [exact W|]. intros k u w B. destruct (Nat.eq_dec k j) as [->|]; [apply N|apply Q; lia].
    - intros i u w L. destruct (Nat.eq_dec i j) as [->|]; [apply N|apply IH; lia]. }
  destruct (nth_error tr j) as [[u [| | | |y w]]|] eqn:E; try (apply Keep; intros; congruence).
  destruct (Nat.eqb_spec y x) as [->|N]; [|apply Keep; intros; congruence].
  split; [lia|]. split; [eauto|]. intros; lia.
Qed.

Lemma interleaved_data_rules : forall c m l s tr, exec c (init m) l = Some (s, tr) -> data_rules (interleaved m tr).
Proof.
  intros c m l s tr E RF j t x v Ej. cbn in *. rewrite Ej.
  assert (V := SpinProofs.read_value c m l s tr j t x v E Ej). assert (W := last_write_spec tr x j). unfold SpinSpec.at_ in V.
  destruct (last_write_before tr x j) as [i|].
  - destruct W as (L & (u & w & Ei) & Q). split; [|split].
    + destruct V as [[_ V]|(i' & u' & L' & Ei' & Q')]; [destruct (V i u w L Ei)|].
      destruct (Nat.lt_trichotomy i i') as [H|[<-|H]]; [destruct (Q i' u' v (conj H L') Ei')|eauto|destruct (Q' i u w (conj H L) Ei)].
    + destruct (Nat.eq_dec u t) as [->|N].
      * eapply hb_sb; cbn; eassumption.
      * destruct (RF i j) as [H|H]; [|exact H|apply interleaved_hb in H; lia].
        exists u, (Write x w), t, (Read x v), x. cbn. repeat split; try assumption; [exists w; reflexivity|right; exists v; reflexivity].
    + intros k u' w' Ek Hik Hkj. apply interleaved_hb in Hik. apply interleaved_hb in Hkj. apply (Q k u' w' (conj Hik Hkj) Ek).
  - split.
    + destruct V as [[V _]|(i' & u' & L' & Ei' & Q')]; [exact V|]. destruct (W i' u' v L' Ei').
    + intros i u w Ei H. apply interleaved_hb in H. apply (W i u w H Ei).
Qed.

(** ** Other memory orders *)
Lemma weak_same_thread : forall c m tr, threads c (nth_error tr) -> c <> code ->
  forall i j, hb (interleaved m tr) i j -> exists t e e', nth_error tr i = Some (t, e) /\ nth_error tr j = Some (t, e').
Proof.
  intros c m tr T N i j H. induction H as [i j [(_ & t & e & e' & A & B)|[(n & k & t & t' & r & _ & _ & _ & A & B & _)|[]]]|i j k _ IH1 _ IH2].
  - exists t, e, e'. auto.
  - destruct N. apply (clear_order c _ T) in A. apply (tas_order c _ T) in B. destruct c as [a b]. cbn in A, B. subst. reflexivity.
  - destruct IH1 as (t & e & e' & A & B). destruct IH2 as (t' & f & f' & C & D). rewrite B in C. injection C as <- <-. exists t, e, f'. auto.
Qed.

(** The threads of a finite trace can be checked. *)
Definition check (c : orders) (tr : list (nat * event)) : bool :=
  forallb (fun t => forallb (fun n => match phase_at c (nth_error tr) t n with Some _ => true | None => false end) (seq 0 (S (length tr))))
    (map fst tr).
Lemma phase_absent : forall c p t n, (forall i e, i < n -> p i <> Some (t, e)) -> phase_at c p t n = Some idle.
Proof.
  intros c p t. induction n as [|n IH]; intros H; [reflexivity|]. cbn. destruct (p n) as [[u e]|] eqn:E; [|apply IH; intros; apply H; lia].
  destruct (Nat.eqb_spec u t) as [->|]; [destruct (H n e); [lia|exact E]|apply IH; intros; apply H; lia].
Qed.
Lemma phase_past : forall c tr t n, length tr <= n -> phase_at c (nth_error tr) t n = phase_at c (nth_error tr) t (length tr).
Proof.
  intros c tr t n L. induction L as [|n L IH]; [reflexivity|]. cbn. rewrite (proj2 (nth_error_None tr n) L). exact IH.
Qed.
Lemma check_threads : forall c tr, check c tr = true -> threads c (nth_error tr).
Proof.
  intros c tr H t n. destruct (in_dec Nat.eq_dec t (map fst tr)) as [I|I].
  - unfold check in H. rewrite forallb_forall in H. specialize (H t I). rewrite forallb_forall in H.
    assert (K : forall n, n <= length tr -> exists p, phase_at c (nth_error tr) t n = Some p).
    { intros k L. specialize (H k). rewrite in_seq in H. specialize (H ltac:(lia)). destruct (phase_at c (nth_error tr) t k); [eauto|discriminate]. }
    destruct (Nat.le_ge_cases n (length tr)) as [L|L]; [apply K; exact L|]. rewrite phase_past by exact L. apply K. lia.
  - exists idle. apply phase_absent. intros i e _ E. apply I. apply nth_error_In in E. apply (in_map fst) in E. exact E.
Qed.

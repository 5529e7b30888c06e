(** Proofs about spin_lock. *)
From Verif Require Import Base ListLemmas SpinModel SpinSpec.
From Coq Require Import Relations.

Lemma exec_snoc c l t a : forall s, exec c s (l ++ [(t, a)]) =
  match exec c s l with
  | None => None
  | Some (s1, tr) => match step c s1 t a with None => None | Some (s2, e) => Some (s2, tr ++ [(t, e)]) end
  end.
Proof.
  induction l as [|[u b] l IH]; intro s; cbn [app exec].
  - destruct (step c s t a) as [[s2 e]|]; reflexivity.
  - destruct (step c s u b) as [[s1 e]|]; [|reflexivity]. rewrite IH.
    destruct (exec c s1 l) as [[s2 tr]|]; [|reflexivity]. destruct (step c s2 t a) as [[s3 e3]|]; reflexivity.
Qed.

Lemma snoc_split {A} (l : list A) x l1 y l2 : l ++ [x] = l1 ++ y :: l2 -> (l2 = [] /\ l = l1 /\ x = y) \/ (exists l2', l2 = l2' ++ [x] /\ l = l1 ++ y :: l2').
Proof.
  intro E. destruct (exists_last (l := y :: l2) ltac:(discriminate)) as (m & z & M). rewrite M, app_assoc in E.
  apply app_inj_tail in E. destruct E as [-> <-]. destruct m as [|w m].
  - injection M as -> ->. left. rewrite app_nil_r. auto.
  - injection M as <- ->. right. exists m. auto.
Qed.
Lemma disciplined_init tr x : disciplined (tr ++ [x]) -> disciplined tr.
Proof. intros D tr1 t e tr2 E. apply (D tr1 t e (tr2 ++ [x])). rewrite E, <- app_assoc. reflexivity. Qed.
Lemma disciplined_last tr t e : disciplined (tr ++ [(t, e)]) -> needs_lock e = true -> holds tr t.
Proof. intros D. exact (D tr t e [] eq_refl). Qed.

Lemma holds_snoc tr u e t : holds (tr ++ [(u, e)]) t <->
  (u = t /\ exists o, e = Tas o false) \/ (holds tr t /\ ~ (u = t /\ exists o, e = Clear o)).
Proof.
  split.
  - intros (tr1 & o & tr2 & E & N). apply snoc_split in E. destruct E as [(-> & -> & E)|(m & -> & ->)].
    + injection E as -> ->. left. eauto.
    + right. split.
      * exists tr1, o, m. split; [reflexivity|]. intros o' H. apply (N o'). apply in_or_app. auto.
      * intros [-> [o' ->]]. apply (N o'). apply in_or_app. right. left. reflexivity.
  - intros [[-> [o ->]]|[(tr1 & o & tr2 & -> & N) H]].
    + exists tr, o, []. split; [reflexivity|]. intros o' [].
    + exists tr1, o, (tr2 ++ [(u, e)]). split; [rewrite <- app_assoc; reflexivity|]. intros o' J. apply in_app_or in J.
      destruct J as [J|[J|[]]]; [exact (N o' J)|]. injection J as -> ->. apply H. eauto.
Qed.

(** ** Mutual exclusion *)
Definition good (s : state) (tr : trace) : Prop :=
  (forall t1 t2, holds tr t1 -> holds tr t2 -> t1 = t2) /\ (flag s = true <-> exists t, holds tr t).

Lemma good_step c s tr t a s' e : good s tr -> step c s t a = Some (s', e) -> (needs_lock e = true -> holds tr t) -> good s' (tr ++ [(t, e)]).
Proof.
  intros [G1 G2] E D.
  assert (Same : forall m sp, (forall o, e <> Tas o false) -> (forall o, e <> Clear o) -> s' = {| flag := flag s; spinning := sp; mem := m |} -> good s' (tr ++ [(t, e)])).
  { intros m sp N1 N2 ->. assert (H : forall u, holds (tr ++ [(t, e)]) u <-> holds tr u).
    { intro u. rewrite holds_snoc. split; [intros [[_ [o Ho]]|[H _]]; [destruct (N1 o Ho)|exact H]|].
      intro H. right. split; [exact H|]. intros [_ [o Ho]]. exact (N2 o Ho). }
    split; cbn [flag].
    - intros t1 t2 H1 H2. apply H in H1, H2. auto.
    - rewrite G2. split; intros [u Hu]; exists u; apply H; exact Hu. }
  destruct a as [| | |x|x v]; cbn [step] in E; destruct (spinning s t) eqn:Sp; try discriminate; injection E as <- <-.
  - eapply Same; try discriminate. reflexivity.
  - destruct (flag s) eqn:Ef.
    + eapply Same; try discriminate. reflexivity.
    + assert (None_ : forall u, ~ holds tr u). { intros u Hu. assert (false = true) by (apply G2; eauto). discriminate. }
      assert (H : forall u, holds (tr ++ [(t, Tas (lock_order c) false)]) u <-> u = t).
      { intro u. rewrite holds_snoc. split; [intros [[-> _]|[H _]]; [reflexivity|destruct (None_ u H)]|]. intros ->. left. eauto. }
      split; cbn [flag].
      * intros t1 t2 H1 H2. apply H in H1, H2. congruence.
      * split; [intros _; exists t; apply H; reflexivity|reflexivity].
  - specialize (D eq_refl).
    assert (H : forall u, ~ holds (tr ++ [(t, Clear (unlock_order c))]) u).
    { intros u Hu. apply holds_snoc in Hu. destruct Hu as [[_ [o Ho]]|[Hu N]]; [discriminate|]. apply N. split; [|eauto]. auto. }
    split; cbn [flag].
    + intros t1 t2 H1. destruct (H t1 H1).
    + split; [discriminate|]. intros [u Hu]. destruct (H u Hu).
  - apply (Same (mem s) (spinning s)); try discriminate. destruct s; reflexivity.
  - eapply Same; try discriminate. reflexivity.
Qed.

Lemma exclusion c m : forall l s tr, exec c (init m) l = Some (s, tr) -> disciplined tr -> good s tr.
Proof.
  intro l. induction l as [|[t a] l IH] using rev_ind; intros s tr E D.
  - injection E as <- <-. split.
    + intros t1 t2 (tr1 & o & tr2 & H & _). destruct tr1; discriminate.
    + cbn. split; [discriminate|]. intros (t & tr1 & o & tr2 & H & _). destruct tr1; discriminate.
  - rewrite exec_snoc in E. destruct (exec c (init m) l) as [[s1 tr1]|]; [|discriminate].
    destruct (step c s1 t a) as [[s2 e]|] eqn:St; [|discriminate]. injection E as <- <-.
    eapply good_step; [|exact St|].
    + apply IH; [reflexivity|]. eapply disciplined_init. exact D.
    + apply disciplined_last. exact D.
Qed.

(** ** Happens-before *)
Lemma at_app_l tr tr' i t e : at_ tr i t e -> at_ (tr ++ tr') i t e.
Proof. unfold at_. intro H. rewrite nth_error_app1; [exact H|]. apply nth_error_Some. congruence. Qed.
Lemma at_lt tr i t e : at_ tr i t e -> i < length tr.
Proof. unfold at_. intro H. apply nth_error_Some. congruence. Qed.
Lemma at_app_inv tr tr' i t e : at_ (tr ++ tr') i t e -> i < length tr -> at_ tr i t e.
Proof. unfold at_. intros H L. rewrite nth_error_app1 in H; assumption. Qed.
Lemma at_snoc tr x i t e : at_ (tr ++ [x]) i t e -> at_ tr i t e \/ (i = length tr /\ x = (t, e)).
Proof.
  intro H. destruct (Nat.lt_ge_cases i (length tr)) as [L|L]; [left; eapply at_app_inv; eassumption|right].
  unfold at_ in H. rewrite nth_error_app2 in H by exact L. destruct (i - length tr) as [|k] eqn:K; cbn in H.
  - injection H as ->. split; [lia|reflexivity].
  - destruct k; discriminate.
Qed.
Lemma at_end tr t e : at_ (tr ++ [(t, e)]) (length tr) t e.
Proof. unfold at_. rewrite nth_error_app2, Nat.sub_diag by lia. reflexivity. Qed.
Lemma hb_app tr tr' i j : hb tr i j -> hb (tr ++ tr') i j.
Proof.
  induction 1 as [i j [(L & t & e & e' & H1 & H2)|(L & t & r & t' & H1 & H2 & N)]|i j k _ IH1 _ IH2].
  - apply t_step. left. split; [exact L|]. exists t, e, e'. split; apply at_app_l; assumption.
  - apply t_step. right. split; [exact L|]. exists t, r, t'. split; [apply at_app_l; exact H1|]. split; [apply at_app_l; exact H2|].
    intros k u o K Hk. apply (N k u o K). eapply at_app_inv; [exact Hk|]. apply at_lt in H2. lia.
  - eapply t_trans; eassumption.
Qed.
Lemma hb_lt tr i j : hb tr i j -> i < j.
Proof. induction 1 as [i j [[L _]|[L _]]|i j k _ IH1 _ IH2]; lia. Qed.

(** Every access, and every unlock, happens before whatever the holder of the lock does next;
    when nobody holds the lock every access is before the last release. *)
Definition ordered (tr : trace) : Prop :=
  (forall t, holds tr t -> forall i u e, at_ tr i u e -> needs_lock e = true ->
     exists k e', (i = k \/ hb tr i k) /\ at_ tr k t e') /\
  ((forall t, ~ holds tr t) -> (forall i u e, at_ tr i u e -> needs_lock e = false) \/
     exists k t, at_ tr k t (Clear Release) /\ (forall k' u o, k < k' -> ~ at_ tr k' u (Clear o)) /\
       forall i u e, at_ tr i u e -> needs_lock e = true -> i = k \/ hb tr i k).

Lemma app_nth_last {A} (l1 : list A) x l2 : nth_error (l1 ++ x :: l2) (length l1) = Some x.
Proof. rewrite nth_error_app2, Nat.sub_diag by lia. reflexivity. Qed.
Lemma holds_at tr t : holds tr t -> exists i o, at_ tr i t (Tas o false).
Proof. intros (tr1 & o & tr2 & -> & _). exists (length tr1), o. apply app_nth_last. Qed.

Lemma ordered_step s tr t a s' e : good s tr -> ordered tr -> step code s t a = Some (s', e) -> (needs_lock e = true -> holds tr t) ->
  ordered (tr ++ [(t, e)]).
Proof.
  intros G [O1 O2] E D.
  assert (hb_to_end : forall i u e0, at_ tr i u e0 -> u = t -> hb (tr ++ [(t, e)]) i (length tr)).
  { intros i u e0 H ->. apply t_step. left. split; [eapply at_lt; exact H|]. exists t, e0, e. split; [apply at_app_l; exact H|apply at_end]. }
  (* what the holder did before reaches the new event if it is by the holder *)
  assert (By_holder : holds tr t -> forall i u e0, at_ tr i u e0 -> needs_lock e0 = true -> hb (tr ++ [(t, e)]) i (length tr)).
  { intros H i u e0 A N. destruct (O1 t H i u e0 A N) as (k & e' & [<-|Hb] & Ak).
    - eapply hb_to_end; [exact Ak|reflexivity].
    - eapply t_trans; [apply hb_app; exact Hb|]. eapply hb_to_end; [exact Ak|reflexivity]. }
  destruct (needs_lock e) eqn:Ne.
  - specialize (D eq_refl).
    destruct e as [|o r|o|x v|x v]; try discriminate.
    + (* Clear *)
      assert (o = Release). { destruct a; cbn [step] in E; destruct (spinning s t); try discriminate; injection E as _ <-; reflexivity. } subst o.
      assert (No : forall u, ~ holds (tr ++ [(t, Clear Release)]) u).
      { intros u Hu. apply holds_snoc in Hu. destruct Hu as [[_ [o Ho]]|[Hu N]]; [discriminate|]. apply N. split; [|eauto]. apply (proj1 G); assumption. }
      split; [intros u Hu; destruct (No u Hu)|]. intros _. right. exists (length tr), t. split; [apply at_end|]. split.
      * intros k' u o L H. apply at_lt in H. rewrite app_length in H. cbn in H. lia.
      * intros i u e0 A N. apply at_snoc in A. destruct A as [A|[-> _]]; [right|left; reflexivity]. eapply By_holder; eassumption.
    + (* Read *)
      assert (Hs : forall u, holds (tr ++ [(t, Read x v)]) u <-> u = t).
      { intro u. rewrite holds_snoc. split; [intros [[_ [o Ho]]|[Hu _]]; [discriminate|apply (proj1 G); assumption]|].
        intros ->. right. split; [exact D|]. intros [_ [o Ho]]. discriminate. }
      split; [|intro H; exfalso; apply (H t); apply Hs; reflexivity].
      intros u Hu i u' e0 A N. apply Hs in Hu. subst u. exists (length tr), (Read x v). split; [|apply at_end].
      apply at_snoc in A. destruct A as [A|[-> _]]; [right; eapply By_holder; eassumption|left; reflexivity].
    + assert (Hs : forall u, holds (tr ++ [(t, Write x v)]) u <-> u = t).
      { intro u. rewrite holds_snoc. split; [intros [[_ [o Ho]]|[Hu _]]; [discriminate|apply (proj1 G); assumption]|].
        intros ->. right. split; [exact D|]. intros [_ [o Ho]]. discriminate. }
      split; [|intro H; exfalso; apply (H t); apply Hs; reflexivity].
      intros u Hu i u' e0 A N. apply Hs in Hu. subst u. exists (length tr), (Write x v). split; [|apply at_end].
      apply at_snoc in A. destruct A as [A|[-> _]]; [right; eapply By_holder; eassumption|left; reflexivity].
  - assert (old : forall i u e0, at_ (tr ++ [(t, e)]) i u e0 -> needs_lock e0 = true -> at_ tr i u e0).
    { intros i u e0 A N. apply at_snoc in A. destruct A as [A|[_ A]]; [exact A|]. injection A as _ <-. congruence. }
    destruct (flag s) eqn:Ef.
    + (* nothing acquired *)
      assert (N1 : forall o, e <> Tas o false).
      { intros o ->. destruct a; cbn [step] in E; destruct (spinning s t); try discriminate. rewrite Ef in E. discriminate. }
      assert (Hs : forall u, holds (tr ++ [(t, e)]) u <-> holds tr u).
      { intro u. rewrite holds_snoc. split; [intros [[_ [o Ho]]|[H _]]; [destruct (N1 o Ho)|exact H]|].
        intro H. right. split; [exact H|]. intros [_ [o ->]]. discriminate. }
      split.
      * intros u Hu i u' e0 A N. apply Hs in Hu. destruct (O1 u Hu i u' e0 (old _ _ _ A N) N) as (k & e' & Hk & Ak).
        exists k, e'. split; [destruct Hk; [auto|right; apply hb_app; assumption]|apply at_app_l; exact Ak].
      * intro H. exfalso. destruct (proj1 (proj2 G) Ef) as [u Hu]. apply (H u). apply Hs. exact Hu.
    + assert (None_ : forall u, ~ holds tr u). { intros u Hu. assert (flag s = true) by (apply (proj2 G); eauto). congruence. }
      specialize (O2 None_).
      destruct a as [| | |x|x v]; cbn [step] in E; destruct (spinning s t) eqn:Sp; try discriminate; injection E as <- <-; try discriminate.
      * (* Begin *)
        assert (Hs : forall u, ~ holds (tr ++ [(t, Begin)]) u).
        { intros u Hu. apply holds_snoc in Hu. destruct Hu as [[_ [o Ho]]|[Hu _]]; [discriminate|exact (None_ u Hu)]. }
        split; [intros u Hu; destruct (Hs u Hu)|]. intros _. destruct O2 as [O2|(k & t' & A & L & O2)]; [left|right].
        -- intros i u e0 A. apply at_snoc in A. destruct A as [A|[_ A]]; [eauto|]. injection A as _ <-. reflexivity.
        -- exists k, t'. split; [apply at_app_l; exact A|]. split.
           ++ intros k' u o L' A'. apply at_snoc in A'. destruct A' as [A'|[_ A']]; [exact (L k' u o L' A')|discriminate].
           ++ intros i u e0 A' N. destruct (O2 i u e0 (old _ _ _ A' N) N); [auto|right; apply hb_app; assumption].
      * (* acquired *)
        rewrite Ef in *. cbn [lock_order code] in *.
        assert (Hs : forall u, holds (tr ++ [(t, Tas Acquire false)]) u <-> u = t).
        { intro u. rewrite holds_snoc. split; [intros [[-> _]|[Hu _]]; [reflexivity|destruct (None_ u Hu)]|]. intros ->. left. eauto. }
        split; [|intro H; exfalso; apply (H t); apply Hs; reflexivity].
        intros u Hu i u' e0 A N. apply Hs in Hu. subst u. pose proof (old _ _ _ A N) as A'.
        exists (length tr), (Tas Acquire false). split; [|apply at_end]. right.
        destruct O2 as [O2|(k & t' & Ak & L & O2)]; [rewrite (O2 _ _ _ A') in N; discriminate|].
        assert (Sw : hb (tr ++ [(t, Tas Acquire false)]) k (length tr)).
        { apply t_step. right. split; [eapply at_lt; exact Ak|]. exists t', false, t. split; [apply at_app_l; exact Ak|]. split; [apply at_end|].
          intros k' v o Hk' H. apply at_snoc in H. destruct H as [H|[_ H]]; [|discriminate]. apply (L k' v o); [lia|exact H]. }
        destruct (O2 i u' e0 A' N) as [->|Hb]; [exact Sw|]. eapply t_trans; [apply hb_app; exact Hb|exact Sw].
Qed.

Lemma exec_ordered m : forall l s tr, exec code (init m) l = Some (s, tr) -> disciplined tr -> ordered tr.
Proof.
  intro l. induction l as [|[t a] l IH] using rev_ind; intros s tr E D.
  - injection E as <- <-. split.
    + intros t (tr1 & o & tr2 & H & _). destruct tr1; discriminate.
    + intros _. left. intros i u e H. unfold at_ in H. destruct i; discriminate.
  - rewrite exec_snoc in E. destruct (exec code (init m) l) as [[s1 tr1]|] eqn:El; [|discriminate].
    destruct (step code s1 t a) as [[s2 e]|] eqn:St; [|discriminate]. injection E as <- <-.
    pose proof (disciplined_init _ _ D) as D1.
    eapply ordered_step; [|exact (IH _ _ eq_refl D1)|exact St|apply disciplined_last; exact D].
    eapply exclusion; eassumption.
Qed.

Lemma exec_app c l1 l2 : forall s, exec c s (l1 ++ l2) =
  match exec c s l1 with
  | None => None
  | Some (s1, tr1) => match exec c s1 l2 with None => None | Some (s2, tr2) => Some (s2, tr1 ++ tr2) end
  end.
Proof.
  induction l1 as [|[t a] l1 IH]; intro s; cbn [app exec].
  - destruct (exec c s l2) as [[? ?]|]; reflexivity.
  - destruct (step c s t a) as [[s1 e]|]; [|reflexivity]. rewrite IH. destruct (exec c s1 l1) as [[s2 tr1]|]; [|reflexivity].
    destruct (exec c s2 l2) as [[s3 tr2]|]; reflexivity.
Qed.
Lemma exec_length c l : forall s s' tr, exec c s l = Some (s', tr) -> length tr = length l.
Proof.
  induction l as [|[t a] l IH]; intros s s' tr E; cbn [exec] in E; [injection E as <- <-; reflexivity|].
  destruct (step c s t a) as [[s1 e]|]; [|discriminate]. destruct (exec c s1 l) as [[s2 tr2]|] eqn:E2; [|discriminate].
  injection E as <- <-. cbn. f_equal. eauto.
Qed.
(** the schedule that makes a prefix of a trace *)
Lemma exec_prefix c s l s' tr n : exec c s l = Some (s', tr) -> exists s1, exec c s (firstn n l) = Some (s1, firstn n tr).
Proof.
  intro E. rewrite <- (firstn_skipn n l) in E. rewrite exec_app in E. destruct (exec c s (firstn n l)) as [[s1 tr1]|] eqn:E1; [|discriminate].
  destruct (exec c s1 (skipn n l)) as [[s2 tr2]|] eqn:E2; [|discriminate]. injection E as <- <-. exists s1. f_equal. f_equal.
  pose proof (exec_length _ _ _ _ _ E1) as L1. pose proof (exec_length _ _ _ _ _ E2) as L2. rewrite firstn_length in L1. rewrite skipn_length in L2.
  rewrite firstn_app. destruct (Nat.le_ge_cases (length l) n) as [L|L].
  - assert (tr2 = []) as -> by (apply length_zero_iff_nil; lia). rewrite firstn_nil, app_nil_r, firstn_all2 by lia. reflexivity.
  - replace (n - length tr1) with 0 by lia. cbn. rewrite app_nil_r, firstn_all2 by lia. reflexivity.
Qed.
Lemma disciplined_firstn tr n : disciplined tr -> disciplined (firstn n tr).
Proof.
  intros D tr1 t e tr2 E. apply (D tr1 t e (tr2 ++ skipn n tr)). rewrite <- (firstn_skipn n tr) at 1. rewrite E, <- app_assoc. reflexivity.
Qed.

Lemma at_firstn tr n i t e : i < n -> (at_ (firstn n tr) i t e <-> at_ tr i t e).
Proof. intro L. unfold at_. rewrite nth_error_firstn, (proj2 (Nat.ltb_lt i n) L). reflexivity. Qed.
Lemma firstn_snoc {A} (l : list A) n x : nth_error l n = Some x -> firstn (S n) l = firstn n l ++ [x].
Proof.
  revert l. induction n as [|n IH]; intros [|y l] H; try discriminate; cbn in *; [congruence|]. f_equal. apply IH. exact H.
Qed.

Theorem accesses_ordered m l s tr : exec code (init m) l = Some (s, tr) -> disciplined tr ->
  forall i j t e t' e', i < j -> at_ tr i t e -> at_ tr j t' e' -> needs_lock e = true -> needs_lock e' = true -> hb tr i j.
Proof.
  intros E D i j t e t' e' L Ai Aj N N'.
  destruct (exec_prefix _ _ _ _ _ j E) as [s1 E1].
  pose proof (disciplined_firstn _ j D) as D1. destruct (exec_ordered m _ _ _ E1 D1) as [O1 _].
  pose proof (at_lt _ _ _ _ Aj) as Lj.
  assert (Lf : length (firstn j tr) = j) by (rewrite firstn_length; lia).
  assert (H : holds (firstn j tr) t').
  { apply (D (firstn j tr) t' e' (skipn (S j) tr)); [|exact N']. rewrite <- (firstn_skipn (S j) tr) at 1.
    rewrite (firstn_snoc tr j _ Aj), <- app_assoc. reflexivity. }
  assert (Ai' : at_ (firstn j tr) i t e) by (apply at_firstn; assumption).
  destruct (O1 t' H i t e Ai' N) as (k & e1 & Hk & Ak).
  assert (Lk : k < j) by (apply at_lt in Ak; lia).
  assert (Ak' : at_ tr k t' e1) by (eapply at_firstn; eassumption).
  assert (Hkj : hb tr k j). { apply t_step. left. split; [exact Lk|]. exists t', e1, e'. auto. }
  destruct Hk as [->|Hk]; [exact Hkj|]. eapply t_trans; [|exact Hkj].
  rewrite <- (firstn_skipn j tr). apply hb_app. exact Hk.
Qed.

(** values *)
Lemma mem_spec c m : forall l s tr, exec c (init m) l = Some (s, tr) -> forall x,
  (mem s x = m x /\ forall i t v, ~ at_ tr i t (Write x v)) \/
  (exists i t, at_ tr i t (Write x (mem s x)) /\ forall k u v, i < k -> ~ at_ tr k u (Write x v)).
Proof.
  intro l. induction l as [|[t a] l IH] using rev_ind; intros s tr E x.
  - injection E as <- <-. left. split; [reflexivity|]. intros i t v H. unfold at_ in H. destruct i; discriminate.
  - rewrite exec_snoc in E. destruct (exec c (init m) l) as [[s1 tr1]|] eqn:El; [|discriminate].
    destruct (step c s1 t a) as [[s2 e]|] eqn:St; [|discriminate]. injection E as <- <-. specialize (IH _ _ eq_refl x).
    assert (Same : mem s2 x = mem s1 x -> (forall v, e <> Write x v) ->
      (mem s2 x = m x /\ (forall i u v, ~ at_ (tr1 ++ [(t, e)]) i u (Write x v))) \/
      (exists i u, at_ (tr1 ++ [(t, e)]) i u (Write x (mem s2 x)) /\ forall k u v, i < k -> ~ at_ (tr1 ++ [(t, e)]) k u (Write x v))).
    { intros -> N. assert (old : forall i u v, at_ (tr1 ++ [(t, e)]) i u (Write x v) -> at_ tr1 i u (Write x v)).
      { intros i u v A. apply at_snoc in A. destruct A as [A|[_ A]]; [exact A|]. injection A as _ A. destruct (N v A). }
      destruct IH as [[H1 H2]|(i & u & H1 & H2)]; [left|right].
      - split; [exact H1|]. intros i u v A. exact (H2 i u v (old _ _ _ A)).
      - exists i, u. split; [apply at_app_l; exact H1|]. intros k u' v L A. exact (H2 k u' v L (old _ _ _ A)). }
    destruct a as [| | |y|y v]; cbn [step] in St; destruct (spinning s1 t); try discriminate; injection St as <- <-; cbn [mem] in *;
      try (apply Same; [reflexivity|discriminate]).
    unfold upd in *. destruct (Nat.eqb_spec x y) as [->|Nx]; [|apply Same; [reflexivity|intros v' H; congruence]].
    right. exists (length tr1), t. split; [apply at_end|]. intros k u v' L A. apply at_lt in A. rewrite app_length in A. cbn in A. lia.
Qed.

Lemma read_value c m l s tr j t x v : exec c (init m) l = Some (s, tr) -> at_ tr j t (Read x v) ->
  (v = m x /\ forall i u w, i < j -> ~ at_ tr i u (Write x w)) \/
  (exists i u, i < j /\ at_ tr i u (Write x v) /\ forall k u' w, i < k < j -> ~ at_ tr k u' (Write x w)).
Proof.
  intros E A. destruct (exec_prefix _ _ _ _ _ (S j) E) as [s1 E1]. destruct (exec_prefix _ _ _ _ _ j E) as [s0 E0].
  pose proof (at_lt _ _ _ _ A) as Lj. pose proof (exec_length _ _ _ _ _ E) as Len.
  destruct (nth_error l j) as [[t0 a0]|] eqn:En; [|apply nth_error_None in En; lia].
  rewrite (firstn_snoc l j _ En), exec_snoc, E0 in E1. rewrite (firstn_snoc tr j _ A) in E1.
  destruct (step c s0 t0 a0) as [[s2 e]|] eqn:St; [|discriminate]. injection E1 as <- E1. apply app_inj_tail in E1. destruct E1 as [_ E1].
  injection E1 as -> ->.
  assert (V : v = mem s0 x). { destruct a0; cbn [step] in St; destruct (spinning s0 t); try discriminate; congruence. }
  assert (Ff : forall i u e, i < j -> (at_ (firstn j tr) i u e <-> at_ tr i u e)).
  { intros i u e L. apply at_firstn. exact L. }
  destruct (mem_spec _ _ _ _ _ E0 x) as [[H1 H2]|(i & u & H1 & H2)]; [left|right].
  - split; [congruence|]. intros i u w L H. apply (H2 i u w). apply Ff; assumption.
  - pose proof (at_lt _ _ _ _ H1) as Li. rewrite firstn_length in Li. exists i, u. split; [lia|]. split; [rewrite V; apply Ff; [lia|exact H1]|].
    intros k u' w L H. apply (H2 k u' w); [lia|]. apply Ff; [lia|exact H].
Qed.

(** weaker orders *)
Lemma exec_orders c : forall l s s' tr, exec c s l = Some (s', tr) ->
  forall i t, (forall o r, at_ tr i t (Tas o r) -> o = lock_order c) /\ (forall o, at_ tr i t (Clear o) -> o = unlock_order c).
Proof.
  intro l. induction l as [|[u a] l IH]; intros s s' tr E i t; cbn [exec] in E.
  - injection E as <- <-. split; unfold at_; intros; destruct i; discriminate.
  - destruct (step c s u a) as [[s1 e]|] eqn:St; [|discriminate]. destruct (exec c s1 l) as [[s2 tr2]|] eqn:E2; [|discriminate].
    injection E as <- <-. destruct i as [|i]; [|exact (IH _ _ _ E2 i t)]. unfold at_. cbn [nth_error].
    destruct a; cbn [step] in St; destruct (spinning s u); try discriminate; injection St as <- <-; split; intros; congruence.
Qed.
Lemma weak_hb c m l s tr : exec c (init m) l = Some (s, tr) -> c <> code -> forall i j, hb tr i j -> exists t e e', at_ tr i t e /\ at_ tr j t e'.
Proof.
  intros E N i j H. induction H as [i j [(_ & t & e & e' & A & B)|(_ & t & r & t' & A & B & _)]|i j k _ IH1 _ IH2].
  - exists t, e, e'. auto.
  - exfalso. apply N. destruct (exec_orders _ _ _ _ _ E i t) as [_ H1]. specialize (H1 _ A).
    destruct (exec_orders _ _ _ _ _ E j t') as [H2 _]. specialize (H2 _ _ B). destruct c as [lo uo]. cbn in *. subst. reflexivity.
  - destruct IH1 as (t & e & e' & A & B), IH2 as (t2 & e2 & e3 & A2 & B2). unfold at_ in *. rewrite A2 in B. injection B as -> ->. eauto.
Qed.

(** ** Progress *)
Lemma waits_snoc tr u e t : waits (tr ++ [(u, e)]) t <->
  (u = t /\ e = Begin) \/ (waits tr t /\ ~ (u = t /\ exists o, e = Tas o false)).
Proof.
  split.
  - intros (tr1 & tr2 & E & N). apply snoc_split in E. destruct E as [(-> & -> & E)|(m & -> & ->)].
    + injection E as -> ->. left. auto.
    + right. split.
      * exists tr1, m. split; [reflexivity|]. intros o' H. apply (N o'). apply in_or_app. auto.
      * intros [-> [o' ->]]. apply (N o'). apply in_or_app. right. left. reflexivity.
  - intros [[-> ->]|[(tr1 & tr2 & -> & N) H]].
    + exists tr, []. split; [reflexivity|]. intros o' [].
    + exists tr1, (tr2 ++ [(u, e)]). split; [rewrite <- app_assoc; reflexivity|]. intros o' J. apply in_app_or in J.
      destruct J as [J|[J|[]]]; [exact (N o' J)|]. injection J as -> ->. apply H. eauto.
Qed.
Lemma waits_spinning c m : forall l s tr, exec c (init m) l = Some (s, tr) -> forall t, waits tr t <-> spinning s t = true.
Proof.
  intro l. induction l as [|[u a] l IH] using rev_ind; intros s tr E t.
  - injection E as <- <-. cbn. split; [intros (tr1 & tr2 & H & _); destruct tr1; discriminate|discriminate].
  - rewrite exec_snoc in E. destruct (exec c (init m) l) as [[s1 tr1]|] eqn:El; [|discriminate].
    destruct (step c s1 u a) as [[s2 e]|] eqn:St; [|discriminate]. injection E as <- <-. specialize (IH _ _ eq_refl t).
    rewrite waits_snoc, IH. destruct a as [| | |x|x v]; cbn [step] in St; destruct (spinning s1 u) eqn:Sp; try discriminate; injection St as <- <-; cbn [spinning].
    3-5: (split; [intros [[_ H]|[H _]]; [discriminate|exact H]|intro H; right; split; [exact H|intros [_ [o Ho]]; discriminate]]).
    + unfold upd. destruct (Nat.eqb_spec t u) as [->|N]; [split; auto|]. split.
      * intros [[H _]|[H _]]; [congruence|exact H].
      * intro H. right. split; [exact H|]. intros [_ [o Ho]]. discriminate.
    + unfold upd. destruct (Nat.eqb_spec t u) as [->|N].
      * destruct (flag s1); split; intro H.
        -- reflexivity.
        -- right. split; [exact Sp|]. intros [_ [o Ho]]. discriminate.
        -- destruct H as [[_ H]|[_ H]]; [discriminate|]. exfalso. apply H. eauto.
        -- discriminate.
      * split; [intros [[H _]|[H _]]; [congruence|exact H]|]. intro H. right. split; [exact H|]. intros [H1 _]. congruence.
Qed.

Lemma single_init tr x : single (tr ++ [x]) -> single tr.
Proof. intros D tr1 t tr2 E. apply (D tr1 t (tr2 ++ [x])). rewrite E, <- app_assoc. reflexivity. Qed.
Lemma single_spinning c m : forall l s tr, exec c (init m) l = Some (s, tr) -> single tr -> forall t, spinning s t = true -> ~ holds tr t.
Proof.
  intro l. induction l as [|[u a] l IH] using rev_ind; intros s tr E D t Sp.
  - injection E as <- <-. discriminate.
  - rewrite exec_snoc in E. destruct (exec c (init m) l) as [[s1 tr1]|] eqn:El; [|discriminate].
    destruct (step c s1 u a) as [[s2 e]|] eqn:St; [|discriminate]. injection E as <- <-.
    specialize (IH _ _ eq_refl (single_init _ _ D) t). rewrite holds_snoc.
    assert (Same : spinning s1 t = true -> (forall o, u = t -> e <> Tas o false) -> ~ (u = t /\ (exists o, e = Tas o false) \/ holds tr1 t /\ ~ (u = t /\ exists o, e = Clear o))).
    { intros H N [[Eu [o Ho]]|[H1 _]]; [exact (N o Eu Ho)|exact (IH H H1)]. }
    destruct a as [| | |x|x v]; cbn [step] in St; destruct (spinning s1 u) eqn:Su; try discriminate; injection St as <- <-; cbn [spinning] in Sp;
      try (apply Same; [exact Sp|discriminate]).
    + unfold upd in Sp. destruct (Nat.eqb_spec t u) as [->|N]; [|apply Same; [exact Sp|discriminate]].
      intros [[_ [o Ho]]|[H _]]; [discriminate|]. exact (D tr1 u [] eq_refl H).
    + unfold upd in Sp. destruct (Nat.eqb_spec t u) as [->|N].
      * apply Same; [exact Su|]. intros o _ H. congruence.
      * apply Same; [exact Sp|]. intros o ->. congruence.
Qed.

Lemma disciplined_snoc tr t e : disciplined tr -> (needs_lock e = true -> holds tr t) -> disciplined (tr ++ [(t, e)]).
Proof.
  intros D H tr1 u e' tr2 E N. apply snoc_split in E. destruct E as [(-> & -> & E)|(m & -> & ->)].
  - injection E as -> ->. auto.
  - exact (D tr1 u e' m eq_refl N).
Qed.
Lemma single_snoc tr t e : single tr -> (e = Begin -> ~ holds tr t) -> single (tr ++ [(t, e)]).
Proof.
  intros D H tr1 u tr2 E. apply snoc_split in E. destruct E as [(-> & -> & E)|(m & -> & ->)].
  - injection E as -> ->. auto.
  - exact (D tr1 u m eq_refl).
Qed.

Lemma free_acquires m l s tr t : exec code (init m) l = Some (s, tr) -> disciplined tr -> (forall u, ~ holds tr u) -> waits tr t ->
  exists s', exec code (init m) (l ++ [(t, spin)]) = Some (s', tr ++ [(t, Tas Acquire false)]) /\
    disciplined (tr ++ [(t, Tas Acquire false)]) /\ holds (tr ++ [(t, Tas Acquire false)]) t.
Proof.
  intros E D N Wt. destruct (exclusion _ _ _ _ _ E D) as [_ G]. apply (waits_spinning _ _ _ _ _ E) in Wt.
  assert (F : flag s = false). { destruct (flag s); [|reflexivity]. destruct (proj1 G eq_refl) as [u Hu]. destruct (N u Hu). }
  rewrite exec_snoc, E. cbn [step]. rewrite Wt, F. eexists. split; [reflexivity|]. split.
  - apply disciplined_snoc; [exact D|discriminate].
  - apply holds_snoc. left. eauto.
Qed.
Lemma held_released m l s tr t u : exec code (init m) l = Some (s, tr) -> disciplined tr -> single tr -> holds tr u -> waits tr t ->
  exists s', exec code (init m) (l ++ [(u, unlock); (t, spin)]) = Some (s', tr ++ [(u, Clear Release); (t, Tas Acquire false)]) /\
    disciplined (tr ++ [(u, Clear Release); (t, Tas Acquire false)]) /\ holds (tr ++ [(u, Clear Release); (t, Tas Acquire false)]) t.
Proof.
  intros E D Si Hu Wt.
  assert (Su : spinning s u = false). { destruct (spinning s u) eqn:Su; [|reflexivity]. destruct (single_spinning _ _ _ _ _ E Si u Su Hu). }
  assert (E1 : exec code (init m) (l ++ [(u, unlock)]) = Some ({| flag := false; spinning := spinning s; mem := mem s |}, tr ++ [(u, Clear Release)])).
  { rewrite exec_snoc, E. cbn [step]. rewrite Su. reflexivity. }
  assert (D1 : disciplined (tr ++ [(u, Clear Release)])) by (apply disciplined_snoc; auto).
  destruct (exclusion _ _ _ _ _ E1 D1) as [_ G]. cbn [flag] in G.
  assert (N1 : forall v, ~ holds (tr ++ [(u, Clear Release)]) v). { intros v Hv. assert (false = true) by (apply G; eauto). discriminate. }
  assert (W1 : waits (tr ++ [(u, Clear Release)]) t). { apply waits_snoc. right. split; [exact Wt|]. intros [_ [o Ho]]. discriminate. }
  pose proof (free_acquires m _ _ _ t E1 D1 N1 W1) as F. rewrite <- !app_assoc in F. exact F.
Qed.

Lemma relock m l s tr t : exec code (init m) l = Some (s, tr) -> disciplined tr -> holds tr t -> waits tr t ->
  forall l' s' tr', exec code s l' = Some (s', tr') -> disciplined (tr ++ tr') -> holds (tr ++ tr') t /\ waits (tr ++ tr') t /\ forall u o, ~ In (u, Tas o false) tr'.
Proof.
  intros E D H Wt l'. induction l' as [|[u a] l' IH] using rev_ind; intros s' tr' E' D'.
  - injection E' as <- <-. rewrite app_nil_r. auto.
  - rewrite exec_snoc in E'. destruct (exec code s l') as [[s1 tr1]|] eqn:El; [|discriminate].
    destruct (step code s1 u a) as [[s2 e]|] eqn:St; [|discriminate]. injection E' as <- <-. rewrite app_assoc in *.
    pose proof (disciplined_init _ _ D') as D1. destruct (IH _ _ eq_refl D1) as (H1 & W1 & N1).
    assert (E1 : exec code (init m) (l ++ l') = Some (s1, tr ++ tr1)) by (rewrite exec_app, E, El; reflexivity).
    destruct (exclusion _ _ _ _ _ E1 D1) as [G1 G2].
    assert (F : flag s1 = true) by (apply G2; eauto).
    assert (Sp : spinning s1 t = true) by (eapply waits_spinning; eassumption).
    assert (Nt : forall o, e <> Tas o false). { intros o ->. destruct a; cbn [step] in St; destruct (spinning s1 u); try discriminate. rewrite F in St. discriminate. }
    assert (Nc : ~ (u = t /\ exists o, e = Clear o)).
    { intros [-> [o ->]]. destruct a; cbn [step] in St; rewrite Sp in St; discriminate. }
    split; [apply holds_snoc; auto|]. split; [apply waits_snoc; right; split; [exact W1|]; intros [_ [o Ho]]; exact (Nt o Ho)|].
    intros v o J. apply in_app_or in J. destruct J as [J|[J|[]]]; [exact (N1 v o J)|]. injection J as _ ->. exact (Nt o eq_refl).
Qed.

(** ** Starvation *)
Definition starving (k : nat) : nat * action :=
  match k with
  | O => (1, call_lock)
  | S k => match k mod 4 with 0 => (0, call_lock) | 1 => (0, spin) | 2 => (1, spin) | _ => (0, unlock) end
  end.
Definition period : list (nat * event) := [(0, Begin); (0, Tas Acquire false); (1, Tas Acquire true); (0, Clear Release)].
Lemma starving_period k : map starving (seq (1 + 4 * k) 4) = [(0, call_lock); (0, spin); (1, spin); (0, unlock)].
Proof.
  cbn [seq map]. unfold starving. cbn [Nat.add]. change (S (4 * k)) with (1 + 4 * k). change (S (1 + 4 * k)) with (2 + 4 * k). change (S (2 + 4 * k)) with (3 + 4 * k).
  replace (4 * k) with (k * 4) by lia. rewrite Nat.mod_mul, !Nat.mod_add by lia. reflexivity.
Qed.
Lemma starving_seq k : map starving (seq 0 (1 + 4 * S k)) = map starving (seq 0 (1 + 4 * k)) ++ [(0, call_lock); (0, spin); (1, spin); (0, unlock)].
Proof. 
  rewrite <- (starving_period k), <- map_app. replace (1 + 4 * S k) with ((1 + 4 * k) + 4) by lia. rewrite seq_app. reflexivity. Qed.
Fixpoint periods (k : nat) : trace := match k with O => [(1, Begin)] | S k => periods k ++ period end.
Lemma happened_app tr tr' t e : happened (tr ++ tr') t e = happened tr t e + happened tr' t e.
Proof. unfold happened. rewrite filter_app, app_length. reflexivity. Qed.

Lemma starving_exec m k : exists s, exec code (init m) (map starving (seq 0 (1 + 4 * k))) = Some (s, periods k) /\
  flag s = false /\ spinning s 0 = false /\ spinning s 1 = true.
Proof.
  induction k as [|k (s & E & F & S0 & S1)]; [eexists; repeat split; reflexivity|].
  rewrite starving_seq, exec_app, E. repeat (progress (cbn [exec step spinning flag mem upd Nat.eqb]; rewrite ?S0, ?S1, ?F; unfold upd)).
  cbn. rewrite ?S0, ?S1, ?F. eexists. split; [reflexivity|]. cbn. rewrite ?S0, ?S1. auto.
Qed.
Lemma periods_ok k : disciplined (periods k) /\ single (periods k) /\ (forall t, ~ holds (periods k) t) /\
  happened (periods k) 0 acquired = k /\ happened (periods k) 1 refused = k /\ happened (periods k) 1 acquired = 0.
Proof.
  induction k as [|k (D & Si & N & C1 & C2 & C3)].
  - assert (Z : forall t, ~ holds [] t) by (intros t (tr1 & o & tr2 & H & _); destruct tr1; discriminate).
    change (periods 0) with ([] ++ [(1, Begin)]). split; [|split; [|split; [|auto]]].
    + apply disciplined_snoc; [|discriminate]. intros tr1 t e tr2 H. destruct tr1; discriminate.
    + apply single_snoc; [|auto]. intros tr1 t tr2 H. destruct tr1; discriminate.
    + intros t H. apply holds_snoc in H. destruct H as [[_ [o H]]|[H _]]; [discriminate|exact (Z t H)].
  - assert (P : periods (S k) = (((periods k ++ [(0, Begin)]) ++ [(0, Tas Acquire false)]) ++ [(1, Tas Acquire true)]) ++ [(0, Clear Release)]).
    { cbn [periods]. unfold period. rewrite <- !app_assoc. reflexivity. }
    assert (H2 : holds ((periods k ++ [(0, Begin)]) ++ [(0, Tas Acquire false)]) 0) by (apply holds_snoc; left; eauto).
    assert (H3 : holds (((periods k ++ [(0, Begin)]) ++ [(0, Tas Acquire false)]) ++ [(1, Tas Acquire true)]) 0).
    { apply holds_snoc. right. split; [exact H2|]. intros [H _]. discriminate. }
    assert (Dis : disciplined (periods (S k))).
    { rewrite P. repeat (apply disciplined_snoc; [|auto; discriminate]). exact D. }
    split; [exact Dis|]. split; [|split].
    + rewrite P. repeat (apply single_snoc; [|discriminate || (intro; apply N)]). exact Si.
    + destruct (starving_exec (fun _ => 0%Z) (S k)) as (s & E & F & _). destruct (exclusion _ _ _ _ _ E Dis) as [_ G].
      intros t H. assert (flag s = true) by (apply G; eauto). congruence.
    + cbn [periods]. rewrite !happened_app, C1, C2, C3. cbn. lia.
Qed.

(** A computable form of [disciplined] *)
Fixpoint check (h : list nat) (tr : trace) : bool :=
  match tr with
  | [] => true
  | (t, e) :: tr =>
      (negb (needs_lock e) || existsb (Nat.eqb t) h) &&
      check (match e with Tas _ false => t :: h | Clear _ => filter (fun u => negb (Nat.eqb u t)) h | _ => h end) tr
  end.
Lemma check_ok tr : forall h tr0, (forall t, In t h <-> holds tr0 t) -> disciplined tr0 -> check h tr = true -> disciplined (tr0 ++ tr).
Proof.
  induction tr as [|[t e] tr IH]; intros h tr0 H D C; [rewrite app_nil_r; exact D|]. cbn [check] in C. apply andb_true_iff in C. destruct C as [C1 C2].
  replace (tr0 ++ (t, e) :: tr) with ((tr0 ++ [(t, e)]) ++ tr) by (rewrite <- app_assoc; reflexivity).
  eapply IH; [| |exact C2].
  - intro u. rewrite holds_snoc, <- H. destruct e as [|o [|]|o|x v|x v];
      try (split; [intro J; right; split; [exact J|intros [_ [o' Ho]]; discriminate]|intros [[_ [o' Ho]]|[J _]]; [discriminate|exact J]]).
    + cbn [In]. split.
      * intros [->|J]; [left; eauto|right]. split; [exact J|]. intros [_ [o' Ho]]. discriminate.
      * intros [[-> _]|[J _]]; auto.
    + rewrite filter_In, negb_true_iff, Nat.eqb_neq. split.
      * intros [J N]. right. split; [exact J|]. intros [-> _]. congruence.
      * intros [[_ [o' Ho]]|[J N]]; [discriminate|]. split; [exact J|]. intros ->. apply N. eauto.
  - apply disciplined_snoc; [exact D|]. intro Ne. rewrite Ne in C1. cbn in C1. apply existsb_exists in C1. destruct C1 as (u & J & Eu).
    apply Nat.eqb_eq in Eu. subst u. apply H. exact J.
Qed.
Lemma check_disciplined tr : check [] tr = true -> disciplined tr.
Proof.
  intro C. apply (check_ok tr [] []); [| |exact C].
  - intro t. split; [intros []|]. intros (tr1 & o & tr2 & H & _). destruct tr1; discriminate.
  - intros tr1 t e tr2 H. destruct tr1; discriminate.
Qed.

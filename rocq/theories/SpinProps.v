(** Properties C45, C46, C47. *)
From Verif Require Import Base SpinModel SpinSpec SpinProofs.
From Coq Require Import Relations.

(** C45. Whatever the memory orders, the threads and the schedule. *)
Theorem C45_exclusion : forall c m l s tr, exec c (init m) l = Some (s, tr) -> disciplined tr ->
  (forall t1 t2, holds tr t1 -> holds tr t2 -> t1 = t2) /\ (flag s = true <-> exists t, holds tr t).
Proof. exact exclusion. Qed.
Print Assumptions C45_exclusion.

(** Three threads; thread 2 finds the lock taken; then two more critical sections. *)
Definition three : list (nat * action) :=
  [(0, call_lock); (2, call_lock); (0, spin); (2, spin); (0, read 5); (0, write 5 1%Z); (2, spin); (0, unlock); (1, call_lock);
   (2, spin); (1, spin); (2, read 5); (2, write 5 2%Z); (2, unlock); (1, spin); (1, read 5); (1, unlock)].
Example C45_case : exists s tr, exec code (init (fun _ => 0%Z)) three = Some (s, tr) /\ disciplined tr /\ flag s = false /\
  tr = [(0, Begin); (2, Begin); (0, Tas Acquire false); (2, Tas Acquire true); (0, Read 5 0%Z); (0, Write 5 1%Z); (2, Tas Acquire true);
        (0, Clear Release); (1, Begin); (2, Tas Acquire false); (1, Tas Acquire true); (2, Read 5 1%Z); (2, Write 5 2%Z); (2, Clear Release);
        (1, Tas Acquire false); (1, Read 5 2%Z); (1, Clear Release)].
Proof. eexists _, _. split; [vm_compute; reflexivity|]. split; [apply check_disciplined; reflexivity|]. split; reflexivity. Qed.
(** Without the discipline two threads get the lock: an unlock by a thread that does not hold it. *)
Example C45_misuse : exists s tr, exec code (init (fun _ => 0%Z)) [(0, call_lock); (0, spin); (1, unlock); (2, call_lock); (2, spin)] = Some (s, tr) /\
  holds tr 0 /\ holds tr 2.
Proof.
  eexists _, _. split; [vm_compute; reflexivity|]. split.
  - exists [(0, Begin)], Acquire, [(1, Clear Release); (2, Begin); (2, Tas Acquire false)]. split; [reflexivity|]. intros o. cbn. intuition discriminate.
  - exists [(0, Begin); (0, Tas Acquire false); (1, Clear Release); (2, Begin)], Acquire, []. split; [reflexivity|]. intros o [].
Qed.

(** C46. Accesses (and unlocks) made under the lock are ordered by happens-before as in the schedule; *)
Theorem C46_happens_before : forall m l s tr, exec code (init m) l = Some (s, tr) -> disciplined tr ->
  forall i j t e t' e', i < j -> at_ tr i t e -> at_ tr j t' e' -> needs_lock e = true -> needs_lock e' = true -> hb tr i j.
Proof. exact accesses_ordered. Qed.
Print Assumptions C46_happens_before.
(** so there is no data race, *)
Theorem C46_race_free : forall m l s tr, exec code (init m) l = Some (s, tr) -> disciplined tr -> ~ race tr.
Proof.
  intros m l s tr E D (i & j & t & e & t' & e' & x & A & B & N & Wr & RW & N1 & N2).
  assert (Ne : needs_lock e = true) by (destruct Wr as [v ->]; reflexivity).
  assert (Ne' : needs_lock e' = true) by (destruct RW as [[v ->]|[v ->]]; reflexivity).
  destruct (Nat.lt_trichotomy i j) as [L|[->|L]].
  - apply N1. eapply C46_happens_before; eassumption.
  - unfold at_ in *. congruence.
  - apply N2. eapply C46_happens_before; eassumption.
Qed.
Print Assumptions C46_race_free.
(** and a read sees the one write that happens before it and is not followed by another that does. *)
Theorem C46_last_write : forall m l s tr, exec code (init m) l = Some (s, tr) -> disciplined tr ->
  forall j t x v, at_ tr j t (Read x v) ->
  (v = m x /\ forall i u w, at_ tr i u (Write x w) -> hb tr j i) \/
  (exists i u, at_ tr i u (Write x v) /\ hb tr i j /\ forall k u' w, at_ tr k u' (Write x w) -> k = i \/ hb tr k i \/ hb tr j k).
Proof.
  intros m l s tr E D j t x v A. destruct (read_value _ _ _ _ _ _ _ _ _ E A) as [[H1 H2]|(i & u & L & H1 & H2)]; [left|right].
  - split; [exact H1|]. intros i u w B. destruct (Nat.lt_trichotomy i j) as [L|[->|L]]; [destruct (H2 i u w L B)|unfold at_ in *; congruence|].
    eapply C46_happens_before; try eassumption; reflexivity.
  - exists i, u. split; [exact H1|]. split; [eapply C46_happens_before; try eassumption; reflexivity|].
    intros k u' w B. destruct (Nat.lt_trichotomy k i) as [Lk|[->|Lk]]; [|auto|].
    + right. left. eapply C46_happens_before; try eassumption; reflexivity.
    + right. right. destruct (Nat.lt_trichotomy k j) as [Lj|[->|Lj]]; [destruct (H2 k u' w (conj Lk Lj) B)|unfold at_ in *; congruence|].
      eapply C46_happens_before; try eassumption; reflexivity.
Qed.
Print Assumptions C46_last_write.
(** Happens-before never goes back in the schedule. *)
Theorem C46_consistent : forall tr i j, hb tr i j -> i < j.
Proof. exact hb_lt. Qed.
Print Assumptions C46_consistent.
(** With any other memory orders there is an execution, with the same discipline, that has a data race. *)
Theorem C46_orders_needed : forall c, c <> code -> exists l s tr, exec c (init (fun _ => 0%Z)) l = Some (s, tr) /\ disciplined tr /\ race tr.
Proof.
  intros c N. exists [(0, call_lock); (0, spin); (0, write 7 1%Z); (0, unlock); (1, call_lock); (1, spin); (1, read 7)].
  eexists _, _. split; [reflexivity|]. split; [apply check_disciplined; reflexivity|].
  match goal with |- race ?tr => assert (Wk : forall i j, hb tr i j -> exists t e e', at_ tr i t e /\ at_ tr j t e') end.
  { apply (weak_hb c (fun _ => 0%Z) [(0, call_lock); (0, spin); (0, write 7 1%Z); (0, unlock); (1, call_lock); (1, spin); (1, read 7)] _ _ eq_refl N). }
  exists 2, 6, 0, (Write 7 1%Z), 1, (Read 7 1%Z), 7. split; [reflexivity|]. split; [reflexivity|]. split; [discriminate|].
  split; [exists 1%Z; reflexivity|]. split; [right; exists 1%Z; reflexivity|].
  split; intro H; destruct (Wk _ _ H) as (t & e & e' & A & B); unfold at_ in A, B; cbn in A, B; congruence.
Qed.
Print Assumptions C46_orders_needed.

Example C46_case : exists s tr, exec code (init (fun _ => 0%Z)) three = Some (s, tr) /\ at_ tr 5 0 (Write 5 1%Z) /\ at_ tr 15 1 (Read 5 2%Z) /\ hb tr 5 15 /\
  ~ hb tr 1 2.
Proof.
  destruct C45_case as (s & tr & E & D & _ & T). exists s, tr. split; [exact E|].
  assert (A : at_ tr 5 0 (Write 5 1%Z)) by (rewrite T; reflexivity). assert (B : at_ tr 15 1 (Read 5 2%Z)) by (rewrite T; reflexivity).
  split; [exact A|]. split; [exact B|]. split; [apply (C46_happens_before _ _ _ _ E D 5 15 0 (Write 5 1%Z) 1 (Read 5 2%Z)); auto; lia|].
  intro H. apply clos_trans_t1n in H. assert (St : forall j, ~ ((sb tr 1 j \/ sw tr 1 j) /\ j <= 2)).
  { intros j [[(L & t & e & e' & H1 & H2)|(L & t & r & t' & H1 & _)] L2].
    - assert (j = 2) as -> by lia. subst tr. unfold at_ in *. cbn in *. congruence.
    - subst tr. unfold at_ in *. cbn in *. congruence. }
  inversion H as [y S1 Ey|y z S1 H2 Ez]; subst.
  - apply (St 2). split; [exact S1|lia].
  - apply (St y). split; [exact S1|]. apply clos_t1n_trans in H2. apply hb_lt in H2. lia.
Qed.

(** C47. A waiting thread gets the lock with its next step if the lock is free, *)
Theorem C47_free : forall m l s tr t, exec code (init m) l = Some (s, tr) -> disciplined tr -> (forall u, ~ holds tr u) -> waits tr t ->
  exists s', exec code (init m) (l ++ [(t, spin)]) = Some (s', tr ++ [(t, Tas Acquire false)]) /\
    disciplined (tr ++ [(t, Tas Acquire false)]) /\ holds (tr ++ [(t, Tas Acquire false)]) t.
Proof. exact free_acquires. Qed.
Print Assumptions C47_free.
(** and if it is held, the holder can unlock it, after which the waiting thread gets it with its next step. *)
Theorem C47_held : forall m l s tr t u, exec code (init m) l = Some (s, tr) -> disciplined tr -> single tr -> holds tr u -> waits tr t ->
  exists s', exec code (init m) (l ++ [(u, unlock); (t, spin)]) = Some (s', tr ++ [(u, Clear Release); (t, Tas Acquire false)]) /\
    disciplined (tr ++ [(u, Clear Release); (t, Tas Acquire false)]) /\ holds (tr ++ [(u, Clear Release); (t, Tas Acquire false)]) t.
Proof. exact held_released. Qed.
Print Assumptions C47_held.
(** A thread that locks again what it holds: nobody gets the lock ever again. *)
Theorem C47_relock : forall m l s tr t, exec code (init m) l = Some (s, tr) -> disciplined tr -> holds tr t -> waits tr t ->
  forall l' s' tr', exec code s l' = Some (s', tr') -> disciplined (tr ++ tr') ->
  holds (tr ++ tr') t /\ waits (tr ++ tr') t /\ forall u o, ~ In (u, Tas o false) tr'.
Proof. exact relock. Qed.
Print Assumptions C47_relock.
(** An infinite schedule in which thread 1 waits from the beginning and tries for ever, while thread 0 gets the lock
    again and again. *)
Theorem C47_starvation : exists sched : nat -> nat * action, forall k, exists n s tr, k <= n /\
  exec code (init (fun _ => 0%Z)) (map sched (seq 0 n)) = Some (s, tr) /\ disciplined tr /\ single tr /\
  happened tr 0 acquired = k /\ happened tr 1 refused = k /\ happened tr 1 acquired = 0 /\ nth_error tr 0 = Some (1, Begin).
Proof.
  exists starving. intro k. destruct (starving_exec (fun _ => 0%Z) k) as (s & E & _). destruct (periods_ok k) as (D & Si & _ & C1 & C2 & C3).
  exists (1 + 4 * k), s, (periods k). split; [lia|]. repeat (split; [assumption|]).
  clear. induction k as [|k IH]; [reflexivity|]. cbn [periods]. rewrite nth_error_app1; [exact IH|]. apply nth_error_Some. congruence.
Qed.
Print Assumptions C47_starvation.
Example C47_case : waits (periods 3) 1 /\ (exists s, exec code (init (fun _ => 0%Z)) (map starving (seq 0 13)) = Some (s, periods 3)).
Proof.
  split.
  - exists [], (period ++ period ++ period). split; [reflexivity|]. intros o. cbn. intuition discriminate.
  - destruct (starving_exec (fun _ => 0%Z) 3) as (s & E & _). exists s. exact E.
Qed.

(** Property C110. *)
From Verif Require Import Base SpinModel SpinMemModel SpinMemSpec SpinMemProofs.
From Coq Require Import Relations.

(** C110. Whatever the memory orders: of two calls of lock that ended, the one that is first in the modification order of the flag
    was followed by its unlock before the other. *)
Theorem C110_exclusion : forall c X, threads c (ops X) -> flag_rules X -> forall m n a b, m < n -> mo X m = Some a -> mo X n = Some b ->
  acquires X a -> acquires X b -> exists k u, m < k < n /\ mo X k = Some u /\ released_by X a u.
Proof.
  intros c X T F m n a b L Ma Mb Aa Ab. destruct (sections c X T F n b Mb Ab m a L Ma Aa) as (k & u & H1 & H2 & H3 & _).
  exists k, u. auto.
Qed.
Print Assumptions C110_exclusion.
(** The orders of the code make this an order by happens-before: *)
Theorem C110_sections : forall X, threads code (ops X) -> flag_rules X -> forall a b, acquires X a -> acquires X b -> a <> b ->
  (exists u, released_by X a u /\ hb X u b) \/ (exists u, released_by X b u /\ hb X u a).
Proof. exact acquired_order. Qed.
Print Assumptions C110_sections.
(** no data race, *)
Theorem C110_race_free : forall X, threads code (ops X) -> flag_rules X -> race_free X.
Proof. exact no_race. Qed.
Print Assumptions C110_race_free.
(** and a read yields the last write. *)
Theorem C110_last_write : forall X, threads code (ops X) -> flag_rules X -> data_rules X -> forall j t x v, ops X j = Some (t, Read x v) ->
  (v = initial X x /\ forall i u w, ops X i = Some (u, Write x w) -> hb X j i) \/
  (exists i u, ops X i = Some (u, Write x v) /\ hb X i j /\ forall k u' w, ops X k = Some (u', Write x w) -> k = i \/ hb X k i \/ hb X j k).
Proof. exact last_write. Qed.
Print Assumptions C110_last_write.
(** The interleaved executions of [SpinModel] are executions of the memory model. *)
Theorem C110_interleaved : forall c m l s tr, exec c (init m) l = Some (s, tr) ->
  flag_rules (interleaved m tr) /\ data_rules (interleaved m tr) /\ forall i j, hb (interleaved m tr) i j -> i < j.
Proof.
  intros c m l s tr E. split; [eapply interleaved_flag_rules; exact E|]. split; [eapply interleaved_data_rules; exact E|]. apply interleaved_hb.
Qed.
Print Assumptions C110_interleaved.
(** With other memory orders the memory model allows a data race. *)
Theorem C110_orders_needed : forall c, c <> code -> exists X, threads c (ops X) /\ flag_rules X /\ data_rules X /\ ~ race_free X.
Proof.
  intros c N.
  assert (E : exists s tr, exec c (init (fun _ => 0%Z)) [(0, call_lock); (0, spin); (0, write 7 1%Z); (0, unlock); (1, call_lock); (1, spin); (1, read 7); (1, unlock)]
    = Some (s, tr) /\ tr = [(0, Begin); (0, Tas (lock_order c) false); (0, Write 7 1%Z); (0, Clear (unlock_order c)); (1, Begin);
      (1, Tas (lock_order c) false); (1, Read 7 1%Z); (1, Clear (unlock_order c))]) by (eexists _, _; split; reflexivity).
  destruct E as (s & tr & E & T). exists (interleaved (fun _ => 0%Z) tr).
  assert (Th : threads c (nth_error tr)) by (apply check_threads; subst tr; destruct c as [[] []]; reflexivity).
  split; [exact Th|]. destruct (C110_interleaved _ _ _ _ _ E) as (F & D & _). split; [exact F|]. split; [exact D|].
  intros RF. destruct (RF 2 6) as [H|H].
  - exists 0, (Write 7 1%Z), 1, (Read 7 1%Z), 7. subst tr. cbn. repeat split; [discriminate|exists 1%Z; reflexivity|right; exists 1%Z; reflexivity].
  - destruct (weak_same_thread c _ tr Th N _ _ H) as (t & e & e' & A & B). subst tr. cbn in A, B. congruence.
  - destruct (weak_same_thread c _ tr Th N _ _ H) as (t & e & e' & A & B). subst tr. cbn in A, B. congruence.
Qed.
Print Assumptions C110_orders_needed.

(** Two threads; the numbers of the operations of thread 1 are the smaller ones, but it gets the lock second. *)
Definition two : list (nat * event) :=
  [(1, Begin); (1, Tas Acquire true); (1, Tas Acquire false); (1, Read 5 1%Z); (1, Clear Release);
   (0, Begin); (0, Tas Acquire false); (0, Write 5 1%Z); (0, Clear Release)].
Definition second_first : execution :=
  {| ops := nth_error two; mo := nth_error [6; 1; 8; 2; 4]; other := fun _ _ => False; source := fun j => if Nat.eqb j 3 then Some 7 else None;
     initial := fun _ => 0%Z |}.
(** a line along which happens-before goes *)
Definition rank (i : nat) : nat := nth i [10; 20; 50; 60; 70; 11; 12; 30; 40] 0.
Ltac each_of H := repeat first [destruct H as [<-|H]|destruct H].
Lemma two_ops : forall i x, nth_error two i = Some x -> In i (seq 0 9).
Proof. intros i x H. apply in_seq. assert (i < length two) by (apply nth_error_Some; congruence). cbn in *. lia. Qed.
Lemma two_mo : forall n i, mo second_first n = Some i -> In n (seq 0 5).
Proof. intros n i H. apply in_seq. assert (n < length [6; 1; 8; 2; 4]) by (apply nth_error_Some; cbn in H; congruence). cbn in *. lia. Qed.
(** The steps of happens-before, in thread 1, thread 0, and from one to the other. *)
Lemma two_steps : forall i j, sb second_first i j \/ sw second_first i j \/ other second_first i j ->
  (i < j < 5) \/ (5 <= i < j /\ j < 9) \/ (i = 8 /\ j = 2).
Proof.
  intros i j [(L & t & e & e' & A & B)|[(n & k & t & t' & r & L & Mn & Mk & A & B & _)|[]]].
  - cbn [ops second_first] in A, B. assert (I := two_ops _ _ A). assert (J := two_ops _ _ B). cbn in I, J.
    each_of I; each_of J; cbn in A, B; first [lia|congruence].
  - assert (I := two_mo _ _ Mn). assert (J := two_mo _ _ Mk). cbn in I, J.
    each_of I; each_of J; cbn in Mn, Mk; injection Mn as <-; injection Mk as <-; cbn in A, B; first [lia|congruence].
Qed.
Lemma two_hb : forall i j, hb second_first i j -> rank i < rank j /\ (i < 5 -> j < 5).
Proof.
  intros i j H. induction H as [i j H|i j k _ IH1 _ IH2]; [|lia]. apply two_steps in H.
  assert (I : In i (seq 0 9)) by (apply in_seq; lia). assert (J : In j (seq 0 9)) by (apply in_seq; lia). cbn in I, J.
  each_of I; each_of J; cbn; lia.
Qed.
Lemma two_step : forall i j t e e', i < j -> nth_error two i = Some (t, e) -> nth_error two j = Some (t, e') -> hb second_first i j.
Proof. intros i j t e e' L A B. apply t_step. left. split; [exact L|]. exists t, e, e'. auto. Qed.
Lemma two_release : hb second_first 8 2.
Proof. apply t_step. right. left. exists 2, 3, 0, 1, false. cbn. split; [lia|]. repeat (split; [reflexivity|]). intros; lia. Qed.
Example C110_case : threads code (ops second_first) /\ flag_rules second_first /\ data_rules second_first /\
  acquires second_first 6 /\ acquires second_first 2 /\ released_by second_first 6 8 /\ hb second_first 7 3 /\ ~ hb second_first 0 7.
Proof.
  split; [apply check_threads; reflexivity|].
  assert (H73 : hb second_first 7 3).
  { eapply t_trans; [apply (two_step 7 8 0 (Write 5 1%Z) (Clear Release)); auto|]. eapply t_trans; [exact two_release|].
    apply (two_step 2 3 1 (Tas Acquire false) (Read 5 1%Z)); auto. }
  split; [|split; [|split; [|split; [|split; [|split]]]]].
  - constructor; cbn [ops second_first].
    + intros n i H. assert (N := two_mo _ _ H). cbn in N. each_of N; injection H as <-; cbn; eauto.
    + intros i t e H O. assert (I := two_ops _ _ H). cbn in I. each_of I; injection H as <- <-; try discriminate; cbn.
      * exists 1. reflexivity.
      * exists 3. reflexivity.
      * exists 4. reflexivity.
      * exists 0. reflexivity.
      * exists 2. reflexivity.
    + intros n k i Hn Hk. assert (N := two_mo _ _ Hn). assert (K := two_mo _ _ Hk). cbn in N, K. each_of N; each_of K; cbn in Hn, Hk; first [reflexivity|congruence].
    + intros n i H. assert (N := two_mo _ _ H). cbn in N. destruct N as [N|N]; [discriminate|]. repeat (destruct N as [N|N]; [injection N as <-; cbn; eauto|]). destruct N.
    + intros i t o r H A. injection H as <-. injection A as _ _ <-. reflexivity.
    + intros n j u e i t o r Hj A Hi B. assert (N := two_mo _ _ Hj). cbn in N. each_of N; try discriminate;
        injection Hj as <-; injection Hi as <-; cbn in A, B; try discriminate; injection A as _ <-; injection B as _ _ <-; reflexivity.
    + intros n k i j Hn Hk H. apply two_hb in H. destruct H as [H _]. assert (N := two_mo _ _ Hn). assert (K := two_mo _ _ Hk). cbn in N, K.
      each_of N; each_of K; cbn in Hn, Hk; injection Hn as <-; injection Hk as <-; cbn in H; lia.
  - intros _ j t x v A. cbn [ops second_first] in *. assert (J := two_ops _ _ A). cbn in J. each_of J; try discriminate.
    injection A as <- <- <-. cbn. split; [exists 0; reflexivity|]. split; [exact H73|].
    intros k u w B H _. assert (K := two_ops _ _ B). cbn in K. each_of K; try discriminate. apply two_hb in H. cbn in H. lia.
  - exists 0, Acquire. reflexivity.
  - exists 1, Acquire. reflexivity.
  - split; [lia|]. exists 0, Acquire, Release. split; [reflexivity|]. split; [reflexivity|]. intros k o L. assert (k = 7) as -> by lia. discriminate.
  - exact H73.
  - intros H. apply two_hb in H. lia.
Qed.

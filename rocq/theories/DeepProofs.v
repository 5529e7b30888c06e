(** Proofs about the deep comparisons. *)
From Verif Require Import Base DeepModel DeepSpec.

Lemma equal_loop_ok {A B} (eq : A -> B -> bool) : forall l r, length l = length r ->
  exists b, equal_loop eq l r = Ok b /\ (b = true <-> forall i x y, nth_error l i = Some x -> nth_error r i = Some y -> eq x y = true).
Proof.
  induction l as [|x l IH]; intros [|y r] L; cbn in *; try discriminate.
  - exists true. split; [reflexivity|]. split; [intros _ i a b H; destruct i; discriminate|reflexivity].
  - destruct (eq x y) eqn:E.
    + destruct (IH r ltac:(lia)) as (b & H & Hb). exists b. split; [exact H|]. rewrite Hb. split; intro F.
      * intros [|i] a c Ha Hc; cbn in *; [congruence|eapply F; eassumption].
      * intros i a c Ha Hc. exact (F (S i) a c Ha Hc).
    + exists false. split; [reflexivity|]. split; [discriminate|]. intro F. rewrite <- E. exact (F 0 x y eq_refl eq_refl).
Qed.
Lemma deep_equals_ok {A B} (eq : A -> B -> bool) l r :
  exists b, deep_equals eq l r = Ok b /\ (b = true <-> elementwise eq l r).
Proof.
  unfold deep_equals, std_equal, elementwise. destruct (Nat.eqb_spec (length l) (length r)) as [L|L].
  - destruct (equal_loop_ok eq l r L) as (b & H & Hb). exists b. split; [exact H|]. tauto.
  - exists false. split; [reflexivity|]. split; [discriminate|]. tauto.
Qed.
Lemma deep_not_equals_ok {A B} (eq : A -> B -> bool) l r :
  exists b, deep_not_equals eq l r = Ok b /\ (b = true <-> ~ elementwise eq l r).
Proof.
  unfold deep_not_equals. destruct (deep_equals_ok eq l r) as (b & -> & H). exists (negb b). split; [reflexivity|].
  destruct b; cbn; [split; [discriminate|tauto]|]. split; [intros _ J; apply H in J; discriminate|reflexivity].
Qed.
Lemma lex_ok {A B} (lt : A -> B -> bool) (lt' : B -> A -> bool) : forall l r, deep_less_than lt lt' l r = true <-> lexicographic lt lt' l r.
Proof.
  unfold deep_less_than. induction l as [|x l IH]; intros [|y r]; cbn [lexicographical_compare].
  - split; [discriminate|]. intros (i & _ & y & H & _). destruct i; discriminate.
  - split; [intros _|reflexivity]. exists 0. split; [lia|]. exists y. auto.
  - split; [discriminate|]. intros (i & _ & y & H & _). destruct i; discriminate.
  - destruct (lt x y) eqn:E1; [|destruct (lt' y x) eqn:E2].
    + split; [intros _|reflexivity]. exists 0. split; [lia|]. exists y. split; [reflexivity|]. right. exists x. auto.
    + split; [discriminate|]. intros (i & T & y' & H & C). destruct i as [|i].
      * injection H as <-. destruct C as [C|(x' & C & D)]; [discriminate|]. injection C as <-. congruence.
      * destruct (T 0 ltac:(lia)) as (a & b & Ha & Hb & F1 & F2). injection Ha as <-. injection Hb as <-. congruence.
    + rewrite IH. split; intros (i & T & y' & H & C).
      * exists (S i). split; [|exists y'; auto]. intros [|j] J; [exists x, y; auto|]. destruct (T j ltac:(lia)) as (a & b & Q). exists a, b. exact Q.
      * destruct i as [|i].
        -- injection H as <-. destruct C as [C|(x' & C & D)]; [discriminate|]. injection C as <-. congruence.
        -- exists i. split; [|exists y'; auto]. intros j J. destruct (T (S j) ltac:(lia)) as (a & b & Q). exists a, b. exact Q.
Qed.

Section Total.
Context {A : Type}.
Variables eq lt : A -> A -> bool.
Hypothesis T : total_order eq lt.
Notation less := (deep_less_than lt lt).
Lemma t_eq x y : eq x y = true <-> x = y. Proof. apply T. Qed.
Lemma t_irr x : lt x x = false. Proof. apply T. Qed.
Lemma t_trans x y z : lt x y = true -> lt y z = true -> lt x z = true. Proof. apply T. Qed.
Lemma t_tri x y : lt x y = true \/ x = y \/ lt y x = true. Proof. apply T. Qed.
Lemma t_asym x y : lt x y = true -> lt y x = false.
Proof. intro H. destruct (lt y x) eqn:E; [|reflexivity]. pose proof (t_trans _ _ _ H E) as J. rewrite t_irr in J. discriminate. Qed.
Lemma elementwise_eq l : forall r, elementwise eq l r <-> l = r.
Proof.
  induction l as [|x l IH]; intros [|y r]; unfold elementwise in *; cbn [length].
  - split; [reflexivity|]. intros _. split; [reflexivity|]. intros i a b H. destruct i; discriminate.
  - split; [intros [H _]; discriminate|discriminate].
  - split; [intros [H _]; discriminate|discriminate].
  - split.
    + intros [L F]. f_equal; [apply t_eq; exact (F 0 x y eq_refl eq_refl)|]. apply IH. split; [lia|]. intros i a b Ha Hb. exact (F (S i) a b Ha Hb).
    + intro E. injection E as -> <-. split; [reflexivity|]. intros i a b Ha Hb. rewrite Ha in Hb. injection Hb as <-. apply t_eq. reflexivity.
Qed.
Lemma less_irr l : less l l = false.
Proof. unfold deep_less_than. induction l as [|x l IH]; cbn; [reflexivity|]. rewrite t_irr. exact IH. Qed.
Lemma less_trans l : forall m r, less l m = true -> less m r = true -> less l r = true.
Proof.
  unfold deep_less_than. induction l as [|x l IH]; intros [|y m] [|z r]; cbn; intros H1 H2; try discriminate; try reflexivity.
  destruct (t_tri x y) as [X|[<-|X]].
  - destruct (t_tri y z) as [Y|[<-|Y]].
    + rewrite (t_trans _ _ _ X Y). reflexivity.
    + rewrite X. reflexivity.
    + rewrite (t_asym _ _ Y), Y in H2. discriminate.
  - rewrite t_irr in H1. destruct (lt x z); [reflexivity|]. destruct (lt z x); [discriminate|]. eapply IH; eassumption.
  - rewrite (t_asym _ _ X), X in H1. discriminate.
Qed.
Lemma less_tri l : forall r, less l r = true \/ l = r \/ less r l = true.
Proof.
  unfold deep_less_than. induction l as [|x l IH]; intros [|y r]; cbn; auto.
  destruct (t_tri x y) as [X|[<-|X]].
  - rewrite X. auto.
  - rewrite !t_irr. destruct (IH r) as [H|[->|H]]; auto.
  - rewrite X. auto.
Qed.
Lemma less_asym l r : less l r = true -> less r l = false.
Proof. intro H. destruct (less r l) eqn:E; [|reflexivity]. pose proof (less_trans _ _ _ H E) as J. rewrite less_irr in J. discriminate. Qed.
Theorem deep_total :
  (forall l r, deep_equals eq l r = Ok true <-> l = r) /\
  (forall l r, deep_not_equals eq l r = Ok true <-> l <> r) /\
  (forall l, less l l = false) /\
  (forall l m r, less l m = true -> less m r = true -> less l r = true) /\
  (forall l r, less l r = true \/ l = r \/ less r l = true) /\
  (forall l r, deep_greater_than lt lt l r = less r l) /\
  (forall l r, deep_less_or_equals lt lt l r = true <-> less l r = true \/ l = r) /\
  (forall l r, deep_greater_or_equals lt lt l r = true <-> less r l = true \/ l = r).
Proof.
  split; [|split; [|split; [exact less_irr|split; [exact less_trans|split; [exact less_tri|split; [reflexivity|]]]]]].
  - intros l r. destruct (deep_equals_ok eq l r) as (b & -> & H). rewrite elementwise_eq in H. split; [intro J; injection J as ->; apply H; reflexivity|].
    intro J. f_equal. apply H. exact J.
  - intros l r. destruct (deep_not_equals_ok eq l r) as (b & -> & H). rewrite elementwise_eq in H. split; [intro J; injection J as ->; apply H; reflexivity|].
    intro J. f_equal. apply H. exact J.
  - assert (Q : forall l r, negb (less r l) = true <-> less l r = true \/ l = r).
    { intros l r. rewrite negb_true_iff. destruct (less_tri l r) as [H|[<-|H]].
      - rewrite (less_asym _ _ H). tauto.
      - rewrite less_irr. tauto.
      - rewrite H. split; [discriminate|]. intros [J|<-]; [rewrite (less_asym _ _ H) in J; discriminate|rewrite less_irr in H; discriminate]. }
    split; intros l r; [exact (Q l r)|]. unfold deep_greater_or_equals. rewrite (Q r l). split; intros [J|J]; auto.
Qed.
End Total.

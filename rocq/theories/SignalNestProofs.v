(** Proofs about nested emissions. *)
From Verif Require Import Base SignalModel SignalSpec SignalProofs SignalNestSpec.
From Coq Require Import Sorted.

Section Proofs.
Context {F A W : Type}.
Variable prog : F -> A -> W -> script F A W.
Variable pass : A -> A * A.
Notation state := (state F A W).
Notation ids := (map (@fst nat F)).
Implicit Type s : state.

Definition grows s s' : Prop := fresh s <= fresh s' /\ forall x, In x (ids (nodes s')) -> In x (ids (nodes s)) \/ fresh s <= x.
Lemma grows_refl s : grows s s.
Proof. split; auto. Qed.
Lemma grows_trans s1 s2 s3 : grows s1 s2 -> grows s2 s3 -> grows s1 s3.
Proof. intros [F1 G1] [F2 G2]. split; [lia|]. intros x H. destruct (G2 x H) as [H'|H']; [destruct (G1 x H'); auto|right; lia]. Qed.

Definition emits_well (em : A -> state -> state * outcome unit) : Prop := forall a s s' o, inv s -> em a s = (s', o) ->
  inv s' /\ exists evs, trace s' = trace s ++ evs /\ emitted pass (trace s) a evs o /\ grows s s'.

Lemma script_acts em p : emits_well em -> forall s s' o, inv s -> run_script em p s = (s', o) ->
  inv s' /\ exists evs, trace s' = trace s ++ evs /\ acted pass (trace s) evs o /\ grows s s'.
Proof.
  intro E. induction p as [w|w e|f k IH|c k IH|a k IH|k IH|k IH|w k IH]; intros s s' o I R; cbn [run_script] in R.
  - injection R as <- <-. split; [apply world_inv; exact I|]. exists []. rewrite app_nil_r. split; [reflexivity|]. split; [constructor|split; auto].
  - injection R as <- <-. split; [apply world_inv; exact I|]. exists []. rewrite app_nil_r. split; [reflexivity|]. split; [constructor|split; auto].
  - pose proof (connect_inv prog s f I) as I'. destruct (connect f s) as [s1 c] eqn:C. cbn [fst] in I'.
    destruct (IH c s1 s' o I' R) as (J & evs & T & Ac & G). split; [exact J|].
    unfold connect in C. injection C as <- <-. cbn in T, Ac. exists (Connected (fresh s) f :: evs).
    split; [rewrite T, <- app_assoc; reflexivity|]. split.
    + constructor; [|exact Ac]. intros g H. apply (inv_conn _ I) in H. lia.
    + eapply grows_trans; [|exact G]. split; cbn; [lia|]. intros x H. rewrite map_app, in_app_iff in H. cbn in H. destruct H as [H|[<-|[]]]; auto.
  - destruct (find_node (nodes s) c) as [g0|] eqn:Fn.
    + destruct (disconnect_out c s) as [[s1 D]|D]; rewrite D in R; [|unfold disconnect in D; rewrite Fn in D; discriminate].
      pose proof (disconnect_inv prog _ _ _ I D) as I1. destruct (IH _ _ _ I1 R) as (J & evs & T & Ac & G). split; [exact J|].
      destruct (size_inv_eq s c s1 D) as (g & Inn & Nd & Fr1 & T1). rewrite T1 in Ac. exists (Disconnected c :: evs).
      split; [rewrite T, T1, <- app_assoc; reflexivity|]. split; [econstructor; [apply (inv_nodes _ I); exact Inn|exact Ac]|].
      eapply grows_trans; [|exact G]. split; [lia|]. intros x H. left. rewrite Nd in H. apply ids_in in H. destruct H as [h H].
      apply erase_in in H. apply ids_in. exists h. tauto.
    + unfold disconnect in R. rewrite Fn in R. injection R as <- <-. split; [exact I|]. exists []. rewrite app_nil_r. split; [reflexivity|].
      split; [|apply grows_refl]. apply acted_unconnected with c. intros f Th. apply (inv_nodes _ I) in Th.
      pose proof (find_in _ _ _ Th (inv_nodup _ I)). congruence.
  - destruct (em a s) as [s1 o1] eqn:Ea. destruct (E a s s1 o1 I Ea) as (I1 & e1 & T1 & Em & G1).
    assert (Go : forall r, caught o1 -> run_script em (k r) s1 = (s', o) -> inv s' /\ exists evs, trace s' = trace s ++ evs /\ acted pass (trace s) evs o /\ grows s s').
    { intros r Cg R'. destruct (IH _ _ _ _ I1 R') as (J & evs & T & Ac & G). split; [exact J|]. exists (e1 ++ evs).
      split; [rewrite T, T1, app_assoc; reflexivity|]. split; [eapply acted_emit; [exact Em|exact Cg|rewrite <- T1; exact Ac]|eapply grows_trans; eassumption]. }
    destruct o1 as [[]| | | | |];
      try (injection R as <- <-; split; [exact I1|]; exists e1; split; [exact T1|];
           split; [eapply acted_failed; [exact Em|intros [Q|[q Q]]; discriminate]|exact G1]).
    + exact (Go None (or_introl eq_refl) R).
    + exact (Go (Some e) (or_intror (ex_intro _ e eq_refl)) R).
  - eapply IH; eassumption.
  - eapply IH; eassumption.
  - eapply IH in R; [exact R|apply world_inv; exact I].
Qed.

(** the result of [emit_loop] *)
Definition looped (i : option nat) (a : A) s s' (o : outcome unit) : Prop := inv s' /\ exists evs l, trace s' = trace s ++ evs /\
  invoked pass (trace s) a evs l o /\ grows s s' /\ StronglySorted lt (ids l) /\ Forall (above i) (ids l) /\
  (i = None -> s' = s) /\ (o = Ok tt -> forall x, In x (ids (nodes s')) -> above i x -> In x (ids l)).

Lemma looped_none a s : inv s -> looped None a s s (Ok tt).
Proof.
  intros I. split; [exact I|]. exists [], []. rewrite app_nil_r. split; [reflexivity|]. split; [constructor|]. split; [apply grows_refl|].
  split; [constructor|]. split; [constructor|]. split; [auto|]. intros _ x _ [].
Qed.
Lemma looped_forever c a s : inv s -> looped (Some c) a s s Diverge.
Proof.
  intros I. split; [exact I|]. exists [], []. rewrite app_nil_r. split; [reflexivity|]. split; [constructor|]. split; [apply grows_refl|].
  split; [constructor|]. split; [constructor|]. split; discriminate.
Qed.

Lemma looped_emitted a s s' o : inv s -> looped (first_node (nodes s)) a s s' o ->
  inv s' /\ exists evs, trace s' = trace s ++ evs /\ emitted pass (trace s) a evs o /\ grows s s'.
Proof.
  intros I (I' & evs & l & T & Iv & G & So & Ab & Nn & Cov). split; [exact I'|]. exists evs. split; [exact T|]. split; [|exact G].
  econstructor; [exact Iv|exact So|]. intros Ok c f Th. rewrite <- T in Th. apply (inv_nodes _ I') in Th.
  assert (Hc : In c (ids (nodes s'))) by (apply ids_in; exists f; exact Th). apply Cov; auto. destruct G as [_ M].
  pose proof (inv_sorted _ I) as Srt. pose proof (inv_fresh _ I) as Fr. destruct (nodes s) as [|[i g] r] eqn:En; cbn [first_node above].
  - rewrite (Nn eq_refl), En in Hc. destruct Hc.
  - destruct (M c Hc) as [H|H].
    + cbn [map fst] in Srt, H. inversion Srt as [|? ? _ S2]; subst. destruct H as [<-|H]; [lia|].
      rewrite Forall_forall in S2. specialize (S2 c H). lia.
    + specialize (Fr i (or_introl eq_refl)). lia.
Qed.

Lemma first_in s : forall c, first_node (nodes s) = Some c -> In c (ids (nodes s)).
Proof. intros c H. destruct (nodes s) as [|[j g] r]; [discriminate|]. injection H as <-. left. reflexivity. Qed.
Lemma next_ub l c r : next_node l c = UB r -> r = UseAfterFree /\ ~ In c (ids l).
Proof.
  induction l as [|[i f] l IH]; cbn; [intro H; injection H as <-; auto|].
  destruct (Nat.eqb_spec i c) as [E|E]; [discriminate|]. intro H. destruct (IH H). split; [auto|]. tauto.
Qed.
Lemma next_out (l : list (nat * F)) c : (exists i, next_node l c = Ok i) \/ exists r, next_node l c = UB r.
Proof. induction l as [|[i f] l IH]; cbn; [eauto|]. destruct (Nat.eqb i c); eauto. Qed.

Lemma loop_looped fuel : forall i a s s' o, inv s -> (forall c, i = Some c -> In c (ids (nodes s))) ->
  emit_loop prog pass fuel i a s = (s', o) -> looped i a s s' o.
Proof.
  induction fuel as [|fuel IH]; intros i a s s' o I B R; cbn [emit_loop] in R.
  - destruct i as [c|]; injection R as <- <-; [apply looped_forever|apply looped_none]; auto.
  - destruct i as [c|]; [|injection R as <- <-; apply looped_none; auto].
    destruct (find_node (nodes s) c) eqn:Ef.
    2: { exfalso. specialize (B c eq_refl). apply ids_in in B. destruct B as [g B]. pose proof (find_in _ _ _ B (inv_nodup _ I)). congruence. }
    destruct (pass a) as [x rest] eqn:P. destruct (run_script _ _ _) as [s1 o1] eqn:Rs.
    pose proof (find_some _ _ _ Ef) as Inc. assert (Th : there (trace s) c f) by (apply (inv_nodes _ I); exact Inc).
    assert (I1 : inv (log (Called c f x) s)) by (apply call_inv; [exact I|exact Inc]).
    assert (Ew : emits_well (fun a s => emit_loop prog pass fuel (first_node (nodes s)) a s)).
    { intros a0 s0 s0' o0 J E. apply looped_emitted; [exact J|]. eapply IH; [exact J|apply first_in|exact E]. }
    destruct (script_acts _ _ Ew _ _ _ I1 Rs) as (I2 & evs1 & T1 & Ac & G1). cbn in T1, Ac.
    rewrite <- app_assoc in T1. cbn [app] in T1. change (grows s s1) in G1.
    assert (Stop : forall o', invoked pass (trace s) a (Called c f x :: evs1) [(c, f)] o' -> o' <> Ok tt -> looped (Some c) a s s1 o').
    { intros o' Iv No. split; [exact I2|]. exists (Called c f x :: evs1), [(c, f)]. split; [exact T1|]. split; [exact Iv|].
      split; [exact G1|]. cbn. split; [constructor; constructor|]. split; [constructor; [apply le_n|constructor]|]. split; [discriminate|contradiction]. }
    destruct o1 as [[]| | | | |];
      try (injection R as <- <-; apply Stop; [eapply invoked_last; try eassumption; discriminate|discriminate]).
    destruct (next_node (nodes s1) c) as [j|e|r| | |] eqn:Nx;
      try (exfalso; destruct (next_out (nodes s1) c) as [[? Q]|[? Q]]; rewrite Nx in Q; discriminate).
    2: { injection R as <- <-. destruct (next_ub _ _ _ Nx) as [-> Ni]. apply Stop; [|discriminate].
         eapply invoked_removed; try eassumption. intro Th'. apply Ni. rewrite <- T1 in Th'. apply (inv_nodes _ I2) in Th'.
         apply ids_in. eexists. exact Th'. }
    destruct (next_sorted prog _ _ _ (inv_sorted _ I2) Nx) as [Ic Mj].
    assert (Th' : there (trace s ++ Called c f x :: evs1) c f).
    { rewrite <- T1. split; [rewrite T1; apply in_or_app; left; apply Th|]. apply ids_in in Ic. destruct Ic as [g Ic].
      apply (inv_nodes _ I2) in Ic. apply Ic. }
    assert (Bj : forall d, j = Some d -> In d (ids (nodes s1))). { intros d ->. apply Mj. }
    destruct (IH j rest s1 s' o I2 Bj R) as (I' & evs & l & T & Iv & G & So & Ab & Nn & Cov).
    split; [exact I'|]. exists (Called c f x :: evs1 ++ evs), ((c, f) :: l). split; [rewrite T, T1, <- app_assoc; reflexivity|].
    split; [eapply invoked_next; [exact P|exact Th|exact Ac|exact Th'|rewrite <- T1; exact Iv]|]. split; [eapply grows_trans; eassumption|].
    assert (Gt : forall y, In y (ids l) -> c < y).
    { intros y Hy. rewrite Forall_forall in Ab. specialize (Ab y Hy). destruct j as [d|]; cbn in Ab; [|contradiction]. lia. }
    cbn [map fst]. split; [constructor; [exact So|apply Forall_forall; exact Gt]|].
    split; [constructor; [cbn; lia|]; apply Forall_forall; intros y Hy; specialize (Gt y Hy); cbn; lia|].
    split; [discriminate|]. intros Ho y Hy Aby. cbn in Aby. destruct (Nat.eq_dec y c) as [->|Ny]; [left; reflexivity|right].
    apply (Cov Ho y Hy). destruct G as [_ M]. destruct j as [d|]; cbn.
    + destruct (M y Hy) as [H|H]; [destruct Mj as (_ & _ & Mj); destruct (Mj y H); lia|].
      pose proof (inv_fresh _ I2 d (Bj d eq_refl)). lia.
    + rewrite (Nn eq_refl) in Hy. specialize (Mj y Hy). lia.
Qed.

Lemma emit_emitted fuel a s s' o : reachable prog pass s -> emit prog pass fuel a s = (s', o) ->
  exists evs, trace s' = trace s ++ evs /\ emitted pass (trace s) a evs o.
Proof.
  intros R E. pose proof (reachable_inv prog pass s R) as I.
  assert (L : looped (first_node (nodes s)) a s s' o) by (eapply loop_looped; [exact I|apply first_in|exact E]).
  destruct (looped_emitted _ _ _ _ I L) as (_ & evs & T & Em & _). exists evs. auto.
Qed.

(** more fuel changes nothing *)
Definition settled (em em' : A -> state -> state * outcome unit) : Prop :=
  forall a s s' o, em a s = (s', o) -> o <> Diverge -> em' a s = (s', o).
Lemma script_settled em em' p : settled em em' -> forall s s' o, run_script em p s = (s', o) -> o <> Diverge -> run_script em' p s = (s', o).
Proof.
  intro E. induction p as [w|w e|f k IH|c k IH|a k IH|k IH|k IH|w k IH]; intros s s' o R N; cbn [run_script] in R |- *; auto.
  - destruct (connect f s) as [s1 c]. auto.
  - destruct (disconnect c s) as [s1 [[]| | | | |]]; auto.
  - destruct (em a s) as [s1 o1] eqn:Ea. destruct o1 as [[]| | | | |]; try (rewrite (E _ _ _ _ Ea) by discriminate; auto; fail).
    injection R as <- <-. contradiction.
Qed.
Lemma loop_settled fuel : forall more i a s s' o, fuel <= more -> emit_loop prog pass fuel i a s = (s', o) -> o <> Diverge ->
  emit_loop prog pass more i a s = (s', o).
Proof.
  induction fuel as [|fuel IH]; intros more i a s s' o L R N; cbn [emit_loop] in R.
  - destruct i as [c|]; [injection R as <- <-; contradiction|]. destruct more; exact R.
  - destruct more as [|more]; [lia|]. destruct i as [c|]; [|exact R]. cbn [emit_loop].
    destruct (find_node (nodes s) c) as [f|]; [|exact R]. destruct (pass a) as [x rest].
    destruct (run_script (fun a s => emit_loop prog pass fuel _ a s) _ _) as [s1 o1] eqn:Rs.
    assert (N1 : o1 <> Diverge). { intros ->. injection R as <- <-. contradiction. }
    assert (Es : settled (fun a s => emit_loop prog pass fuel (first_node (nodes s)) a s) (fun a s => emit_loop prog pass more (first_node (nodes s)) a s)).
    { intros a0 s0 s0' o0 H. apply IH; [lia|exact H]. }
    rewrite (script_settled _ _ _ Es _ _ _ Rs N1). destruct o1 as [[]| | | | |]; auto.
    destruct (next_node (nodes s1) c); auto. apply IH; [lia|exact R|exact N].
Qed.
Lemma emit_settled fuel more a s s' o : fuel <= more -> emit prog pass fuel a s = (s', o) -> o <> Diverge -> emit prog pass more a s = (s', o).
Proof. apply loop_settled. Qed.

(** every callback emits *)
Lemma first_emits em p : emits_first p -> (forall a s, nodes s <> [] -> snd (em a s) = Diverge) -> forall s, nodes s <> [] -> snd (run_script em p s) = Diverge.
Proof.
  intros Ef H. induction Ef as [a k|k Fk IH|k Fk IH|w k Fk IH]; intros s N; cbn [run_script].
  - specialize (H a s N). destruct (em a s) as [s1 o1]. cbn in H. subst o1. reflexivity.
  - apply IH, N.
  - apply IH, N.
  - apply IH, N.
Qed.
Lemma endless_nesting : (forall f a w, emits_first (prog f a w)) -> forall fuel a s, nodes s <> [] -> snd (emit prog pass fuel a s) = Diverge.
Proof.
  intros Ef fuel. unfold emit. induction fuel as [|fuel IH]; intros a s N.
  - destruct (nodes s) as [|[i f] l]; [contradiction|]. reflexivity.
  - destruct (nodes s) as [|[i f] l] eqn:En; [contradiction|]. cbn [first_node emit_loop]. rewrite En. cbn [find_node]. rewrite Nat.eqb_refl.
    destruct (pass a) as [x rest].
    assert (N' : nodes (log (Called i f x) s) <> []) by (cbn; rewrite En; discriminate).
    pose proof (first_emits _ _ (Ef f x (world s)) IH _ N') as D. destruct (run_script _ _ _) as [s1 o1]. cbn in D. subst o1. reflexivity.
Qed.
End Proofs.

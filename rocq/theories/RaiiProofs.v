(** Proofs about scope_exit and singleton. *)
From Verif Require Import Base ListLemmas RaiiModel RaiiSpec.

Section ScopeExit.
Context {F W : Type}.
Variable call : F -> W -> W * option exn.
Variable moved : option F -> option F.
Implicit Types (s : se_state F W) (h : list (se_op F)).

Lemma replace_same {B} (l : list B) i x : i < length l -> nth_error (replace l i x) i = Some x.
Proof. revert i. induction l as [|y l IH]; intros [|i] L; cbn in *; try lia; [reflexivity|]. apply IH. lia. Qed.
Lemma replace_other {B} (l : list B) i j x : i <> j -> nth_error (replace l i x) j = nth_error l j.
Proof. revert i j. induction l as [|y l IH]; intros [|i] [|j] N; cbn; try reflexivity; try lia. apply IH. lia. Qed.
Lemma replace_length {B} (l : list B) i x : length (replace l i x) = length l.
Proof. revert i. induction l as [|y l IH]; intros [|i]; cbn; auto. Qed.

Lemma constructed_app h1 h2 : constructed (h1 ++ h2) = constructed h1 ++ constructed h2.
Proof. induction h1 as [|[] h1 IH]; cbn; rewrite ?IH; reflexivity. Qed.

Definition destroyed h (i : nat) : bool := existsb (fun o => match o with se_destroy j => Nat.eqb j i | _ => false end) h.
Definition released h (i : nat) : bool := existsb (fun o => match o with se_release j => Nat.eqb j i | _ => false end) h.
Lemma destroyed_in h i : destroyed h i = true <-> In (se_destroy i) h.
Proof.
  unfold destroyed. rewrite existsb_exists. split.
  - intros ([f|j|j] & H & J); try discriminate. apply Nat.eqb_eq in J. subst. exact H.
  - intro H. exists (se_destroy i). split; [exact H|apply Nat.eqb_refl].
Qed.
Lemma released_in h i : released h i = true <-> In (se_release i) h.
Proof.
  unfold released. rewrite existsb_exists. split.
  - intros ([f|j|j] & H & J); try discriminate. apply Nat.eqb_eq in J. subst. exact H.
  - intro H. exists (se_release i). split; [exact H|apply Nat.eqb_refl].
Qed.

Record se_inv h s : Prop := {
  se_len : length (members s) = length (constructed h);
  se_known : forall o i, In o h -> about o i -> i < length (constructed h);
  se_members : forall i f, nth_error (constructed h) i = Some f ->
    nth_error (members s) i = Some (if destroyed h i then None else Some (if released h i then None else f))
}.

Lemma se_step_ok h s o : se_inv h s -> (forall i, about o i -> i < length (constructed h) /\ ~ In (se_destroy i) h) ->
  exists s' x, se_step call moved o s = Ok (s', x) /\ se_inv (h ++ [o]) s' /\ se_expected h o x /\ se_world s' = effects call [x] (se_world s).
Proof.
  intros [L K M] V.
  assert (K' : forall o' i, In o' (h ++ [o]) -> about o' i -> i < length (constructed (h ++ [o]))).
  { intros o' i J A. rewrite constructed_app, app_length. apply in_app_or in J. destruct J as [J|[<-|[]]].
    - specialize (K o' i J A). lia.
    - destruct (V i A). lia. }
  destruct o as [f|i|i]; cbn [se_step].
  - eexists _, _. split; [reflexivity|]. split; [|split; reflexivity]. constructor; [|exact K'|].
    + unfold construct. cbn [members]. rewrite constructed_app, !app_length, L. reflexivity.
    + intros i g H. rewrite constructed_app in H. cbn [constructed construct members] in *. unfold destroyed, released. rewrite !existsb_app. cbn [existsb]. rewrite !orb_false_r.
      fold (destroyed h i). fold (released h i).
      destruct (Nat.lt_ge_cases i (length (constructed h))) as [Li|Li].
      * rewrite nth_error_app1 in H by exact Li. rewrite nth_error_app1 by lia. apply M. exact H.
      * rewrite nth_error_app2 in H by exact Li. rewrite nth_error_app2 by lia. rewrite L.
        destruct (i - length (constructed h)) as [|k] eqn:Ek; [|destruct k; discriminate]. cbn in H. injection H as <-.
        assert (D : destroyed h i = false). { destruct (destroyed h i) eqn:E; [|reflexivity]. apply destroyed_in in E. specialize (K _ i E (or_intror eq_refl)). lia. }
        assert (R : released h i = false). { destruct (released h i) eqn:E; [|reflexivity]. apply released_in in E. specialize (K _ i E (or_introl eq_refl)). lia. }
        rewrite D, R. reflexivity.
  - destruct (V i (or_introl eq_refl)) as [Li Nd]. destruct (nth_error (constructed h) i) as [f|] eqn:Ec; [|apply nth_error_None in Ec; lia].
    assert (D : destroyed h i = false). { destruct (destroyed h i) eqn:E; [|reflexivity]. apply destroyed_in in E. contradiction. }
    pose proof (M i f Ec) as Mi. rewrite D in Mi. rewrite Mi. cbn [release]. eexists _, _. split; [reflexivity|]. split; [|split].
    + constructor; [|exact K'|].
      * cbn [members]. rewrite replace_length, constructed_app, app_length, L. cbn. lia.
      * intros j g H. rewrite constructed_app in H. cbn [constructed] in H. rewrite app_nil_r in H. cbn [members].
        unfold destroyed, released. rewrite !existsb_app. cbn [existsb]. rewrite !orb_false_r. fold (destroyed h j). fold (released h j).
        destruct (Nat.eqb_spec i j) as [<-|N].
        -- rewrite replace_same by (rewrite L; exact Li). rewrite D, orb_true_r. reflexivity.
        -- rewrite replace_other by exact N. rewrite orb_false_r. apply M. exact H.
    + exists f. split; [exact Ec|]. destruct (released h i) eqn:R.
      * left. split; [apply released_in; exact R|reflexivity].
      * right. split; [|reflexivity]. intro J. apply released_in in J. congruence.
    + reflexivity.
  - destruct (V i (or_intror eq_refl)) as [Li Nd]. destruct (nth_error (constructed h) i) as [f|] eqn:Ec; [|apply nth_error_None in Ec; lia].
    assert (D : destroyed h i = false). { destruct (destroyed h i) eqn:E; [|reflexivity]. apply destroyed_in in E. contradiction. }
    pose proof (M i f Ec) as Mi. rewrite D in Mi. rewrite Mi.
    set (g := if released h i then None else f) in *.
    assert (R : exists w, destroy call g (se_world s) = (w, Ok tt, g) /\ w = effects call [se_ran g] (se_world s)).
    { unfold destroy, call_noexcept, effects. destruct g as [g|]; cbn; [|eauto]. destruct (call g (se_world s)) as [w [e|]]; cbn; eauto. }
    destruct R as (w & R & Ew). rewrite R. cbn [bind]. eexists _, _. split; [reflexivity|]. split; [|split; [|exact Ew]].
    + constructor; [|exact K'|].
      * cbn [members]. rewrite replace_length, constructed_app, app_length, L. cbn. lia.
      * intros j f' H. rewrite constructed_app in H. cbn [constructed] in H. rewrite app_nil_r in H. cbn [members].
        unfold destroyed, released. rewrite !existsb_app. cbn [existsb]. rewrite !orb_false_r. fold (destroyed h j). fold (released h j).
        destruct (Nat.eqb_spec i j) as [<-|N].
        -- rewrite replace_same by (rewrite L; exact Li). rewrite orb_true_r. reflexivity.
        -- rewrite replace_other by exact N. rewrite orb_false_r. apply M. exact H.
    + exists f. split; [exact Ec|]. unfold g. destruct (released h i) eqn:Re.
      * left. split; [apply released_in; exact Re|reflexivity].
      * right. split; [|reflexivity]. intro J. apply released_in in J. congruence.
Qed.

Lemma se_run_ok h2 : forall h1 s, se_inv h1 s -> se_valid (h1 ++ h2) ->
  exists s' xs, se_run call moved h2 s = Ok (s', xs) /\ se_inv (h1 ++ h2) s' /\ length xs = length h2 /\
    (forall k o, nth_error h2 k = Some o -> exists x, nth_error xs k = Some x /\ se_expected (h1 ++ firstn k h2) o x) /\
    se_world s' = effects call xs (se_world s).
Proof.
  induction h2 as [|o h2 IH]; intros h1 s I V; cbn [se_run].
  - exists s, []. rewrite app_nil_r. repeat split; auto; try apply I. intros [|k] o H; discriminate.
  - destruct (se_step_ok h1 s o I) as (s1 & x & E & I1 & X & Wd). { intros i A. exact (V h1 o h2 i eq_refl A). }
    rewrite E. cbn [bind]. destruct (IH (h1 ++ [o]) s1 I1) as (s2 & xs & E2 & I2 & L2 & X2 & W2); [rewrite <- app_assoc; exact V|].
    rewrite E2. cbn [bind]. exists s2, (x :: xs). split; [reflexivity|]. split; [rewrite <- app_assoc in I2; exact I2|].
    split; [cbn; rewrite L2; reflexivity|]. split.
    + intros [|k] o' H; cbn [nth_error firstn] in *.
      * injection H as <-. exists x. rewrite app_nil_r. auto.
      * destruct (X2 k o' H) as (y & Y1 & Y2). exists y. split; [exact Y1|]. rewrite <- app_assoc in Y2. exact Y2.
    + rewrite W2, Wd. reflexivity.
Qed.
Lemma se_init_inv w : se_inv [] (se_init w).
Proof. constructor; cbn; [reflexivity|intros o i []|]. intros [|i] f H; discriminate. Qed.
End ScopeExit.

(** ** singleton *)
Lemma alive_snoc h o x i : sg_alive (h ++ [(o, x)]) i <-> x = sg_made i \/ (sg_alive h i /\ o <> sg_destroy i).
Proof.
  split.
  - intros (h1 & o' & h2 & E & N). destruct (exists_last (l := (o', sg_made i) :: h2) ltac:(discriminate)) as (m & z & M).
    rewrite M, app_assoc in E. apply app_inj_tail in E. destruct E as [-> <-]. destruct m as [|y m].
    + injection M as _ -> _. left. reflexivity.
    + injection M as <- ->. right. split.
      * exists h1, o', m. split; [reflexivity|]. intros y J. apply (N y). apply in_or_app. auto.
      * intros ->. apply (N x). apply in_or_app. right. left. reflexivity.
  - intros [->|[(h1 & o' & h2 & -> & N) Ne]].
    + exists h, o, []. split; [reflexivity|]. intros x [].
    + exists h1, o', (h2 ++ [(o, x)]). split; [rewrite <- app_assoc; reflexivity|]. intros y J. apply in_app_or in J. destruct J as [J|[J|[]]]; [exact (N y J)|].
      injection J as -> _. congruence.
Qed.
Lemma alive_made h i : sg_alive h i -> exists o, In (o, sg_made i) h.
Proof. intros (h1 & o & h2 & -> & _). exists o. apply in_or_app. right. left. reflexivity. Qed.

Record sg_inv (h : list (sg_op * sg_out)) (s : sg_state) : Prop := {
  sg_made_old : forall o i, In (o, sg_made i) h -> i < sg_fresh s;
  sg_inst_alive : forall i, sg_alive h i <-> instance s = Some i
}.
Lemma sg_step_ok dbg h s o : sg_inv h s -> sg_allowed h o ->
  exists s' x, sg_step dbg o s = Ok (s', x) /\ sg_inv (h ++ [(o, x)]) s' /\ sg_expected h o x.
Proof.
  intros [Old Al] V.
  assert (Same : forall x n, (forall i, x <> sg_made i) -> (forall i, o <> sg_destroy i) -> sg_fresh s <= n -> sg_inv (h ++ [(o, x)]) {| instance := instance s; sg_fresh := n |}).
  { intros x n N1 N2 Ln. constructor; cbn [sg_fresh instance].
    - intros o' i J. apply in_app_or in J. destruct J as [J|[J|[]]]; [apply Old in J; lia|]. injection J as _ J. destruct (N1 i J).
    - intro i. rewrite alive_snoc, <- Al. split; [intros [H|[H _]]; [destruct (N1 i H)|exact H]|]. intro H. auto. }
  assert (Al' : (exists i, instance s = Some i /\ sg_alive h i) \/ (instance s = None /\ forall i, ~ sg_alive h i)).
  { destruct (instance s) as [i|] eqn:E; [left; exists i; split; [reflexivity|apply Al; reflexivity]|right].
    split; [reflexivity|]. intros i H. apply Al in H. discriminate. }
  destruct o as [fails|i| |]; cbn [sg_step].
  - destruct Al' as [(i & E & A)|[E A]]; unfold base_construct; cbn [instance]; rewrite E.
    + eexists _, _. split; [reflexivity|]. split; [rewrite <- E; apply Same; try discriminate; lia|]. left. split; [eauto|reflexivity].
    + destruct fails as [e|].
      * unfold base_destroy, assert_. cbn [instance]. rewrite Nat.eqb_refl. destruct dbg; cbn [bind andb negb];
          (eexists _, _; split; [reflexivity|]; split; [cbn [sg_fresh]; rewrite <- E; apply Same; try discriminate; lia|]; right; split; [exact A|reflexivity]).
      * eexists _, _. split; [reflexivity|]. split.
        -- constructor; cbn [sg_fresh instance].
           ++ intros o' j J. apply in_app_or in J. destruct J as [J|[J|[]]]; [apply Old in J; lia|]. injection J as _ <-. lia.
           ++ intro j. rewrite alive_snoc. split; [intros [H|[H _]]; [congruence|destruct (A j H)]|]. intro H. left. congruence.
        -- right. split; [exact A|]. exists (sg_fresh s). split; [reflexivity|]. intros o' J. apply Old in J. lia.
  - cbn in V. pose proof (proj1 (Al i) V) as E. unfold base_destroy, assert_. rewrite E, Nat.eqb_refl.
    assert (I' : sg_inv (h ++ [(sg_destroy i, sg_nothing)]) {| instance := None; sg_fresh := sg_fresh s |}).
    { constructor; cbn [sg_fresh instance].
      - intros o' j J. apply in_app_or in J. destruct J as [J|[J|[]]]; [apply Old in J; lia|discriminate].
      - intro j. rewrite alive_snoc. split; [|discriminate]. intros [H|[H N]]; [discriminate|]. apply Al in H. congruence. }
    destruct dbg; cbn [bind andb negb]; (eexists _, _; split; [reflexivity|]; split; [exact I'|reflexivity]).
  - eexists _, _. split; [reflexivity|]. split; [destruct s; apply Same; try discriminate; apply le_n|].
    destruct Al' as [(i & E & A)|[E A]]; [left|right]; (split; [eauto|]); unfold is_created; rewrite E; reflexivity.
  - destruct Al' as [(i & E & A)|[E A]]; [|destruct V as [i Hi]; destruct (A i Hi)].
    unfold inst, assert_, is_created. rewrite E. destruct dbg; cbn [bind andb negb];
      (eexists _, _; split; [reflexivity|]; split; [destruct s; cbn in E; subst; apply Same; try discriminate; apply le_n|exists i; auto]).
Qed.
Lemma alive_unique h s : sg_inv h s -> forall i j, sg_alive h i -> sg_alive h j -> i = j.
Proof. intros [_ Al] i j Hi Hj. apply Al in Hi, Hj. congruence. Qed.

Lemma sg_run_snoc dbg l o : forall s, sg_run dbg (l ++ [o]) s =
  (r <- sg_run dbg l s ;; let '(s1, h) := r in r <- sg_step dbg o s1 ;; let '(s2, x) := r in Ok (s2, h ++ [(o, x)])).
Proof.
  induction l as [|o' l IH]; intro s; cbn [app sg_run].
  - cbn [bind]. destruct (sg_step dbg o s) as [[s2 x]| | | | |]; reflexivity.
  - destruct (sg_step dbg o' s) as [[s1 x]| | | | |]; cbn [bind]; try reflexivity. rewrite IH.
    destruct (sg_run dbg l s1) as [[s2 h]| | | | |]; cbn [bind]; try reflexivity.
    destruct (sg_step dbg o s2) as [[s3 y]| | | | |]; reflexivity.
Qed.
Lemma sg_run_inv dbg l : forall s h, sg_run dbg l sg_init = Ok (s, h) -> (forall h1 o x h2, h = h1 ++ (o, x) :: h2 -> sg_allowed h1 o) ->
  sg_inv h s /\ forall h1 o x h2, h = h1 ++ (o, x) :: h2 -> sg_expected h1 o x.
Proof.
  induction l as [|o l IH] using rev_ind; intros s h E V.
  - injection E as <- <-. split.
    + constructor; [intros o i []|]. intro i. split; [|discriminate]. intros (h1 & o & h2 & E & _). destruct h1; discriminate.
    + intros h1 o x h2 E. destruct h1; discriminate.
  - rewrite sg_run_snoc in E. destruct (sg_run dbg l sg_init) as [[s1 h1]| | | | |] eqn:E1; cbn [bind] in E; try discriminate.
    destruct (sg_step dbg o s1) as [[s2 x]| | | | |] eqn:E2; cbn [bind] in E; try discriminate. injection E as <- <-.
    destruct (IH s1 h1 eq_refl) as [I X]. { intros a o' y b Eh. apply (V a o' y (b ++ [(o, x)])). rewrite Eh, <- app_assoc. reflexivity. }
    destruct (sg_step_ok dbg h1 s1 o I (V h1 o x [] eq_refl)) as (s' & x' & E2' & I' & X'). rewrite E2 in E2'. injection E2' as <- <-.
    split; [exact I'|]. intros a o' y b Eh. destruct (exists_last (l := (o', y) :: b) ltac:(discriminate)) as (m & z & M).
    rewrite M, app_assoc in Eh. apply app_inj_tail in Eh. destruct Eh as [-> <-]. destruct m as [|u m].
    + injection M as <- <- _. rewrite app_nil_r in X'. exact X'.
    + injection M as <- ->. exact (X a o' y m eq_refl).
Qed.

(** Proofs about signal. *)
From Verif Require Import Base ListLemmas SignalModel SignalSpec.
From Coq Require Import Sorted.

Section Signal.
Context {F A W : Type}.
Variable prog : F -> A -> W -> script F A W.
Variable pass : A -> A * A.
Implicit Types (s : state F A W) (l : list (nat * F)).

Local Notation ids l := (map (@fst nat F) l).

(** ** Lists of nodes *)
Lemma find_in l c f : In (c, f) l -> NoDup (ids l) -> find_node l c = Some f.
Proof.
  induction l as [|[i g] l IH]; intros H N; [destruct H|]. cbn [find_node]. cbn [map fst] in N. inversion N; subst.
  destruct (Nat.eqb_spec i c) as [->|Ne].
  - destruct H as [H|H]; [congruence|]. exfalso. apply H2. apply (in_map fst) in H. exact H.
  - destruct H as [H|H]; [congruence|]. apply IH; auto.
Qed.
Lemma find_some l c f : find_node l c = Some f -> In (c, f) l.
Proof.
  induction l as [|[i g] l IH]; [discriminate|]. cbn [find_node]. destruct (Nat.eqb_spec i c) as [->|Ne]; intro H.
  - left. congruence.
  - right. auto.
Qed.
Lemma find_none l c : ~ In c (ids l) -> find_node l c = None.
Proof.
  induction l as [|[i g] l IH]; intro H; [reflexivity|]. cbn [find_node]. cbn [map fst In] in H.
  destruct (Nat.eqb_spec i c) as [->|Ne]; [exfalso; auto|]. apply IH. auto.
Qed.
Lemma next_app l1 c f l2 : ~ In c (ids l1) -> next_node (l1 ++ (c, f) :: l2) c = Ok (first_node l2).
Proof.
  induction l1 as [|[i g] l1 IH]; intro H; cbn [app next_node].
  - rewrite Nat.eqb_refl. reflexivity.
  - cbn [map fst In] in H. destruct (Nat.eqb_spec i c) as [->|Ne]; [exfalso; auto|]. apply IH. auto.
Qed.
Lemma next_out l c : ~ In c (ids l) -> next_node l c = UB UseAfterFree.
Proof.
  induction l as [|[i g] l IH]; intro H; [reflexivity|]. cbn [next_node]. cbn [map fst In] in H.
  destruct (Nat.eqb_spec i c) as [->|Ne]; [exfalso; auto|]. apply IH. auto.
Qed.
Lemma erase_in l c x f : In (x, f) (erase_node l c) <-> In (x, f) l /\ x <> c.
Proof.
  unfold erase_node. rewrite filter_In. cbn [fst]. rewrite negb_true_iff, Nat.eqb_neq. reflexivity.
Qed.
Lemma ids_in l c : In c (ids l) <-> exists f, In (c, f) l.
Proof.
  rewrite in_map_iff. split.
  - intros ([x f] & <- & H). exists f. exact H.
  - intros [f H]. exists (c, f). auto.
Qed.
Lemma erase_sorted l c : StronglySorted lt (ids l) -> StronglySorted lt (ids (erase_node l c)).
Proof.
  induction l as [|[i g] l IH]; intro S; [constructor|]. cbn [map fst] in S. inversion S as [|? ? S1 S2]; subst.
  unfold erase_node. cbn [filter fst]. destruct (negb (Nat.eqb i c)); [|apply IH; exact S1].
  cbn [map fst]. constructor; [apply IH; exact S1|]. apply Forall_forall. intros x H. apply ids_in in H. destruct H as [f H].
  apply erase_in in H. rewrite Forall_forall in S2. apply S2. apply ids_in. exists f. tauto.
Qed.
Lemma sorted_nodup (l : list nat) : StronglySorted lt l -> NoDup l.
Proof.
  induction 1 as [|x l S IH H]; constructor; auto. intro J. rewrite Forall_forall in H. specialize (H x J). lia.
Qed.
Lemma sorted_snoc (l : list nat) x : StronglySorted lt l -> (forall y, In y l -> y < x) -> StronglySorted lt (l ++ [x]).
Proof.
  induction 1 as [|y l S IH H]; intro B; cbn [app]; [repeat constructor|].
  constructor; [apply IH; intros z Z; apply B; right; exact Z|].
  apply Forall_app. split; [exact H|]. constructor; [apply B; left; reflexivity|constructor].
Qed.
Lemma sorted_split (l1 : list nat) x (l2 : list nat) : StronglySorted lt (l1 ++ x :: l2) -> (forall y, In y l1 -> y < x) /\ (forall y, In y l2 -> x < y).
Proof.
  induction l1 as [|z l1 IH]; cbn [app]; intro S; inversion S as [|? ? S1 S2]; subst.
  - split; [intros y []|]. rewrite Forall_forall in S2. exact S2.
  - destruct (IH S1) as [I1 I2]. split; [|exact I2]. intros y [<-|H]; [|auto].
    rewrite Forall_forall in S2. apply S2. apply in_or_app. right. left. reflexivity.
Qed.

(** ** The invariant of a signal *)
(** what is called was connected before and not disconnected before *)
Definition sane (t : list (event F A)) : Prop :=
  forall t1 c f a t2, t = t1 ++ Called c f a :: t2 -> In (Connected c f) t1 /\ ~ In (Disconnected c) t1.
Record inv s : Prop := {
  inv_fresh : forall c, In c (ids (nodes s)) -> c < fresh s;
  inv_sorted : StronglySorted lt (ids (nodes s));
  inv_disc : forall c, In (Disconnected c) (trace s) -> c < fresh s;
  inv_conn : forall c f, In (Connected c f) (trace s) -> c < fresh s;
  inv_nodes : forall c f, In (c, f) (nodes s) <-> In (Connected c f) (trace s) /\ ~ In (Disconnected c) (trace s);
  inv_sane : sane (trace s)
}.
Lemma inv_nodup s : inv s -> NoDup (ids (nodes s)).
Proof. intro I. apply sorted_nodup, I. Qed.

Lemma sane_snoc t e : sane t -> (forall c f a, e = Called c f a -> In (Connected c f) t /\ ~ In (Disconnected c) t) -> sane (t ++ [e]).
Proof.
  intros S H t1 c f a t2 E. destruct (exists_last (l := Called c f a :: t2) ltac:(discriminate)) as (t2' & x & E2).
  rewrite E2, app_assoc in E. apply app_inj_tail in E. destruct E as [-> ->]. destruct t2' as [|y t2'].
  - injection E2 as <-. rewrite app_nil_r in *. eauto.
  - injection E2 as <- ->. exact (S t1 c f a t2' eq_refl).
Qed.
Lemma new_inv w : inv (new_signal w).
Proof. constructor; cbn; [intros ? []|constructor|intros ? []|intros ? ? []|tauto|]. intros t1 ? ? ? t2 E. destruct t1; discriminate. Qed.
Lemma connect_inv s f : inv s -> inv (fst (connect f s)).
Proof.
  intros [I1 I2 I3 I3' I3'' I4]. unfold connect, log. cbn [fst]. constructor; cbn [nodes fresh trace world].
  - intros c H. rewrite map_app, in_app_iff in H. cbn in H. destruct H as [H|[<-|[]]]; [apply I1 in H|]; lia.
  - rewrite map_app. apply sorted_snoc; auto.
  - intros c H. apply in_app_or in H. destruct H as [H|[H|[]]]; [|discriminate]. apply I3 in H. lia.
  - intros c g H. apply in_app_or in H. destruct H as [H|[H|[]]]; [apply I3' in H|injection H as <- <-]; lia.
  - intros c g. rewrite !in_app_iff, I3''. cbn [In]. split.
    + intros [[H1 H2]|[H|[]]].
      * split; [auto|]. intros [H|[H|[]]]; [exact (H2 H)|discriminate].
      * injection H as <- <-. split; [auto|]. intros [H|[H|[]]]; [apply I3 in H; lia|discriminate].
    + intros [[H1|[H1|[]]] H2]; [left; split; auto|injection H1 as <- <-; auto].
  - apply sane_snoc; [exact I4|discriminate].
Qed.
Lemma disconnect_inv s c s' : inv s -> disconnect c s = (s', Ok tt) -> inv s'.
Proof.
  intros [I1 I2 I3 I3' I3'' I4] E. unfold disconnect in E. destruct (find_node (nodes s) c) eqn:Ef; [|discriminate]. injection E as <-.
  assert (C : In c (ids (nodes s))) by (apply ids_in; exists f; apply find_some; exact Ef).
  unfold log. constructor; cbn [nodes fresh trace world].
  - intros x H. apply ids_in in H. destruct H as [g H]. apply erase_in in H. apply I1. apply ids_in. exists g. tauto.
  - apply erase_sorted. exact I2.
  - intros x H. apply in_app_or in H. destruct H as [H|[H|[]]]; [auto|]. injection H as <-. auto.
  - intros x g H. apply in_app_or in H. destruct H as [H|[H|[]]]; [eauto|discriminate].
  - intros x g. rewrite erase_in, !in_app_iff, I3''. cbn [In]. split.
    + intros [[H1 H2] N]. split; [auto|]. intros [H|[H|[]]]; [exact (H2 H)|congruence].
    + intros [[H1|[H1|[]]] H2]; [|discriminate]. split; [split; auto|]. intros ->. auto.
  - apply sane_snoc; [exact I4|discriminate].
Qed.
Lemma call_inv s c f a : inv s -> In (c, f) (nodes s) -> inv (log (Called c f a) s).
Proof.
  intros [I1 I2 I3 I3' I3'' I4] C. unfold log. constructor; cbn [nodes fresh trace world]; auto.
  - intros x H. apply in_app_or in H. destruct H as [H|[H|[]]]; [auto|discriminate].
  - intros x g H. apply in_app_or in H. destruct H as [H|[H|[]]]; [eauto|discriminate].
  - intros x g. rewrite I3'', !in_app_iff. cbn [In]. split.
    + intros [H1 H2]. split; [auto|]. intros [H|[H|[]]]; [exact (H2 H)|discriminate].
    + intros [[H1|[H1|[]]] H2]; [auto|discriminate].
  - apply sane_snoc; [exact I4|]. intros c' f' a' E. injection E as <- <- <-. apply I3''. exact C.
Qed.
Lemma world_inv s w : inv s -> inv (set_world w s).
Proof. intros [I1 I2 I3 I4]. constructor; cbn [nodes fresh trace world]; auto. Qed.
Lemma size_inv_eq s c s' : disconnect c s = (s', Ok tt) -> exists f, In (c, f) (nodes s) /\
  nodes s' = erase_node (nodes s) c /\ fresh s' = fresh s /\ trace s' = trace s ++ [Disconnected c].
Proof.
  unfold disconnect. destruct (find_node (nodes s) c) eqn:E; [|discriminate]. intro H. injection H as <-. exists f.
  split; [apply find_some; exact E|]. cbn. auto.
Qed.

Lemma disconnect_out c s : (exists s', disconnect c s = (s', Ok tt)) \/ disconnect c s = (s, UB UseAfterFree).
Proof. unfold disconnect. destruct (find_node (nodes s) c); eauto. Qed.

Lemma script_inv em p : (forall a s s' o, inv s -> em a s = (s', o) -> inv s') ->
  forall s s' o, inv s -> run_script em p s = (s', o) -> inv s'.
Proof.
  intro E. induction p as [w|w e|f k IH|c k IH|a k IH|k IH|k IH|w k IH]; intros s s' o I R; cbn [run_script] in R.
  - injection R as <- <-. apply world_inv. exact I.
  - injection R as <- <-. apply world_inv. exact I.
  - pose proof (connect_inv s f I) as I'. destruct (connect f s) as [s1 c]. eapply IH; [exact I'|exact R].
  - destruct (disconnect_out c s) as [[s1 D]|D]; rewrite D in R.
    + eapply IH; [|exact R]. eapply disconnect_inv; eassumption.
    + injection R as <- <-. exact I.
  - destruct (em a s) as [s1 o1] eqn:Ea. pose proof (E _ _ _ _ I Ea) as I1.
    destruct o1; try (injection R as <- <-; exact I1); (eapply IH; [exact I1|exact R]).
  - eapply IH; [exact I|exact R].
  - eapply IH; [exact I|exact R].
  - eapply IH; [|exact R]. apply world_inv. exact I.
Qed.

Lemma emit_loop_inv fuel : forall i a s s' o, inv s -> emit_loop prog pass fuel i a s = (s', o) -> inv s'.
Proof.
  induction fuel as [|fuel IH]; intros i a s s' o I R; cbn [emit_loop] in R.
  - destruct i; injection R as <- <-; exact I.
  - destruct i as [c|]; [|injection R as <- <-; exact I].
    destruct (find_node (nodes s) c) eqn:Ef; [|injection R as <- <-; exact I].
    destruct (pass a) as [x rest].
    assert (I1 : inv (log (Called c f x) s)). { apply call_inv; [exact I|]. apply find_some. exact Ef. }
    destruct (run_script _ _ _) as [s1 o1] eqn:Rs.
    assert (I2 : inv s1). { eapply script_inv; [|exact I1|exact Rs]. intros a0 s0 s0' o0 J E. exact (IH _ _ _ _ _ J E). }
    destruct o1; try (injection R as <- <-; exact I2).
    destruct (next_node (nodes s1) c); try (injection R as <- <-; exact I2). eapply IH; eassumption.
Qed.
Lemma perform_inv fuel o s s' r : inv s -> perform prog pass fuel o s = (s', r) -> inv s'.
Proof.
  intros I. destruct o; cbn [perform].
  - intro R. injection R as <- _. apply (connect_inv s f I).
  - intro R. destruct (disconnect_out c s) as [[s1 D]|D]; rewrite D in R; injection R as <- <-; [eapply disconnect_inv; eassumption|exact I].
  - apply emit_loop_inv. exact I.
Qed.
Lemma perform_all_inv fuel h : forall s s' r, inv s -> perform_all prog pass fuel h s = (s', r) -> inv s'.
Proof.
  induction h as [|o h IH]; intros s s' r I R; cbn [perform_all] in R; [injection R as <- <-; exact I|].
  destruct (perform prog pass fuel o s) as [s1 o1] eqn:P. pose proof (perform_inv _ _ _ _ _ I P) as I1.
  destruct o1; try (injection R as <- <-; exact I1); eapply IH; eassumption.
Qed.

(** What is invoked is connected: any program, nested emissions, any outcome *)
Lemma reachable_inv s : reachable prog pass s -> inv s.
Proof. intros (fuel & h & w & r & R). exact (perform_all_inv _ _ _ _ _ (new_inv w) R). Qed.

(** ** Quiet callbacks *)
Definition quietly (n : nat) : Prop := forall f a w, exists w' r, quiet n w (prog f a w) w' r.

Lemma quiet_run em n w0 p w r : quiet n w0 p w r -> forall s, size s = n -> world s = w0 ->
  run_script em p s = (set_world w s, match r with None => Ok tt | Some e => Throw e end).
Proof.
  induction 1 as [w0 w|w0 w e|w0 k w r H IH|w0 k w r H IH|w0 w1 k w r H IH]; intros s L E; cbn [run_script]; [reflexivity|reflexivity| | |].
  - rewrite L. apply IH; assumption.
  - rewrite E. apply IH; assumption.
  - rewrite (IH (set_world w1 s) L eq_refl). reflexivity.
Qed.

Lemma quiet_loop n : quietly n -> forall l fuel a s pre, length l <= fuel -> nodes s = pre ++ l -> NoDup (ids (nodes s)) -> size s = n ->
  exists evs w r, delivery prog pass n l a (world s) evs w r /\
  emit_loop prog pass fuel (first_node l) a s =
    ({| nodes := nodes s; fresh := fresh s; world := w; trace := trace s ++ evs |}, match r with None => Ok tt | Some e => Throw e end).
Proof.
  intro Q. induction l as [|[c f] l IH]; intros fuel a s pre L E N Sz.
  - exists [], (world s), None. split; [constructor|]. rewrite app_nil_r. destruct fuel, s; reflexivity.
  - destruct fuel as [|fuel]; [cbn in L; lia|]. cbn [first_node emit_loop].
    assert (Ef : find_node (nodes s) c = Some f). { apply find_in; [rewrite E; apply in_or_app; right; left; reflexivity|exact N]. }
    rewrite Ef. destruct (pass a) as [x rest] eqn:Pa. destruct (Q f x (world s)) as (w1 & r & Qu).
    rewrite (quiet_run _ n _ _ _ _ Qu) by (exact Sz || reflexivity). destruct r as [e|].
    + exists [Called c f x], w1, (Some e). split; [econstructor; eassumption|]. reflexivity.
    + assert (Nc : ~ In c (ids pre)).
      { intro H. rewrite E, map_app in N. cbn [map fst] in N. apply NoDup_remove_2 in N. apply N. apply in_or_app. left. exact H. }
      assert (Nx : next_node (nodes (set_world w1 (log (Called c f x) s))) c = Ok (first_node l)) by (cbn [nodes set_world log]; rewrite E; apply next_app; exact Nc).
      rewrite Nx.
      destruct (IH fuel rest (set_world w1 (log (Called c f x) s)) (pre ++ [(c, f)])) as (evs & w2 & r2 & D & R).
      * cbn [length] in L. lia.
      * cbn. rewrite <- app_assoc. exact E.
      * exact N.
      * exact Sz.
      * exists (Called c f x :: evs), w2, r2. split; [econstructor; eassumption|]. rewrite R. cbn. rewrite <- app_assoc. reflexivity.
Qed.
Lemma quiet_emit n fuel a s : quietly n -> size s = n -> n <= fuel -> NoDup (ids (nodes s)) ->
  exists evs w r, delivery prog pass n (nodes s) a (world s) evs w r /\
  emit prog pass fuel a s =
    ({| nodes := nodes s; fresh := fresh s; world := w; trace := trace s ++ evs |}, match r with None => Ok tt | Some e => Throw e end).
Proof. intros Q Sz L N. unfold emit. apply (quiet_loop n Q (nodes s) fuel a s []); auto. unfold size in Sz. lia. Qed.

Lemma delivery_calls n l a w evs w' : delivery prog pass n l a w evs w' None -> calls evs = l.
Proof.
  intro H. remember None as r eqn:Er. induction H; cbn [calls]; [reflexivity| |discriminate]. f_equal. auto.
Qed.
Lemma delivery_args n l a w evs w' : delivery prog pass n l a w evs w' None ->
  forall k, k < length l -> nth_error (received evs) k = Some (fst (pass (Nat.iter k (fun x => snd (pass x)) a))).
Proof.
  intro H. remember None as r eqn:Er. induction H as [|c f l a x a' w w1 evs w2 r P Q D IH|]; intros k L; [cbn in L; lia| |discriminate].
  cbn [received]. destruct k as [|k]; [cbn; rewrite P; reflexivity|]. cbn [nth_error length] in *.
  rewrite (IH Er k) by lia. do 3 f_equal. clear - P.
  induction k as [|k IH]; [cbn; rewrite P; reflexivity|].
  change (snd (pass (Nat.iter k (fun x => snd (pass x)) a')) = snd (pass (Nat.iter (S k) (fun x => snd (pass x)) a))).
  rewrite IH. reflexivity.
Qed.

(** Histories *)
Lemma connects_app (h1 h2 : list (op F A)) : connects (h1 ++ h2) = connects h1 + connects h2.
Proof. unfold connects. rewrite filter_app, app_length. reflexivity. Qed.
Lemma connected_bound (h : list (op F A)) c f : is_connected h c f -> c < connects h.
Proof. intros (h1 & h2 & -> & <- & _). rewrite connects_app. cbn. lia. Qed.
Lemma connected_snoc_other (h : list (op F A)) o c f : (forall g, o <> op_connect g) ->
  (is_connected (h ++ [o]) c f <-> is_connected h c f /\ o <> op_disconnect c).
Proof.
  intro No. split.
  - intros (h1 & h2 & E & C & N). destruct (exists_last (l := op_connect f :: h2) ltac:(discriminate)) as (h2' & x & E2).
    rewrite E2, app_assoc in E. apply app_inj_tail in E. destruct E as [-> ->]. destruct h2' as [|y h2'].
    + injection E2 as <-. exfalso. eapply No. reflexivity.
    + injection E2 as <- ->. split.
      * exists h1, h2'. repeat split; auto. intro H. apply N. apply in_or_app. left. exact H.
      * intro H. apply N. apply in_or_app. right. left. exact H.
  - intros [(h1 & h2 & -> & C & N) D]. exists h1, (h2 ++ [o]). rewrite <- app_assoc. repeat split; auto.
    intro H. apply in_app_or in H. destruct H as [H|[H|[]]]; [exact (N H)|exact (D H)].
Qed.
Lemma connected_snoc_connect (h : list (op F A)) g c f :
  is_connected (h ++ [op_connect g]) c f <-> is_connected h c f \/ c = connects h /\ f = g.
Proof.
  split.
  - intros (h1 & h2 & E & C & N). destruct (exists_last (l := op_connect f :: h2) ltac:(discriminate)) as (h2' & x & E2).
    rewrite E2, app_assoc in E. apply app_inj_tail in E. destruct E as [-> <-]. destruct h2' as [|y h2'].
    + injection E2 as ->. right. rewrite app_nil_r. auto.
    + injection E2 as <- ->. left. exists h1, h2'. repeat split; auto. intro H. apply N. apply in_or_app. left. exact H.
  - intros [(h1 & h2 & -> & C & N)|[-> ->]].
    + exists h1, (h2 ++ [op_connect g]). rewrite <- app_assoc. repeat split; auto.
      intro H. apply in_app_or in H. destruct H as [H|[H|[]]]; [exact (N H)|discriminate].
    + exists h, []. repeat split; auto.
Qed.

Lemma perform_all_app fuel h1 h2 s : perform_all prog pass fuel (h1 ++ h2) s =
  match perform_all prog pass fuel h1 s with (s1, Ok _) => perform_all prog pass fuel h2 s1 | r => r end.
Proof.
  revert s. induction h1 as [|o h1 IH]; intro s; cbn [app perform_all]; [reflexivity|].
  destruct (perform prog pass fuel o s) as [s1 [| | | | |]]; auto.
Qed.

Lemma history_ok h : (forall n, quietly n) -> valid h -> forall fuel w, connects h <= fuel ->
  exists s, perform_all prog pass fuel h (new_signal w) = (s, Ok tt) /\ inv s /\ fresh s = connects h /\
  (forall c f, In (c, f) (nodes s) <-> is_connected h c f).
Proof.
  intro Q. induction h as [|o h IH] using rev_ind; intros V fuel w L.
  - exists (new_signal w). cbn [perform_all]. split; [reflexivity|]. split; [apply new_inv|]. split; [reflexivity|]. intros c f. split.
    + intros [].
    + intros (h1 & h2 & E & _). destruct h1; discriminate.
  - rewrite connects_app in L.
    assert (V' : valid h). { intros h1 c h2 E. apply (V h1 c (h2 ++ [o])). rewrite E, <- app_assoc. reflexivity. }
    destruct (IH V' fuel w ltac:(lia)) as (s & R & I & Fr & M). rewrite perform_all_app, R. cbn [perform_all].
    destruct o as [f|c|a]; cbn [perform].
    + pose proof (connect_inv s f I) as I'. exists (fst (connect f s)). split; [reflexivity|]. split; [exact I'|].
      split; [rewrite connects_app; cbn; lia|]. intros c g. rewrite connected_snoc_connect, <- M. cbn [connect fst log nodes].
      rewrite in_app_iff. cbn [In]. rewrite Fr. split; intros [H|H]; auto.
      * destruct H as [H|[]]. injection H as <- <-. auto.
      * destruct H as [-> ->]. auto.
    + destruct (V h c [] eq_refl) as [f Cf]. apply M in Cf.
      assert (D : exists s', disconnect c s = (s', Ok tt)). { unfold disconnect. rewrite (find_in _ _ _ Cf (inv_nodup _ I)). eauto. }
      destruct D as [s' D]. rewrite D. exists s'. split; [reflexivity|]. split; [eapply disconnect_inv; eassumption|].
      destruct (size_inv_eq s c s' D) as (g & _ & Nd & Fr' & _).
      split; [rewrite Fr', connects_app; cbn; lia|]. intros x h'. rewrite Nd, erase_in, M, connected_snoc_other by discriminate.
      split; intros [H1 H2]; (split; [exact H1|]); congruence.
    + assert (Sz : size s <= fuel).
      { unfold size. rewrite <- (map_length fst). transitivity (length (seq 0 (connects h))); [|rewrite seq_length; lia].
        apply NoDup_incl_length; [apply inv_nodup; exact I|]. intros c H. apply in_seq. apply (inv_fresh _ I) in H. lia. }
      destruct (quiet_emit (size s) fuel a s (Q _) eq_refl Sz (inv_nodup _ I)) as (evs & w' & r & D & E).
      pose proof (emit_loop_inv fuel (first_node (nodes s)) a s _ _ I E) as I'. rewrite E.
      exists {| nodes := nodes s; fresh := fresh s; world := w'; trace := trace s ++ evs |}.
      split; [destruct r; reflexivity|]. split; [exact I'|].
      split; [cbn [fresh]; rewrite connects_app; cbn; lia|]. intros x g. cbn [nodes]. rewrite M, connected_snoc_other by discriminate.
      split; [intro H; split; [exact H|discriminate]|tauto].
Qed.

(** ** Callbacks that connect and disconnect, without nested emission *)
Lemma calls_app (l1 l2 : list (event F A)) : calls (l1 ++ l2) = calls l1 ++ calls l2.
Proof. induction l1 as [|[] l1 IH]; cbn; rewrite ?IH; reflexivity. Qed.
Lemma added_app (l1 l2 : list (event F A)) : added (l1 ++ l2) = added l1 ++ added l2.
Proof. induction l1 as [|[] l1 IH]; cbn; rewrite ?IH; reflexivity. Qed.

Lemma flat_run em p : flat p -> forall s s' o, run_script em p s = (s', o) -> exists evs, trace s' = trace s ++ evs /\ calls evs = [] /\
  fresh s <= fresh s' /\ (forall x, In x (ids (nodes s')) -> In x (ids (nodes s)) \/ fresh s <= x).
Proof.
  intro Fl. induction Fl as [w|w e|f k Fk IH|c k Fk IH|k Fk IH|k Fk IH|w k Fk IH]; intros s s' o R; cbn [run_script] in R.
  - injection R as <- <-. exists []. rewrite app_nil_r. cbn. auto.
  - injection R as <- <-. exists []. rewrite app_nil_r. cbn. auto.
  - destruct (connect f s) as [s1 c] eqn:C. unfold connect in C. injection C as <- <-.
    destruct (IH _ _ _ _ R) as (evs & T & Ca & Fr & M). cbn in T, Fr, M. exists (Connected (fresh s) f :: evs).
    split; [rewrite T, <- app_assoc; reflexivity|]. split; [exact Ca|]. split; [lia|]. intros x H. destruct (M x H) as [H1|H1]; [|right; lia].
    rewrite map_app, in_app_iff in H1. cbn in H1. destruct H1 as [H1|[<-|[]]]; auto.
  - destruct (disconnect_out c s) as [[s1 D]|D]; rewrite D in R.
    + destruct (size_inv_eq s c s1 D) as (g & _ & Nd & Fr1 & T1). destruct (IH _ _ _ R) as (evs & T & Ca & Fr & M).
      exists (Disconnected c :: evs). rewrite T, T1, <- app_assoc. split; [reflexivity|]. split; [exact Ca|]. split; [lia|].
      intros x H. destruct (M x H) as [H1|H1]; [left|right; lia]. rewrite Nd in H1. apply ids_in in H1. destruct H1 as [h H1].
      apply erase_in in H1. apply ids_in. exists h. tauto.
    + injection R as <- <-. exists []. rewrite app_nil_r. cbn. auto.
  - eapply IH. exact R.
  - eapply IH. exact R.
  - destruct (IH _ _ _ R) as (evs & T & Ca & Fr & M). exists evs. auto.
Qed.

Lemma next_sorted l c i : StronglySorted lt (ids l) -> next_node l c = Ok i -> In c (ids l) /\
  match i with
  | Some d => In d (ids l) /\ c < d /\ forall x, In x (ids l) -> x <= c \/ d <= x
  | None => forall x, In x (ids l) -> x <= c
  end.
Proof.
  induction l as [|[j g] l IH]; intros S E; [discriminate|]. cbn [next_node] in E. cbn [map fst] in S.
  inversion S as [|? ? S1 S2]; subst. rewrite Forall_forall in S2. destruct (Nat.eqb_spec j c) as [->|N].
  - injection E as <-. split; [left; reflexivity|]. destruct l as [|[d h] l]; cbn [first_node].
    + cbn [map fst In]. intros x [<-|[]]. lia.
    + cbn [map fst In] in *. split; [auto|]. split; [apply S2; auto|]. intros x [<-|[<-|H]]; [lia|lia|].
      right. inversion S1 as [|? ? _ S3]; subst. rewrite Forall_forall in S3. specialize (S3 x H). lia.
  - destruct (IH S1 E) as [Ic M]. split; [right; exact Ic|]. pose proof (S2 c Ic) as Jc. destruct i as [d|]; cbn [map fst In].
    + destruct M as (M1 & M2 & M3). split; [auto|]. split; [exact M2|]. intros x [<-|H]; [left; lia|auto].
    + intros x [<-|H]; [lia|auto].
Qed.

(** [above i x]: [x] is not before the position [i] *)
Definition above (i : option nat) (x : nat) : Prop := match i with Some c => c <= x | None => False end.

Lemma flat_loop : (forall f a w, flat (prog f a w)) -> forall fuel i a s s' o, inv s ->
  (forall c, i = Some c -> c < fresh s) ->
  emit_loop prog pass fuel i a s = (s', o) -> exists evs, trace s' = trace s ++ evs /\ fresh s <= fresh s' /\
  StronglySorted lt (ids (calls evs)) /\ Forall (above i) (ids (calls evs)) /\
  (forall x, In x (ids (nodes s')) -> In x (ids (nodes s)) \/ fresh s <= x) /\
  (i = None -> s' = s) /\
  (o = Ok tt -> forall x, In x (ids (nodes s')) -> above i x -> In x (ids (calls evs))).
Proof.
  intro Fl. induction fuel as [|fuel IH]; intros i a s s' o I B R; cbn [emit_loop] in R.
  - assert (N : exists evs, trace s = trace s ++ evs /\ fresh s <= fresh s /\ StronglySorted lt (ids (calls evs)) /\
      Forall (above i) (ids (calls evs)) /\ (forall x, In x (ids (nodes s)) -> In x (ids (nodes s)) \/ fresh s <= x)).
    { exists []. rewrite app_nil_r. cbn. repeat (split; [auto; constructor|]). auto. }
    destruct N as (evs & N1 & N2 & N3 & N4 & N5).
    destruct i as [c|]; injection R as <- <-; exists evs; repeat (split; [assumption|]); (split; [auto; discriminate|]); [discriminate|].
    intros _ x _ [].
  - destruct i as [c|].
    2:{ injection R as <- <-. exists []. rewrite app_nil_r. cbn. do 4 (split; [auto; constructor|]). split; [auto|]. split; [auto|]. intros _ x _ []. }
    destruct (find_node (nodes s) c) eqn:Ef.
    2:{ injection R as <- <-. exists []. rewrite app_nil_r. cbn. do 4 (split; [auto; constructor|]). split; [auto|]. split; discriminate. }
    destruct (pass a) as [x rest]. destruct (run_script _ _ _) as [s1 o1] eqn:Rs.
    pose proof (find_some _ _ _ Ef) as Inc.
    assert (I1 : inv (log (Called c f x) s)) by (apply call_inv; [exact I|]; exact Inc).
    assert (I2 : inv s1). { eapply script_inv; [|exact I1|exact Rs]. intros a0 s0 s0' o0 J E. exact (emit_loop_inv _ _ _ _ _ _ J E). }
    destruct (flat_run _ _ (Fl f x (world s)) _ _ _ Rs) as (evs1 & T1 & C1 & Fr1 & M1). cbn in T1, Fr1, M1.
    rewrite <- app_assoc in T1. cbn [app] in T1.
    assert (Stop : o1 <> Ok tt \/ o <> Ok tt -> s1 = s' -> exists evs, trace s' = trace s ++ evs /\ fresh s <= fresh s' /\
      StronglySorted lt (ids (calls evs)) /\ Forall (above (Some c)) (ids (calls evs)) /\
      (forall x, In x (ids (nodes s')) -> In x (ids (nodes s)) \/ fresh s <= x) /\
      (Some c = None -> s' = s) /\
      (o = Ok tt -> o1 = Ok tt -> forall x, In x (ids (nodes s')) -> above (Some c) x -> In x (ids (calls evs)))).
    { intros Ho <-. exists (Called c f x :: evs1). split; [exact T1|]. cbn [calls map fst]. rewrite C1. cbn [map].
      split; [exact Fr1|]. split; [constructor; constructor|]. split; [constructor; [apply le_n|constructor]|].
      split; [exact M1|]. split; [discriminate|]. intros; destruct Ho; congruence. }
    destruct o1 as [[]| | | | |].
    2-6: (injection R as <- <-; lapply Stop; [clear Stop; intro Stop|left; discriminate]; destruct (Stop eq_refl) as (evs & Q1 & Q2 & Q3 & Q4 & Q5 & Q6 & _);
          exists evs; repeat (split; [assumption|]); discriminate).
    destruct (next_node (nodes s1) c) as [j| | | | |] eqn:Nx.
    2-6: (injection R as <- <-; lapply Stop; [clear Stop; intro Stop|right; discriminate]; destruct (Stop eq_refl) as (evs & Q1 & Q2 & Q3 & Q4 & Q5 & Q6 & _);
          exists evs; repeat (split; [assumption|]); discriminate).
    clear Stop. destruct (next_sorted _ _ _ (inv_sorted _ I2) Nx) as [Ic Mj].
    assert (Bj : forall d, j = Some d -> d < fresh s1). { intros d ->. apply (inv_fresh _ I2). apply Mj. }
    destruct (IH j rest s1 s' o I2 Bj R) as (evs & T & Fr & So & Ab & M & Nn & Cov).
    exists (Called c f x :: evs1 ++ evs). cbn [calls map fst]. rewrite calls_app, C1. cbn [app].
    split; [rewrite T, T1, <- app_assoc; reflexivity|]. split; [lia|].
    assert (Gt : forall y, In y (ids (calls evs)) -> c < y).
    { intros y Hy. rewrite Forall_forall in Ab. specialize (Ab y Hy). destruct j as [d|]; cbn in Ab; [|contradiction]. lia. }
    split; [constructor; [exact So|apply Forall_forall; exact Gt]|].
    split; [constructor; [cbn; lia|]; apply Forall_forall; intros y Hy; specialize (Gt y Hy); cbn; lia|].
    split. { intros y Hy. destruct (M y Hy) as [H|H]; [destruct (M1 y H); auto; right; lia|right; lia]. }
    split; [discriminate|]. intros Ho y Hy Aby. cbn in Aby. destruct (Nat.eq_dec y c) as [->|Ny]; [left; reflexivity|right].
    apply (Cov Ho y Hy). destruct j as [d|]; cbn.
    + destruct (M y Hy) as [H|H]; [destruct Mj as (_ & _ & Mj); destruct (Mj y H); lia|specialize (Bj d eq_refl); lia].
    + rewrite (Nn eq_refl) in Hy. specialize (Mj y Hy). lia.
Qed.

Lemma flat_emit : (forall f a w, flat (prog f a w)) -> forall fuel a s s' o, inv s -> emit prog pass fuel a s = (s', o) ->
  exists evs, trace s' = trace s ++ evs /\ StronglySorted lt (ids (calls evs)) /\
  (o = Ok tt -> forall c, In c (ids (nodes s')) -> In c (ids (calls evs))).
Proof.
  intros Fl fuel a s s' o I R. pose proof (emit_loop_inv fuel _ a s s' o I R) as I'. unfold emit in R.
  assert (B : forall c, first_node (nodes s) = Some c -> c < fresh s).
  { intros c E. apply (inv_fresh _ I). destruct (nodes s) as [|[i g] l]; [discriminate|]. injection E as <-. left. reflexivity. }
  destruct (flat_loop Fl fuel _ a s s' o I B R) as (evs & T & Fr & So & _ & M & Nn & Cov).
  exists evs. split; [exact T|]. split; [exact So|]. intros Ho c Hc. apply Cov; auto.
  pose proof (inv_sorted _ I) as Srt. destruct (nodes s) as [|[i g] l] eqn:En; cbn [first_node above].
  - rewrite (Nn eq_refl), En in Hc. destruct Hc.
  - destruct (M c Hc) as [H|H].
    + cbn [map fst] in Srt, H. inversion Srt as [|? ? _ S2]; subst. destruct H as [<-|H]; [lia|].
      rewrite Forall_forall in S2. specialize (S2 c H). lia.
    + specialize (B i eq_refl). lia.
Qed.

(** ** Callbacks that only connect *)
Lemma connecting_run em p : connecting p -> forall s, exists s' evs, run_script em p s = (s', Ok tt) /\
  trace s' = trace s ++ evs /\ calls evs = [] /\ nodes s' = nodes s ++ added evs /\ (fresh s <= fresh s').
Proof.
  induction 1 as [w|f k Fk IH|k Fk IH|k Fk IH|w k Fk IH]; intro s; cbn [run_script].
  - exists (set_world w s), []. rewrite !app_nil_r. cbn. auto.
  - unfold connect. destruct (IH (fresh s) (log (Connected (fresh s) f) {| nodes := nodes s ++ [(fresh s, f)]; fresh := S (fresh s); world := world s; trace := trace s |}))
      as (s' & evs & R & T & C & Nd & Fr). exists s', (Connected (fresh s) f :: evs). split; [exact R|]. cbn in T, Nd, Fr.
    rewrite <- app_assoc in T, Nd. repeat split; auto. lia.
  - apply IH.
  - apply IH.
  - apply (IH (set_world w s)).
Qed.

Lemma connecting_loop : (forall f a w, connecting (prog f a w)) -> forall fuel l a s s' pre, inv s -> nodes s = pre ++ l ->
  emit_loop prog pass fuel (first_node l) a s = (s', Ok tt) -> exists evs, trace s' = trace s ++ evs /\
  nodes s' = nodes s ++ added evs /\ nodes s' = pre ++ calls evs.
Proof.
  intro Co. induction fuel as [|fuel IH]; intros l a s s' pre I E R.
  - destruct l as [|[c f] l]; cbn [first_node emit_loop] in R; [|discriminate]. injection R as <-.
    exists []. rewrite !app_nil_r in *. auto.
  - destruct l as [|[c f] l]; cbn [first_node emit_loop] in R.
    { injection R as <-. exists []. rewrite !app_nil_r in *. auto. }
    pose proof (inv_nodup _ I) as N.
    assert (Ef : find_node (nodes s) c = Some f) by (apply find_in; [rewrite E; apply in_or_app; right; left; reflexivity|exact N]).
    rewrite Ef in R. destruct (pass a) as [x rest].
    assert (I1 : inv (log (Called c f x) s)) by (apply call_inv; [exact I|]; apply find_some; exact Ef).
    destruct (connecting_run (fun a s => emit_loop prog pass fuel (first_node (nodes s)) a s) _ (Co f x (world s)) (log (Called c f x) s))
      as (s1 & evs1 & R1 & T1 & C1 & N1 & _).
    assert (I2 : inv s1). { eapply script_inv; [|exact I1|exact R1]. intros a0 s0 s0' o0 J Q. exact (emit_loop_inv _ _ _ _ _ _ J Q). }
    rewrite R1 in R. cbn in T1, N1. rewrite <- app_assoc in T1. cbn [app] in T1.
    assert (Nc : ~ In c (ids pre)).
    { intro H. rewrite E, map_app in N. cbn [map fst] in N. apply NoDup_remove_2 in N. apply N. apply in_or_app. left. exact H. }
    assert (N1' : nodes s1 = pre ++ (c, f) :: l ++ added evs1) by (rewrite N1, E, <- app_assoc; reflexivity).
    rewrite N1', (next_app pre c f _ Nc) in R.
    destruct (IH (l ++ added evs1) rest s1 s' (pre ++ [(c, f)]) I2) as (evs & T & Nd & Cl); [rewrite N1', <- app_assoc; reflexivity|exact R|].
    exists (Called c f x :: evs1 ++ evs). cbn [added calls]. rewrite added_app, calls_app, C1.
    split; [rewrite T, T1, <- app_assoc; reflexivity|].
    split; [rewrite Nd, N1, <- app_assoc; reflexivity|]. rewrite Cl, <- app_assoc. reflexivity.
Qed.
Lemma connecting_emit : (forall f a w, connecting (prog f a w)) -> forall fuel a s s', inv s -> emit prog pass fuel a s = (s', Ok tt) ->
  exists evs, trace s' = trace s ++ evs /\ nodes s' = nodes s ++ added evs /\ calls evs = nodes s'.
Proof.
  intros Co fuel a s s' I R. destruct (connecting_loop Co fuel (nodes s) a s s' [] I eq_refl R) as (evs & T & Nd & Cl).
  exists evs. rewrite Cl in *. auto.
Qed.

Lemma one_run em p : connects_one p -> forall s, exists s' f evs, run_script em p s = (s', Ok tt) /\ nodes s' = nodes s ++ (fresh s, f) :: evs.
Proof.
  induction 1 as [f k Fk|k Fk IH|k Fk IH|w k Fk IH]; intro s; cbn [run_script].
  - unfold connect. destruct (connecting_run em (k (fresh s)) (Fk (fresh s)) (log (Connected (fresh s) f) {| nodes := nodes s ++ [(fresh s, f)]; fresh := S (fresh s); world := world s; trace := trace s |}))
      as (s' & evs & R & _ & _ & Nd & _). exists s', f, (added evs). split; [exact R|]. cbn in Nd. rewrite <- app_assoc in Nd. exact Nd.
  - apply IH.
  - apply IH.
  - apply (IH (set_world w s)).
Qed.
Lemma endless_loop : (forall f a w, connects_one (prog f a w)) -> forall fuel l a s pre, inv s -> nodes s = pre ++ l -> l <> [] ->
  exists s', emit_loop prog pass fuel (first_node l) a s = (s', Diverge).
Proof.
  intro Co. induction fuel as [|fuel IH]; intros l a s pre I E Ne; destruct l as [|[c f] l]; try congruence; cbn [first_node emit_loop]; [eauto|].
  pose proof (inv_nodup _ I) as N.
  assert (Ef : find_node (nodes s) c = Some f) by (apply find_in; [rewrite E; apply in_or_app; right; left; reflexivity|exact N]).
  rewrite Ef. destruct (pass a) as [x rest].
  assert (I1 : inv (log (Called c f x) s)) by (apply call_inv; [exact I|]; apply find_some; exact Ef).
  destruct (one_run (fun a s => emit_loop prog pass fuel (first_node (nodes s)) a s) _ (Co f x (world s)) (log (Called c f x) s))
      as (s1 & g & evs & R1 & N1).
  assert (I2 : inv s1). { eapply script_inv; [|exact I1|exact R1]. intros a0 s0 s0' o0 J Q. exact (emit_loop_inv _ _ _ _ _ _ J Q). }
  rewrite R1. cbn in N1.
  assert (Nc : ~ In c (ids pre)).
  { intro H. rewrite E, map_app in N. cbn [map fst] in N. apply NoDup_remove_2 in N. apply N. apply in_or_app. left. exact H. }
  assert (N1' : nodes s1 = pre ++ (c, f) :: l ++ (fresh s, g) :: evs) by (rewrite N1, E, <- app_assoc; reflexivity).
  rewrite N1', (next_app pre c f _ Nc).
  apply (IH (l ++ (fresh s, g) :: evs) rest s1 (pre ++ [(c, f)]) I2); [rewrite N1', <- app_assoc; reflexivity|destruct l; discriminate].
Qed.
Lemma endless_emit : (forall f a w, connects_one (prog f a w)) -> forall fuel a s, inv s -> nodes s <> [] ->
  exists s', emit prog pass fuel a s = (s', Diverge).
Proof. intros Co fuel a s I Ne. exact (endless_loop Co fuel (nodes s) a s [] I eq_refl Ne). Qed.

(** A callback no longer in the list when its body ends *)
Lemma removed_while_running fuel c f a x rest s s1 : find_node (nodes s) c = Some f -> pass a = (x, rest) ->
  run_script (fun a s => emit prog pass fuel a s) (prog f x (world s)) (log (Called c f x) s) = (s1, Ok tt) ->
  ~ In c (ids (nodes s1)) -> emit_loop prog pass (S fuel) (Some c) a s = (s1, UB UseAfterFree).
Proof.
  intros Ef P R N. cbn [emit_loop]. rewrite Ef, P. unfold emit in R. rewrite R, (next_out _ _ N). reflexivity.
Qed.

Lemma delivery_prefix n l a w evs w' e : delivery prog pass n l a w evs w' (Some e) -> exists l', l = calls evs ++ l' /\ calls evs <> [].
Proof.
  intro H. remember (Some e) as r eqn:Er. induction H as [|c f l a x a' w w1 evs w2 r P Q D IH|c f l a x a' w w1 e' P Q]; [discriminate| |].
  - destruct (IH Er) as (l' & -> & _). exists l'. split; [reflexivity|discriminate].
  - exists l. split; [reflexivity|discriminate].
Qed.

Lemma history h : (forall n f a w, exists w' r, quiet n w (prog f a w) w' r) -> valid h -> forall fuel w, connects h <= fuel ->
  exists s l, perform_all prog pass fuel h (new_signal w) = (s, Ok tt) /\
    StronglySorted lt (ids l) /\ (forall c f, In (c, f) l <-> is_connected h c f) /\
    size s = length l /\ (empty s = true <-> l = []) /\ (forall dbg, destroy dbg s = if dbg && negb (Nat.eqb (length l) 0) then Abort else Ok tt) /\
    forall a, exists s' o evs w' r, emit prog pass fuel a s = (s', o) /\
      delivery prog pass (length l) l a (world s) evs w' r /\
      trace s' = trace s ++ evs /\ world s' = w' /\ size s' = length l /\
      match r with None => o = Ok tt /\ calls evs = l | Some e => o = Throw e /\ exists l', l = calls evs ++ l' /\ calls evs <> [] end.
Proof.
  intros Q V fuel w L. destruct (history_ok h Q V fuel w L) as (s & R & I & Fr & M).
  exists s, (nodes s). split; [exact R|]. split; [apply I|]. split; [exact M|]. split; [reflexivity|].
  split; [unfold empty, size; rewrite Nat.eqb_eq; split; [apply length_zero_iff_nil|intros ->; reflexivity]|].
  split. { intro dbg. unfold destroy, assert_, empty, size. destruct dbg, (Nat.eqb (length (nodes s)) 0); reflexivity. }
  intro a.
  assert (Sz : size s <= fuel).
  { unfold size. rewrite <- (map_length fst). transitivity (length (seq 0 (connects h))); [|rewrite seq_length; lia].
    apply NoDup_incl_length; [apply inv_nodup; exact I|]. intros c H. apply in_seq. apply (inv_fresh _ I) in H. lia. }
  destruct (quiet_emit (size s) fuel a s (Q _) eq_refl Sz (inv_nodup _ I)) as (evs & w' & r & D & E).
  eexists _, _, evs, w', r. split; [exact E|]. split; [exact D|]. cbn. repeat (split; [reflexivity|]).
  destruct r as [e|].
  - split; [reflexivity|]. eapply delivery_prefix. exact D.
  - split; [reflexivity|]. eapply delivery_calls. exact D.
Qed.
End Signal.

Lemma iter_by_reference {A} (a : A) k : Nat.iter k (fun x => snd (by_reference x)) a = a.
Proof. induction k as [|k IH]; [reflexivity|]. exact IH. Qed.

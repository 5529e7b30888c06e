From Verif Require Import Base ListLemmas TreeModel TreeSpec TreeProofs TreeEditProofs TreeMoreModel TreeMoreSpec.

Section Proofs.
Context {V : Type}.
Notation tree := (tree V).
Implicit Types f l : list tree.

(** ** Reading the nodes off an outline *)
Fixpoint while_deeper (d : nat) (l : list (nat * tree)) : list (nat * tree) :=
  match l with
  | [] => []
  | (k, t) :: l => if Nat.ltb d k then (k, t) :: while_deeper d l else []
  end.
Fixpoint parse (o : list (nat * V)) : list (nat * tree) :=
  match o with
  | [] => []
  | (d, v) :: o =>
      (d, Node v (map snd (filter (fun x => Nat.eqb (fst x) (S d)) (while_deeper d (parse o))))) :: parse o
  end.

Fixpoint entries_tree (d : nat) (t : tree) : list (nat * tree) :=
  match t with Node v ch => (d, Node v ch) :: flat_map (entries_tree (S d)) ch end.
Definition entries (d : nat) (l : list tree) : list (nat * tree) := flat_map (entries_tree d) l.

Lemma entries_cons d v ch l : entries d (Node v ch :: l) = (d, Node v ch) :: entries (S d) ch ++ entries d l.
Proof. reflexivity. Qed.

Lemma parse_skipn n o : parse (skipn n o) = skipn n (parse o).
Proof.
  revert o; induction n as [|n IH]; intros [|[d v] o]; try reflexivity. cbn [skipn parse]. apply IH.
Qed.

Lemma entries_snd d l : map snd (entries d l) = nodes l.
Proof.
  revert d. remember (size l) as n eqn:Hn. revert l Hn.
  induction n as [n IH] using lt_wf_ind. intros l -> d.
  destruct l as [|[v ch] l]; [reflexivity|]. rewrite entries_cons. cbn [map snd]. rewrite map_app.
  rewrite size_cons in IH.
  rewrite (IH (size ch) ltac:(lia) ch eq_refl), (IH (size l) ltac:(lia) l eq_refl). reflexivity.
Qed.

Definition low (d : nat) (o : list (nat * V)) : Prop := forall x r, o = x :: r -> fst x <= d.

Lemma while_deeper_low d o : low d o -> while_deeper d (parse o) = [].
Proof.
  destruct o as [|[k v] o]; [reflexivity|]. intro H. specialize (H (k, v) o eq_refl). cbn [fst] in H.
  cbn [parse while_deeper]. destruct (Nat.ltb_spec d k); [lia|reflexivity].
Qed.

Lemma entries_deeper d k l : d < k -> Forall (fun x => d < fst x) (entries k l).
Proof.
  revert k. remember (size l) as n eqn:Hn. revert l Hn.
  induction n as [n IH] using lt_wf_ind. intros l -> k L.
  destruct l as [|[v ch] l]; [constructor|]. rewrite entries_cons. rewrite size_cons in IH.
  constructor; [exact L|]. apply Forall_app. split.
  - apply (IH (size ch) ltac:(lia) ch eq_refl). lia.
  - apply (IH (size l) ltac:(lia) l eq_refl). lia.
Qed.

Lemma while_deeper_app d a b : Forall (fun x => d < fst x) a ->
  while_deeper d (a ++ b) = a ++ while_deeper d b.
Proof.
  induction 1 as [|[k t] a H _ IH]; [reflexivity|]. cbn [app while_deeper]. cbn [fst] in H.
  destruct (Nat.ltb_spec d k); [|lia]. rewrite IH. reflexivity.
Qed.

Lemma filter_deeper d k l : d < k -> filter (fun x : nat * tree => Nat.eqb (fst x) d) (entries k l) = [].
Proof.
  intro L. pose proof (entries_deeper d k l L) as H. induction H as [|x a Hx _ IH]; [reflexivity|].
  cbn [filter]. destruct (Nat.eqb_spec (fst x) d); [lia|exact IH].
Qed.

Lemma filter_entries d l : map snd (filter (fun x => Nat.eqb (fst x) d) (entries d l)) = l.
Proof.
  induction l as [|[v ch] l IH]; [reflexivity|]. rewrite entries_cons. cbn [filter fst]. rewrite Nat.eqb_refl.
  rewrite filter_app, filter_deeper by lia. cbn [app map snd]. rewrite IH. reflexivity.
Qed.

Lemma parse_outline d l o : low d o -> parse (outline d l ++ o) = entries d l ++ parse o.
Proof.
  revert d o. remember (size l) as n eqn:Hn. revert l Hn.
  induction n as [n IH] using lt_wf_ind. intros l -> d o Lo.
  destruct l as [|[v ch] l]; [reflexivity|]. rewrite outline_cons, entries_cons. rewrite size_cons in IH.
  cbn [app]. rewrite <- !app_assoc. cbn [parse].
  assert (L1 : low d (outline d l ++ o)).
  { destruct l as [|[w dh] l]; [exact Lo|]. intros x r E. rewrite outline_cons in E. injection E as <- _. cbn. lia. }
  assert (L2 : low (S d) (outline d l ++ o)).
  { intros x r E. specialize (L1 x r E). lia. }
  rewrite (IH (size ch) ltac:(lia) ch eq_refl (S d) _ L2).
  rewrite while_deeper_app by (apply entries_deeper; lia). rewrite (while_deeper_low d _ L1).
  rewrite app_nil_r, filter_entries.
  rewrite (IH (size l) ltac:(lia) l eq_refl d o Lo). reflexivity.
Qed.

Lemma nodes_parse f : nodes f = map snd (parse (outline 0 f)).
Proof.
  rewrite <- (entries_snd 0 f), <- (app_nil_r (outline 0 f)), parse_outline by (intros x r E; discriminate).
  cbn [parse]. rewrite app_nil_r. reflexivity.
Qed.

(** ** Nodes still to be visited *)
Definition flat (R : list (nat * tree)) : list (nat * V) := flat_map (fun x => outline (fst x) [snd x]) R.

Inductive descending : list (nat * tree) -> Prop :=
| desc_nil : descending []
| desc_cons x R : descending R -> Forall (fun y => fst y <= fst x) R -> descending (x :: R).

Lemma flat_app a b : flat (a ++ b) = flat a ++ flat b.
Proof. apply flat_map_app. Qed.

Lemma flat_same d l : flat (map (pair d) l) = outline d l.
Proof.
  induction l as [|t l IH]; [reflexivity|]. change (t :: l) with ([t] ++ l). rewrite outline_app.
  rewrite map_app, flat_app, IH. unfold flat. cbn [map flat_map fst snd]. rewrite app_nil_r. reflexivity.
Qed.

Lemma flat_low d R : Forall (fun y => fst y <= d) R -> low d (flat R).
Proof.
  intros H x r E. destruct R as [|[k [v ch]] R]; [discriminate|]. inversion H; subst.
  unfold flat in E. cbn [flat_map fst snd] in E. rewrite outline_cons in E. injection E as <- _. assumption.
Qed.

Lemma flat_cons d v ch R : flat ((d, Node v ch) :: R) = (d, v) :: outline (S d) ch ++ flat R.
Proof. unfold flat. cbn [flat_map fst snd]. rewrite outline_cons. cbn [outline flat_map]. rewrite app_nil_r. reflexivity. Qed.

Lemma desc_same d l R : descending R -> Forall (fun y => fst y <= d) R -> descending (map (pair d) l ++ R).
Proof.
  intros HR HF. induction l as [|t l IH]; [exact HR|]. cbn [map app]. constructor; [exact IH|].
  cbn [fst]. apply Forall_app. split; [|exact HF]. apply Forall_forall. intros y Hy. apply in_map_iff in Hy.
  destruct Hy as [s [<- _]]. cbn. lia.
Qed.

Lemma desc_children d v ch R : descending ((d, Node v ch) :: R) -> descending (map (pair (S d)) ch ++ R).
Proof.
  intro H. inversion H; subst. apply desc_same; [assumption|]. eapply Forall_impl; [|eassumption].
  cbn [fst]. intros a Ha. lia.
Qed.

Definition total (R : list (nat * tree)) : nat := size (map snd R).

Definition rest_pruned pred (R : list (nat * tree)) : list (nat * V) :=
  flat_map (fun x => outline (fst x) (pruned pred (snd x))) R.
Definition rest_exposed pred (R : list (nat * tree)) : list tree := flat_map (fun x => exposed pred (snd x)) R.

Lemma rest_pruned_same pred d l : rest_pruned pred (map (pair d) l) = outline d (prune pred l).
Proof.
  induction l as [|t l IH]; [reflexivity|]. unfold rest_pruned, prune in *. cbn [map flat_map fst snd].
  rewrite outline_app, IH. reflexivity.
Qed.
Lemma rest_exposed_same pred d l : rest_exposed pred (map (pair d) l) = flat_map (exposed pred) l.
Proof. induction l as [|t l IH]; [reflexivity|]. unfold rest_exposed in *. cbn [map flat_map fst snd]. rewrite IH. reflexivity. Qed.

Lemma skipn_cons_next {A} n (l : list A) x r : skipn n l = x :: r -> firstn (S n) l = firstn n l ++ [x] /\ skipn (S n) l = r.
Proof.
  revert l; induction n as [|n IH]; intros [|y l] H; cbn [skipn] in H; try discriminate.
  - injection H as -> ->. split; reflexivity.
  - destruct (IH l H) as [E1 E2]. split; [|exact E2]. cbn [firstn app] in *. rewrite E1. reflexivity.
Qed.

Theorem erase_loop_ok dbg pred : forall fuel f n q R,
  nth_error (positions f) n = Some q -> skipn n (outline 0 f) = flat R -> descending R -> total R < fuel ->
  exists f', erase_loop dbg pred fuel f (at_path q) = Ok (f', rest_exposed pred R) /\
    outline 0 f' = firstn n (outline 0 f) ++ rest_pruned pred R.
Proof.
  induction fuel as [|fuel IH]; intros f n q R Hq ER D Hf; [lia|].
  cbn [erase_loop]. change (it_end f) with (Ok (at_path [length f])). cbn [bind].
  destruct (comparisons f n (size f) q [length f] Hq (positions_end f)) as [_ [-> _]]. cbn [bind].
  assert (Ln : n < length (positions f)) by (apply nth_error_Some; congruence). rewrite positions_len in Ln.
  destruct (Nat.eqb_spec n (size f)) as [->|NE]; cbn [negb].
  - assert (R = []) as ->.
    { rewrite skipn_all2 in ER by (rewrite outline_len; lia). destruct R as [|[d [v ch]] R]; [reflexivity|].
      rewrite flat_cons in ER. discriminate. }
    exists f. split; [reflexivity|]. cbn [rest_pruned flat_map]. rewrite app_nil_r, firstn_all2 by (rewrite outline_len; lia).
    reflexivity.
  - destruct (positions_node f n ltac:(lia)) as [q' [t [Hq' [Hpre [Ht N]]]]].
    rewrite Hq in Hq'. injection Hq' as <-.
    rewrite (deref_at_path f q t N). cbn [bind].
    destruct R as [|[d [v ch]] R].
    { exfalso. assert (length (skipn n (outline 0 f)) = 0) by (rewrite ER; reflexivity).
      rewrite skipn_length, outline_len in H. lia. }
    assert (DR : descending R /\ Forall (fun y => fst y <= d) R) by (inversion D; subst; auto).
    assert (t = Node v ch) as ->.
    { rewrite nodes_parse in Ht.
      assert (P : skipn n (map snd (parse (outline 0 f))) = Node v ch :: map snd (entries (S d) ch ++ parse (flat R))).
      { rewrite skipn_map, <- parse_skipn, ER, flat_cons.
        change ((d, v) :: outline (S d) ch ++ flat R) with (((d, v) :: outline (S d) ch) ++ flat R).
        replace ((d, v) :: outline (S d) ch) with (outline d [Node v ch]) by (rewrite outline_cons; cbn [outline flat_map]; rewrite app_nil_r; reflexivity).
        rewrite parse_outline by (apply flat_low, (proj2 DR)). rewrite entries_cons. cbn [entries flat_map]. rewrite app_nil_r. reflexivity. }
      rewrite (skipn_nth _ _ _ Ht) in P. injection P as -> _. reflexivity. }
    assert (Hf' : total R + S (size ch) < S fuel).
    { unfold total in *. cbn [map snd] in Hf. rewrite size_cons in Hf. lia. }
    destruct (pred (Node v ch)) eqn:Ep.
    + destruct (erase_ok dbg f n q (Node v ch) Hpre N) as [before [after [f1 [q1 [E1 [E2 [E3 [E4 E5]]]]]]]].
      rewrite E1. cbn [bind fst snd].
      assert (Ea : after = flat R).
      { rewrite E2 in ER. rewrite <- E3, skipn_app, skipn_all, Nat.sub_diag in ER. cbn [app skipn] in ER.
        rewrite flat_cons, outline_cons in ER. cbn [app] in ER. injection ER as Ed ER. rewrite Ed in ER.
        cbn [outline flat_map] in ER. rewrite app_nil_r in ER. apply app_inv_head in ER. exact ER. }
      destruct (IH f1 n q1 R E5) as [f' [F1 F2]].
      * rewrite E4, <- E3, skipn_app, skipn_all, Nat.sub_diag. exact Ea.
      * apply DR.
      * lia.
      * rewrite F1. cbn [bind fst snd]. exists f'. split.
        -- unfold rest_exposed. cbn [flat_map snd exposed]. rewrite Ep. reflexivity.
        -- rewrite F2, E4, E2, <- E3, !firstn_app_exact. unfold rest_pruned. cbn [flat_map fst snd pruned]. rewrite Ep. reflexivity.
    + assert (exists q1, nth_error (positions f) (S n) = Some q1) as [q1 Hq1].
      { destruct (nth_error (positions f) (S n)) as [q1|] eqn:E; [eauto|]. apply nth_error_None in E. rewrite positions_len in E. lia. }
      rewrite (incr_step dbg f q q1) by (eapply positions_step; eassumption). cbn [bind].
      rewrite flat_cons in ER. destruct (skipn_cons_next n _ _ _ ER) as [G1 G2].
      destruct (IH f (S n) q1 (map (pair (S d)) ch ++ R) Hq1) as [f' [F1 F2]].
      * rewrite G2, flat_app, flat_same. reflexivity.
      * eapply desc_children; eassumption.
      * unfold total in *. rewrite map_app, map_map, size_app. cbn [snd]. rewrite map_id. lia.
      * rewrite F1. cbn [bind fst snd]. exists f'. split.
        -- unfold rest_exposed. rewrite flat_map_app. fold (rest_exposed pred (map (pair (S d)) ch)).
           rewrite rest_exposed_same. cbn [flat_map snd exposed]. rewrite Ep. reflexivity.
        -- rewrite F2, G1, <- app_assoc. f_equal. unfold rest_pruned. rewrite flat_map_app.
           fold (rest_pruned pred (map (pair (S d)) ch)). rewrite rest_pruned_same.
           cbn [flat_map fst snd pruned]. rewrite Ep, outline_cons. cbn [outline flat_map app]. rewrite app_nil_r. reflexivity.
Qed.

Theorem erase_where_ok dbg pred f : erase_where dbg pred f = Ok (prune pred f, flat_map (exposed pred) f).
Proof.
  unfold erase_where. change (it_begin f) with (Ok (at_path [0])). cbn [bind].
  destruct (erase_loop_ok dbg pred (S (size f)) f 0 [0] (map (pair 0) f) (positions_head f)) as [f' [F1 F2]].
  - rewrite flat_same. reflexivity.
  - rewrite <- (app_nil_r (map _ f)). apply desc_same; constructor.
  - unfold total. rewrite map_map. cbn [snd]. rewrite map_id. lia.
  - rewrite F1, rest_exposed_same. cbn [firstn app] in F2. rewrite rest_pruned_same in F2.
    rewrite (outline_inj _ _ _ F2). reflexivity.
Qed.

(** ** Comparison *)
Section Equality.
Variable eqb : V -> V -> bool.
Notation R := (fun a b : nat * V => fst a = fst b /\ eqb (snd a) (snd b) = true).
Notation eq_ := (tree_eq (fun v w => Ok (eqb v w))).

Lemma split_same d (a a' b b' : list (nat * V)) :
  Forall (fun x => S d <= fst x) a -> Forall (fun x => S d <= fst x) a' ->
  (forall x r, b = x :: r -> fst x = d) -> (forall x r, b' = x :: r -> fst x = d) ->
  Forall2 R (a ++ b) (a' ++ b') -> Forall2 R a a' /\ Forall2 R b b'.
Proof.
  revert a'; induction a as [|x a IH]; intros [|x' a'] Ha Ha' Hb Hb' E; cbn [app] in E.
  - auto.
  - inversion E as [|y x1 r r1 [E1 _] Hr Eb]; subst. symmetry in Eb || idtac.
    specialize (Hb y r eq_refl). inversion Ha'; subst. cbv beta in *. lia.
  - inversion E as [|y x1 r r1 [E1 _] Hr Eb]; subst.
    specialize (Hb' x1 r1 eq_refl). inversion Ha; subst. cbv beta in *. lia.
  - inversion E; subst. inversion Ha; subst. inversion Ha'; subst.
    destruct (IH a') as [G1 G2]; auto.
Qed.

Lemma same_cons d v ch l w dh k :
  Forall2 R (outline d (Node v ch :: l)) (outline d (Node w dh :: k)) <->
  eqb v w = true /\ Forall2 R (outline (S d) ch) (outline (S d) dh) /\ Forall2 R (outline d l) (outline d k).
Proof.
  rewrite !outline_cons. split.
  - intro H. inversion H as [|x y a b [_ E] F]; subst. cbn [snd] in E. split; [exact E|].
    apply (split_same d) in F; auto using outline_depth.
    + intros x r E'. eapply outline_head; eassumption.
    + intros x r E'. eapply outline_head; eassumption.
  - intros [E [H1 H2]]. constructor; [cbn; auto|]. apply Forall2_app; assumption.
Qed.

Lemma same_length d l : forall k, Forall2 R (outline d l) (outline d k) -> length l = length k.
Proof.
  induction l as [|[v ch] l IH]; intros [|[w dh] k] H; try reflexivity.
  - rewrite outline_cons in H. inversion H.
  - rewrite outline_cons in H. inversion H.
  - apply same_cons in H. cbn [length]. f_equal. apply IH, H.
Qed.

Theorem tree_eq_ok t : forall d s, exists b, eq_ t s = Ok b /\
  (b = true <-> Forall2 R (outline d [t]) (outline d [s])).
Proof.
  induction t as [v ch IH] using tree_ind'. intros d [w dh].
  cbn [tree_eq bind]. destruct (eqb v w) eqn:E.
  2: { exists false. split; [reflexivity|]. split; [discriminate|]. rewrite same_cons. intros [H _]. congruence. }
  destruct (Nat.eqb_spec (length ch) (length dh)) as [L|L].
  2: { exists false. split; [reflexivity|]. split; [discriminate|]. rewrite same_cons. intros [_ [H _]].
       apply same_length in H. contradiction. }
  match goal with |- context [?g ch dh] => set (elements := g) end.
  assert (H : exists b, elements ch dh = Ok b /\ (b = true <-> Forall2 R (outline (S d) ch) (outline (S d) dh))).
  { revert dh L. induction IH as [|x l Hx Hl IHl]; intros [|y k] L; try discriminate.
    - exists true. split; [reflexivity|]. split; [intros _; constructor|reflexivity].
    - cbn [length] in L. injection L as L.
      destruct (Hx (S d) y) as [b [Eb Hb]]. destruct (IHl k L) as [c [Ec Hc]].
      cbn [elements]. unfold elements. rewrite Eb. cbn [bind]. fold elements.
      destruct x as [xv xc], y as [yv yc].
      destruct b.
      + exists c. split; [exact Ec|]. rewrite same_cons. rewrite Hc.
        pose proof (proj1 Hb eq_refl) as B. apply same_cons in B. tauto.
      + exists false. split; [reflexivity|]. split; [discriminate|]. intro F. exfalso.
        assert (false = true); [|discriminate]. apply Hb. apply same_cons. apply same_cons in F.
        split; [tauto|]. split; [tauto|]. constructor. }
  destruct H as [b [Eb Hb]]. rewrite Eb. exists b. split; [reflexivity|].
  rewrite Hb, same_cons. split; [intro F; split; [exact E|split; [exact F|constructor]]|tauto].
Qed.
End Equality.

Lemma tree_eq_same eqb (t s : tree) : exists b, tree_eq (fun v w => Ok (eqb v w)) t s = Ok b /\
  (b = true <-> same eqb [t] [s]).
Proof. apply (tree_eq_ok eqb t 0 s). Qed.

Lemma same_eq eqb : (forall v w, eqb v w = true <-> v = w) -> forall l k, same eqb l k <-> l = k.
Proof.
  intros H l k. split.
  - intro S. apply (outline_inj l 0 k). unfold same in S.
    induction S as [|[a v] [b w] x y [E1 E2] _ IH]; [reflexivity|]. cbn [fst snd] in *. subst b.
    apply H in E2. subst w. rewrite IH. reflexivity.
  - intros ->. unfold same. induction (outline 0 k); constructor; [|assumption]. split; [reflexivity|].
    apply H. reflexivity.
Qed.

Lemma tree_eq_iff eqb (t s : tree) : (forall v w, eqb v w = true <-> v = w) ->
  exists b, tree_eq (fun v w => Ok (eqb v w)) t s = Ok b /\ (b = true <-> t = s).
Proof.
  intro H. destruct (tree_eq_same eqb t s) as [b [E Hb]]. exists b. split; [exact E|]. rewrite Hb, (same_eq eqb H).
  split; [intro X; injection X; auto|intros ->; reflexivity].
Qed.

Lemma tree_eq_throws value_eq (t s : tree) e :
  tree_eq value_eq t s <> Throw e /\
  (value_eq (value t) (value s) = Throw e -> tree_eq value_eq t s = Terminate) /\
  (forall v, value_eq (value t) v = Throw e -> eq_value value_eq t v = Throw e).
Proof.
  destruct t as [v ch], s as [w dh]. split; [|split].
  - cbn [tree_eq]. match goal with |- noexcept_ ?m <> _ => destruct m; discriminate end.
  - cbn [tree_eq value]. intros ->. reflexivity.
  - intros u H. exact H.
Qed.
End Proofs.

From Verif Require Import Base ListLemmas TreeModel TreeSpec TreeProofs.

Section Proofs.
Context {V : Type}.
Notation tree := (tree V).
Implicit Types f l : list tree.

(** ** Outlines *)
Lemma outline_cons d v (ch l : list tree) : outline d (Node v ch :: l) = (d, v) :: outline (S d) ch ++ outline d l.
Proof. reflexivity. Qed.

Lemma outline_app d (a b : list tree) : outline d (a ++ b) = outline d a ++ outline d b.
Proof. unfold outline. apply flat_map_app. Qed.

Lemma outline_tree_len (t : tree) : forall d, length (outline_tree d t) = tree_size t.
Proof.
  induction t as [v ch IH] using tree_ind'. intro d. cbn [outline_tree length].
  change (tree_size (Node v ch)) with (S (size ch)). f_equal. unfold size.
  induction IH as [|t l Ht Hl IHl]; [reflexivity|]. cbn [flat_map fold_right]. rewrite app_length, Ht, IHl. reflexivity.
Qed.

Lemma outline_len d l : length (outline d l) = size l.
Proof.
  unfold outline. induction l as [|t l IH]; [reflexivity|]. cbn [flat_map]. rewrite app_length, outline_tree_len, IH.
  reflexivity.
Qed.

(** The outline determines the forest. *)
Lemma outline_depth_tree (t : tree) : forall d, Forall (fun x => d <= fst x) (outline_tree d t).
Proof.
  induction t as [v ch IH] using tree_ind'. intro d. cbn [outline_tree]. constructor; [cbn; lia|].
  induction IH as [|t l Ht Hl IHl]; [constructor|]. cbn [flat_map]. apply Forall_app. split; [|exact IHl].
  eapply Forall_impl; [|apply (Ht (S d))]. cbv beta. intros a H. lia.
Qed.

Lemma outline_depth d l : Forall (fun x => d <= fst x) (outline d l).
Proof.
  unfold outline. induction l as [|t l IH]; [constructor|]. cbn [flat_map]. apply Forall_app. split; [|exact IH].
  apply outline_depth_tree.
Qed.

Lemma split_depth d (a a' b b' : list (nat * V)) :
  Forall (fun x => S d <= fst x) a -> Forall (fun x => S d <= fst x) a' ->
  (forall x r, b = x :: r -> fst x = d) -> (forall x r, b' = x :: r -> fst x = d) ->
  a ++ b = a' ++ b' -> a = a' /\ b = b'.
Proof.
  revert a'; induction a as [|x a IH]; intros [|x' a'] Ha Ha' Hb Hb' E; cbn [app] in E.
  - auto.
  - inversion Ha'; subst. specialize (Hb x' (a' ++ b') eq_refl). lia.
  - inversion Ha; subst. specialize (Hb' x (a ++ b) eq_refl). lia.
  - injection E as -> E. inversion Ha; inversion Ha'; subst.
    destruct (IH a') as [-> ->]; auto.
Qed.

Lemma outline_head d l x r : outline d l = x :: r -> fst x = d.
Proof. destruct l as [|[v ch] l]; [discriminate|]. rewrite outline_cons. intro H. injection H as <- _. reflexivity. Qed.

Theorem outline_inj l : forall d l', outline d l = outline d l' -> l = l'.
Proof.
  remember (size l) as n eqn:Hn. revert l Hn.
  induction n as [n IH] using lt_wf_ind. intros l -> d l' E.
  destruct l as [|[v ch] l], l' as [|[v' ch'] l']; try (rewrite ?outline_cons in E; discriminate); [reflexivity|].
  rewrite !outline_cons in E. injection E as -> E.
  destruct (split_depth d _ _ _ _ (outline_depth (S d) ch) (outline_depth (S d) ch')
              (outline_head d l) (outline_head d l') E) as [E1 E2].
  rewrite size_cons in IH.
  rewrite (IH (size ch) ltac:(lia) ch eq_refl _ _ E1), (IH (size l) ltac:(lia) l eq_refl _ _ E2). reflexivity.
Qed.

(** ** Replacing a container *)
Lemma container_set f c l l' : container f c = Some l -> container (set_container f c l') c = Some l'.
Proof.
  revert f; induction c as [|i c IH]; intros f H; [reflexivity|].
  cbn [container set_container] in *. destruct (nth_error f i) as [[v ch]|] eqn:E; [|discriminate].
  assert (L : i < length f) by (apply nth_error_Some; congruence).
  rewrite nth_error_app2 by (rewrite firstn_length; lia).
  rewrite firstn_length_le by lia. rewrite Nat.sub_diag. cbn [nth_error children]. apply IH, H.
Qed.

Lemma set_context f c l : container f c = Some l -> exists B A,
  (forall d, exists B' A', length B' = B /\ length A' = A /\ outline d f = B' ++ outline (d + length c) l ++ A' /\
     forall l', outline d (set_container f c l') = B' ++ outline (d + length c) l' ++ A') /\
  (forall j, j <= length l -> rank f (c ++ [j]) = B + size (firstn j l)) /\
  (forall l' j, j <= length l' -> rank (set_container f c l') (c ++ [j]) = B + size (firstn j l')).
Proof.
  revert f; induction c as [|i c IH]; intros f H.
  - injection H as ->. exists 0, 0. split; [|split].
    + intro d. exists [], []. cbn [app length]. rewrite Nat.add_0_r, app_nil_r.
      split; [reflexivity|]. split; [reflexivity|]. split; [reflexivity|]. intro l'. rewrite app_nil_r. reflexivity.
    + intros j Hj. cbn. lia.
    + intros l' j Hj. cbn. lia.
  - cbn [container] in H. destruct (nth_error f i) as [[v ch]|] eqn:E; [|discriminate]. cbn [children] in H.
    assert (L : i < length f) by (apply nth_error_Some; congruence).
    destruct (IH ch H) as [B [A [HO [HR HR']]]].
    exists (size (firstn i f) + S B), (A + size (skipn (S i) f)). split; [|split].
    + intro d. destruct (HO (S d)) as [B' [A' [LB [LA [E1 E2]]]]].
      exists (outline d (firstn i f) ++ (d, v) :: B'), (A' ++ outline d (skipn (S i) f)).
      rewrite !app_length. cbn [length]. rewrite !outline_len, LB, LA.
      split; [lia|]. split; [lia|].
      replace (d + S (length c)) with (S d + length c) by lia. split.
      * rewrite <- (firstn_skipn i f) at 1. rewrite (skipn_nth _ _ _ E).
        rewrite outline_app, outline_cons, E1. rewrite <- ?app_assoc. cbn [app]. rewrite <- ?app_assoc. reflexivity.
      * intro l'. cbn [set_container]. rewrite E. rewrite outline_app, outline_cons, E2.
        rewrite <- ?app_assoc. cbn [app]. rewrite <- ?app_assoc. reflexivity.
    + intros j Hj. cbn [app rank]. destruct (c ++ [j]) as [|x r] eqn:Ec; [destruct c; discriminate|].
      rewrite <- Ec, E. cbn [children]. rewrite (HR j Hj). lia.
    + intros l' j Hj. cbn [app rank set_container]. rewrite E.
      destruct (c ++ [j]) as [|x r] eqn:Ec; [destruct c; discriminate|]. rewrite <- Ec.
      rewrite nth_error_app2 by (rewrite firstn_length; lia).
      rewrite firstn_length_le by lia. rewrite Nat.sub_diag. cbn [nth_error children].
      rewrite (HR' l' j Hj). rewrite firstn_app, firstn_firstn, Nat.min_id, firstn_length_le by lia.
      rewrite Nat.sub_diag. cbn [firstn]. rewrite app_nil_r. lia.
Qed.

(** ** Positions as container and offset *)
Lemma position_inv f n p : nth_error (positions f) n = Some p ->
  exists c j l, p = c ++ [j] /\ container f c = Some l /\ j <= length l /\ rank f p = n /\
    (n < size f -> j < length l) .
Proof.
  intro H. assert (n < length (positions f)) as L by (apply nth_error_Some; congruence).
  rewrite positions_len in L.
  assert (U : forall m, nth_error (positions f) m = Some p -> m = n).
  { intros m Hm. pose proof (positions_eq f m n p p Hm H) as E. rewrite path_eqb_refl in E.
    symmetry in E. apply Nat.eqb_eq, E. }
  destruct (Nat.eq_dec n (size f)) as [->|NE].
  - rewrite positions_end in H. injection H as <-. exists [], (length f), f.
    split; [reflexivity|]. split; [reflexivity|]. split; [lia|]. split; [|lia].
    cbn [rank]. rewrite firstn_all. lia.
  - destruct (positions_node f n ltac:(lia)) as [p' [t [Hp' [Hpre [_ N]]]]].
    rewrite H in Hp'. injection Hp' as <-.
    destruct (node_at_inv f p t N) as [c [j [l [-> [C Nj]]]]]. exists c, j, l.
    assert (j < length l) by (apply nth_error_Some; congruence).
    repeat split; auto; try lia. apply U.
    unfold positions. pose proof (rank_nth f _ t N) as R.
    rewrite nth_error_app1 by (apply nth_error_Some; congruence). exact R.
Qed.

Lemma rank_positions_node f p t : node_at f p = Some t -> nth_error (positions f) (rank f p) = Some p.
Proof.
  intro N. pose proof (rank_nth f p t N) as R. unfold positions.
  rewrite nth_error_app1 by (apply nth_error_Some; congruence). exact R.
Qed.

Lemma length_pred_snoc {A} (c : list A) j : pred (length (c ++ [j])) = length c.
Proof. rewrite app_length. cbn [length]. lia. Qed.

(** ** insert *)
Theorem insert_ok f n p t : nth_error (positions f) n = Some p ->
  exists before after f',
    insert f (at_path p) t = Ok (f', at_path p) /\
    outline 0 f = before ++ after /\ length before = n /\
    outline 0 f' = before ++ outline (pred (length p)) [t] ++ after /\
    node_at f' p = Some t.
Proof.
  intro H. destruct (position_inv f n p H) as [c [j [l [-> [C [Hj [HR _]]]]]]].
  destruct (set_context f c l C) as [B [A [HO [HRj _]]]].
  destruct (HO 0) as [B' [A' [LB [LA [E1 E2]]]]]. cbn [plus] in E1, E2.
  rewrite length_pred_snoc.
  exists (B' ++ outline (length c) (firstn j l)), (outline (length c) (skipn j l) ++ A'),
    (set_container f c (firstn j l ++ t :: skipn j l)).
  split; [|split; [|split; [|split]]].
  - unfold insert. rewrite at_path_snoc. cbn [iter_stack list_stack]. rewrite !back_snoc. cbn [bind].
    unfold cinsert, deref_list. rewrite C. cbn [bind fst snd]. rewrite path_eqb_refl.
    apply Nat.leb_le in Hj. rewrite Hj. cbn [bind fst snd]. rewrite set_snoc. reflexivity.
  - rewrite E1. rewrite <- (firstn_skipn j l) at 1. rewrite outline_app, <- ?app_assoc. reflexivity.
  - rewrite app_length, outline_len, LB. rewrite <- HR, (HRj j Hj). reflexivity.
  - rewrite E2. change (t :: skipn j l) with ([t] ++ skipn j l). rewrite !outline_app, <- ?app_assoc. reflexivity.
  - rewrite node_at_snoc, (container_set f c l _ C).
    rewrite nth_error_app2 by (rewrite firstn_length; lia). rewrite firstn_length_le by lia.
    rewrite Nat.sub_diag. reflexivity.
Qed.

(** ** insert_after *)
Theorem insert_after_ok f n c i s t : nth_error (preorder f) n = Some (c ++ [i]) ->
  node_at f (c ++ [i]) = Some s ->
  exists before after f',
    insert_after f (at_path (c ++ [i])) t = Ok (f', at_path (c ++ [S i])) /\
    outline 0 f = before ++ outline (length c) [s] ++ after /\ length before = n /\
    outline 0 f' = before ++ outline (length c) [s] ++ outline (length c) [t] ++ after /\
    node_at f' (c ++ [S i]) = Some t.
Proof.
  intros H N. destruct (node_at_inv f _ _ N) as [c0 [i0 [l [Ec [C Ni]]]]].
  apply app_inj_tail in Ec. destruct Ec as [<- <-].
  assert (Li : i < length l) by (apply nth_error_Some; congruence).
  assert (HR : rank f (c ++ [i]) = n).
  { assert (Hn : nth_error (positions f) n = Some (c ++ [i])).
    { unfold positions. rewrite nth_error_app1 by (apply nth_error_Some; congruence). exact H. }
    pose proof (positions_eq f _ _ _ _ (rank_positions_node f _ _ N) Hn) as E. rewrite path_eqb_refl in E.
    symmetry in E. apply Nat.eqb_eq, E. }
  destruct (set_context f c l C) as [B [A [HO [HRj _]]]].
  destruct (HO 0) as [B' [A' [LB [LA [E1 E2]]]]]. cbn [plus] in E1, E2.
  exists (B' ++ outline (length c) (firstn i l)), (outline (length c) (skipn (S i) l) ++ A'),
    (set_container f c (firstn (S i) l ++ t :: skipn (S i) l)).
  assert (F : firstn (S i) l = firstn i l ++ [s]).
  { apply nth_error_split in Ni. destruct Ni as [a [b [-> L]]]. subst i.
    rewrite firstn_app_exact. replace (S (length a)) with (length a + 1) by lia.
    rewrite firstn_app_2. reflexivity. }
  split; [|split; [|split; [|split]]].
  - unfold insert_after. rewrite !at_path_snoc. cbn [iter_stack list_stack]. rewrite !back_snoc. cbn [bind].
    rewrite (cinc_ok f c i l C Li). cbn [bind].
    unfold cinsert, deref_list. rewrite C. cbn [bind fst snd]. rewrite path_eqb_refl.
    replace (Nat.leb (S i) (length l)) with true by (symmetry; apply Nat.leb_le; lia).
    cbn [bind fst snd]. rewrite set_snoc. reflexivity.
  - rewrite E1. rewrite <- (firstn_skipn i l) at 1. rewrite (skipn_nth _ _ _ Ni).
    change (s :: skipn (S i) l) with ([s] ++ skipn (S i) l). rewrite !outline_app, <- ?app_assoc. reflexivity.
  - rewrite app_length, outline_len, LB. rewrite <- HR, (HRj i) by lia. reflexivity.
  - rewrite E2, F. change (t :: skipn (S i) l) with ([t] ++ skipn (S i) l). rewrite !outline_app, <- ?app_assoc. reflexivity.
  - rewrite node_at_snoc, (container_set f c l _ C).
    rewrite nth_error_app2 by (rewrite firstn_length; lia). rewrite firstn_length_le by lia.
    rewrite Nat.sub_diag. reflexivity.
Qed.

(** ** erase *)
Lemma rank_cons f i p : p <> [] -> rank f (i :: p) =
  size (firstn i f) + match nth_error f i with Some t => S (rank (children t) p) | None => 0 end.
Proof. destruct p; [contradiction|]. reflexivity. Qed.

Lemma rank_up f c m l t : container f c = Some l -> nth_error l m = Some t ->
  rank f ((c ++ [m]) ++ [length (children t)]) = rank f (c ++ [S m]).
Proof.
  intros C N. pose proof (container_snoc f c m l t C N) as C'.
  assert (Lm : m < length l) by (apply nth_error_Some; congruence).
  destruct (set_context f c l C) as [B [A [_ [HR _]]]].
  rewrite (HR (S m)) by lia.
  revert f C C' HR. clear A. revert B. induction c as [|i c IH]; intros B f C C' HR.
  - cbn [app rank]. injection C as ->. rewrite N. destruct t as [v ch]. cbn [children].
    pose proof (HR 0 ltac:(lia)) as H0. cbn in H0. 
    rewrite firstn_all. 
    assert (F : firstn (S m) l = firstn m l ++ [Node v ch]).
    { apply nth_error_split in N. destruct N as [a [b [-> L]]]. subst m.
      rewrite firstn_app_exact. replace (S (length a)) with (length a + 1) by lia.
      rewrite firstn_app_2. reflexivity. }
    rewrite F, size_app. rewrite size_cons. cbn [size fold_right]. lia.
  - cbn [app container] in C, C'. destruct (nth_error f i) as [[v ch]|] eqn:E; [|discriminate].
    cbn [children] in C, C'.
    change (((i :: c) ++ [m]) ++ [length (children t)]) with (i :: (c ++ [m]) ++ [length (children t)]).
    rewrite rank_cons by (destruct (c ++ [m]); discriminate). rewrite E. cbn [children].
    destruct (set_context ch c l C) as [B1 [A1 [_ [HR1 _]]]].
    rewrite (IH B1 ch C C' HR1).
    specialize (HR (S m) ltac:(lia)). change ((i :: c) ++ [S m]) with (i :: c ++ [S m]) in HR.
    rewrite rank_cons in HR by (destruct c; discriminate).
    rewrite E in HR. cbn [children] in HR. rewrite (HR1 (S m)) in HR by lia. lia.
Qed.

Lemma pop_norm f g c : forall j l, container f c = Some l -> j <= length l ->
  exists q, pop_loop f g (length c + 1) (at_path (c ++ [j])) = Ok (at_path q) /\ rank f q = rank f (c ++ [j]) /\
    nth_error (positions f) (rank f q) = Some q.
Proof.
  induction c as [|m c IH] using rev_ind; intros j l C Hj.
  - injection C as <-. exists [j]. split; [reflexivity|]. split; [reflexivity|].
    destruct (Nat.eq_dec j (length f)) as [->|NE].
    + cbn [rank]. rewrite firstn_all, Nat.add_0_r. apply positions_end.
    + destruct (nth_error f j) as [t|] eqn:E; [|apply nth_error_None in E; lia].
      apply (rank_positions_node f [j] t). exact E.
  - rewrite container_app in C. destruct (container f c) as [l0|] eqn:C0; [|discriminate].
    cbn [container] in C. destruct (nth_error l0 m) as [t|] eqn:Nm; [|discriminate]. injection C as <-.
    assert (Lm : m < length l0) by (apply nth_error_Some; congruence).
    pose proof (container_snoc f c m l0 t C0 Nm) as C1.
    destruct (Nat.eq_dec j (length (children t))) as [->|NE].
    + destruct (IH (S m) l0 eq_refl ltac:(lia)) as [q [P [R Hq]]].
      exists q. split; [|split; [|exact Hq]].
      * rewrite app_length. cbn [length]. replace (length c + 1 + 1) with (S (length c + 1)) by lia.
        rewrite (pop_up f g _ c m l0 t C0 Nm). exact P.
      * rewrite R. symmetry. eapply rank_up; eassumption.
    + exists ((c ++ [m]) ++ [j]). split; [|split; [reflexivity|]].
      * replace (length (c ++ [m]) + 1) with (S (length (c ++ [m]))) by lia.
        apply pop_stop with (l := children t); [exact C1|auto].
      * destruct (nth_error (children t) j) as [s|] eqn:E; [|apply nth_error_None in E; lia].
        apply (rank_positions_node f _ s). rewrite node_at_snoc, C1. exact E.
Qed.

Theorem erase_ok dbg f n p s : nth_error (preorder f) n = Some p -> node_at f p = Some s ->
  exists before after f' q,
    erase dbg f (at_path p) = Ok (f', at_path q) /\
    outline 0 f = before ++ outline (pred (length p)) [s] ++ after /\ length before = n /\
    outline 0 f' = before ++ after /\
    nth_error (positions f') n = Some q.
Proof.
  intros H N. destruct (node_at_inv f _ _ N) as [c [i [l [-> [C Ni]]]]].
  assert (Li : i < length l) by (apply nth_error_Some; congruence).
  assert (HR : rank f (c ++ [i]) = n).
  { assert (Hn : nth_error (positions f) n = Some (c ++ [i])).
    { unfold positions. rewrite nth_error_app1 by (apply nth_error_Some; congruence). exact H. }
    pose proof (positions_eq f _ _ _ _ (rank_positions_node f _ _ N) Hn) as E. rewrite path_eqb_refl in E.
    symmetry in E. apply Nat.eqb_eq, E. }
  destruct (set_context f c l C) as [B [A [HO [HRj HRj']]]].
  destruct (HO 0) as [B' [A' [LB [LA [E1 E2]]]]]. cbn [plus] in E1, E2.
  rewrite length_pred_snoc.
  set (l' := firstn i l ++ skipn (S i) l) in *.
  set (f' := set_container f c l') in *.
  pose proof (container_set f c l l' C) as C'. fold f' in C'.
  assert (Ll : i <= length l').
  { unfold l'. rewrite app_length, firstn_length, skipn_length. lia. }
  destruct (pop_norm f' dbg c i l' C' Ll) as [q [P [R Hq]]].
  exists (B' ++ outline (length c) (firstn i l)), (outline (length c) (skipn (S i) l) ++ A'), f', q.
  assert (LN : length (B' ++ outline (length c) (firstn i l)) = n).
  { rewrite app_length, outline_len, LB. rewrite <- HR, (HRj i) by lia. reflexivity. }
  split; [|split; [|split; [|split]]].
  - unfold erase. rewrite at_path_snoc. cbn [iter_stack list_stack]. rewrite !back_snoc. cbn [bind].
    unfold cerase, deref_list. rewrite C. cbn [bind fst snd]. rewrite path_eqb_refl.
    apply Nat.ltb_lt in Li. rewrite Li. cbn [bind fst snd]. rewrite set_snoc. cbn [bind].
    fold l'. fold f'. rewrite app_length. cbn [length]. rewrite (proj1 (at_path_len c)).
    rewrite <- at_path_snoc, P. reflexivity.
  - rewrite E1. rewrite <- (firstn_skipn i l) at 1. rewrite (skipn_nth _ _ _ Ni).
    change (s :: skipn (S i) l) with ([s] ++ skipn (S i) l). rewrite !outline_app, <- ?app_assoc. reflexivity.
  - exact LN.
  - unfold f'. rewrite E2. unfold l'. rewrite !outline_app, <- ?app_assoc. reflexivity.
  - rewrite R in Hq. unfold f' in Hq. rewrite (HRj' l' i Ll) in Hq.
    replace (firstn i l') with (firstn i l) in Hq.
    + rewrite <- Hq. f_equal. rewrite <- LN, app_length, outline_len, LB. reflexivity.
    + unfold l'. rewrite firstn_app, firstn_firstn, Nat.min_id, firstn_length_le by lia.
      rewrite Nat.sub_diag. cbn [firstn]. rewrite app_nil_r. reflexivity.
Qed.

(** ** Forms of the statements used for the properties *)
Lemma steps_ok dbg f n p : nth_error (positions f) n = Some p ->
  exists b, it_begin f = Ok b /\ incr_n dbg f n b = Ok (at_path p).
Proof.
  intro H. exists (at_path [0]). split; [reflexivity|].
  apply (incr_n_from dbg f n 0 [0] p (positions_head f) H).
Qed.

Lemma positions_facts f : NoDup (positions f) /\ map (node_at f) (preorder f) = map Some (nodes f) /\
  it_end f = Ok (at_path [length f]) /\ length (preorder f) = length (nodes f).
Proof.
  split; [apply NoDup_preorder|]. split; [apply nodes_preorder|]. split; [reflexivity|].
  rewrite preorder_len, nodes_len. reflexivity.
Qed.

Lemma preorder_complete f p : (exists t, node_at f p = Some t) <-> In p (preorder f).
Proof.
  split.
  - intros [t N]. eapply nth_error_In. apply (rank_nth f p t N).
  - intro H. apply In_nth_error in H. destruct H as [n H]. destruct (preorder_node f n p H) as [t [_ N]]. eauto.
Qed.

Lemma incr_decr dbg f n p q : nth_error (positions f) n = Some p -> nth_error (positions f) (S n) = Some q ->
  incr dbg f (at_path p) = Ok (at_path q) /\ decr dbg f (at_path q) = Ok (at_path p).
Proof.
  intros Hp Hq. pose proof (positions_step f n p q Hp Hq) as St.
  split; [apply incr_step|apply decr_step]; exact St.
Qed.

Lemma make_iterator_node f ix : ix <> [] ->
  make_iterator f ix = match node_at f ix with Some _ => Ok (at_path ix) | None => Throw OutOfRange end.
Proof.
  intro NE. rewrite make_iterator_ok. pose proof (in_range_node f ix NE) as E.
  destruct (in_range f ix).
  - destruct E as [E _]. destruct (E eq_refl) as [t ->]. reflexivity.
  - destruct (node_at f ix) as [t|]; [|reflexivity]. destruct E as [_ E]. discriminate E; eauto.
Qed.

Lemma make_iterator_empty f : make_iterator f [] = Ok (Iterator [] []) /\ deref f (Iterator [] []) = UB OutOfBounds /\
  is_valid f [] = Ok false.
Proof. repeat split. Qed.

Lemma index_roundtrip dbg f ix t : node_at f ix = Some t ->
  exists it, make_iterator f ix = Ok it /\ index dbg f it = Ok ix /\ deref f it = Ok t /\ at_index dbg f ix = Ok t.
Proof.
  intro N. exists (at_path ix). split; [|split; [|split]].
  - rewrite make_iterator_node by (intros ->; discriminate). rewrite N. reflexivity.
  - apply index_ok. eapply node_container; eassumption.
  - apply deref_at_path, N.
  - apply at_index_ok, N.
Qed.

Lemma index_position dbg f p : In p (positions f) ->
  index dbg f (at_path p) = Ok p /\
  deref f (at_path p) = match node_at f p with Some t => Ok t | None => UB OutOfBounds end.
Proof.
  unfold positions. rewrite in_app_iff. intros [H|[<-|[]]].
  - apply preorder_complete in H. destruct H as [t N]. rewrite N.
    split; [apply index_ok; eapply node_container; eassumption|apply deref_at_path, N].
  - split; [apply index_ok; discriminate|]. cbn [node_at].
    unfold deref, at_path. cbn. destruct (nth_error f (length f)); reflexivity.
Qed.

Lemma insert_after_end f t e : it_end f = Ok e -> insert_after f e t = UB OutOfBounds.
Proof.
  intro H. injection H as <-. unfold insert_after. cbn [list_stack iter_stack back rev app bind].
  unfold cinc, deref_list. cbn [fst container bind snd]. rewrite Nat.ltb_irrefl. reflexivity.
Qed.

Lemma erase_end dbg f e : it_end f = Ok e -> erase dbg f e = UB OutOfBounds.
Proof.
  intro H. injection H as <-. unfold erase. cbn [list_stack iter_stack back rev app bind].
  unfold cerase, deref_list. cbn [fst container bind snd]. rewrite path_eqb_refl, Nat.ltb_irrefl. reflexivity.
Qed.

Lemma at_level_depth f p t d : node_at f p = Some t ->
  if Nat.ltb d (depth (at_path p)) then exists a, node_at f (firstn (S d) p) = Some a /\ at_level f (at_path p) d = Ok a
  else at_level f (at_path p) d = Terminate.
Proof. intro N. unfold depth. rewrite (proj1 (at_path_len p)). apply at_level_ok with (t := t), N. Qed.

Lemma depth_last_child f c i l : container f c = Some l -> i <= length l ->
  depth (at_path (c ++ [i])) = S (length c) /\
  is_last_child f (at_path (c ++ [i])) = Ok (Nat.eqb (S i) (length l)).
Proof.
  intros C Hi. split; [|apply is_last_child_ok; assumption].
  unfold depth. rewrite (proj1 (at_path_len _)), app_length. cbn [length]. lia.
Qed.
End Proofs.

From Verif Require Import Base ListLemmas TreeModel TreeSpec.

Section Proofs.
Context {V : Type}.
Notation tree := (tree V).
Implicit Types f : list tree.

(** ** Induction over trees *)
Fixpoint tree_ind' (P : tree -> Prop) (H : forall v ch, Forall P ch -> P (Node v ch)) (t : tree) : P t :=
  match t with
  | Node v ch =>
      H v ch ((fix go l : Forall P l :=
                 match l with [] => Forall_nil P | t :: l => Forall_cons t (tree_ind' P H t) (go l) end) ch)
  end.

(** ** Containers, nodes *)
Lemma container_app (f : list tree) c c' : container f (c ++ c') =
  match container f c with Some l => container l c' | None => None end.
Proof.
  revert f; induction c as [|i c IH]; intro f; [reflexivity|]. cbn [app container].
  destruct (nth_error f i); [apply IH|reflexivity].
Qed.

Lemma container_snoc (f : list tree) c i l t : container f c = Some l -> nth_error l i = Some t ->
  container f (c ++ [i]) = Some (children t).
Proof. intros H1 H2. rewrite container_app, H1. cbn [container]. rewrite H2. reflexivity. Qed.

Lemma node_at_cons (f : list tree) i p : p <> [] ->
  node_at f (i :: p) = match nth_error f i with Some t => node_at (children t) p | None => None end.
Proof. destruct p; [contradiction|]. intros _. cbn. destruct (nth_error f i) as [[v ch]|]; reflexivity. Qed.

Lemma node_at_snoc (f : list tree) c i : node_at f (c ++ [i]) =
  match container f c with Some l => nth_error l i | None => None end.
Proof.
  revert f; induction c as [|j c IH]; intro f; [reflexivity|].
  cbn [app container]. rewrite node_at_cons by (destruct c; discriminate).
  destruct (nth_error f j); [apply IH|reflexivity].
Qed.

Lemma node_at_inv (f : list tree) p t : node_at f p = Some t ->
  exists c i l, p = c ++ [i] /\ container f c = Some l /\ nth_error l i = Some t.
Proof.
  destruct p as [|a p] using rev_ind; [discriminate|]. clear IHp.
  rewrite node_at_snoc. destruct (container f p) as [l|] eqn:E; [|discriminate].
  intro H. exists p, a, l. auto.
Qed.

Lemma container_of_node (f : list tree) p t : node_at f p = Some t -> container f p = Some (children t).
Proof.
  intro H. destruct (node_at_inv f p t H) as [c [i [l [-> [C N]]]]]. exact (container_snoc f c i l t C N).
Qed.

Lemma node_at_child (f : list tree) p t i : node_at f p = Some t ->
  node_at f (p ++ [i]) = nth_error (children t) i.
Proof. intro H. rewrite node_at_snoc, (container_of_node f p t H). reflexivity. Qed.

(** ** The iterator at a path *)
Lemma stack_from_snoc c p i : stack_from c (p ++ [i]) = stack_from c p ++ [c ++ p].
Proof.
  revert c; induction p as [|j p IH]; intro c; cbn [app stack_from].
  - rewrite app_nil_r. reflexivity.
  - rewrite IH, <- app_assoc. reflexivity.
Qed.

Lemma stack_from_length c p : length (stack_from c p) = length p.
Proof. revert c; induction p as [|j p IH]; intro c; cbn; [reflexivity|]. rewrite IH. reflexivity. Qed.

Lemma combine_snoc {A B} (a : list A) (b : list B) x y : length a = length b ->
  combine (a ++ [x]) (b ++ [y]) = combine a b ++ [(x, y)].
Proof.
  revert b; induction a as [|z a IH]; intros [|w b] H; try discriminate; [reflexivity|].
  cbn [app combine]. rewrite IH; [reflexivity|]. injection H. auto.
Qed.

Lemma at_path_snoc (c : path) i : at_path (c ++ [i]) =
  Iterator (list_stack (at_path c) ++ [c]) (iter_stack (at_path c) ++ [(c, i)]).
Proof.
  unfold at_path. cbn [list_stack iter_stack]. rewrite stack_from_snoc.
  rewrite combine_snoc by apply stack_from_length. reflexivity.
Qed.

Lemma at_path_len p : length (iter_stack (at_path p)) = length p /\ length (list_stack (at_path p)) = length p.
Proof.
  unfold at_path. cbv zeta. cbn [list_stack iter_stack].
  rewrite combine_length, stack_from_length. split; [apply Nat.min_id|reflexivity].
Qed.

Lemma back_snoc {A} (l : list A) x : back (l ++ [x]) = Ok x.
Proof. unfold back. rewrite rev_app_distr. reflexivity. Qed.
Lemma pop_snoc {A} (l : list A) x : pop_back (l ++ [x]) = Ok l.
Proof. unfold pop_back. rewrite removelast_last. destruct l; reflexivity. Qed.
Lemma set_snoc {A} (l : list A) x y : set_back (l ++ [x]) y = Ok (l ++ [y]).
Proof. unfold set_back. rewrite removelast_last. destruct l; reflexivity. Qed.
Lemma nonempty_snoc {A} (l : list A) x : nonempty (l ++ [x]) = true.
Proof. destruct l; reflexivity. Qed.

Lemma path_eqb_refl p : path_eqb p p = true.
Proof. unfold path_eqb. destruct (list_eq_dec Nat.eq_dec p p); congruence. Qed.
Lemma ceq_same (c : path) i j : ceq (c, i) (c, j) = Ok (Nat.eqb i j).
Proof. unfold ceq. cbn [fst snd]. rewrite path_eqb_refl. reflexivity. Qed.
Lemma clt_same (c : path) i j : clt (c, i) (c, j) = Ok (Nat.ltb i j).
Proof. unfold clt. cbn [fst snd]. rewrite path_eqb_refl. reflexivity. Qed.

Lemma cbegin_ok (f : list tree) c l : container f c = Some l -> cbegin f c = Ok (c, 0).
Proof. intro H. unfold cbegin, deref_list. rewrite H. reflexivity. Qed.
Lemma cend_ok (f : list tree) c l : container f c = Some l -> cend f c = Ok (c, length l).
Proof. intro H. unfold cend, deref_list. rewrite H. reflexivity. Qed.
Lemma cderef_ok (f : list tree) c i l t : container f c = Some l -> nth_error l i = Some t ->
  cderef f (c, i) = Ok t.
Proof. intros H H'. unfold cderef, deref_list. cbn [fst snd]. rewrite H. cbn [bind]. rewrite H'. reflexivity. Qed.
Lemma cinc_ok (f : list tree) c i l : container f c = Some l -> i < length l -> cinc f (c, i) = Ok (c, S i).
Proof.
  intros H H'. unfold cinc, deref_list. cbn [fst snd]. rewrite H. cbn [bind].
  apply Nat.ltb_lt in H'. rewrite H'. reflexivity.
Qed.

Lemma assert_true dbg : assert_ dbg true = Ok tt.
Proof. destruct dbg; reflexivity. Qed.

(** ** Popping *)
Lemma pop_stop (f : list tree) g k c i l : container f c = Some l -> c = [] \/ i <> length l ->
  pop_loop f g (S k) (at_path (c ++ [i])) = Ok (at_path (c ++ [i])).
Proof.
  intros H D. rewrite at_path_snoc. cbn [pop_loop iter_stack list_stack].
  rewrite app_length. cbn [length]. rewrite (proj1 (at_path_len c)).
  destruct c as [|a c]; [reflexivity|].
  destruct D as [D|D]; [discriminate|].
  cbn [length plus Nat.eqb negb]. replace (length c + 1 =? 0) with false by (symmetry; apply Nat.eqb_neq; lia).
  cbn [negb]. rewrite back_snoc. cbn [bind]. rewrite back_snoc. cbn [bind].
  rewrite (cend_ok f (a :: c) l H). cbn [bind]. rewrite ceq_same. cbn [bind].
  apply Nat.eqb_neq in D. rewrite D. reflexivity.
Qed.

Lemma pop_up (f : list tree) g k c m l t : container f c = Some l -> nth_error l m = Some t ->
  pop_loop f g (S k) (at_path ((c ++ [m]) ++ [length (children t)])) = pop_loop f g k (at_path (c ++ [S m])).
Proof.
  intros H N. rewrite at_path_snoc. cbn [pop_loop iter_stack list_stack].
  rewrite app_length. cbn [length]. rewrite (proj1 (at_path_len (c ++ [m]))), app_length. cbn [length].
  replace (length c + 1 + 1 =? 1) with false by (symmetry; apply Nat.eqb_neq; lia).
  cbn [negb]. rewrite back_snoc. cbn [bind]. rewrite back_snoc. cbn [bind].
  rewrite (cend_ok f (c ++ [m]) (children t) (container_snoc f c m l t H N)). cbn [bind].
  rewrite ceq_same, Nat.eqb_refl. cbn [bind]. rewrite !pop_snoc. cbn [bind].
  rewrite !at_path_snoc. cbn [iter_stack list_stack]. rewrite !app_length. cbn [length].
  rewrite (proj1 (at_path_len c)), (proj2 (at_path_len c)), Nat.eqb_refl, assert_true. cbn [bind].
  rewrite back_snoc. cbn [bind].
  rewrite (cinc_ok f c m l H) by (apply nth_error_Some; congruence). cbn [bind].
  rewrite set_snoc. reflexivity.
Qed.

(** ** Last descendant of a node *)
Inductive last_desc (f : list tree) : path -> path -> Prop :=
| ld_leaf x v : node_at f x = Some (Node v []) -> last_desc f x x
| ld_more x v ch p : node_at f x = Some (Node v ch) -> ch <> [] ->
    last_desc f (x ++ [pred (length ch)]) p -> last_desc f x p.

Lemma last_desc_leaf f x p : last_desc f x p -> exists v, node_at f p = Some (Node v []).
Proof. induction 1; eauto. Qed.

Lemma last_desc_ext f x p : last_desc f x p -> exists r, p = x ++ r.
Proof.
  induction 1 as [x v N|x v ch p N Ch LD [r IH]].
  - exists []. symmetry. apply app_nil_r.
  - rewrite IH. rewrite <- app_assoc. eexists. reflexivity.
Qed.

Lemma pop_last f g x p : last_desc f x p -> forall c m c' m', x = c ++ [m] -> p = c' ++ [m'] ->
  forall k, pop_loop f g (k + (length p - length x)) (at_path (c' ++ [S m'])) = pop_loop f g k (at_path (c ++ [S m])).
Proof.
  induction 1 as [x v N|x v ch p N Ch LD IH]; intros c m c' m' E E' k.
  - subst x. apply app_inj_tail in E'. destruct E' as [-> ->]. rewrite Nat.sub_diag, Nat.add_0_r. reflexivity.
  - destruct (last_desc_ext _ _ _ LD) as [r Er].
    specialize (IH x (pred (length ch)) c' m' eq_refl E' (S k)).
    rewrite app_length in IH. cbn [length] in IH.
    assert (L : length p = length x + 1 + length r) by (rewrite Er, !app_length; reflexivity).
    replace (k + (length p - length x)) with (S k + (length p - (length x + 1))) by lia.
    rewrite IH. subst x.
    destruct (node_at_inv f (c ++ [m]) _ N) as [c0 [i0 [l [Ec [C Nt]]]]].
    apply app_inj_tail in Ec. destruct Ec as [<- <-].
    replace (S (pred (length ch))) with (length (children (Node v ch))).
    + apply pop_up with (l := l); assumption.
    + cbn [children]. destruct ch; [contradiction|reflexivity].
Qed.

(** ** One step of the traversal *)
Inductive step (f : list tree) : path -> path -> Prop :=
| step_child p v ch : node_at f p = Some (Node v ch) -> ch <> [] -> step f p (p ++ [0])
| step_next p c m l : last_desc f (c ++ [m]) p -> container f c = Some l ->
    (c = [] \/ S m < length l) -> step f p (c ++ [S m]).

Lemma incr_step dbg f p q : step f p q -> incr dbg f (at_path p) = Ok (at_path q).
Proof.
  intro St.
  assert (Hd : exists t, node_at f p = Some t).
  { destruct St as [p v ch N Ch|p c m l LD C D]; [eauto|].
    destruct (last_desc_leaf _ _ _ LD) as [v N]. eauto. }
  destruct Hd as [t Np]. destruct (node_at_inv f p t Np) as [c0 [i0 [l0 [-> [C0 N0]]]]].
  assert (Lt : i0 < length l0) by (apply nth_error_Some; congruence).
  unfold incr. rewrite at_path_snoc. cbn [iter_stack list_stack].
  rewrite nonempty_snoc, assert_true. cbn [bind].
  assert (L : length (iter_stack (at_path c0) ++ [(c0, i0)]) = length (list_stack (at_path c0) ++ [c0])).
  { rewrite !app_length. destruct (at_path_len c0) as [-> ->]. reflexivity. }
  rewrite L, Nat.eqb_refl, assert_true. cbn [bind]. rewrite back_snoc. cbn [bind].
  assert (A : (if dbg then c <- back (list_stack (at_path c0) ++ [c0]) ;; e <- cend f c ;; b <- ceq (c0, i0) e ;;
               assert_ dbg (negb b) else Ok tt) = Ok tt).
  { destruct dbg; [|reflexivity]. rewrite back_snoc. cbn [bind].
    rewrite (cend_ok f c0 l0 C0). cbn [bind]. rewrite ceq_same. cbn [bind].
    replace (i0 =? length l0) with false by (symmetry; apply Nat.eqb_neq; lia). reflexivity. }
  rewrite A. cbn [bind]. rewrite (cderef_ok f c0 i0 l0 t C0 N0). cbn [bind fst snd].
  inversion St as [p v ch N Ch E1 E2|p c m l LD C D E1 E2]; subst.
  - rewrite Np in N. injection N as ->. cbn [children].
    replace (nonempty ch) with true by (destruct ch; [contradiction|reflexivity]).
    rewrite (cbegin_ok f (c0 ++ [i0]) ch) by (apply (container_snoc f c0 i0 l0 _ C0 N0)). cbn [bind].
    unfold push_back. rewrite (at_path_snoc (c0 ++ [i0]) 0), (at_path_snoc c0 i0). reflexivity.
  - destruct (last_desc_leaf _ _ _ LD) as [v N]. rewrite Np in N. injection N as ->.
    cbn [children nonempty]. rewrite (cinc_ok f c0 i0 l0 C0 Lt). cbn [bind]. rewrite set_snoc. cbn [bind].
    rewrite app_length. cbn [length]. rewrite (proj1 (at_path_len c0)).
    replace (Nat.leb 1 (length c0 + 1)) with true by (symmetry; apply Nat.leb_le; lia).
    rewrite assert_true. cbn [bind].
    pose proof (pop_last f false (c ++ [m]) (c0 ++ [i0]) LD c m c0 i0 eq_refl eq_refl) as P.
    destruct (last_desc_ext _ _ _ LD) as [r Er].
    assert (Lr : length c0 + 1 = length c + 1 + length r).
    { apply (f_equal (@length nat)) in Er. rewrite !app_length in Er. cbn [length] in Er. lia. }
    specialize (P (length c + 1)). rewrite !app_length in P. cbn [length] in P.
    replace (length c + 1 + (length c0 + 1 - (length c + 1))) with (length c0 + 1) in P by lia.
    rewrite (at_path_snoc c0 (S i0)) in P. rewrite P.
    replace (length c + 1) with (S (length c)) by lia.
    apply pop_stop with (l := l); [exact C|]. destruct D; [auto|right; lia].
Qed.

(** ** Backwards *)
Lemma deref_at_path f p t : node_at f p = Some t -> deref f (at_path p) = Ok t.
Proof.
  intro H. destruct (node_at_inv f p t H) as [c [i [l [-> [C N]]]]].
  unfold deref. rewrite at_path_snoc. cbn [iter_stack]. rewrite back_snoc. cbn [bind].
  exact (cderef_ok f c i l t C N).
Qed.

Lemma descend_last dbg f x p : last_desc f x p -> forall c m, x = c ++ [m] ->
  forall k, length p - length x < k -> descend dbg f k (at_path (c ++ [S m])) = Ok (at_path p).
Proof.
  induction 1 as [x v N|x v ch p N Ch LD IH]; intros c m E k Hk; subst x.
  - destruct k as [|k]; [lia|].
    destruct (node_at_inv f _ _ N) as [c0 [i0 [l [Ec [C Nt]]]]].
    apply app_inj_tail in Ec. destruct Ec as [<- <-].
    rewrite (at_path_snoc c (S m)). cbn [descend iter_stack list_stack]. rewrite back_snoc. cbn [bind].
    assert (A : (if dbg then c1 <- back (list_stack (at_path c) ++ [c]) ;; b <- cbegin f c1 ;; b <- ceq (c, S m) b ;;
               assert_ dbg (negb b) else Ok tt) = Ok tt).
    { destruct dbg; [|reflexivity]. rewrite back_snoc. cbn [bind].
      rewrite (cbegin_ok f c l C). cbn [bind]. rewrite ceq_same. reflexivity. }
    rewrite A. cbn [bind].
    cbn [cdec snd fst bind]. rewrite set_snoc. cbn [bind].
    rewrite (cderef_ok f c m l _ C Nt). cbn [bind children nonempty].
    rewrite at_path_snoc. reflexivity.
  - destruct k as [|k]; [lia|].
    destruct (last_desc_ext _ _ _ LD) as [r Er].
    destruct (node_at_inv f _ _ N) as [c0 [i0 [l [Ec [C Nt]]]]].
    apply app_inj_tail in Ec. destruct Ec as [<- <-].
    rewrite (at_path_snoc c (S m)). cbn [descend iter_stack list_stack]. rewrite back_snoc. cbn [bind].
    assert (A : (if dbg then c1 <- back (list_stack (at_path c) ++ [c]) ;; b <- cbegin f c1 ;; b <- ceq (c, S m) b ;;
               assert_ dbg (negb b) else Ok tt) = Ok tt).
    { destruct dbg; [|reflexivity]. rewrite back_snoc. cbn [bind].
      rewrite (cbegin_ok f c l C). cbn [bind]. rewrite ceq_same. reflexivity. }
    rewrite A. cbn [bind].
    cbn [cdec snd fst bind]. rewrite set_snoc. cbn [bind].
    rewrite (cderef_ok f c m l _ C Nt). cbn [bind children].
    replace (nonempty ch) with true by (destruct ch; [contradiction|reflexivity]).
    rewrite (cend_ok f (c ++ [m]) ch) by (apply (container_snoc f c m l _ C Nt)). cbn [bind].
    specialize (IH (c ++ [m]) (pred (length ch)) eq_refl k).
    replace (S (pred (length ch))) with (length ch) in IH by (destruct ch; [contradiction|reflexivity]).
    rewrite at_path_snoc, (at_path_snoc c m) in IH. cbn [iter_stack list_stack] in IH.
    unfold push_back. apply IH.
    rewrite !app_length. rewrite Er in *. rewrite !app_length in *. cbn [length] in *. lia.
Qed.

(** ** Sizes *)
Lemma size_app (a b : list tree) : size (a ++ b) = size a + size b.
Proof. unfold size. induction a as [|t a IH]; cbn [app fold_right]; [reflexivity|]. rewrite IH. lia. Qed.

Lemma size_cons v ch (l : list tree) : size (Node v ch :: l) = S (size ch) + size l.
Proof. reflexivity. Qed.

Lemma size_nth (l : list tree) i t : nth_error l i = Some t -> tree_size t <= size l.
Proof.
  intro H. apply nth_error_split in H. destruct H as [a [b [-> _]]]. rewrite size_app.
  unfold size at 2. cbn [fold_right]. lia.
Qed.

Lemma node_depth (f : list tree) p t : node_at f p = Some t -> length p <= size f.
Proof.
  revert f; induction p as [|i p IH]; intros f H; [discriminate|].
  destruct p as [|j p].
  - cbn in H. apply size_nth in H. destruct t. cbn in *. lia.
  - rewrite node_at_cons in H by discriminate.
    destruct (nth_error f i) as [[v ch]|] eqn:E; [|discriminate].
    specialize (IH ch H). apply size_nth in E. change (tree_size (Node v ch)) with (S (size ch)) in E.
    cbn [length] in *. lia.
Qed.

Lemma decr_step dbg f p q : step f p q -> decr dbg f (at_path q) = Ok (at_path p).
Proof.
  intro St. inversion St as [p' v ch N Ch E1 E2|p' c m l LD C D E1 E2]; subst.
  - pose proof (container_of_node f p _ N) as C. cbn [children] in C.
    unfold decr. rewrite at_path_snoc. cbn [iter_stack list_stack].
    rewrite !nonempty_snoc, assert_true. cbn [bind]. rewrite !back_snoc. cbn [bind].
    rewrite (cbegin_ok f p ch C). cbn [bind]. rewrite ceq_same. cbn [bind Nat.eqb].
    rewrite !pop_snoc. cbn [bind].
    destruct (at_path p); reflexivity.
  - unfold decr. rewrite at_path_snoc. cbn [iter_stack list_stack].
    rewrite !nonempty_snoc, assert_true. cbn [bind]. rewrite !back_snoc. cbn [bind].
    rewrite (cbegin_ok f c l C). cbn [bind]. rewrite ceq_same. cbn [bind Nat.eqb].
    rewrite <- at_path_snoc. destruct (last_desc_leaf _ _ _ LD) as [v N].
    apply descend_last with (x := c ++ [m]); [exact LD|reflexivity|].
    pose proof (node_depth f p _ N). lia.
Qed.

(** ** Chains *)
Inductive chain {A} (R : A -> A -> Prop) : list A -> Prop :=
| chain_nil : chain R []
| chain_one x : chain R [x]
| chain_cons x y l : R x y -> chain R (y :: l) -> chain R (x :: y :: l).

Lemma chain_app {A} (R : A -> A -> Prop) l a b m :
  chain R (l ++ [a]) -> R a b -> chain R (b :: m) -> chain R ((l ++ [a]) ++ b :: m).
Proof.
  intros H1 H2 H3. induction l as [|x l IH]; [constructor; assumption|].
  destruct l as [|y l]; cbn [app] in *.
  - inversion H1; subst. constructor; [assumption|]. constructor; assumption.
  - inversion H1; subst. constructor; [assumption|]. apply IH. assumption.
Qed.

Lemma chain_nth {A} (R : A -> A -> Prop) l : chain R l -> forall n x y,
  nth_error l n = Some x -> nth_error l (S n) = Some y -> R x y.
Proof.
  induction 1 as [|x|x y l Hr Hc IH]; intros n a b Ha Hb.
  - destruct n; discriminate.
  - destruct n as [|[|n]]; discriminate.
  - destruct n as [|n]; [injection Ha as <-; injection Hb as <-; exact Hr|].
    exact (IH n a b Ha Hb).
Qed.

Lemma chain_trans_nth {A} (R : A -> A -> Prop) l : (forall x y z, R x y -> R y z -> R x z) ->
  chain R l -> forall n m x y, n < m -> nth_error l n = Some x -> nth_error l m = Some y -> R x y.
Proof.
  intros T C n m. induction m as [|m IH]; intros x y L Hx Hy; [lia|].
  destruct (nth_error l m) as [z|] eqn:E.
  - assert (R z y) by (eapply chain_nth; eauto).
    destruct (Nat.eq_dec n m) as [->|NE]; [congruence|]. eapply T; [|eassumption]. apply IH; [lia|assumption|reflexivity].
  - apply nth_error_None in E. assert (nth_error l (S m) <> None) by congruence.
    apply nth_error_Some in H. lia.
Qed.

Lemma chain_weaken {A} (R R' : A -> A -> Prop) l : (forall x y, R x y -> R' x y) -> chain R l -> chain R' l.
Proof. intros H. induction 1; constructor; auto. Qed.

(** ** Paths *)
Lemma tree_paths_eq i v (ch : list tree) : tree_paths i (Node v ch) = [i] :: map (cons i) (preorder ch).
Proof. reflexivity. Qed.

Lemma map_app_cons c i (l : list path) : map (app c) (map (cons i) l) = map (app (c ++ [i])) l.
Proof. rewrite map_map. apply map_ext. intro a. rewrite <- app_assoc. reflexivity. Qed.

Definition good (f : list tree) (t : tree) : Prop :=
  forall c i, node_at f (c ++ [i]) = Some t ->
  exists L p, map (app c) (tree_paths i t) = L ++ [p] /\ chain (step f) (L ++ [p]) /\
    last_desc f (c ++ [i]) p /\ exists M, L ++ [p] = (c ++ [i]) :: M.

Lemma good_list f c l : forall pre, container f c = Some (pre ++ l) -> Forall (good f) l -> l <> [] ->
  exists L p, map (app c) (paths_from (length pre) l) = L ++ [p] /\ chain (step f) (L ++ [p]) /\
    last_desc f (c ++ [pred (length (pre ++ l))]) p /\ exists M, L ++ [p] = (c ++ [length pre]) :: M.
Proof.
  induction l as [|t l IH]; intros pre C G NE; [contradiction|].
  inversion G as [|? ? Gt Gl]; subst.
  assert (N : node_at f (c ++ [length pre]) = Some t).
  { rewrite node_at_snoc, C. rewrite nth_error_app2 by lia. rewrite Nat.sub_diag. reflexivity. }
  destruct (Gt c (length pre) N) as [L1 [p1 [E1 [C1 [D1 [M1 H1]]]]]].
  destruct l as [|t' l].
  - cbn [paths_from]. rewrite app_nil_r. exists L1, p1. split; [exact E1|]. split; [exact C1|].
    split; [|eauto]. rewrite app_length. cbn [length]. replace (pred (length pre + 1)) with (length pre) by lia.
    exact D1.
  - specialize (IH (pre ++ [t])). rewrite <- app_assoc in IH. cbn [app] in IH.
    destruct (IH C Gl ltac:(discriminate)) as [L2 [p2 [E2 [C2 [D2 [M2 H2]]]]]].
    rewrite app_length in E2, H2. cbn [length] in E2, H2. rewrite Nat.add_1_r in E2, H2.
    exists ((L1 ++ [p1]) ++ L2), p2.
    assert (EQ : ((L1 ++ [p1]) ++ L2) ++ [p2] = (L1 ++ [p1]) ++ (c ++ [S (length pre)]) :: M2).
    { rewrite <- H2. rewrite <- app_assoc. reflexivity. }
    split; [|split; [|split]].
    + change (paths_from (length pre) (t :: t' :: l)) with (tree_paths (length pre) t ++ paths_from (S (length pre)) (t' :: l)).
      rewrite map_app, E1, E2, EQ, H2. reflexivity.
    + rewrite EQ. apply chain_app; [exact C1| |rewrite <- H2; exact C2].
      eapply step_next; [exact D1|exact C|]. right. rewrite app_length. cbn [length]. lia.
    + exact D2.
    + rewrite EQ, H1. eexists. reflexivity.
Qed.

Lemma good_all f t : good f t.
Proof.
  induction t as [v ch IH] using tree_ind'. intros c i N.
  rewrite tree_paths_eq. cbn [map]. rewrite map_app_cons.
  destruct ch as [|t ch].
  - exists [], (c ++ [i]). split; [reflexivity|]. split; [constructor|]. split; [|eexists; reflexivity].
    eapply ld_leaf; exact N.
  - destruct (good_list f (c ++ [i]) (t :: ch) []) as [L [p [E [C [D [M H]]]]]].
    + exact (container_of_node f _ _ N).
    + exact IH.
    + discriminate.
    + exists ((c ++ [i]) :: L), p. cbn [length] in E.
      change (paths_from 0 (t :: ch)) with (preorder (t :: ch)) in E.
      split; [rewrite E; reflexivity|]. split; [|split].
      * cbn [app]. rewrite H. constructor; [|rewrite <- H; exact C].
        eapply step_child; [exact N|discriminate].
      * eapply ld_more; [exact N|discriminate|exact D].
      * cbn [app]. eexists. reflexivity.
Qed.

Lemma positions_chain f : chain (step f) (positions f).
Proof.
  unfold positions, preorder. destruct f as [|t f]; [constructor|].
  destruct (good_list (t :: f) [] (t :: f) []) as [L [p [E [C [D _]]]]].
  - reflexivity.
  - apply Forall_forall. intros; apply good_all.
  - discriminate.
  - rewrite (map_ext _ (fun x => x)) in E by reflexivity. rewrite map_id in E. cbn [length] in E.
    rewrite E. apply chain_app; [exact C| |constructor].
    change [length (t :: f)] with ([] ++ [S (pred (length (t :: f)))]).
    eapply step_next; [exact D|reflexivity|]. left. reflexivity.
Qed.

Lemma positions_head f : nth_error (positions f) 0 = Some [0].
Proof. unfold positions, preorder. destruct f as [|[v ch] f]; reflexivity. Qed.

Lemma positions_step f n p q : nth_error (positions f) n = Some p -> nth_error (positions f) (S n) = Some q ->
  step f p q.
Proof. apply chain_nth, positions_chain. Qed.

Lemma tree_paths_len i (t : tree) : length (tree_paths i t) = tree_size t.
Proof.
  revert i; induction t as [v ch IH] using tree_ind'; intro i. rewrite tree_paths_eq. cbn [length].
  rewrite map_length. change (tree_size (Node v ch)) with (S (size ch)). f_equal.
  unfold preorder, size. generalize 0 at 1. induction IH as [|t l Ht Hl IHl]; intro k; [reflexivity|].
  cbn [paths_from fold_right]. rewrite app_length, Ht, IHl. reflexivity.
Qed.

Lemma paths_from_len k (l : list tree) : length (paths_from k l) = size l.
Proof.
  revert k; induction l as [|t l IH]; intro k; [reflexivity|]. cbn [paths_from].
  rewrite app_length, tree_paths_len, IH. reflexivity.
Qed.

Lemma preorder_len (f : list tree) : length (preorder f) = size f.
Proof. apply paths_from_len. Qed.

Lemma positions_len (f : list tree) : length (positions f) = S (size f).
Proof. unfold positions. rewrite app_length, preorder_len. cbn [length]. lia. Qed.

(** Incrementing [n] times from the beginning. *)
Lemma incr_n_from dbg f n : forall k p q, nth_error (positions f) k = Some p ->
  nth_error (positions f) (k + n) = Some q -> incr_n dbg f n (at_path p) = Ok (at_path q).
Proof.
  induction n as [|n IH]; intros k p q Hp Hq.
  - rewrite Nat.add_0_r in Hq. cbn [incr_n]. congruence.
  - assert (exists r, nth_error (positions f) (S k) = Some r) as [r Hr].
    { destruct (nth_error (positions f) (S k)) as [r|] eqn:E; [eauto|].
      apply nth_error_None in E. assert (k + S n < length (positions f)) by (apply nth_error_Some; congruence). lia. }
    cbn [incr_n]. rewrite (incr_step dbg f p r) by (eapply positions_step; eassumption). cbn [bind].
    apply (IH (S k) r q Hr). rewrite <- Hq. f_equal. lia.
Qed.

(** ** Nodes in pre-order *)
Lemma paths_nonempty k (l : list tree) : Forall (fun p => p <> []) (paths_from k l).
Proof.
  revert k; induction l as [|[v ch] l IH]; intro k; [constructor|]. cbn [paths_from].
  apply Forall_app. split; [|apply IH]. rewrite tree_paths_eq. constructor; [discriminate|].
  apply Forall_forall. intros x Hx. apply in_map_iff in Hx. destruct Hx as [y [<- _]]. discriminate.
Qed.

Lemma nodes_tree (t : tree) : forall f i, nth_error f i = Some t ->
  map (node_at f) (tree_paths i t) = map Some (subtrees t).
Proof.
  induction t as [v ch IH] using tree_ind'. intros f i N. rewrite tree_paths_eq.
  cbn [map subtrees node_at]. rewrite N. f_equal.
  rewrite map_map.
  transitivity (map (node_at ch) (preorder ch)).
  - apply map_ext_in. intros p Hp.
    pose proof (paths_nonempty 0 ch) as NEs. rewrite Forall_forall in NEs. specialize (NEs p Hp).
    rewrite node_at_cons by exact NEs. rewrite N. reflexivity.
  - unfold preorder.
    assert (G : forall l pre, ch = pre ++ l -> Forall (fun t => forall f i, nth_error f i = Some t ->
              map (node_at f) (tree_paths i t) = map Some (subtrees t)) l ->
              map (node_at ch) (paths_from (length pre) l) = map Some (flat_map subtrees l)).
    { induction l as [|t l IHl]; intros pre E Hl; [reflexivity|].
      inversion Hl as [|? ? Ht Hl']; subst. cbn [paths_from flat_map]. rewrite !map_app. f_equal.
      - apply Ht. rewrite nth_error_app2 by lia. rewrite Nat.sub_diag. reflexivity.
      - specialize (IHl (pre ++ [t])). rewrite <- app_assoc in IHl. cbn [app] in IHl.
        rewrite app_length in IHl. cbn [length] in IHl. rewrite Nat.add_1_r in IHl. apply IHl; auto. }
    apply (G ch []); auto.
Qed.

Lemma nodes_preorder (f : list tree) : map (node_at f) (preorder f) = map Some (nodes f).
Proof.
  unfold preorder, nodes.
  assert (G : forall l pre, f = pre ++ l -> 
            map (node_at f) (paths_from (length pre) l) = map Some (flat_map subtrees l)).
  { induction l as [|t l IHl]; intros pre E; [reflexivity|].
    cbn [paths_from flat_map]. rewrite !map_app. f_equal.
    - apply nodes_tree. rewrite E, nth_error_app2 by lia. rewrite Nat.sub_diag. reflexivity.
    - specialize (IHl (pre ++ [t])). rewrite <- app_assoc in IHl. cbn [app] in IHl.
      rewrite app_length in IHl. cbn [length] in IHl. rewrite Nat.add_1_r in IHl. apply IHl; auto. }
  apply (G f []); auto.
Qed.

Lemma preorder_node (f : list tree) n p : nth_error (preorder f) n = Some p ->
  exists t, nth_error (nodes f) n = Some t /\ node_at f p = Some t.
Proof.
  intro H. pose proof (f_equal (fun l => nth_error l n) (nodes_preorder f)) as E. cbv beta in E.
  rewrite !nth_error_map, H in E. cbn [option_map] in E.
  destruct (nth_error (nodes f) n) as [t|] eqn:Et; cbn in E; [|discriminate].
  exists t. split; [reflexivity|congruence].
Qed.

(** ** Rank of a path *)
Fixpoint rank (f : list tree) (p : path) : nat :=
  match p with
  | [] => 0
  | i :: p' => size (firstn i f) +
      match p' with
      | [] => 0
      | _ => match nth_error f i with Some t => S (rank (children t) p') | None => 0 end
      end
  end.

Lemma paths_from_app k (a b : list tree) : paths_from k (a ++ b) = paths_from k a ++ paths_from (k + length a) b.
Proof.
  revert k; induction a as [|t a IH]; intro k; cbn [app paths_from length].
  - rewrite Nat.add_0_r. reflexivity.
  - rewrite IH, <- app_assoc. do 3 f_equal. lia.
Qed.

Lemma rank_nth (f : list tree) p t : node_at f p = Some t -> nth_error (preorder f) (rank f p) = Some p.
Proof.
  revert f; induction p as [|i p IH]; intros f H; [discriminate|].
  assert (Ni : exists v ch, nth_error f i = Some (Node v ch)).
  { destruct p; cbn in H; destruct (nth_error f i) as [[v ch]|]; try discriminate; eauto. }
  destruct Ni as [v [ch Ni]].
  assert (E : preorder f = paths_from 0 (firstn i f) ++ tree_paths i (Node v ch) ++ paths_from (S i) (skipn (S i) f)).
  { unfold preorder. rewrite <- (firstn_skipn i f) at 1. rewrite paths_from_app.
    assert (Li : i < length f) by (apply nth_error_Some; congruence).
    rewrite firstn_length_le by lia. cbn [plus].
    rewrite (skipn_nth _ _ _ Ni). reflexivity. }
  rewrite E. cbn [rank]. rewrite nth_error_app2 by (rewrite paths_from_len; lia).
  rewrite paths_from_len. replace (size (firstn i f) + _ - size (firstn i f)) with
    (match p with [] => 0 | _ => match nth_error f i with Some t => S (rank (children t) p) | None => 0 end end) by lia.
  rewrite tree_paths_eq. destruct p as [|j p].
  - reflexivity.
  - rewrite Ni. cbn [children app nth_error]. rewrite node_at_cons, Ni in H by discriminate.
    specialize (IH ch H).
    rewrite nth_error_app1 by (rewrite map_length; apply nth_error_Some; congruence).
    rewrite nth_error_map, IH. reflexivity.
Qed.

(** ** Order of paths *)
Fixpoint pltb (p q : path) : bool :=
  match p, q with
  | _, [] => false
  | [], _ :: _ => true
  | x :: p, y :: q => Nat.ltb x y || (Nat.eqb x y && pltb p q)
  end.

Lemma pltb_irrefl p : pltb p p = false.
Proof. induction p as [|x p IH]; [reflexivity|]. cbn [pltb]. rewrite Nat.ltb_irrefl, IH, andb_false_r. reflexivity. Qed.

Lemma pltb_trans p : forall q r, pltb p q = true -> pltb q r = true -> pltb p r = true.
Proof.
  induction p as [|x p IH]; intros [|y q] [|z r] H1 H2; try discriminate; try reflexivity.
  cbn [pltb] in *. rewrite orb_true_iff, andb_true_iff, Nat.ltb_lt, Nat.eqb_eq in *.
  destruct H1 as [H1|[-> H1]], H2 as [H2|[-> H2]]; try (left; lia).
  right. split; [reflexivity|]. eapply IH; eassumption.
Qed.

Lemma pltb_app c p q : pltb (c ++ p) (c ++ q) = pltb p q.
Proof. induction c as [|x c IH]; [reflexivity|]. cbn [app pltb]. rewrite Nat.ltb_irrefl, Nat.eqb_refl, IH. reflexivity. Qed.

Lemma step_pltb f p q : step f p q -> pltb p q = true.
Proof.
  intro St. destruct St as [p v ch N Ch|p c m l LD C D].
  - rewrite <- (app_nil_r p) at 1. rewrite pltb_app. reflexivity.
  - destruct (last_desc_ext _ _ _ LD) as [r ->]. rewrite <- app_assoc, pltb_app. cbn [app pltb].
    replace (Nat.ltb m (S m)) with true by (symmetry; apply Nat.ltb_lt; lia). reflexivity.
Qed.

Lemma lex_lt_paths p : forall c q, lex_lt (combine (stack_from c p) p) (combine (stack_from c q) q) = Ok (pltb p q).
Proof.
  induction p as [|x p IH]; intros c [|y q]; try reflexivity.
  cbn [stack_from combine lex_lt pltb]. rewrite !clt_same. cbn [bind].
  destruct (Nat.ltb_spec x y) as [H|H]; [reflexivity|]. cbn [orb].
  destruct (Nat.ltb_spec y x) as [H'|H'].
  - replace (Nat.eqb x y) with false by (symmetry; apply Nat.eqb_neq; lia). reflexivity.
  - assert (x = y) by lia. subst y. rewrite Nat.eqb_refl. cbn [andb]. apply IH.
Qed.

Lemma all_eq_paths p : forall c q, length p = length q ->
  all_eq (combine (stack_from c p) p) (combine (stack_from c q) q) = Ok (path_eqb p q).
Proof.
  induction p as [|x p IH]; intros c [|y q] L; try discriminate; [reflexivity|].
  cbn [stack_from combine all_eq]. rewrite ceq_same. cbn [bind].
  destruct (Nat.eqb_spec x y) as [->|NE].
  - rewrite IH by (injection L; auto). f_equal. unfold path_eqb.
    destruct (list_eq_dec Nat.eq_dec p q), (list_eq_dec Nat.eq_dec (y :: p) (y :: q)); congruence.
  - f_equal. unfold path_eqb. destruct (list_eq_dec Nat.eq_dec (x :: p) (y :: q)); congruence.
Qed.

Lemma it_lt_paths p q : it_lt (at_path p) (at_path q) = Ok (pltb p q).
Proof. unfold it_lt, at_path. cbn [iter_stack]. apply lex_lt_paths. Qed.

Lemma it_eq_paths p q : it_eq (at_path p) (at_path q) = Ok (path_eqb p q).
Proof.
  unfold it_eq. rewrite (proj1 (at_path_len p)), (proj1 (at_path_len q)).
  destruct (Nat.eqb_spec (length p) (length q)) as [E|E].
  - unfold at_path. cbn [iter_stack]. apply all_eq_paths, E.
  - f_equal. unfold path_eqb. destruct (list_eq_dec Nat.eq_dec p q); [congruence|reflexivity].
Qed.

Lemma positions_lt f m n p q : nth_error (positions f) m = Some p -> nth_error (positions f) n = Some q ->
  pltb p q = Nat.ltb m n.
Proof.
  intros Hp Hq.
  assert (O : forall m n p q, m < n -> nth_error (positions f) m = Some p -> nth_error (positions f) n = Some q -> pltb p q = true).
  { intros m' n' p' q'. apply (chain_trans_nth (fun a b => pltb a b = true)).
    - intros x y z. apply pltb_trans.
    - eapply chain_weaken; [|apply positions_chain]. exact (step_pltb f). }
  destruct (Nat.ltb_spec m n) as [H|H]; [eapply O; eassumption|].
  destruct (Nat.eq_dec m n) as [->|NE].
  - rewrite Hp in Hq. injection Hq as ->. apply pltb_irrefl.
  - destruct (pltb p q) eqn:E; [|reflexivity].
    assert (pltb q p = true) by (eapply (O n m); [lia|eassumption|eassumption]).
    pose proof (pltb_trans p q p E H0) as C. rewrite pltb_irrefl in C. discriminate.
Qed.

Lemma positions_eq f m n p q : nth_error (positions f) m = Some p -> nth_error (positions f) n = Some q ->
  path_eqb p q = Nat.eqb m n.
Proof.
  intros Hp Hq. unfold path_eqb. destruct (Nat.eqb_spec m n) as [->|NE].
  - rewrite Hp in Hq. injection Hq as ->. destruct (list_eq_dec Nat.eq_dec q q); congruence.
  - destruct (list_eq_dec Nat.eq_dec p q) as [->|]; [|reflexivity]. exfalso.
    assert (m < n \/ n < m) as [H|H] by lia; apply Nat.ltb_lt in H.
    + rewrite <- (positions_lt f m n q q Hp Hq), pltb_irrefl in H. discriminate.
    + rewrite <- (positions_lt f n m q q Hq Hp), pltb_irrefl in H. discriminate.
Qed.

Theorem comparisons f m n p q : nth_error (positions f) m = Some p -> nth_error (positions f) n = Some q ->
  it_eq (at_path p) (at_path q) = Ok (Nat.eqb m n) /\ it_ne (at_path p) (at_path q) = Ok (negb (Nat.eqb m n)) /\
  it_lt (at_path p) (at_path q) = Ok (Nat.ltb m n) /\ it_gt (at_path p) (at_path q) = Ok (Nat.ltb n m) /\
  it_le (at_path p) (at_path q) = Ok (Nat.leb m n) /\ it_ge (at_path p) (at_path q) = Ok (Nat.leb n m).
Proof.
  intros Hp Hq. unfold it_ne, it_gt, it_le, it_ge.
  rewrite it_eq_paths, !it_lt_paths. cbn [bind].
  rewrite (positions_eq f m n p q Hp Hq), (positions_lt f m n p q Hp Hq), (positions_lt f n m q p Hq Hp).
  rewrite <- !Nat.leb_antisym. repeat split; reflexivity.
Qed.

Lemma NoDup_preorder f : NoDup (positions f).
Proof.
  apply NoDup_nth_error. intros i j Hi E.
  destruct (nth_error (positions f) i) as [p|] eqn:Ei; [|apply nth_error_Some in Hi; congruence].
  pose proof (positions_eq f i j p p Ei (eq_sym E)) as H.
  rewrite path_eqb_refl in H. symmetry in H. apply Nat.eqb_eq in H. exact H.
Qed.

(** ** Client loops *)
Lemma begin_at f : it_begin f = Ok (at_path [0]).
Proof. reflexivity. Qed.
Lemma end_at f : it_end f = Ok (at_path [length f]).
Proof. reflexivity. Qed.

Lemma positions_end f : nth_error (positions f) (size f) = Some [length f].
Proof. unfold positions. rewrite nth_error_app2 by (rewrite preorder_len; lia). rewrite preorder_len, Nat.sub_diag. reflexivity. Qed.

Lemma positions_node f k : k < size f -> exists p t, nth_error (positions f) k = Some p /\
  nth_error (preorder f) k = Some p /\ nth_error (nodes f) k = Some t /\ node_at f p = Some t.
Proof.
  intro H. destruct (nth_error (preorder f) k) as [p|] eqn:E.
  - destruct (preorder_node f k p E) as [t [Et N]]. exists p, t. split; [|auto].
    unfold positions. rewrite nth_error_app1 by (rewrite preorder_len; exact H). exact E.
  - apply nth_error_None in E. rewrite preorder_len in E. lia.
Qed.

Lemma nodes_len f : length (nodes f) = size f.
Proof. rewrite <- (map_length (@Some tree)), <- nodes_preorder, map_length. apply preorder_len. Qed.

Lemma forward_loop_spec dbg f : forall fuel k p, nth_error (positions f) k = Some p -> size f - k < fuel ->
  forward_loop dbg f fuel (at_path p) (at_path [length f]) = Ok (skipn k (nodes f)).
Proof.
  induction fuel as [|fuel IH]; intros k p Hp Hf; [lia|].
  cbn [forward_loop]. destruct (comparisons f k (size f) p [length f] Hp (positions_end f)) as [_ [-> _]].
  cbn [bind]. destruct (Nat.eqb_spec k (size f)) as [->|NE].
  - cbn [negb]. rewrite skipn_all2 by (rewrite nodes_len; lia). reflexivity.
  - cbn [negb]. assert (k < length (positions f)) by (apply nth_error_Some; congruence).
    rewrite positions_len in H.
    destruct (positions_node f k ltac:(lia)) as [p' [t [Hp' [_ [Ht N]]]]].
    rewrite Hp in Hp'. injection Hp' as <-.
    rewrite (deref_at_path f p t N). cbn [bind].
    assert (exists q, nth_error (positions f) (S k) = Some q) as [q Hq].
    { destruct (nth_error (positions f) (S k)) as [q|] eqn:E; [eauto|]. apply nth_error_None in E. rewrite positions_len in E. lia. }
    rewrite (incr_step dbg f p q) by (eapply positions_step; eassumption). cbn [bind].
    rewrite (IH (S k) q Hq) by lia. cbn [bind]. rewrite (skipn_nth _ _ _ Ht). reflexivity.
Qed.

Theorem forward_ok dbg f : forward dbg f = Ok (nodes f).
Proof.
  unfold forward. rewrite begin_at, end_at. cbn [bind].
  rewrite (forward_loop_spec dbg f (S (size f)) 0 [0] (positions_head f)) by lia. reflexivity.
Qed.

Lemma backward_loop_spec dbg f : forall fuel k p, nth_error (positions f) k = Some p -> k < fuel ->
  backward_loop dbg f fuel (at_path p) (at_path [0]) = Ok (rev (firstn k (nodes f))).
Proof.
  induction fuel as [|fuel IH]; intros k p Hp Hf; [lia|].
  cbn [backward_loop]. destruct (comparisons f k 0 p [0] Hp (positions_head f)) as [_ [-> _]].
  cbn [bind]. destruct k as [|k]; [reflexivity|]. cbn [Nat.eqb negb].
  assert (S k < length (positions f)) by (apply nth_error_Some; congruence).
  rewrite positions_len in H.
  destruct (positions_node f k ltac:(lia)) as [q [t [Hq [_ [Ht N]]]]].
  assert (D : decr dbg f (at_path p) = Ok (at_path q)) by (apply decr_step; eapply positions_step; eassumption).
  rewrite D. cbn [bind]. rewrite (deref_at_path f q t N). cbn [bind].
  rewrite (IH k q Hq) by lia. cbn [bind].
  assert (E : firstn (S k) (nodes f) = firstn k (nodes f) ++ [t]).
  { rewrite <- (firstn_skipn k (nodes f)) at 1. rewrite firstn_app, firstn_firstn.
    assert (k < length (nodes f)) by (apply nth_error_Some; congruence).
    rewrite firstn_length_le by lia. replace (min (S k) k) with k by lia. replace (S k - k) with 1 by lia.
    rewrite (skipn_nth _ _ _ Ht). reflexivity. }
  rewrite E, rev_app_distr. reflexivity.
Qed.

Theorem backward_ok dbg f : backward dbg f = Ok (rev (nodes f)).
Proof.
  unfold backward. rewrite begin_at, end_at. cbn [bind].
  rewrite (backward_loop_spec dbg f (S (size f)) (size f) [length f] (positions_end f)) by lia.
  rewrite firstn_all2 by (rewrite nodes_len; lia). reflexivity.
Qed.

(** ** index, make_iterator, is_valid *)
Lemma container_prefix f c i : container f (c ++ [i]) <> None -> container f c <> None.
Proof. rewrite container_app. destruct (container f c); congruence. Qed.

Lemma index_loop_ok f p : forall c, (forall q r i, p = q ++ i :: r -> container f (c ++ q) <> None) ->
  index_loop f (stack_from c p) (combine (stack_from c p) p) = Ok p.
Proof.
  induction p as [|i p IH]; intros c H; [reflexivity|].
  cbn [stack_from combine index_loop].
  pose proof (H [] p i eq_refl) as H0. rewrite app_nil_r in H0.
  destruct (container f c) as [l|] eqn:C; [|congruence].
  rewrite (cbegin_ok f c l C). cbn [bind fst snd]. rewrite path_eqb_refl. cbn [bind].
  rewrite IH.
  - cbn [bind]. rewrite Nat.sub_0_r. reflexivity.
  - intros q r j E. specialize (H (i :: q) r j). rewrite <- app_assoc. apply H. cbn [app]. rewrite E. reflexivity.
Qed.

Lemma container_pre f a b : container f (a ++ b) <> None -> container f a <> None.
Proof. rewrite container_app. destruct (container f a); congruence. Qed.

Theorem index_ok dbg f p : container f (removelast p) <> None -> index dbg f (at_path p) = Ok p.
Proof.
  intro H. unfold index. destruct (at_path_len p) as [-> ->]. rewrite Nat.eqb_refl, assert_true. cbn [bind].
  unfold at_path. cbv zeta. cbn [list_stack iter_stack]. apply index_loop_ok.
  intros q r i E. cbn [app]. subst p.
  rewrite removelast_app in H by discriminate. exact (container_pre f q _ H).
Qed.

Lemma node_container f p t : node_at f p = Some t -> container f (removelast p) <> None.
Proof.
  intro H. destruct (node_at_inv f p t H) as [c [i [l [-> [C _]]]]]. rewrite removelast_last. congruence.
Qed.

(** Every list index of the path is in range. *)
Fixpoint in_range (f : list tree) (p : path) : bool :=
  match p with
  | [] => true
  | i :: p => match nth_error f i with Some t => in_range (children t) p | None => false end
  end.

Lemma in_range_node f p : p <> [] -> in_range f p = true <-> exists t, node_at f p = Some t.
Proof.
  revert f; induction p as [|i p IH]; intros f NE; [contradiction|]. cbn [in_range].
  destruct (nth_error f i) as [[v ch]|] eqn:E.
  - destruct p as [|j p].
    + cbn. rewrite E. split; eauto.
    + rewrite node_at_cons by discriminate. rewrite E. apply IH. discriminate.
  - split; [discriminate|]. intros [t H]. destruct p; cbn in H; rewrite E in H; discriminate.
Qed.

Lemma make_loop_ok f index : forall c l, container f c = Some l ->
  make_loop f c (c, 0) index (at_path c) =
  if in_range l index then Ok (at_path (c ++ index)) else Throw OutOfRange.
Proof.
  induction index as [|i index IH]; intros c l C; cbn [make_loop in_range].
  - rewrite app_nil_r. reflexivity.
  - unfold deref_list. rewrite C. cbn [bind].
    destruct (Nat.leb_spec (length l) i) as [H|H].
    + apply nth_error_None in H. rewrite H. reflexivity.
    + destruct (nth_error l i) as [t|] eqn:E; [|apply nth_error_None in E; lia].
      cbn [fst snd plus]. rewrite (cderef_ok f c i l t C E). cbn [bind].
      pose proof (container_snoc f c i l t C E) as C'.
      rewrite (cbegin_ok f _ _ C'). cbn [bind].
      unfold push_back. rewrite <- at_path_snoc. rewrite (IH (c ++ [i]) (children t) C').
      rewrite <- app_assoc. reflexivity.
Qed.

Theorem make_iterator_ok f index : make_iterator f index =
  if in_range f index then Ok (at_path index) else Throw OutOfRange.
Proof. unfold make_iterator. cbn [cbegin deref_list container bind]. exact (make_loop_ok f index [] f eq_refl). Qed.

Lemma valid_loop_ok f index : forall c l, container f c = Some l ->
  valid_loop f c index = Ok (in_range l index).
Proof.
  induction index as [|i index IH]; intros c l C; cbn [valid_loop in_range]; [reflexivity|].
  unfold deref_list. rewrite C. cbn [bind].
  destruct (Nat.leb_spec (length l) i) as [H|H].
  - apply nth_error_None in H. rewrite H. reflexivity.
  - destruct (nth_error l i) as [t|] eqn:E; [|apply nth_error_None in E; lia].
    rewrite (cderef_ok f c i l t C E). cbn [bind]. apply IH. exact (container_snoc f c i l t C E).
Qed.

Theorem is_valid_ok f index : is_valid f index =
  Ok (match node_at f index with Some _ => true | None => false end).
Proof.
  unfold is_valid. destruct index as [|i index]; [reflexivity|].
  rewrite (valid_loop_ok f (i :: index) [] f eq_refl). f_equal.
  destruct (in_range f (i :: index)) eqn:E.
  - apply in_range_node in E; [|discriminate]. destruct E as [t ->]. reflexivity.
  - destruct (node_at f (i :: index)) eqn:E'; [|reflexivity].
    assert (in_range f (i :: index) = true) by (apply in_range_node; [discriminate|eauto]). congruence.
Qed.

Theorem at_index_ok dbg f ix t : node_at f ix = Some t -> at_index dbg f ix = Ok t.
Proof.
  intro N. unfold at_index.
  assert (NE : ix <> []) by (intros ->; discriminate).
  assert (R : in_range f ix = true) by (apply in_range_node; eauto).
  assert (A : (if dbg then b <- is_valid f ix ;; assert_ dbg b else Ok tt) = Ok tt).
  { destruct dbg; [|reflexivity]. rewrite is_valid_ok, N. reflexivity. }
  rewrite A. cbn [bind]. rewrite make_iterator_ok, R. cbn [bind]. apply deref_at_path, N.
Qed.

Theorem at_index_bad f ix : node_at f ix = None ->
  at_index true f ix = Abort /\
  at_index false f ix = (if match ix with [] => true | _ => false end then UB OutOfBounds else Throw OutOfRange).
Proof.
  intro N. unfold at_index. rewrite is_valid_ok, N. split; [reflexivity|].
  cbn [bind]. rewrite make_iterator_ok. destruct ix as [|i ix]; [reflexivity|].
  destruct (in_range f (i :: ix)) eqn:R; [|reflexivity].
  apply in_range_node in R; [|discriminate]. destruct R as [t H]. congruence.
Qed.

(** ** at_level, is_last_child *)
Lemma nth_stack p : forall c d i, nth_error p d = Some i ->
  nth_error (combine (stack_from c p) p) d = Some (c ++ firstn d p, i).
Proof.
  induction p as [|j p IH]; intros c [|d] i H; try discriminate; cbn [stack_from combine nth_error firstn] in *.
  - injection H as ->. rewrite app_nil_r. reflexivity.
  - rewrite (IH (c ++ [j]) d i H), <- app_assoc. reflexivity.
Qed.

Theorem at_level_ok f p t d : node_at f p = Some t ->
  if Nat.ltb d (length p) then exists a, node_at f (firstn (S d) p) = Some a /\ at_level f (at_path p) d = Ok a
  else at_level f (at_path p) d = Terminate.
Proof.
  intro N. unfold at_level. destruct (Nat.ltb_spec d (length p)) as [H|H].
  - destruct (nth_error p d) as [i|] eqn:E; [|apply nth_error_None in E; lia].
    unfold at_path. cbn [iter_stack]. rewrite (nth_stack p [] d i E). cbn [app].
    assert (F : firstn (S d) p = firstn d p ++ [i]).
    { apply nth_error_split in E. destruct E as [a [b [-> L]]]. subst d.
      rewrite firstn_app_exact. replace (S (length a)) with (length a + 1) by lia.
      rewrite firstn_app_2. reflexivity. }
    rewrite F.
    assert (R : in_range f (firstn d p ++ [i]) = true).
    { rewrite <- F. assert (R : in_range f p = true) by (apply in_range_node; [intros ->; discriminate|eauto]).
      clear - R. rewrite <- (firstn_skipn (S d) p) in R. revert R. generalize (firstn (S d) p) (skipn (S d) p).
      intro a. revert f. induction a as [|x a IH]; intros f b H; [reflexivity|]. cbn [app in_range] in *.
      destruct (nth_error f x); [|discriminate]. eapply IH; exact H. }
    apply in_range_node in R; [|destruct (firstn d p); discriminate]. destruct R as [a Na].
    exists a. split; [exact Na|].
    destruct (node_at_inv f _ _ Na) as [c [j [l [Ec [C Nj]]]]]. apply app_inj_tail in Ec. destruct Ec as [<- <-].
    exact (cderef_ok f _ _ l a C Nj).
  - replace (nth_error (iter_stack (at_path p)) d) with (@None (path * nat)); [reflexivity|].
    symmetry. apply nth_error_None. rewrite (proj1 (at_path_len p)). exact H.
Qed.

Theorem is_last_child_ok f c i l : container f c = Some l -> i <= length l ->
  is_last_child f (at_path (c ++ [i])) = Ok (Nat.eqb (S i) (length l)).
Proof.
  intros C Hi. unfold is_last_child. rewrite at_path_snoc. cbn [iter_stack list_stack].
  rewrite !back_snoc. cbn [bind]. rewrite (cend_ok f c l C). cbn [bind]. rewrite ceq_same. cbn [bind].
  destruct (Nat.eqb_spec i (length l)) as [E|E].
  - replace (Nat.eqb (S i) (length l)) with false by (symmetry; apply Nat.eqb_neq; lia). reflexivity.
  - rewrite (cinc_ok f c i l C) by lia. cbn [bind]. rewrite ceq_same. reflexivity.
Qed.
End Proofs.

From Coq Require Import Permutation.
From Verif Require Import Base ListLemmas TreeModel TreeSpec TreeProofs TreeEditProofs TreeMemModel TreeMemSpec.

Section Proofs.
Context {V : Type}.
Notation tree := (tree V).
Notation atree := (atree V).
Notation mem := (mem V).
Notation cont := (nat * list atree)%type.

Fixpoint atree_ind' (P : atree -> Prop) (H : forall a v e ch, Forall P ch -> P (ANode a v e ch)) (t : atree) : P t :=
  match t with
  | ANode a v e ch =>
      H a v e ch ((fix go l : Forall P l :=
                 match l with [] => Forall_nil P | t :: l => Forall_cons t (atree_ind' P H t) (go l) end) ch)
  end.

Lemma nodup_app {A} (l l' : list A) : NoDup (l ++ l') <-> NoDup l /\ NoDup l' /\ (forall a, In a l -> ~ In a l').
Proof.
  induction l as [|x l IH]; cbn [app].
  - split; [intro H; repeat split; auto using NoDup_nil|intros [_ [H _]]; exact H].
  - split.
    + intro H. inversion H as [|? ? H1 H2]; subst. apply IH in H2. destruct H2 as [N [N' D]]. split; [|split; [exact N'|]].
      * constructor; [|exact N]. intro I. apply H1, in_or_app. auto.
      * intros a [<-|I]; [intro I; apply H1, in_or_app; auto|auto].
    + intros [N [N' D]]. inversion N as [|? ? H1 H2]; subst. constructor.
      * intro I. apply in_app_or in I. destruct I as [I|I]; [auto|]. apply (D x); [left; reflexivity|exact I].
      * apply IH. split; [exact H2|split; [exact N'|]]. intros a I. apply D. right. exact I.
Qed.

(** ** Addresses *)
Definition caddrs (k : cont) : list nat := fst k :: addrs_of (snd k).
Definition taddrs (t : atree) : list nat := a_addr t :: a_end t :: addrs_of (a_children t).

Lemma addrs_nil : addrs_of (V := V) [] = [].
Proof. reflexivity. Qed.
Lemma addrs_cons t l : addrs_of (t :: l) = taddrs t ++ addrs_of l.
Proof.
  unfold taddrs, addrs_of. cbn [flat_map]. rewrite flat_map_app. f_equal. destruct t. reflexivity.
Qed.
Lemma addrs_app a b : addrs_of (V := V) (a ++ b) = addrs_of a ++ addrs_of b.
Proof. unfold addrs_of. rewrite !flat_map_app. reflexivity. Qed.

(** The pointers of all containers are the addresses. *)
Definition child_pointers (l : list atree) : list nat :=
  flat_map (fun t => pointers (a_end t, a_children t)) (flat_map all_nodes l).
Lemma child_pointers_cons t l : child_pointers (t :: l) =
  pointers (a_end t, a_children t) ++ child_pointers (a_children t) ++ child_pointers l.
Proof.
  unfold child_pointers. cbn [flat_map]. rewrite flat_map_app. destruct t. cbn [all_nodes flat_map]. rewrite <- app_assoc. reflexivity.
Qed.

Lemma pointers_perm (t : atree) :
  Permutation (map a_addr (a_children t) ++ child_pointers (a_children t)) (addrs_of (a_children t)).
Proof.
  induction t as [a v e ch IH] using atree_ind'. cbn [a_children].
  induction IH as [|t l Ht Hl IHl]; [reflexivity|].
  rewrite child_pointers_cons, addrs_cons. cbn [map]. unfold taddrs, pointers. cbn [fst snd].
  rewrite <- Ht, <- IHl. cbn [app]. apply perm_skip.
  set (A := map a_addr l). set (B := map a_addr (a_children t)). set (C := child_pointers (a_children t)). set (D := child_pointers l).
  transitivity ((B ++ [a_end t]) ++ A ++ C ++ D); [apply Permutation_app_swap_app|].
  rewrite <- app_assoc. cbn [app]. rewrite <- Permutation_middle. apply perm_skip.
  rewrite <- app_assoc. apply Permutation_app_head. apply Permutation_app_swap_app.
Qed.

Lemma pointers_all (m : mem) : Permutation (flat_map (fun x => pointers (snd x)) (containers m)) (addresses m).
Proof.
  unfold containers, addresses. cbn [flat_map]. rewrite flat_map_concat_map, map_map, <- flat_map_concat_map.
  cbn [snd]. change (Permutation (pointers (top m) ++ child_pointers (snd (top m))) (fst (top m) :: addrs_of (snd (top m)))).
  unfold pointers. rewrite <- app_assoc. cbn [app].
  rewrite <- Permutation_middle. apply perm_skip.
  destruct (top m) as [e ch]. cbn [fst snd]. destruct ch as [|[a v e' c] ch]; [reflexivity|].
  exact (pointers_perm (ANode a v e (ANode a v e' c :: ch))).
Qed.

Lemma owners_in (t : list nat) : NoDup t -> forall a b : list nat, Permutation t (a ++ b) -> NoDup a.
Proof. intros H a b P. apply (Permutation_NoDup P) in H. apply nodup_app in H. apply H. Qed.

Lemma addrs_split (l : list atree) : Permutation (addrs_of l) (map a_addr (flat_map all_nodes l) ++ map a_end (flat_map all_nodes l)).
Proof.
  unfold addrs_of. induction (flat_map all_nodes l) as [|t n IH]; [reflexivity|]. cbn [flat_map map app]. rewrite IH.
  apply perm_skip. apply Permutation_middle.
Qed.

Lemma owners_nodup (m : mem) : sound m -> NoDup (map fst (containers m)).
Proof.
  intros [N _]. unfold containers. cbn [map fst]. rewrite map_map. cbn [fst]. constructor.
  - intro H. apply in_map_iff in H. destruct H as [x [H _]]. discriminate.
  - rewrite <- (map_map a_addr Some). apply FinFun.Injective_map_NoDup; [intros x y E; congruence|].
    unfold addresses in N. inversion N. eapply owners_in; [eassumption|]. apply addrs_split.
Qed.

Lemma owner_eqb_spec a b : owner_eqb a b = true <-> a = b.
Proof.
  destruct a, b; cbn [owner_eqb]; try (split; congruence). rewrite Nat.eqb_eq. split; congruence.
Qed.

Lemma find_unique {A} (g : A -> bool) (l : list A) x : In x l -> g x = true -> (forall y, In y l -> g y = true -> y = x) ->
  find g l = Some x.
Proof.
  intros I G U. destruct (find g l) as [y|] eqn:E.
  - apply find_some in E. destruct E. f_equal. auto.
  - rewrite (find_none _ _ E x I) in G. discriminate.
Qed.

Lemma nodup_fst {A B} (l : list (A * B)) : NoDup (map fst l) -> forall a b b', In (a, b) l -> In (a, b') l -> b = b'.
Proof.
  induction l as [|[x y] l IH]; intros N a b b' I I'; [destruct I|].
  cbn [map fst] in N. inversion N as [|? ? N1 N2]; subst.
  destruct I as [I|I], I' as [I'|I'].
  - congruence.
  - injection I as -> ->. elim N1. apply in_map_iff. exists (a, b'). auto.
  - injection I' as -> ->. elim N1. apply in_map_iff. exists (a, b). auto.
  - eauto.
Qed.

Lemma m_list_ok (m : mem) o k : sound m -> In (o, k) (containers m) -> m_list m o = Ok k.
Proof.
  intros S I. unfold m_list. rewrite (find_unique _ _ (o, k)); [reflexivity|assumption| |].
  - cbn. apply owner_eqb_spec. reflexivity.
  - intros [o' k'] I' E. cbn in E. apply owner_eqb_spec in E. subst o'. f_equal. eapply nodup_fst; eauto using owners_nodup.
Qed.

Lemma nodup_flat {A B} (g : A -> list B) (l : list A) : NoDup (flat_map g l) ->
  forall x y b, In x l -> In y l -> In b (g x) -> In b (g y) -> x = y.
Proof.
  induction l as [|z l IH]; intros N x y b Ix Iy Bx By; [destruct Ix|]. cbn [flat_map] in N.
  assert (D : forall u, In u l -> In b (g z) -> In b (g u) -> False).
  { intros u Iu Bz Bu. apply nodup_app in N. apply (proj2 (proj2 N) b Bz). apply in_flat_map. eauto. }
  destruct Ix as [<-|Ix], Iy as [<-|Iy]; [reflexivity|exfalso; eauto|exfalso; eauto|].
  eapply IH; eauto. apply nodup_app in N. apply N.
Qed.

Lemma sound_pointers (m : mem) : sound m -> NoDup (flat_map (fun x => pointers (snd x)) (containers m)).
Proof. intros [N _]. eapply Permutation_NoDup; [symmetry; apply pointers_all|exact N]. Qed.

Lemma sound_pointers1 (m : mem) o k : sound m -> In (o, k) (containers m) -> NoDup (pointers k).
Proof.
  intros S I. apply sound_pointers in S. apply in_split in I. destruct I as [a [b E]]. rewrite E in S.
  rewrite flat_map_app in S. apply nodup_app in S. destruct S as [_ [S _]]. cbn [flat_map snd] in S. apply nodup_app in S. apply S.
Qed.

Lemma position_nth l : NoDup l -> forall i a, nth_error l i = Some a -> position a l = i.
Proof.
  induction 1 as [|b l N1 N IH]; intros i a H; [destruct i; discriminate|].
  cbn [position]. destruct i as [|i]; cbn in H.
  - injection H as ->. rewrite Nat.eqb_refl. reflexivity.
  - destruct (Nat.eqb_spec a b) as [->|NE]; [elim N1; eapply nth_error_In; eassumption|]. f_equal. auto.
Qed.

Lemma m_place_ok (m : mem) o k i a : sound m -> In (o, k) (containers m) -> nth_error (pointers k) i = Some a ->
  m_place m a = Ok (o, k, i).
Proof.
  intros S I N. unfold m_place, locate. rewrite (find_unique _ _ (o, k)).
  - rewrite (position_nth _ (sound_pointers1 m o k S I) _ _ N). reflexivity.
  - exact I.
  - cbn [snd]. apply existsb_exists. exists a. split; [eapply nth_error_In; eassumption|apply Nat.eqb_refl].
  - intros y Iy E. apply existsb_exists in E. destruct E as [b [Ib E]]. apply Nat.eqb_eq in E. subst b.
    eapply (nodup_flat _ _ (sound_pointers m S)); [exact Iy|exact I|exact Ib|]. cbn [snd]. eapply nth_error_In; eassumption.
Qed.

Lemma m_place_gone (m : mem) a : ~ In a (addresses m) -> m_place m a = UB UseAfterFree.
Proof.
  intro N. unfold m_place, locate. destruct (find _ _) as [[o k]|] eqn:E; [|reflexivity].
  apply find_some in E. destruct E as [I E]. apply existsb_exists in E. destruct E as [b [Ib E]]. apply Nat.eqb_eq in E. subst b.
  elim N. eapply Permutation_in; [apply pointers_all|]. apply in_flat_map. eauto.
Qed.

(** ** Containers by path *)
Fixpoint sub (o : option nat) (k : cont) (c : path) : option (option nat * cont) :=
  match c with
  | [] => Some (o, k)
  | i :: c => match nth_error (snd k) i with Some t => sub (Some (a_addr t)) (a_end t, a_children t) c | None => None end
  end.

Lemma sub_app o k c c' : sub o k (c ++ c') = match sub o k c with Some (o, k) => sub o k c' | None => None end.
Proof.
  revert o k; induction c as [|i c IH]; intros o k; [reflexivity|]. cbn [app sub].
  destruct (nth_error (snd k) i); [apply IH|reflexivity].
Qed.
Lemma sub_snoc o k c i o' k' t : sub o k c = Some (o', k') -> nth_error (snd k') i = Some t ->
  sub o k (c ++ [i]) = Some (Some (a_addr t), (a_end t, a_children t)).
Proof. intros H N. rewrite sub_app, H. cbn [sub]. rewrite N. reflexivity. Qed.

Lemma sub_nodes (l : list atree) e c : forall o o' k', sub o (e, l) c = Some (o', k') -> c <> [] ->
  In (o', k') (map (fun t => (Some (a_addr t), (a_end t, a_children t))) (flat_map all_nodes l)).
Proof.
  revert e l; induction c as [|i c IH]; intros e l o o' k' H NE; [contradiction|]. cbn [sub snd] in H.
  destruct (nth_error l i) as [t|] eqn:N; [|discriminate].
  assert (IN : forall t', In t' (all_nodes t) -> In t' (flat_map all_nodes l)).
  { intros t' I. apply in_flat_map. exists t. split; [eapply nth_error_In; eassumption|exact I]. }
  destruct c as [|j c].
  - cbn [sub] in H. injection H as <- <-. apply in_map_iff. exists t. split; [reflexivity|]. apply IN. destruct t. left. reflexivity.
  - apply IH in H; [|discriminate]. apply in_map_iff in H. destruct H as [t' [E I]]. apply in_map_iff. exists t'.
    split; [exact E|]. apply IN. destruct t. right. exact I.
Qed.
Lemma sub_in (m : mem) c o k : sub None (top m) c = Some (o, k) -> In (o, k) (containers m).
Proof.
  intro H. unfold containers. destruct c as [|i c].
  - cbn [sub] in H. injection H as <- <-. left. reflexivity.
  - right. destruct (top m) as [e l]. eapply sub_nodes; [exact H|discriminate].
Qed.

Lemma nth_strip (l : list atree) i : nth_error (map strip l) i = option_map strip (nth_error l i).
Proof. apply nth_error_map. Qed.
Lemma children_strip (t : atree) : children (strip t) = map strip (a_children t).
Proof. destruct t. reflexivity. Qed.
Lemma sub_container o k c : container (map strip (snd k)) c =
  match sub o k c with Some (_, k') => Some (map strip (snd k')) | None => None end.
Proof.
  revert o k; induction c as [|i c IH]; intros o k; [reflexivity|]. cbn [container sub].
  rewrite nth_strip. destruct (nth_error (snd k) i) as [t|]; cbn [option_map]; [|reflexivity].
  rewrite children_strip. apply (IH _ (a_end t, a_children t)).
Qed.
Lemma forest_container (m : mem) c l : container (forest m) c = Some l ->
  exists o k, sub None (top m) c = Some (o, k) /\ l = map strip (snd k).
Proof.
  unfold forest. rewrite (sub_container None). destruct (sub None (top m) c) as [[o k]|]; [|discriminate].
  intro E. injection E as <-. eauto.
Qed.

(** ** The relation between the iterators of TreeModel.v and those with addresses *)
Definition Rp (m : mem) (c : path) (o : option nat) : Prop := exists k, sub None (top m) c = Some (o, k).
Definition Ri (m : mem) (x : path * nat) (a : nat) : Prop :=
  exists o k, sub None (top m) (fst x) = Some (o, k) /\ nth_error (pointers k) (snd x) = Some a.
Definition Rit (m : mem) (it : iterator) (jt : m_iterator) : Prop :=
  Forall2 (Rp m) (list_stack it) (m_lists jt) /\ Forall2 (Ri m) (iter_stack it) (m_iters jt).

Lemma nth_pointers (k : cont) i t : nth_error (snd k) i = Some t -> nth_error (pointers k) i = Some (a_addr t).
Proof.
  intro N. unfold pointers. rewrite nth_error_app1.
  - rewrite nth_error_map, N. reflexivity.
  - rewrite map_length. apply nth_error_Some. congruence.
Qed.
Lemma nth_pointers_end (k : cont) : nth_error (pointers k) (length (snd k)) = Some (fst k).
Proof. unfold pointers. rewrite nth_error_app2; rewrite map_length; [|reflexivity]. rewrite Nat.sub_diag. reflexivity. Qed.
Lemma pointers_len (k : cont) : length (pointers k) = S (length (snd k)).
Proof. unfold pointers. rewrite app_length, map_length. cbn. lia. Qed.

Lemma trail_rel (m : mem) p : forall c o k ls is, sub None (top m) c = Some (o, k) ->
  (trail o k p = Some (ls, is) <-> Forall2 (Rp m) (stack_from c p) ls /\ Forall2 (Ri m) (combine (stack_from c p) p) is).
Proof.
  induction p as [|i p IH]; intros c o k ls is Hc; cbn [trail stack_from combine].
  - split; [intro E; injection E as <- <-; auto|]. intros [H1 H2]. inversion H1. inversion H2. reflexivity.
  - change (map a_addr (snd k) ++ [fst k]) with (pointers k).
    destruct (nth_error (pointers k) i) as [a|] eqn:Ea.
    2:{ split; [discriminate|]. intros [_ H]. inversion H as [|? ? ? ? [o' [k' [H1 H2]]]]; subst. cbn [fst snd] in *. congruence. }
    destruct p as [|j p].
    + cbn [stack_from combine]. split.
      * intro E. injection E as <- <-. split; constructor; auto; [exists k; exact Hc|exists o, k; auto].
      * intros [H1 H2]. inversion H1 as [|? ? ? ? [k' H3] H4]; subst. inversion H4. inversion H2 as [|? ? ? ? [o' [k'' [H5 H6]]] H7]; subst.
        inversion H7. cbn [fst snd] in *. congruence.
    + destruct (nth_error (snd k) i) as [t|] eqn:Et.
      2:{ split; [discriminate|]. intros [H _]. inversion H as [|? ? ? ? _ H4]; subst. cbn [stack_from] in H4.
          inversion H4 as [|? ? ? ? [k' H5] _]; subst. rewrite sub_app, Hc in H5. cbn [sub] in H5. rewrite Et in H5. discriminate. }
      assert (a = a_addr t) by (pose proof (nth_pointers k i t Et); congruence). subst a.
      pose proof (sub_snoc None (top m) c i o k t Hc Et) as Hc'.
      pose proof (fun ls is => IH (c ++ [i]) _ _ ls is Hc') as IHc. clear IH. split.
      * destruct (trail _ _ _) as [[ls' is']|] eqn:ET; [|discriminate]. intro E. injection E as <- <-.
        destruct (proj1 (IHc ls' is') eq_refl) as [E1 E2]. split; constructor; auto; [exists k; exact Hc|exists o, k; auto].
      * intros [H1 H2]. inversion H1 as [|? o' ? ls' [k' H3] H4]; subst. inversion H2 as [|? b ? is' [o'' [k'' [H5 H6]]] H7]; subst.
        cbn [fst snd] in *. rewrite (proj2 (IHc ls' is') (conj H4 H7)). congruence.
Qed.

Lemma stands_rel (m : mem) p it : stands m p it <-> Rit m (at_path p) it.
Proof. unfold stands, Rit, at_path. cbn [list_stack iter_stack]. apply trail_rel. reflexivity. Qed.

Lemma trail_exists p : forall o (k : cont), p <> [] -> (forall c i, p = c ++ [i] -> exists l, container (map strip (snd k)) c = Some l /\ i <= length l) ->
  exists ls is, trail o k p = Some (ls, is).
Proof.
  induction p as [|i p IH]; intros o k NE H; [contradiction|]. cbn [trail].
  change (map a_addr (snd k) ++ [fst k]) with (pointers k).
  destruct p as [|j p].
  - destruct (H [] i eq_refl) as [l [E L]]. cbn in E. injection E as <-. rewrite map_length in L.
    destruct (nth_error (pointers k) i) eqn:N; [eauto|]. apply nth_error_None in N. rewrite pointers_len in N. lia.
  - destruct (exists_last (l := j :: p)) as [c [x E]]; [discriminate|].
    destruct (H (i :: c) x) as [l [E' L]]; [rewrite E; reflexivity|]. cbn [container] in E'. rewrite nth_strip in E'.
    destruct (nth_error (snd k) i) as [t|] eqn:Et; [|discriminate].
    rewrite (nth_pointers k i t Et). cbn [option_map] in E'. rewrite children_strip in E'.
    destruct (IH (Some (a_addr t)) (a_end t, a_children t)) as [ls [is Hr]]; [discriminate| |rewrite Hr; eauto].
    intros c' x' Ec. rewrite E in Ec. apply app_inj_tail in Ec. destruct Ec as [<- <-]. eauto.
Qed.

(** ** Simulation of the operations *)
Definition osim {A B} (R : A -> B -> Prop) (x : outcome A) (y : outcome B) : Prop :=
  match x with Ok a => exists b, y = Ok b /\ R a b | _ => True end.
Lemma osim_bind {A B C D} (R : A -> B -> Prop) (S : C -> D -> Prop) x y k k' :
  osim R x y -> (forall a b, R a b -> osim S (k a) (k' b)) -> osim S (bind x k) (bind y k').
Proof. intros H K. destruct x; cbn [bind osim] in *; auto. destruct H as [b [-> HR]]. cbn [bind]. auto. Qed.
Lemma osim_ok {A B} (R : A -> B -> Prop) a b : R a b -> osim R (Ok a) (Ok b).
Proof. intro H. exists b. auto. Qed.
Lemma osim_assert dbg b b' : b = b' -> osim eq (assert_ dbg b) (assert_ dbg b').
Proof. intros <-. destruct (assert_ dbg b); cbn; eauto. Qed.

Lemma Forall2_rev' {A B} (R : A -> B -> Prop) l l' : Forall2 R l l' -> Forall2 R (rev l) (rev l').
Proof. induction 1; cbn [rev]; [constructor|]. apply Forall2_app; auto. Qed.
Lemma sim_back {A B} (R : A -> B -> Prop) l l' : Forall2 R l l' -> osim R (back l) (back l').
Proof.
  intro H. unfold back. pose proof (Forall2_rev' _ _ _ H) as H'. inversion H'; subst; cbn; eauto.
Qed.
Lemma Forall2_removelast {A B} (R : A -> B -> Prop) l l' : Forall2 R l l' -> Forall2 R (removelast l) (removelast l').
Proof.
  induction 1 as [|x y l l' Hxy Hl IH]; [constructor|]. cbn [removelast]. inversion Hl; subst; [constructor|]. constructor; auto.
Qed.
Lemma sim_pop {A B} (R : A -> B -> Prop) l l' : Forall2 R l l' -> osim (Forall2 R) (pop_back l) (pop_back l').
Proof. intro H. pose proof (Forall2_removelast _ _ _ H). unfold pop_back. inversion H; subst; cbn [osim]; eauto. Qed.
Lemma sim_set {A B} (R : A -> B -> Prop) l l' x y : Forall2 R l l' -> R x y -> osim (Forall2 R) (set_back l x) (set_back l' y).
Proof.
  intros H Hx. pose proof (Forall2_removelast _ _ _ H). unfold set_back.
  inversion H; subst; cbn [osim]; [trivial|]. eexists. split; [reflexivity|]. apply Forall2_app; auto.
Qed.
Lemma sim_push {A B} (R : A -> B -> Prop) l l' x y : Forall2 R l l' -> R x y -> Forall2 R (push_back l x) (push_back l' y).
Proof. intros. apply Forall2_app; auto. Qed.
Lemma sim_len {A B} (R : A -> B -> Prop) l l' : Forall2 R l l' -> length l = length l'.
Proof. induction 1; cbn; congruence. Qed.
Lemma sim_nonempty {A B} (R : A -> B -> Prop) l l' : Forall2 R l l' -> nonempty l = nonempty l'.
Proof. destruct 1; reflexivity. Qed.

Section Sim.
Variable m : mem.
Hypothesis Sd : sound m.

Lemma m_list_path c o k : sub None (top m) c = Some (o, k) -> m_list m o = Ok k.
Proof. intro H. apply m_list_ok; [exact Sd|]. eapply sub_in; eassumption. Qed.
Lemma m_place_path c o k i a : sub None (top m) c = Some (o, k) -> nth_error (pointers k) i = Some a -> m_place m a = Ok (o, k, i).
Proof. intros H N. apply m_place_ok; auto. eapply sub_in; eassumption. Qed.
Lemma forest_sub c o k : sub None (top m) c = Some (o, k) -> container (forest m) c = Some (map strip (snd k)).
Proof. intro H. unfold forest. rewrite (sub_container None), H. reflexivity. Qed.

Lemma sim_begin c o : Rp m c o -> osim (Ri m) (cbegin (forest m) c) (m_begin m o).
Proof.
  intros [k H]. unfold cbegin, deref_list, m_begin. rewrite (forest_sub c o k H), (m_list_path c o k H). cbn [bind].
  unfold nth_or_ub. destruct (nth_error (pointers k) 0) as [a|] eqn:N.
  - apply osim_ok. exists o, k. auto.
  - apply nth_error_None in N. rewrite pointers_len in N. lia.
Qed.
Lemma sim_end c o : Rp m c o -> osim (Ri m) (cend (forest m) c) (m_end m o).
Proof.
  intros [k H]. unfold cend, deref_list, m_end. rewrite (forest_sub c o k H), (m_list_path c o k H). cbn [bind].
  apply osim_ok. exists o, k. cbn [fst snd]. rewrite map_length. split; [exact H|apply nth_pointers_end].
Qed.
Lemma sim_deref i a : Ri m i a ->
  osim (fun t s => t = strip s /\ a_addr s = a /\ sub None (top m) (fst i ++ [snd i]) = Some (Some a, (a_end s, a_children s)))
    (cderef (forest m) i) (m_deref m a).
Proof.
  destruct i as [c i]. intros [o [k [H N]]]. cbn [fst snd] in *. unfold cderef, deref_list, m_deref. cbn [fst snd].
  rewrite (forest_sub c o k H), (m_place_path c o k i a H N). cbn [bind]. rewrite nth_strip. unfold nth_or_ub.
  destruct (nth_error (snd k) i) as [t|] eqn:E; cbn [option_map]; [|exact I].
  apply osim_ok. pose proof (nth_pointers k i t E) as E'. assert (a = a_addr t) by congruence. subst a. split; [reflexivity|].
  split; [reflexivity|]. eapply sub_snoc; eassumption.
Qed.
Lemma sim_inc i a : Ri m i a -> osim (Ri m) (cinc (forest m) i) (m_inc m a).
Proof.
  destruct i as [c i]. intros [o [k [H N]]]. cbn [fst snd] in *. unfold cinc, deref_list, m_inc. cbn [fst snd].
  rewrite (forest_sub c o k H), (m_place_path c o k i a H N). cbn [bind]. rewrite map_length.
  destruct (Nat.ltb_spec i (length (snd k))) as [L|L]; [|exact I]. unfold nth_or_ub.
  destruct (nth_error (pointers k) (S i)) as [b|] eqn:E.
  - apply osim_ok. exists o, k. auto.
  - apply nth_error_None in E. rewrite pointers_len in E. lia.
Qed.
Lemma sim_dec i a : Ri m i a -> osim (Ri m) (cdec i) (m_dec m a).
Proof.
  destruct i as [c i]. intros [o [k [H N]]]. cbn [fst snd] in *. unfold cdec, m_dec. cbn [fst snd].
  rewrite (m_place_path c o k i a H N). cbn [bind]. destruct i as [|i]; [exact I|]. unfold nth_or_ub.
  destruct (nth_error (pointers k) i) as [b|] eqn:E.
  - apply osim_ok. exists o, k. auto.
  - apply nth_error_None in E. assert (L : nth_error (pointers k) (S i) <> None) by congruence.
    apply nth_error_Some in L. lia.
Qed.
Lemma sim_eq i a j b : Ri m i a -> Ri m j b -> osim eq (ceq i j) (m_eq m a b).
Proof.
  destruct i as [c i], j as [c' j]. intros [o [k [H N]]] [o' [k' [H' N']]]. cbn [fst snd] in *. unfold ceq, m_eq. cbn [fst snd].
  destruct (path_eqb c c') eqn:E; [|exact I]. unfold path_eqb in E. destruct (list_eq_dec Nat.eq_dec c c') as [<-|]; [|discriminate].
  rewrite H' in H. injection H as -> ->.
  rewrite (m_place_path c o k i a H' N), (m_place_path c o k j b H' N'). cbn [bind fst].
  rewrite (proj2 (owner_eqb_spec o o) eq_refl). apply osim_ok.
  assert (ND : NoDup (pointers k)) by (eapply sound_pointers1; [exact Sd|eapply sub_in; exact H']).
  destruct (Nat.eqb_spec i j) as [->|NE].
  - rewrite N' in N. injection N as ->. symmetry. apply Nat.eqb_refl.
  - symmetry. apply Nat.eqb_neq. intros ->. apply NE. rewrite NoDup_nth_error in ND. apply ND; [|congruence].
    apply nth_error_Some. congruence.
Qed.

Lemma sim_pop_loop g fuel : forall it jt, Rit m it jt -> osim (Rit m) (pop_loop (forest m) g fuel it) (mem_pop m g fuel jt).
Proof.
  induction fuel as [|fuel IH]; intros it jt R; [exact I|]. pose proof R as [R1 R2]. cbn [pop_loop mem_pop].
  rewrite (sim_len _ _ _ R2). destruct (negb _); [|apply osim_ok; exact R].
  eapply osim_bind; [apply sim_back; exact R2|]. intros i a Hi.
  eapply osim_bind; [apply sim_back; exact R1|]. intros c o Hc.
  eapply osim_bind; [apply sim_end; exact Hc|]. intros e e' He.
  eapply osim_bind; [apply sim_eq; eassumption|]. intros b _ <-.
  destruct b; [|apply osim_ok; exact R].
  eapply osim_bind; [apply sim_pop; exact R1|]. intros ls ls' Hls.
  eapply osim_bind; [apply sim_pop; exact R2|]. intros is is' His.
  eapply osim_bind; [apply osim_assert; rewrite (sim_len _ _ _ His), (sim_len _ _ _ Hls); reflexivity|]. intros _ _ _.
  eapply osim_bind; [apply sim_back; exact His|]. intros j b Hj.
  eapply osim_bind; [apply sim_inc; exact Hj|]. intros j' b' Hj'.
  eapply osim_bind; [apply sim_set; [exact His|exact Hj']|]. intros is2 is2' His2.
  apply IH. split; assumption.
Qed.

Lemma nonempty_map {A B} (g : A -> B) l : nonempty (map g l) = nonempty l.
Proof. destruct l; reflexivity. Qed.

Lemma sim_incr dbg it jt : Rit m it jt -> osim (Rit m) (incr dbg (forest m) it) (mem_incr dbg m jt).
Proof.
  intro R. pose proof R as [R1 R2]. unfold incr, mem_incr.
  eapply osim_bind; [apply osim_assert, (sim_nonempty _ _ _ R2)|]. intros _ _ _.
  eapply osim_bind; [apply osim_assert; rewrite (sim_len _ _ _ R2), (sim_len _ _ _ R1); reflexivity|]. intros _ _ _.
  eapply osim_bind; [apply sim_back; exact R2|]. intros i a Hi.
  eapply osim_bind with (R := eq).
  { destruct dbg; [|apply osim_ok; reflexivity].
    eapply osim_bind; [apply sim_back; exact R1|]. intros c o Hc.
    eapply osim_bind; [apply sim_end; exact Hc|]. intros e e' He.
    eapply osim_bind; [apply sim_eq; eassumption|]. intros b _ <-. apply osim_assert. reflexivity. }
  intros _ _ _.
  eapply osim_bind; [apply sim_deref; exact Hi|]. intros t s [-> [Ea Hs]]. rewrite children_strip, nonempty_map.
  assert (Hc : Rp m (fst i ++ [snd i]) (Some a)) by (eexists; exact Hs).
  destruct (nonempty (a_children s)).
  - eapply osim_bind; [apply sim_begin; exact Hc|]. intros b b' Hb.
    apply osim_ok. split; apply sim_push; assumption.
  - eapply osim_bind; [apply sim_inc; exact Hi|]. intros j b Hj.
    eapply osim_bind; [apply sim_set; [exact R2|exact Hj]|]. intros is is' His.
    rewrite (sim_len _ _ _ His).
    eapply osim_bind; [apply osim_assert; reflexivity|]. intros _ _ _.
    apply sim_pop_loop. split; assumption.
Qed.

Lemma sim_descend dbg fuel : forall it jt, Rit m it jt -> osim (Rit m) (descend dbg (forest m) fuel it) (mem_descend dbg m fuel jt).
Proof.
  induction fuel as [|fuel IH]; intros it jt R; [exact I|]. pose proof R as [R1 R2]. cbn [descend mem_descend].
  eapply osim_bind; [apply sim_back; exact R2|]. intros i a Hi.
  eapply osim_bind with (R := eq).
  { destruct dbg; [|apply osim_ok; reflexivity].
    eapply osim_bind; [apply sim_back; exact R1|]. intros c o Hc.
    eapply osim_bind; [apply sim_begin; exact Hc|]. intros e e' He.
    eapply osim_bind; [apply sim_eq; eassumption|]. intros b _ <-. apply osim_assert. reflexivity. }
  intros _ _ _.
  eapply osim_bind; [apply sim_dec; exact Hi|]. intros j b Hj.
  eapply osim_bind; [apply sim_set; [exact R2|exact Hj]|]. intros is is' His.
  eapply osim_bind; [apply sim_deref; exact Hj|]. intros t s [-> [Ea Hs]]. rewrite children_strip, nonempty_map.
  assert (Hc : Rp m (fst j ++ [snd j]) (Some b)) by (eexists; exact Hs).
  destruct (nonempty (a_children s)).
  - eapply osim_bind; [apply sim_end; exact Hc|]. intros e e' He. apply IH. split; apply sim_push; assumption.
  - apply osim_ok. split; assumption.
Qed.

Lemma sim_decr dbg it jt : Rit m it jt -> osim (Rit m) (decr dbg (forest m) it) (mem_decr dbg m jt).
Proof.
  intro R. pose proof R as [R1 R2]. unfold decr, mem_decr.
  eapply osim_bind; [apply osim_assert, (sim_nonempty _ _ _ R2)|]. intros _ _ _.
  eapply osim_bind; [apply osim_assert, (sim_nonempty _ _ _ R1)|]. intros _ _ _.
  eapply osim_bind; [apply sim_back; exact R2|]. intros i a Hi.
  eapply osim_bind; [apply sim_back; exact R1|]. intros c o Hc.
  eapply osim_bind; [apply sim_begin; exact Hc|]. intros e e' He.
  eapply osim_bind; [apply sim_eq; eassumption|]. intros b _ <-.
  destruct b; [|apply sim_descend; exact R].
  eapply osim_bind; [apply sim_pop; exact R2|]. intros is is' His.
  eapply osim_bind; [apply sim_pop; exact R1|]. intros ls ls' Hls.
  apply osim_ok. split; assumption.
Qed.

Lemma sim_deref_it it jt : Rit m it jt -> osim eq (deref (forest m) it) (mem_deref m jt).
Proof.
  intros [R1 R2]. unfold deref, mem_deref. eapply osim_bind; [apply sim_back; exact R2|]. intros i a Hi.
  pose proof (sim_deref i a Hi) as H. destruct (cderef (forest m) i); cbn in *; auto.
  destruct H as [s [-> [-> _]]]. cbn [bind]. eauto.
Qed.

Lemma sim_all_eq a : forall b a' b', Forall2 (Ri m) a a' -> Forall2 (Ri m) b b' -> osim eq (all_eq a b) (m_all_eq m a' b').
Proof.
  induction a as [|x a IH]; intros b a' b' Ha Hb; inversion Ha; subst; [apply osim_ok; reflexivity|].
  inversion Hb; subst; [apply osim_ok; reflexivity|]. cbn [all_eq m_all_eq].
  eapply osim_bind; [apply sim_eq; eassumption|]. intros e _ <-. destruct e; [|apply osim_ok; reflexivity]. auto.
Qed.
Lemma sim_it_eq a b a' b' : Rit m a a' -> Rit m b b' -> osim eq (it_eq a b) (mem_eq m a' b').
Proof.
  intros [_ Ha] [_ Hb]. unfold it_eq, mem_eq. rewrite (sim_len _ _ _ Ha), (sim_len _ _ _ Hb).
  destruct (Nat.eqb _ _); [|apply osim_ok; reflexivity]. apply sim_all_eq; assumption.
Qed.
End Sim.

(** ** Changes of a container *)
Fixpoint upd (k : cont) (c : path) (k' : cont) : cont :=
  match c with
  | [] => k'
  | i :: c =>
      match nth_error (snd k) i with
      | Some t =>
          let s := upd (a_end t, a_children t) c k' in
          (fst k, firstn i (snd k) ++ match t with ANode a v _ _ => ANode a v (fst s) (snd s) end :: skipn (S i) (snd k))
      | None => k
      end
  end.

Lemma split_nth {A} (l : list A) i x : nth_error l i = Some x -> l = firstn i l ++ x :: skipn (S i) l.
Proof.
  revert l; induction i as [|i IH]; intros [|y l] H; try discriminate.
  - injection H as ->. reflexivity.
  - cbn [firstn skipn app]. f_equal. apply IH. exact H.
Qed.
Lemma firstn_nth_len {A} (l : list A) i x : nth_error l i = Some x -> length (firstn i l) = i.
Proof. intro H. apply firstn_length_le. assert (L : nth_error l i <> None) by congruence. apply nth_error_Some in L. lia. Qed.
Lemma nth_replaced {A} (l : list A) i x y : nth_error l i = Some x -> nth_error (firstn i l ++ y :: skipn (S i) l) i = Some y.
Proof. intro H. rewrite nth_error_app2; rewrite (firstn_nth_len l i x H); [|lia]. rewrite Nat.sub_diag. reflexivity. Qed.
Lemma nth_replaced_other {A} (l : list A) i j x y : nth_error l i = Some x -> i <> j ->
  nth_error (firstn i l ++ y :: skipn (S i) l) j = nth_error l j.
Proof.
  intros H NE. rewrite (split_nth l i x H) at 3. pose proof (firstn_nth_len l i x H) as L.
  destruct (Nat.lt_ge_cases j i) as [D|D].
  - rewrite !nth_error_app1 by lia. reflexivity.
  - rewrite !nth_error_app2 by lia. rewrite L. destruct (j - i) as [|d] eqn:E; [lia|]. reflexivity.
Qed.
Lemma map_replaced {A B} (g : A -> B) (l : list A) i x y : nth_error l i = Some x -> g y = g x ->
  map g (firstn i l ++ y :: skipn (S i) l) = map g l.
Proof. intros H E. rewrite (split_nth l i x H) at 3. rewrite !map_app. cbn [map]. rewrite E. reflexivity. Qed.

Lemma upd_top (k : cont) c k' : c <> [] -> fst (upd k c k') = fst k.
Proof. destruct c; [contradiction|]. intros _. cbn [upd]. destruct (nth_error _ _); reflexivity. Qed.
Lemma upd_addrs (k : cont) c k' : c <> [] -> map a_addr (snd (upd k c k')) = map a_addr (snd k).
Proof.
  destruct c as [|i c]; [contradiction|]. intros _. cbn [upd]. destruct (nth_error _ _) as [[a v e ch]|] eqn:N; [|reflexivity].
  cbn [snd]. eapply map_replaced; [exact N|]. reflexivity.
Qed.
Lemma upd_pointers (k : cont) c k' : c <> [] -> pointers (upd k c k') = pointers k.
Proof. intro H. unfold pointers. rewrite upd_top, upd_addrs by exact H. reflexivity. Qed.

Lemma sub_owner (l : list atree) e c : forall o o' k', sub o (e, l) c = Some (Some o', k') -> c <> [] -> In o' (addrs_of l).
Proof.
  intros o o' k' H NE. apply sub_nodes in H; [|exact NE]. apply in_map_iff in H. destruct H as [t [E I]]. injection E as <- _.
  unfold addrs_of. apply in_flat_map. exists t. split; [exact I|left; reflexivity].
Qed.

Lemma put_none o k' (t : atree) : ~ In o (taddrs t) -> put o k' t = t.
Proof.
  induction t as [a v e ch IH] using atree_ind'. intro N. cbn [put]. destruct (Nat.eqb_spec a o) as [->|NE].
  - elim N. left. reflexivity.
  - f_equal. assert (N' : ~ In o (addrs_of ch)) by (intro I; apply N; right; right; exact I). clear N NE.
    induction IH as [|t l Ht Hl IHl]; [reflexivity|]. rewrite addrs_cons in N'. cbn [map]. f_equal.
    + apply Ht. intro I. apply N', in_or_app. auto.
    + apply IHl. intro I. apply N', in_or_app. auto.
Qed.
Lemma put_none_list o k' (l : list atree) : ~ In o (addrs_of l) -> map (put o k') l = l.
Proof.
  induction l as [|t l IH]; intro N; [reflexivity|]. rewrite addrs_cons in N. cbn [map]. f_equal.
  - apply put_none. intro I. apply N, in_or_app. auto.
  - apply IH. intro I. apply N, in_or_app. auto.
Qed.

Lemma put_upd c : forall o0 e l o k k', sub o0 (e, l) c = Some (Some o, k) -> c <> [] -> NoDup (addrs_of l) ->
  map (put o k') l = snd (upd (e, l) c k').
Proof.
  induction c as [|i c IH]; intros o0 e l o k k' H NE N; [contradiction|]. cbn [sub snd] in H. cbn [upd snd].
  destruct (nth_error l i) as [t|] eqn:Et; [|discriminate]. destruct t as [a v e' ch]. cbn [a_addr a_end a_children] in *.
  pose proof (split_nth l i _ Et) as El. rewrite El in N. rewrite addrs_app, addrs_cons in N.
  apply nodup_app in N. destruct N as [N1 [N2 D1]]. apply nodup_app in N2. destruct N2 as [N2 [N3 D2]].
  unfold taddrs in *. cbn [a_addr a_end a_children] in *.
  assert (It : In o (a :: e' :: addrs_of ch)).
  { destruct c as [|j c]; [cbn [sub] in H; injection H as <- <-; left; reflexivity|].
    right. right. eapply sub_owner; [exact H|discriminate]. }
  rewrite El at 1. rewrite map_app. cbn [map snd]. f_equal; [|f_equal].
  - apply put_none_list. intro I. apply (D1 _ I). apply in_or_app. auto.
  - destruct c as [|j c].
    + cbn [sub] in H. injection H as <- <-. cbn [put upd]. rewrite Nat.eqb_refl. reflexivity.
    + assert (Io : In o (addrs_of ch)) by (eapply sub_owner; [exact H|discriminate]).
      inversion N2 as [|? ? A1 A2]; subst. inversion A2 as [|? ? A3 A4]; subst.
      cbn [put]. destruct (Nat.eqb_spec a o) as [->|NE']; [elim A1; right; exact Io|].
      rewrite upd_top by discriminate. cbn [fst]. f_equal. eapply IH; [exact H|discriminate|exact A4].
  - apply put_none_list. apply D2. exact It.
Qed.

Lemma put_cont_upd (m : mem) c o k k' : sound m -> sub None (top m) c = Some (o, k) -> put_cont o k' (top m) = upd (top m) c k'.
Proof.
  intros [N _] H. destruct c as [|i c].
  - cbn [sub] in H. injection H as <- <-. reflexivity.
  - assert (exists a, o = Some a) as [a ->].
    { destruct (top m) as [e l]. apply sub_nodes in H; [|discriminate]. apply in_map_iff in H. destruct H as [t [E _]].
      injection E as <- _. eauto. }
    unfold put_cont. rewrite <- (upd_top (top m) (i :: c) k') by discriminate.
    unfold addresses in N. destruct (top m) as [e l]. inversion N as [|? ? _ N']; subst. cbn [snd] in *.
    rewrite (put_upd (i :: c) None e l a k k' H); [|discriminate|exact N']. symmetry. apply surjective_pairing.
Qed.

Lemma upd_caddrs c : forall o0 k0 o k, sub o0 k0 c = Some (o, k) ->
  exists l1 l2, caddrs k0 = l1 ++ caddrs k ++ l2 /\ forall k', caddrs (upd k0 c k') = l1 ++ caddrs k' ++ l2.
Proof.
  induction c as [|i c IH]; intros o0 k0 o k H; cbn [sub upd] in *.
  - injection H as <- <-. exists [], []. split; [|intro k']; cbn [app]; rewrite app_nil_r; reflexivity.
  - destruct (nth_error (snd k0) i) as [t|] eqn:Et; [|discriminate].
    destruct (IH _ _ _ _ H) as [l1 [l2 [E1 E2]]]. destruct t as [a v e ch]. cbn [a_addr a_end a_children] in *.
    exists (fst k0 :: addrs_of (firstn i (snd k0)) ++ a :: l1), (l2 ++ addrs_of (skipn (S i) (snd k0))). split.
    + unfold caddrs at 1. rewrite (split_nth _ _ _ Et) at 1. rewrite addrs_app, addrs_cons. unfold taddrs. cbn [a_addr a_end a_children].
      change (e :: addrs_of ch) with (caddrs (e, ch)). rewrite E1. repeat (cbn [app]; rewrite <- ?app_assoc). reflexivity.
    + intro k'. unfold caddrs at 1. cbn [fst snd]. rewrite addrs_app, addrs_cons. unfold taddrs. cbn [a_addr a_end a_children].
      specialize (E2 k'). unfold caddrs at 1 in E2. rewrite E2. repeat (cbn [app]; rewrite <- ?app_assoc). reflexivity.
Qed.

Lemma upd_strip c : forall o0 k0 o k k', sub o0 k0 c = Some (o, k) ->
  map strip (snd (upd k0 c k')) = set_container (map strip (snd k0)) c (map strip (snd k')).
Proof.
  induction c as [|i c IH]; intros o0 k0 o k k' H; cbn [sub upd set_container] in *; [reflexivity|].
  rewrite nth_strip. destruct (nth_error (snd k0) i) as [t|] eqn:Et; [|discriminate]. cbn [option_map snd].
  destruct t as [a v e ch]. cbn [strip a_end a_children] in *. rewrite map_app, firstn_map, skipn_map. cbn [map strip].
  rewrite (IH _ _ _ _ k' H). reflexivity.
Qed.

Lemma sub_upd c : forall o0 k0 o k k', sub o0 k0 c = Some (o, k) -> sub o0 (upd k0 c k') c = Some (o, k').
Proof.
  induction c as [|i c IH]; intros o0 k0 o k k' H; cbn [sub upd] in *; [congruence|].
  destruct (nth_error (snd k0) i) as [t|] eqn:Et; [|discriminate]. cbn [snd].
  rewrite (nth_replaced _ _ _ _ Et). destruct t as [a v e ch]. cbn [a_addr a_end a_children] in *.
  rewrite <- surjective_pairing. eapply IH; eassumption.
Qed.

Lemma trail_upd_other q : forall o0 k0 o k k' p, sub o0 k0 q = Some (o, k) -> ~ through q (fun _ => True) p ->
  trail o0 (upd k0 q k') p = trail o0 k0 p.
Proof.
  induction q as [|i q IH]; intros o0 k0 o k k' p H NT.
  - destruct p as [|j p]; [reflexivity|]. elim NT. exists j, p. auto.
  - destruct p as [|j p]; [reflexivity|]. cbn [trail].
    change (map a_addr (snd (upd k0 (i :: q) k')) ++ [fst (upd k0 (i :: q) k')]) with (pointers (upd k0 (i :: q) k')).
    rewrite upd_pointers by discriminate. change (map a_addr (snd k0) ++ [fst k0]) with (pointers k0).
    destruct (nth_error (pointers k0) j) as [a|] eqn:Ea; [|reflexivity]. destruct p as [|j' p]; [reflexivity|].
    cbn [sub upd] in *. destruct (nth_error (snd k0) i) as [t|] eqn:Et; [|discriminate]. cbn [snd].
    destruct (Nat.eq_dec i j) as [<-|NE].
    + rewrite (nth_replaced _ _ _ _ Et), Et. destruct t as [b v e ch]. cbn [a_addr a_end a_children] in *. rewrite <- surjective_pairing.
      assert (a = b) by (rewrite (nth_pointers _ _ _ Et) in Ea; cbn in Ea; congruence). subst b.
      rewrite (IH _ _ _ _ k' (j' :: p) H); [reflexivity|].
      intros [x [r [E _]]]. apply NT. exists x, r. rewrite E. auto.
    + rewrite (nth_replaced_other _ _ _ _ _ Et NE). reflexivity.
Qed.

Lemma trail_upd_through q : forall o0 k0 o k k' j j' r, sub o0 k0 q = Some (o, k) ->
  nth_error (pointers k) j = nth_error (pointers k') j' -> nth_error (snd k) j = nth_error (snd k') j' ->
  trail o0 (upd k0 q k') (q ++ j' :: r) = trail o0 k0 (q ++ j :: r).
Proof.
  induction q as [|i q IH]; intros o0 k0 o k k' j j' r H E1 E2.
  - cbn [sub upd app trail] in *. injection H as <- <-. unfold pointers in *. rewrite E1, E2. reflexivity.
  - cbn [app trail].
    change (map a_addr (snd (upd k0 (i :: q) k')) ++ [fst (upd k0 (i :: q) k')]) with (pointers (upd k0 (i :: q) k')).
    rewrite upd_pointers by discriminate. change (map a_addr (snd k0) ++ [fst k0]) with (pointers k0).
    cbn [sub upd] in *. destruct (nth_error (snd k0) i) as [t|] eqn:Et; [|discriminate]. cbn [snd].
    rewrite (nth_pointers _ _ _ Et), (nth_replaced _ _ _ _ Et). destruct t as [b v e ch]. cbn [a_addr a_end a_children] in *.
    rewrite <- surjective_pairing. rewrite (IH _ _ _ _ k' j j' r H E1 E2).
    destruct (q ++ j' :: r) eqn:Q1; [destruct q; discriminate|]. destruct (q ++ j :: r) eqn:Q2; [destruct q; discriminate|]. reflexivity.
Qed.

Lemma trail_upd_last q : forall o0 k0 o k k' i i' a' ls is, sub o0 k0 q = Some (o, k) ->
  trail o0 k0 (q ++ [i]) = Some (ls, is) -> nth_error (pointers k') i' = Some a' ->
  trail o0 (upd k0 q k') (q ++ [i']) = Some (ls, removelast is ++ [a']).
Proof.
  induction q as [|x q IH]; intros o0 k0 o k k' i i' a' ls is H T E.
  - cbn [sub upd app trail] in *. injection H as <- <-. unfold pointers in E. rewrite E.
    destruct (nth_error (map a_addr (snd k0) ++ [fst k0]) i) as [a|]; [|discriminate]. injection T as <- <-. reflexivity.
  - cbn [app trail] in *.
    change (map a_addr (snd (upd k0 (x :: q) k')) ++ [fst (upd k0 (x :: q) k')]) with (pointers (upd k0 (x :: q) k')).
    rewrite upd_pointers by discriminate. change (map a_addr (snd k0) ++ [fst k0]) with (pointers k0) in *.
    cbn [sub upd] in *. destruct (nth_error (snd k0) x) as [t|] eqn:Et; [|discriminate]. cbn [snd].
    rewrite (nth_pointers _ _ _ Et) in *. rewrite (nth_replaced _ _ _ _ Et). destruct t as [b v e ch]. cbn [a_addr a_end a_children] in *.
    rewrite <- surjective_pairing.
    pose proof (app_cons_not_nil q [] i) as NQ. destruct (q ++ [i]) as [|y0 l0] eqn:Q1; [congruence|]. rewrite <- Q1 in T.
    destruct (trail (Some b) (e, ch) (q ++ [i])) as [[ls' is']|] eqn:T'; [|discriminate]. injection T as <- <-.
    rewrite (IH _ _ _ _ k' i i' a' ls' is' H T' E).
    pose proof (app_cons_not_nil q [] i') as NQ'. destruct (q ++ [i']) as [|y1 l1] eqn:Q2; [congruence|].
    destruct is' as [|y is']; [|reflexivity].
    exfalso. clear - T'. destruct q; cbn [app trail] in T'.
    + destruct (nth_error _ i); discriminate.
    + destruct (nth_error _ _); [|discriminate]. destruct (q ++ [i]); [discriminate|].
      cbn [snd] in T'. destruct (nth_error ch n); [|discriminate]. destruct (trail _ _ _) as [[? ?]|]; discriminate.
Qed.

(** ** New addresses *)
Definition kids (l : list atree) : list nat := flat_map (fun t => addrs_of (a_children t)) l.

Lemma kids_in l x : In x (kids l) -> In x (addrs_of l).
Proof.
  induction l as [|t l IH]; [auto|]. unfold kids in *. cbn [flat_map]. rewrite addrs_cons. intro I. apply in_app_or in I.
  apply in_or_app. destruct I as [I|I]; [left; right; right; exact I|auto].
Qed.
Lemma moved_len n (l : list atree) : length (moved n l) = length l.
Proof. revert n; induction l as [|[a v e ch] l IH]; intro n; cbn; auto. Qed.
Lemma moved_strip n (l : list atree) : map strip (moved n l) = map strip l.
Proof. revert n; induction l as [|[a v e ch] l IH]; intro n; cbn [moved map strip]; [reflexivity|]. rewrite IH. reflexivity. Qed.
Lemma moved_in (l : list atree) x : forall n, In x (addrs_of (moved n l)) -> n <= x < n + 2 * length l \/ In x (kids l).
Proof.
  induction l as [|[a v e ch] l IH]; intros n I; [destruct I|]. cbn [moved] in I. rewrite addrs_cons in I. unfold taddrs in I.
  cbn [a_addr a_end a_children app] in I. cbn [length]. unfold kids. cbn [flat_map a_children].
  destruct I as [<-|[<-|I]]; [left; lia|left; lia|]. apply in_app_or in I. destruct I as [I|I].
  - right. apply in_or_app. auto.
  - apply IH in I. destruct I as [I|I]; [left; lia|right; apply in_or_app; auto].
Qed.
Lemma kids_nodup l : NoDup (addrs_of l) -> NoDup (kids l).
Proof.
  induction l as [|t l IH]; intro N; [constructor|]. rewrite addrs_cons in N. apply nodup_app in N. destruct N as [N1 [N2 D]].
  unfold kids. cbn [flat_map]. apply nodup_app. split; [|split; [apply IH; exact N2|]].
  - inversion N1 as [|? ? _ N3]. inversion N3. assumption.
  - intros a I I'. apply (D a); [right; right; exact I|apply kids_in; exact I'].
Qed.
Lemma moved_nodup (l : list atree) : forall n, NoDup (addrs_of l) -> Forall (fun a => a < n) (addrs_of l) -> NoDup (addrs_of (moved n l)).
Proof.
  induction l as [|t l IH]; intros n N F; [constructor|]. destruct t as [a v e ch].
  pose proof (kids_nodup _ N) as Nk. rewrite addrs_cons in N, F. apply nodup_app in N. destruct N as [N1 [N2 D]].
  apply Forall_app in F. destruct F as [F1 F2]. rewrite Forall_forall in F1, F2. unfold taddrs in *. cbn [a_addr a_end a_children] in *.
  cbn [moved]. rewrite addrs_cons. unfold taddrs. cbn [a_addr a_end a_children app].
  assert (IHl : NoDup (addrs_of (moved (S (S n)) l))).
  { apply IH; [exact N2|]. apply Forall_forall. intros x Ix. apply F2 in Ix. lia. }
  assert (B : forall x, In x (addrs_of ch ++ addrs_of (moved (S (S n)) l)) -> x < n \/ S (S n) <= x).
  { intros x I. apply in_app_or in I. destruct I as [I|I]; [left; apply F1; right; right; exact I|].
    apply moved_in in I. destruct I as [I|I]; [right; lia|left; apply F2, kids_in, I]. }
  constructor; [|constructor].
  - intros [E|I]; [lia|]. apply B in I. lia.
  - intro I. apply B in I. lia.
  - apply nodup_app. split; [inversion N1 as [|? ? _ N3]; inversion N3; assumption|split; [exact IHl|]].
    intros x I I'. apply moved_in in I'. destruct I' as [I'|I'].
    + specialize (F1 x (or_intror (or_intror I))). lia.
    + apply (D x); [right; right; exact I|apply kids_in; exact I'].
Qed.

Lemma label_eq v ch n : label (V := V) (Node v ch) n = let '(l, n') := load_list ch (S (S n)) in (ANode n v (S n) l, n').
Proof.
  cbn [label]. match goal with |- (let '(_, _) := ?x in _) = (let '(_, _) := ?y in _) => replace x with y; [reflexivity|] end.
  generalize (S (S n)) as k. induction ch as [|t ch IH]; intro k; cbn [load_list]; [reflexivity|].
  destruct (label t k) as [t' n1]. rewrite IH. reflexivity.
Qed.
Definition label_ok (t : tree) : Prop := forall n, strip (fst (label t n)) = t /\ n < snd (label t n) /\
  taddrs (fst (label t n)) = seq n (snd (label t n) - n) /\ a_addr (fst (label t n)) = n.
Lemma load_ok l : Forall label_ok l -> forall n, map strip (fst (load_list l n)) = l /\ n <= snd (load_list l n) /\
  addrs_of (fst (load_list l n)) = seq n (snd (load_list l n) - n).
Proof.
  induction 1 as [|t l Ht Hl IH]; intro n; cbn [load_list].
  - cbn [fst snd map]. rewrite Nat.sub_diag. auto.
  - destruct (Ht n) as [T1 [T2 [T3 _]]]. destruct (label t n) as [t' n1]. cbn [fst snd] in *.
    destruct (IH n1) as [L1 [L2 L3]]. destruct (load_list l n1) as [l' n2]. cbn [fst snd] in *.
    cbn [map]. rewrite T1, L1. split; [reflexivity|]. split; [lia|]. rewrite addrs_cons, T3, L3.
    replace (n2 - n) with ((n1 - n) + (n2 - n1)) by lia. rewrite seq_app. do 2 f_equal. lia.
Qed.
Lemma label_all t : label_ok t.
Proof.
  induction t as [v ch IH] using tree_ind'. intro n. rewrite label_eq. pose proof (load_ok ch IH (S (S n))) as [L1 [L2 L3]].
  destruct (load_list ch (S (S n))) as [l n']. cbn [fst snd] in *. cbn [strip a_addr]. rewrite L1. split; [reflexivity|]. split; [lia|].
  split; [|reflexivity]. unfold taddrs. cbn [a_addr a_end a_children]. rewrite L3. replace (n' - n) with (S (S (n' - S (S n)))) by lia. reflexivity.
Qed.

Theorem load_sound (f : list tree) : sound (load f) /\ forest (load f) = f.
Proof.
  unfold load. assert (A : Forall label_ok f) by (apply Forall_forall; intros; apply label_all).
  destruct (load_ok f A 1) as [L1 [L2 L3]]. destruct (load_list f 1) as [l n]. cbn [fst snd] in *.
  split; [|exact L1]. unfold sound, addresses. cbn [top fst snd next]. rewrite L3.
  change (0 :: seq 1 (n - 1)) with (seq 0 (S (n - 1))). replace (S (n - 1)) with n by lia.
  split; [apply seq_NoDup|]. apply Forall_forall. intros x I. apply in_seq in I. lia.
Qed.

(** ** Insertion into and erasure from a container *)
(** What a change of the container [k] to [k'] has to respect. *)
Definition fresh_change (n n' : nat) (k k' : cont) : Prop :=
  NoDup (caddrs k') /\ n <= n' /\ forall x, In x (caddrs k') -> x < n' /\ (In x (caddrs k) \/ n <= x).

Lemma firstn_skipn_nodup i (l : list atree) : NoDup (addrs_of l) -> NoDup (addrs_of (firstn i l)) /\ NoDup (addrs_of (skipn i l)) /\
  (forall x, In x (addrs_of (firstn i l)) -> ~ In x (addrs_of (skipn i l))).
Proof. intro N. rewrite <- (firstn_skipn i l) in N. rewrite addrs_app in N. apply nodup_app in N. exact N. Qed.
Lemma in_firstn i (l : list atree) x : In x (addrs_of (firstn i l)) -> In x (addrs_of l).
Proof. intro I. rewrite <- (firstn_skipn i l), addrs_app. apply in_or_app. auto. Qed.
Lemma in_skipn i (l : list atree) x : In x (addrs_of (skipn i l)) -> In x (addrs_of l).
Proof. intro I. rewrite <- (firstn_skipn i l), addrs_app. apply in_or_app. auto. Qed.

(** An address of the container itself is not one of those below its elements. *)
Lemma kids_not (l : list atree) e x : NoDup (e :: addrs_of l) -> In x (map a_addr l ++ [e]) -> ~ In x (kids l).
Proof.
  intros N I K. inversion N as [|? ? N1 N2]; subst. apply in_app_or in I. destruct I as [I|[<-|[]]]; [|apply N1, kids_in, K].
  clear N N1 e. induction l as [|s l IH]; [destruct I|]. rewrite addrs_cons in N2. apply nodup_app in N2. destruct N2 as [N2 [N3 D]].
  unfold kids in K. cbn [map flat_map] in *. apply in_app_or in K. destruct I as [<-|I], K as [K|K].
  - inversion N2 as [|? ? N4 _]. apply N4. right. exact K.
  - apply (D (a_addr s)); [left; reflexivity|]. apply kids_in. exact K.
  - apply (D x); [right; right; exact K|]. clear - I. induction l as [|u l IH]; [destruct I|]. rewrite addrs_cons. apply in_or_app.
    destruct I as [<-|I]; [left; left; reflexivity|right; auto].
  - auto.
Qed.
Lemma in_addr (l : list atree) x : In x (map a_addr l) -> In x (addrs_of l).
Proof.
  induction l as [|u l IH]; [auto|]. rewrite addrs_cons. intro I. apply in_or_app.
  destruct I as [<-|I]; [left; left; reflexivity|right; auto].
Qed.
Lemma nth_pointers_in (l : cont) j x : nth_error (pointers l) j = Some x -> In x (caddrs l).
Proof.
  intro H. apply nth_error_In in H. unfold pointers in H. apply in_app_or in H. destruct H as [H|[<-|[]]]; [right; apply in_addr, H|left; reflexivity].
Qed.
Lemma pointer_rest (l : cont) i0 j x : i0 <= length (snd l) -> i0 <= j -> nth_error (pointers l) j = Some x ->
  In x (map a_addr (skipn i0 (snd l)) ++ [fst l]).
Proof.
  intros L Hj H. unfold pointers in H. rewrite <- (firstn_skipn i0 (snd l)) in H at 1. rewrite map_app, <- app_assoc in H.
  rewrite nth_error_app2 in H by (rewrite map_length, firstn_length_le; lia). apply nth_error_In in H. exact H.
Qed.
Lemma pointer_front (l : cont) i0 j x : j < i0 -> i0 <= length (snd l) -> nth_error (pointers l) j = Some x ->
  In x (map a_addr (firstn i0 (snd l))).
Proof.
  intros Hj L H. unfold pointers in H. rewrite <- (firstn_skipn i0 (snd l)) in H at 1. rewrite map_app, <- app_assoc in H.
  rewrite nth_error_app1 in H by (rewrite map_length, firstn_length_le; lia). apply nth_error_In in H. exact H.
Qed.

Section Insert.
Variables (kd : kind) (re : bool) (n : nat) (k : cont) (i : nat) (t : tree).
Hypothesis Nk : NoDup (caddrs k).
Hypothesis Fk : Forall (fun a => a < n) (caddrs k).
Hypothesis Hi : i <= length (snd k).

Let k' := fst (fst (insert_at kd re n k i t)).
Let a' := snd (fst (insert_at kd re n k i t)).
Let n' := snd (insert_at kd re n k i t).

Lemma insert_strip : map strip (snd k') = firstn i (map strip (snd k)) ++ t :: skipn i (map strip (snd k)).
Proof.
  unfold k', insert_at. destruct (label_all t n) as [L1 _]. destruct (label t n) as [new n0]. cbn [fst snd] in *.
  rewrite firstn_map, skipn_map. destruct kd; cbn [fst snd].
  - destruct re; rewrite map_app; cbn [map]; rewrite ?moved_strip, L1; reflexivity.
  - rewrite map_app. cbn [map]. rewrite L1. reflexivity.
Qed.
Lemma insert_nth : nth_error (pointers k') i = Some a'.
Proof.
  unfold k', a', insert_at. destruct (label t n) as [new n0]. cbn [fst snd].
  assert (L : length (firstn i (snd k)) = i) by (apply firstn_length_le; exact Hi).
  destruct kd; cbn [fst snd]; apply nth_pointers; cbn [snd].
  - rewrite nth_error_app2; destruct re; rewrite ?moved_len, L; try lia; rewrite Nat.sub_diag; reflexivity.
  - rewrite nth_error_app2; rewrite L; [|lia]. rewrite Nat.sub_diag. reflexivity.
Qed.
Lemma insert_fresh : fresh_change n n' k k'.
Proof.
  unfold fresh_change, k', n', insert_at. destruct (label_all t n) as [_ [L2 [L3 _]]]. destruct (label t n) as [new n0]. cbn [fst snd] in *.
  unfold caddrs in Nk, Fk. inversion Nk as [|? ? N1 N2]; subst. inversion Fk as [|? ? F1 F2]; subst.
  destruct (firstn_skipn_nodup i _ N2) as [Nf [Ns D]]. rewrite Forall_forall in F2.
  set (front := firstn i (snd k)) in *. set (rest := skipn i (snd k)) in *.
  assert (If : forall x, In x (addrs_of front) -> In x (addrs_of (snd k))) by (intro x; apply in_firstn).
  assert (Is : forall x, In x (addrs_of rest) -> In x (addrs_of (snd k))) by (intro x; apply in_skipn).
  assert (Hn : forall x, In x (taddrs new) <-> n <= x < n0).
  { intro x. rewrite L3, in_seq. lia. }
  assert (Nn : NoDup (taddrs new)) by (rewrite L3; apply seq_NoDup).
  assert (Of : forall x, In x (addrs_of front) -> x < n) by eauto.
  assert (Os : forall x, In x (addrs_of rest) -> x < n) by eauto.
  destruct kd; cbn [fst snd].
  - set (n1 := n0 + 2 * length front). set (n2 := n1 + 2 * length rest).
    assert (Nr : NoDup (addrs_of (moved n1 rest))).
    { apply moved_nodup; [exact Ns|]. apply Forall_forall. intros x I. apply Os in I. unfold n1. lia. }
    assert (Ir : forall x, In x (addrs_of (moved n1 rest)) -> n1 <= x < n2 \/ In x (addrs_of rest)).
    { intros x I. apply moved_in in I. destruct I as [I|I]; [left; exact I|right; apply kids_in, I]. }
    set (front' := if re then moved n0 front else front).
    assert (Nf' : NoDup (addrs_of front')).
    { unfold front'. destruct re; [|exact Nf]. apply moved_nodup; [exact Nf|]. apply Forall_forall. intros x I. apply Of in I. lia. }
    assert (If' : forall x, In x (addrs_of front') -> n0 <= x < n1 \/ In x (addrs_of front)).
    { unfold front'. intros x I. destruct re; [|auto]. apply moved_in in I. destruct I as [I|I]; [left; exact I|right; apply kids_in, I]. }
    unfold caddrs. cbn [fst snd]. rewrite addrs_app, addrs_cons.
    assert (All : forall x, In x (addrs_of front' ++ taddrs new ++ addrs_of (moved n1 rest)) -> x < n2 /\ (In x (addrs_of (snd k)) \/ n <= x)).
    { intros x I. apply in_app_or in I. destruct I as [I|I].
      - apply If' in I. destruct I as [I|I]; [unfold n2; lia|]. pose proof (Of x I). split; [unfold n2, n1; lia|auto].
      - apply in_app_or in I. destruct I as [I|I].
        + apply Hn in I. unfold n2, n1. lia.
        + apply Ir in I. destruct I as [I|I]; [unfold n1 in *; lia|]. pose proof (Os x I). split; [unfold n2, n1; lia|auto]. }
    split; [|split; [unfold n2, n1; lia|]].
    + constructor; [intro I; apply All in I; lia|]. apply nodup_app. split; [exact Nf'|]. split.
      * apply nodup_app. split; [exact Nn|]. split; [exact Nr|]. intros x I I'. apply Hn in I. apply Ir in I'.
        destruct I' as [I'|I']; [unfold n1 in *; lia|]. apply Os in I'. lia.
      * intros x I I'. apply If' in I. apply in_app_or in I'. destruct I as [I|I].
        -- destruct I' as [I'|I']; [apply Hn in I'; lia|]. apply Ir in I'. destruct I' as [I'|I']; [lia|]. apply Os in I'. lia.
        -- pose proof (Of x I). destruct I' as [I'|I']; [apply Hn in I'; lia|]. apply Ir in I'.
           destruct I' as [I'|I']; [unfold n1 in *; lia|]. exact (D x I I').
    + intros x [<-|I]; [unfold n2, n1; lia|]. apply All in I. destruct I as [I1 [I2|I2]]; (split; [lia|]); [left; right; exact I2|right; exact I2].
  - unfold caddrs. cbn [fst snd]. rewrite addrs_app, addrs_cons.
    assert (All : forall x, In x (addrs_of front ++ taddrs new ++ addrs_of rest) -> x < n0 /\ (In x (addrs_of (snd k)) \/ n <= x)).
    { intros x I. apply in_app_or in I. destruct I as [I|I]; [pose proof (Of x I); split; [lia|auto]|].
      apply in_app_or in I. destruct I as [I|I]; [apply Hn in I; lia|pose proof (Os x I); split; [lia|auto]]. }
    split; [|split; [lia|]].
    + constructor.
      * intro I. apply in_app_or in I. destruct I as [I|I]; [apply N1; auto|]. apply in_app_or in I. destruct I as [I|I]; [|apply N1; auto].
        apply Hn in I. lia.
      * apply nodup_app. split; [exact Nf|]. split.
        -- apply nodup_app. split; [exact Nn|]. split; [exact Ns|]. intros x I I'. apply Hn in I. apply Os in I'. lia.
        -- intros x I I'. apply in_app_or in I'. destruct I' as [I'|I']; [apply Hn in I'; apply Of in I; lia|exact (D x I I')].
    + intros x [<-|I]; [split; [lia|left; left; reflexivity]|]. apply All in I. destruct I as [I1 [I2|I2]]; (split; [lia|]); [left; right; exact I2|right; exact I2].
Qed.
Lemma insert_keep j : j < i -> (kd = List \/ re = false) ->
  nth_error (pointers k) j = nth_error (pointers k') j /\ nth_error (snd k) j = nth_error (snd k') j.
Proof.
  intros Hj Hk. assert (E : nth_error (snd k) j = nth_error (snd k') j).
  { unfold k', insert_at. destruct (label t n) as [new n0]. assert (L : length (firstn i (snd k)) = i) by (apply firstn_length_le; exact Hi).
    transitivity (nth_error (firstn i (snd k)) j).
    - rewrite <- (firstn_skipn i (snd k)) at 1. apply nth_error_app1. lia.
    - destruct kd; cbn [fst snd].
      + destruct Hk as [Hk|Hk]; [discriminate|]. rewrite Hk. symmetry. apply nth_error_app1. lia.
      + symmetry. apply nth_error_app1. lia. }
  split; [|exact E].
  destruct (nth_error (snd k) j) as [s|] eqn:Es; [|apply nth_error_None in Es; lia].
  rewrite (nth_pointers _ _ _ Es), (nth_pointers k' j s (eq_sym E)). reflexivity.
Qed.
Lemma insert_shift j : i <= j -> kd = List ->
  nth_error (pointers k) j = nth_error (pointers k') (S j) /\ nth_error (snd k) j = nth_error (snd k') (S j).
Proof.
  intros Hj Hk. subst kd. unfold k', insert_at, pointers. destruct (label t n) as [new n0]. cbn [fst snd].
  assert (L : length (firstn i (snd k)) = i) by (apply firstn_length_le; exact Hi).
  split.
  - rewrite <- (firstn_skipn i (snd k)) at 1. rewrite !map_app, <- !app_assoc. cbn [map app].
    rewrite !(nth_error_app2 (map a_addr (firstn i (snd k)))); rewrite ?map_length, L; try lia.
    replace (S j - i) with (S (j - i)) by lia. reflexivity.
  - rewrite <- (firstn_skipn i (snd k)) at 1. rewrite !(nth_error_app2 (firstn i (snd k))); rewrite ?L; try lia.
    replace (S j - i) with (S (j - i)) by lia. reflexivity.
Qed.
Lemma insert_stale j x : kd = Vector -> re = true \/ i <= j -> nth_error (pointers k) j = Some x -> ~ In x (caddrs k').
Proof.
  intros Hk Hj Hx. subst kd. unfold k', insert_at. destruct (label_all t n) as [_ [L2 [L3 _]]]. destruct (label t n) as [new n0]. cbn [fst snd] in *.
  pose proof (proj1 (Forall_forall _ _) Fk x (nth_pointers_in k j x Hx)) as Lx. cbv beta in Lx.
  pose proof Nk as Nk'. unfold caddrs in Nk'. inversion Nk' as [|? ? N1 N2]; subst.
  destruct (firstn_skipn_nodup i _ N2) as [Nf [Ns D]].
  assert (Nr : NoDup (fst k :: addrs_of (skipn i (snd k)))).
  { constructor; [|exact Ns]. intro I. apply N1. eapply in_skipn, I. }
  assert (Nr' : NoDup (fst k :: addrs_of (firstn i (snd k)))).
  { constructor; [|exact Nf]. intro I. apply N1. eapply in_firstn, I. }
  unfold caddrs. cbn [fst snd]. rewrite addrs_app, addrs_cons. rewrite L3. intros [E|I]; [lia|].
  apply in_app_or in I. destruct (Nat.lt_ge_cases j i) as [Lj|Lj].
  - destruct Hj as [->|Hj]; [|lia]. pose proof (pointer_front k i j x Lj Hi Hx) as P. destruct I as [I|I].
    + apply moved_in in I. destruct I as [I|I]; [lia|]. revert I. apply (kids_not _ (fst k)); [exact Nr'|]. apply in_or_app. auto.
    + apply in_app_or in I. destruct I as [I|I]; [apply in_seq in I; lia|]. apply moved_in in I. destruct I as [I|I]; [lia|].
      apply (D x); [apply in_addr, P|apply kids_in, I].
  - pose proof (pointer_rest k i j x Hi Lj Hx) as P. destruct I as [I|I].
    + assert (If : In x (addrs_of (firstn i (snd k)))).
      { destruct re; [|exact I]. apply moved_in in I. destruct I as [I|I]; [lia|apply kids_in, I]. }
      apply in_app_or in P. destruct P as [P|[<-|[]]]; [|apply N1; eapply in_firstn, If]. apply (D x If). apply in_addr, P.
    + apply in_app_or in I. destruct I as [I|I]; [apply in_seq in I; lia|]. apply moved_in in I. destruct I as [I|I]; [lia|].
      revert I. apply (kids_not _ (fst k)); [exact Nr|exact P].
Qed.
End Insert.

Section Erase.
Variables (kd : kind) (n : nat) (k : cont) (i : nat).
Hypothesis Nk : NoDup (caddrs k).
Hypothesis Fk : Forall (fun a => a < n) (caddrs k).
Hypothesis Hi : i < length (snd k).

Let k' := fst (erase_at kd n k i).
Let n' := snd (erase_at kd n k i).

Lemma erase_strip : map strip (snd k') = firstn i (map strip (snd k)) ++ skipn (S i) (map strip (snd k)).
Proof.
  unfold k', erase_at. rewrite firstn_map, skipn_map. destruct kd; cbn [fst snd]; rewrite map_app, ?moved_strip; reflexivity.
Qed.
Lemma erase_len : S (length (snd k')) = length (snd k).
Proof.
  unfold k', erase_at. destruct kd; cbn [fst snd]; rewrite app_length, ?moved_len, firstn_length_le, skipn_length by lia; lia.
Qed.
Lemma erase_fresh : fresh_change n n' k k'.
Proof.
  unfold fresh_change, k', n', erase_at.
  pose proof Nk as Nk'. pose proof Fk as Fk'. unfold caddrs in Nk', Fk'. inversion Nk' as [|? ? N1 N2]; subst. inversion Fk' as [|? ? F1 F2]; subst.
  destruct (firstn_skipn_nodup i _ N2) as [Nf _]. destruct (firstn_skipn_nodup (S i) _ N2) as [_ [Ns D]]. rewrite Forall_forall in F2.
  assert (If : forall x, In x (addrs_of (firstn i (snd k))) -> In x (addrs_of (firstn (S i) (snd k)))).
  { intros x I. replace (firstn i (snd k)) with (firstn i (firstn (S i) (snd k))) in I by (rewrite firstn_firstn; f_equal; lia).
    eapply in_firstn, I. }
  set (rest := skipn (S i) (snd k)) in *.
  assert (Is : forall x, In x (addrs_of rest) -> In x (addrs_of (snd k))) by (intro x; apply in_skipn).
  assert (Of : forall x, In x (addrs_of (firstn i (snd k))) -> In x (addrs_of (snd k))) by (intro x; apply in_firstn).
  destruct kd; cbn [fst snd].
  - set (n1 := n + 2 * length rest). unfold caddrs. cbn [fst snd]. rewrite addrs_app.
    assert (Nr : NoDup (addrs_of (moved n rest))).
    { apply moved_nodup; [exact Ns|]. apply Forall_forall. intros x I. auto. }
    assert (Ir : forall x, In x (addrs_of (moved n rest)) -> n <= x < n1 \/ In x (addrs_of rest)).
    { intros x I. apply moved_in in I. destruct I as [I|I]; [left; exact I|right; apply kids_in, I]. }
    assert (All : forall x, In x (addrs_of (firstn i (snd k)) ++ addrs_of (moved n rest)) -> x < n1 /\ (In x (addrs_of (snd k)) \/ n <= x)).
    { intros x I. apply in_app_or in I. destruct I as [I|I].
      - pose proof (F2 x (Of x I)). split; [unfold n1; lia|auto].
      - apply Ir in I. destruct I as [I|I]; [lia|]. pose proof (F2 x (Is x I)). split; [unfold n1; lia|auto]. }
    split; [|split; [unfold n1; lia|]].
    + constructor; [intro I; apply All in I; lia|]. apply nodup_app. split; [exact Nf|]. split; [exact Nr|].
      intros x I I'. apply Ir in I'. destruct I' as [I'|I']; [pose proof (F2 x (Of x I)); lia|]. exact (D x (If x I) I').
    + intros x [<-|I]; [unfold n1; lia|]. apply All in I. destruct I as [I1 [I2|I2]]; (split; [lia|]); [left; right; exact I2|right; exact I2].
  - unfold caddrs. cbn [fst snd]. rewrite addrs_app. split; [|split; [lia|]].
    + constructor.
      * intro I. apply in_app_or in I. destruct I as [I|I]; apply N1; auto.
      * apply nodup_app. split; [exact Nf|]. split; [exact Ns|]. intros x I I'. exact (D x (If x I) I').
    + intros x [<-|I]; [split; [lia|left; left; reflexivity]|]. apply in_app_or in I.
      destruct I as [I|I]; (split; [auto|left; right; auto]).
Qed.
Lemma erase_keep j : j < i ->
  nth_error (pointers k) j = nth_error (pointers k') j /\ nth_error (snd k) j = nth_error (snd k') j.
Proof.
  intros Hj. assert (E : nth_error (snd k) j = nth_error (snd k') j).
  { unfold k', erase_at. assert (L : length (firstn i (snd k)) = i) by (apply firstn_length_le; lia).
    transitivity (nth_error (firstn i (snd k)) j).
    - rewrite <- (firstn_skipn i (snd k)) at 1. apply nth_error_app1. lia.
    - destruct kd; cbn [fst snd]; symmetry; apply nth_error_app1; lia. }
  split; [|exact E].
  destruct (nth_error (snd k) j) as [s|] eqn:Es; [|apply nth_error_None in Es; lia].
  rewrite (nth_pointers _ _ _ Es), (nth_pointers k' j s (eq_sym E)). reflexivity.
Qed.
Lemma erase_shift j : i <= j -> kd = List ->
  nth_error (pointers k) (S j) = nth_error (pointers k') j /\ nth_error (snd k) (S j) = nth_error (snd k') j.
Proof.
  intros Hj Hk. subst kd. unfold k', erase_at, pointers. cbn [fst snd].
  assert (L : length (firstn i (snd k)) = i) by (apply firstn_length_le; lia).
  assert (L' : length (firstn (S i) (snd k)) = S i) by (apply firstn_length_le; lia).
  split.
  - rewrite <- (firstn_skipn (S i) (snd k)) at 1. rewrite !map_app, <- !app_assoc.
    rewrite (nth_error_app2 (map a_addr (firstn i (snd k)))), (nth_error_app2 (map a_addr (firstn (S i) (snd k)))); rewrite ?map_length, ?L, ?L'; try lia.
    reflexivity.
  - rewrite <- (firstn_skipn (S i) (snd k)) at 1.
    rewrite (nth_error_app2 (firstn i (snd k))), (nth_error_app2 (firstn (S i) (snd k))); rewrite ?L, ?L'; try lia.
    reflexivity.
Qed.
(** Nothing of the erased tree is left. *)
Lemma erase_dead s x : nth_error (snd k) i = Some s -> In x (taddrs s) -> ~ In x (caddrs k').
Proof.
  intros Es Ix. pose proof (proj1 (Forall_forall _ _) Fk x) as Lx. cbv beta in Lx.
  pose proof Nk as Nk'. unfold caddrs in Nk'. inversion Nk' as [|? ? N1 N2]; subst.
  rewrite (split_nth _ _ _ Es) in N2. rewrite addrs_app, addrs_cons in N2. apply nodup_app in N2. destruct N2 as [Na [Nb D1]].
  apply nodup_app in Nb. destruct Nb as [Nb [Nc D2]].
  assert (Ik : In x (addrs_of (snd k))).
  { rewrite (split_nth _ _ _ Es), addrs_app, addrs_cons. apply in_or_app. right. apply in_or_app. auto. }
  specialize (Lx (or_intror Ik)).
  unfold k', erase_at. destruct kd; unfold caddrs; cbn [fst snd]; rewrite addrs_app; intros [E|I].
  - lia.
  - apply in_app_or in I. destruct I as [I|I]; [apply (D1 x I); apply in_or_app; auto|].
    apply moved_in in I. destruct I as [I|I]; [lia|]. apply (D2 x Ix). apply kids_in, I.
  - apply N1. rewrite E. exact Ik.
  - apply in_app_or in I. destruct I as [I|I]; [apply (D1 x I); apply in_or_app; auto|exact (D2 x Ix I)].
Qed.
Lemma erase_stale j x : kd = Vector -> i <= j -> nth_error (pointers k) j = Some x -> ~ In x (caddrs k').
Proof.
  intros Hk Hj Hx. destruct (Nat.eq_dec i j) as [<-|NE].
  { destruct (nth_error (snd k) i) as [s|] eqn:Es; [|apply nth_error_None in Es; lia].
    rewrite (nth_pointers _ _ _ Es) in Hx. injection Hx as <-. eapply erase_dead; [exact Es|left; reflexivity]. }
  unfold k', erase_at. rewrite Hk.
  pose proof (proj1 (Forall_forall _ _) Fk x (nth_pointers_in k j x Hx)) as Lx. cbv beta in Lx.
  pose proof Nk as Nk'. unfold caddrs in Nk'. inversion Nk' as [|? ? N1 N2]; subst.
  destruct (firstn_skipn_nodup (S i) _ N2) as [Nf [Ns D]].
  assert (Nr : NoDup (fst k :: addrs_of (skipn (S i) (snd k)))).
  { constructor; [|exact Ns]. intro I. apply N1. eapply in_skipn, I. }
  assert (If : forall x, In x (addrs_of (firstn i (snd k))) -> In x (addrs_of (firstn (S i) (snd k)))).
  { intros y I. replace (firstn i (snd k)) with (firstn i (firstn (S i) (snd k))) in I by (rewrite firstn_firstn; f_equal; lia).
    eapply in_firstn, I. }
  assert (Lj : S i <= j) by lia. assert (Hi' : S i <= length (snd k)) by lia. pose proof (pointer_rest k (S i) j x Hi' Lj Hx) as P.
  unfold caddrs. cbn [fst snd]. rewrite addrs_app. intros [E|I]; [lia|]. apply in_app_or in I. destruct I as [I|I].
  - apply in_app_or in P. destruct P as [P|[<-|[]]].
    + apply (D x (If x I)). apply in_addr, P.
    + apply N1. eapply in_firstn, I.
  - apply moved_in in I. destruct I as [I|I]; [lia|]. revert I. apply (kids_not _ (fst k)); [exact Nr|exact P].
Qed.
End Erase.

(** ** Elements that move keep their children *)
Lemma moved_nth (l : list atree) : forall n j s, nth_error l j = Some s ->
  exists s', nth_error (moved n l) j = Some s' /\ a_children s' = a_children s.
Proof.
  induction l as [|[a v e ch] l IH]; intros n j s H; [destruct j; discriminate|]. cbn [moved]. destruct j as [|j]; cbn [nth_error] in *.
  - injection H as <-. eexists. split; reflexivity.
  - apply IH. exact H.
Qed.
Lemma insert_element kd re n (k : cont) i t j s : i <= length (snd k) -> nth_error (snd k) j = Some s ->
  exists j' s', nth_error (snd (fst (fst (insert_at kd re n k i t)))) j' = Some s' /\ a_children s' = a_children s.
Proof.
  intros Hi H. unfold insert_at. destruct (label t n) as [new n0].
  assert (L : length (firstn i (snd k)) = i) by (apply firstn_length_le; exact Hi).
  pose proof H as H'. rewrite <- (firstn_skipn i (snd k)) in H'.
  destruct (Nat.lt_ge_cases j i) as [Lj|Lj].
  - rewrite nth_error_app1 in H' by lia. exists j. destruct kd; cbn [fst snd].
    + destruct re.
      * rewrite nth_error_app1 by (rewrite moved_len; lia). apply moved_nth, H'.
      * rewrite nth_error_app1 by lia. eauto.
    + rewrite nth_error_app1 by lia. eauto.
  - rewrite nth_error_app2, L in H' by lia. exists (S j). destruct kd; cbn [fst snd].
    + destruct re; rewrite nth_error_app2; rewrite ?moved_len, ?L; try lia; replace (S j - i) with (S (j - i)) by lia; cbn [nth_error];
        apply moved_nth, H'.
    + rewrite nth_error_app2; rewrite ?L; try lia. replace (S j - i) with (S (j - i)) by lia. cbn [nth_error]. eauto.
Qed.
Lemma erase_element kd n (k : cont) i j s : i < length (snd k) -> i <> j -> nth_error (snd k) j = Some s ->
  exists j' s', nth_error (snd (fst (erase_at kd n k i))) j' = Some s' /\ a_children s' = a_children s.
Proof.
  intros Hi NE H. unfold erase_at.
  assert (L : length (firstn i (snd k)) = i) by (apply firstn_length_le; lia).
  assert (L' : length (firstn (S i) (snd k)) = S i) by (apply firstn_length_le; lia).
  destruct (Nat.lt_ge_cases j i) as [Lj|Lj].
  - pose proof H as H'. rewrite <- (firstn_skipn i (snd k)) in H'. rewrite nth_error_app1 in H' by lia.
    exists j. destruct kd; cbn [fst snd]; rewrite nth_error_app1 by lia; eauto.
  - pose proof H as H'. rewrite <- (firstn_skipn (S i) (snd k)) in H'. rewrite nth_error_app2, L' in H' by lia.
    exists (j - 1). destruct kd; cbn [fst snd]; rewrite nth_error_app2; rewrite ?L; try lia; replace (j - 1 - i) with (j - S i) by lia; eauto.
    apply moved_nth, H'.
Qed.
Lemma sub_children o o' e e' (ch : list atree) c o1 k1 : sub o (e, ch) c = Some (o1, k1) ->
  exists o2 e2, sub o' (e', ch) c = Some (o2, (e2, snd k1)).
Proof.
  destruct c as [|i c]; cbn [sub snd].
  - intro H. injection H as <- <-. cbn [snd]. eauto.
  - destruct (nth_error ch i); [|discriminate]. intro H. rewrite H. exists o1, (fst k1). rewrite <- surjective_pairing. reflexivity.
Qed.
Lemma sub_upd_through q : forall o0 k0 o k k' j j' s s' c o1 k1, sub o0 k0 q = Some (o, k) ->
  nth_error (snd k) j = Some s -> nth_error (snd k') j' = Some s' -> a_children s' = a_children s ->
  sub o0 k0 (q ++ j :: c) = Some (o1, k1) ->
  exists o2 e2, sub o0 (upd k0 q k') (q ++ j' :: c) = Some (o2, (e2, snd k1)).
Proof.
  intros o0 k0 o k k' j j' s s' c o1 k1 H Hs Hs' Ec H1. rewrite sub_app in *. rewrite H in H1. rewrite (sub_upd q o0 k0 o k k' H).
  cbn [sub] in *. rewrite Hs in H1. rewrite Hs', Ec. eapply sub_children; exact H1.
Qed.

(** ** Changes of memory *)
Definition edited (m : mem) (c : path) (k' : cont) (n' : nat) : mem := {| top := upd (top m) c k'; next := n' |}.

Lemma sub_sound (m : mem) c o k : sound m -> sub None (top m) c = Some (o, k) ->
  NoDup (caddrs k) /\ Forall (fun a => a < next m) (caddrs k).
Proof.
  intros [N F] H. destruct (upd_caddrs c None (top m) o k H) as [l1 [l2 [E _]]].
  change (addresses m) with (caddrs (top m)) in *. rewrite E in N, F. apply nodup_app in N. destruct N as [_ [N _]].
  apply nodup_app in N. apply Forall_app in F. destruct F as [_ F]. apply Forall_app in F. split; [apply N|apply F].
Qed.
Lemma edited_sound (m : mem) c o k k' n' : sound m -> sub None (top m) c = Some (o, k) -> fresh_change (next m) n' k k' ->
  sound (edited m c k' n').
Proof.
  intros [N F] H [Nk' [L Fr]]. destruct (upd_caddrs c None (top m) o k H) as [l1 [l2 [E E']]].
  change (addresses m) with (caddrs (top m)) in *. unfold sound.
  change (addresses (edited m c k' n')) with (caddrs (upd (top m) c k')). change (next (edited m c k' n')) with n'.
  rewrite E'. rewrite E in N, F. apply nodup_app in N. destruct N as [N1 [N2 D1]]. apply nodup_app in N2. destruct N2 as [N2 [N3 D2]].
  apply Forall_app in F. destruct F as [F1 F2]. apply Forall_app in F2. destruct F2 as [F2 F3].
  rewrite Forall_forall in F1, F2, F3. split.
  - apply nodup_app. split; [exact N1|]. split.
    + apply nodup_app. split; [exact Nk'|]. split; [exact N3|]. intros x I I'. destruct (Fr x I) as [_ [O|O]]; [exact (D2 x O I')|].
      apply F3 in I'. lia.
    + intros x I I'. apply in_app_or in I'. destruct I' as [I'|I'].
      * destruct (Fr x I') as [_ [O|O]]; [apply (D1 x I); apply in_or_app; auto|]. apply F1 in I. lia.
      * apply (D1 x I). apply in_or_app. auto.
  - apply Forall_app. split; [|apply Forall_app; split]; apply Forall_forall; intros x I.
    + apply F1 in I. lia.
    + apply Fr, I.
    + apply F3 in I. lia.
Qed.
Lemma edited_gone (m : mem) c o k k' n' x : sound m -> sub None (top m) c = Some (o, k) -> In x (caddrs k) -> ~ In x (caddrs k') ->
  ~ In x (addresses (edited m c k' n')).
Proof.
  intros [N _] H I I'. destruct (upd_caddrs c None (top m) o k H) as [l1 [l2 [E E']]].
  change (addresses m) with (caddrs (top m)) in *. change (addresses (edited m c k' n')) with (caddrs (upd (top m) c k')).
  rewrite E'. rewrite E in N. apply nodup_app in N. destruct N as [_ [N2 D1]]. apply nodup_app in N2. destruct N2 as [_ [_ D2]].
  intro J. apply in_app_or in J. destruct J as [J|J]; [apply (D1 x J); apply in_or_app; auto|].
  apply in_app_or in J. destruct J as [J|J]; [exact (I' J)|exact (D2 x I J)].
Qed.

Lemma Forall2_snoc {A B} (R : A -> B -> Prop) l x l' : Forall2 R (l ++ [x]) l' -> exists l0 y, l' = l0 ++ [y] /\ Forall2 R l l0 /\ R x y.
Proof.
  intro H. apply Forall2_app_inv_l in H. destruct H as [l1 [l2 [H1 [H2 ->]]]]. inversion H2 as [|? y ? ? Hy H3]; subst. inversion H3; subst. eauto.
Qed.
Lemma stands_last (m : mem) c i it : stands m (c ++ [i]) it -> exists o k a ls is,
  sub None (top m) c = Some (o, k) /\ nth_error (pointers k) i = Some a /\ m_lists it = ls ++ [o] /\ m_iters it = is ++ [a].
Proof.
  intro H. apply stands_rel in H. destruct H as [H1 H2]. rewrite at_path_snoc in H1, H2. cbn [list_stack iter_stack] in *.
  apply Forall2_snoc in H1. destruct H1 as [ls [o [E1 [_ [k Hk]]]]]. apply Forall2_snoc in H2. destruct H2 as [is [a [E2 [_ [o' [k' [Hk' Ha]]]]]]].
  cbn [fst snd] in *. rewrite Hk in Hk'. injection Hk' as <- <-. exists o, k, a, ls, is. auto.
Qed.
Lemma stands_snoc (m : mem) p it : stands m p it -> p <> [] -> exists c i, p = c ++ [i].
Proof. intros _ NE. destruct (exists_last NE) as [c [i E]]. eauto. Qed.

Lemma trail_pointers p : forall o (k : cont) ls is, trail o k p = Some (ls, is) -> forall a, In a is -> In a (caddrs k).
Proof.
  induction p as [|i p IH]; intros o k ls is H a I; cbn [trail] in H.
  - injection H as <- <-. destruct I.
  - change (map a_addr (snd k) ++ [fst k]) with (pointers k) in H.
    destruct (nth_error (pointers k) i) as [b|] eqn:Eb; [|discriminate]. pose proof (nth_pointers_in k i b Eb) as Ib.
    destruct p as [|j p]; [injection H as <- <-; destruct I as [<-|[]]; exact Ib|].
    destruct (nth_error (snd k) i) as [t|] eqn:Et; [|discriminate].
    destruct (trail (Some b) (a_end t, a_children t) (j :: p)) as [[ls' is']|] eqn:T; [|discriminate]. injection H as <- <-.
    destruct I as [<-|I]; [exact Ib|]. pose proof (IH _ _ _ _ T a I) as I'. right.
    rewrite (split_nth _ _ _ Et), addrs_app, addrs_cons. apply in_or_app. right. apply in_or_app. left. right. exact I'.
Qed.
Lemma stands_pointers (m : mem) p it a : stands m p it -> In a (m_iters it) -> In a (addresses m).
Proof. intros H I. exact (trail_pointers p None (top m) _ _ H a I). Qed.
(** The pointer of an iterator at the level of a container. *)
Lemma trail_level q : forall o0 k0 o k j r ls is, sub o0 k0 q = Some (o, k) -> trail o0 k0 (q ++ j :: r) = Some (ls, is) ->
  exists a, nth_error is (length q) = Some a /\ nth_error (pointers k) j = Some a.
Proof.
  induction q as [|i q IH]; intros o0 k0 o k j r ls is H T; cbn [sub app trail length] in *.
  - injection H as <- <-. change (map a_addr (snd k0) ++ [fst k0]) with (pointers k0) in T.
    destruct (nth_error (pointers k0) j) as [a|]; [|discriminate]. exists a. split; [|reflexivity]. destruct r as [|x r].
    + injection T as <- <-. reflexivity.
    + destruct (nth_error (snd k0) j); [|discriminate]. destruct (trail _ _ _) as [[ls' is']|]; [|discriminate]. injection T as <- <-. reflexivity.
  - destruct (nth_error (snd k0) i) as [t|] eqn:Et; [|discriminate].
    change (map a_addr (snd k0) ++ [fst k0]) with (pointers k0) in T. rewrite (nth_pointers _ _ _ Et) in T.
    destruct (q ++ j :: r) as [|y l] eqn:Q; [destruct q; discriminate|]. rewrite <- Q in T.
    destruct (trail (Some (a_addr t)) (a_end t, a_children t) (q ++ j :: r)) as [[ls' is']|] eqn:T'; [|discriminate]. injection T as <- <-.
    exact (IH _ _ _ _ _ _ _ _ H T').
Qed.

(** ** Deeper levels *)
Lemma deep_deref (m m' : mem) c c' x o k o' e' a (Sm : sound m) (Sm' : sound m') :
  sub None (top m) c = Some (o, k) -> sub None (top m') c' = Some (o', (e', snd k)) -> nth_error (pointers k) x = Some a -> x < length (snd k) ->
  m_deref m' a = m_deref m a.
Proof.
  intros H H' Ha L. unfold m_deref. rewrite (m_place_path m Sm c o k x a H Ha).
  rewrite (m_place_path m' Sm' c' o' (e', snd k) x a H'); [reflexivity|].
  destruct (nth_error (snd k) x) as [s|] eqn:Es; [|apply nth_error_None in Es; lia]. rewrite (nth_pointers _ _ _ Es) in Ha.
  rewrite (nth_pointers (e', snd k) x s Es). exact Ha.
Qed.
Lemma stands_deref (m : mem) p it s : sound m -> stands m p it -> node_at (forest m) p = Some s -> mem_deref m it = Ok s.
Proof.
  intros Sm H N. apply stands_rel in H. pose proof (sim_deref_it m Sm _ _ H) as D. rewrite (deref_at_path _ _ _ N) in D.
  destruct D as [b [E <-]]. exact E.
Qed.

(** The iterators below an element that stays or moves can still be dereferenced. *)
Lemma deep_ok (m : mem) q o k k' n' j r s jt : sound m -> sound (edited m q k' n') -> sub None (top m) q = Some (o, k) ->
  (forall s0, nth_error (snd k) j = Some s0 -> exists j' s1, nth_error (snd k') j' = Some s1 /\ a_children s1 = a_children s0) ->
  stands m (q ++ j :: r) jt -> r <> [] -> node_at (forest m) (q ++ j :: r) = Some s -> mem_deref (edited m q k' n') jt = Ok s.
Proof.
  intros Sm Sm' H El St NE Nd. pose proof (stands_deref _ _ _ _ Sm St Nd) as Dr. destruct (exists_last NE) as [c [x ->]].
  change (q ++ j :: c ++ [x]) with (q ++ (j :: c) ++ [x]) in *. rewrite app_assoc in *.
  destruct (stands_last _ _ _ _ St) as [o1 [k1 [a [ls [is [H1 [Ha [El1 Ei]]]]]]]].
  assert (exists s0, nth_error (snd k) j = Some s0) as [s0 Hs0].
  { rewrite sub_app, H in H1. cbn [sub] in H1. destruct (nth_error (snd k) j); [eauto|discriminate]. }
  destruct (El s0 Hs0) as [j' [s1 [Hs1 Ec]]].
  destruct (sub_upd_through q None (top m) o k k' j j' s0 s1 c o1 k1 H Hs0 Hs1 Ec H1) as [o2 [e2 H2]].
  assert (Lx : x < length (snd k1)).
  { rewrite node_at_snoc, (forest_sub m _ _ _ H1) in Nd. assert (Z : nth_error (map strip (snd k1)) x <> None) by congruence.
    apply nth_error_Some in Z. rewrite map_length in Z. exact Z. }
  rewrite <- Dr. unfold mem_deref. rewrite Ei, back_snoc. cbn [bind].
  rewrite (deep_deref m (edited m q k' n') _ _ x o1 k1 o2 e2 a Sm Sm' H1 H2 Ha Lx). reflexivity.
Qed.

(** ** The operations *)
Lemma m_insert_path (m : mem) kd re c o k i a t : sound m -> sub None (top m) c = Some (o, k) -> nth_error (pointers k) i = Some a ->
  m_insert kd re m o a t =
  let r := insert_at kd re (next m) k i t in Ok (edited m c (fst (fst r)) (snd r), snd (fst r)).
Proof.
  intros Sm H Ha. unfold m_insert. rewrite (m_list_path m Sm c o k H), (m_place_path m Sm c o k i a H Ha). cbn [bind].
  rewrite (proj2 (owner_eqb_spec o o) eq_refl). destruct (insert_at kd re (next m) k i t) as [[k' a'] n'] eqn:E. cbn [fst snd].
  rewrite (put_cont_upd m c o k k' Sm H). reflexivity.
Qed.
Lemma pointer_le (k : cont) i a : nth_error (pointers k) i = Some a -> i <= length (snd k).
Proof. intro H. assert (Z : nth_error (pointers k) i <> None) by congruence. apply nth_error_Some in Z. rewrite pointers_len in Z. lia. Qed.

(** insert and insert_after: the change, and the iterator that is returned *)
Lemma insert_run (m : mem) kd re c i it t : sound m -> stands m (c ++ [i]) it -> exists o k it',
  sub None (top m) c = Some (o, k) /\ i <= length (snd k) /\
  let r := insert_at kd re (next m) k i t in let m' := edited m c (fst (fst r)) (snd r) in
  mem_insert kd re m it t = Ok (m', it') /\ sound m' /\ stands m' (c ++ [i]) it' /\
  forest m' = set_container (forest m) c (firstn i (map strip (snd k)) ++ t :: skipn i (map strip (snd k))).
Proof.
  intros Sm St. destruct (stands_last _ _ _ _ St) as [o [k [a [ls [is [H [Ha [El Ei]]]]]]]].
  pose proof (pointer_le _ _ _ Ha) as Hi. destruct (sub_sound m c o k Sm H) as [Nk Fk].
  set (r := insert_at kd re (next m) k i t). exists o, k, (MIterator (ls ++ [o]) (is ++ [snd (fst r)])).
  split; [exact H|]. split; [exact Hi|]. cbv zeta. fold r.
  split; [|split; [|split]].
  - unfold mem_insert. rewrite El, Ei, !back_snoc. cbn [bind]. rewrite (m_insert_path m kd re c o k i a t Sm H Ha). cbv zeta. cbn [bind fst snd].
    rewrite set_snoc. reflexivity.
  - eapply edited_sound; [exact Sm|exact H|]. apply insert_fresh; assumption.
  - unfold stands. cbn [m_lists m_iters]. unfold edited. cbn [top]. unfold stands in St. rewrite El, Ei in St.
    rewrite (trail_upd_last c None (top m) o k (fst (fst r)) i i (snd (fst r)) _ _ H St); [rewrite removelast_last; reflexivity|].
    apply insert_nth. exact Hi.
  - unfold forest, edited. cbn [top]. rewrite (upd_strip c None (top m) o k _ H). f_equal. apply insert_strip.
Qed.
Lemma insert_after_run (m : mem) kd re c i it t s : sound m -> stands m (c ++ [i]) it -> node_at (forest m) (c ++ [i]) = Some s ->
  exists o k it',
  sub None (top m) c = Some (o, k) /\ S i <= length (snd k) /\
  let r := insert_at kd re (next m) k (S i) t in let m' := edited m c (fst (fst r)) (snd r) in
  mem_insert_after kd re m it t = Ok (m', it') /\ sound m' /\ stands m' (c ++ [S i]) it' /\
  forest m' = set_container (forest m) c (firstn (S i) (map strip (snd k)) ++ t :: skipn (S i) (map strip (snd k))).
Proof.
  intros Sm St Nd. destruct (stands_last _ _ _ _ St) as [o [k [a [ls [is [H [Ha [El Ei]]]]]]]].
  assert (Hi : S i <= length (snd k)).
  { rewrite node_at_snoc, (forest_sub m _ _ _ H) in Nd. assert (Z : nth_error (map strip (snd k)) i <> None) by congruence.
    apply nth_error_Some in Z. rewrite map_length in Z. lia. }
  destruct (sub_sound m c o k Sm H) as [Nk Fk].
  destruct (nth_error (pointers k) (S i)) as [b|] eqn:Hb; [|apply nth_error_None in Hb; rewrite pointers_len in Hb; lia].
  set (r := insert_at kd re (next m) k (S i) t). exists o, k, (MIterator (ls ++ [o]) (is ++ [snd (fst r)])).
  split; [exact H|]. split; [exact Hi|]. cbv zeta. fold r.
  split; [|split; [|split]].
  - unfold mem_insert_after. rewrite El, Ei, !back_snoc. cbn [bind]. unfold m_inc. rewrite (m_place_path m Sm c o k i a H Ha). cbn [bind].
    unfold nth_or_ub. rewrite Hb. cbn [bind]. rewrite (m_insert_path m kd re c o k (S i) b t Sm H Hb). cbv zeta. cbn [bind fst snd].
    rewrite set_snoc. reflexivity.
  - eapply edited_sound; [exact Sm|exact H|]. apply insert_fresh; assumption.
  - unfold stands. cbn [m_lists m_iters]. unfold edited. cbn [top]. unfold stands in St. rewrite El, Ei in St.
    rewrite (trail_upd_last c None (top m) o k (fst (fst r)) i (S i) (snd (fst r)) _ _ H St); [rewrite removelast_last; reflexivity|].
    apply insert_nth. exact Hi.
  - unfold forest, edited. cbn [top]. rewrite (upd_strip c None (top m) o k _ H). f_equal. apply insert_strip.
Qed.

Lemma m_erase_path (m : mem) kd c o k i a : sound m -> sub None (top m) c = Some (o, k) -> nth_error (pointers k) i = Some a -> i < length (snd k) ->
  exists b, let r := erase_at kd (next m) k i in
  nth_error (pointers (fst r)) i = Some b /\ m_erase kd m o a = Ok (edited m c (fst r) (snd r), b).
Proof.
  intros Sm H Ha L. unfold m_erase. rewrite (m_list_path m Sm c o k H), (m_place_path m Sm c o k i a H Ha). cbn [bind].
  rewrite (proj2 (owner_eqb_spec o o) eq_refl). rewrite (proj2 (Nat.ltb_lt _ _) L).
  pose proof (erase_len kd (next m) k i L) as Len. destruct (erase_at kd (next m) k i) as [k' n'] eqn:E. cbn [fst snd] in *.
  unfold nth_or_ub. destruct (nth_error (pointers k') i) as [b|] eqn:Hb; [|apply nth_error_None in Hb; rewrite pointers_len in Hb; lia].
  exists b. split; [reflexivity|]. cbn [bind]. rewrite (put_cont_upd m c o k k' Sm H). reflexivity.
Qed.
Lemma erase_run (m : mem) dbg kd c i it s f' q : sound m -> stands m (c ++ [i]) it -> node_at (forest m) (c ++ [i]) = Some s ->
  erase dbg (forest m) (at_path (c ++ [i])) = Ok (f', at_path q) -> exists o k it',
  sub None (top m) c = Some (o, k) /\ i < length (snd k) /\
  let r := erase_at kd (next m) k i in let m' := edited m c (fst r) (snd r) in
  mem_erase dbg kd m it = Ok (m', it') /\ sound m' /\ stands m' q it' /\ forest m' = f'.
Proof.
  intros Sm St Nd Er. destruct (stands_last _ _ _ _ St) as [o [k [a [ls [is [H [Ha [El Ei]]]]]]]].
  pose proof (forest_sub m _ _ _ H) as Hf.
  assert (Hi : i < length (snd k)).
  { rewrite node_at_snoc, Hf in Nd. assert (Z : nth_error (map strip (snd k)) i <> None) by congruence.
    apply nth_error_Some in Z. rewrite map_length in Z. lia. }
  destruct (sub_sound m c o k Sm H) as [Nk Fk].
  destruct (m_erase_path m kd c o k i a Sm H Ha Hi) as [b [Hb Eb]]. set (r := erase_at kd (next m) k i) in *. cbv zeta in Hb, Eb.
  set (m' := edited m c (fst r) (snd r)) in *.
  assert (Sm' : sound m') by (eapply edited_sound; [exact Sm|exact H|apply erase_fresh; assumption]).
  assert (Hm' : forest m' = set_container (forest m) c (firstn i (map strip (snd k)) ++ skipn (S i) (map strip (snd k)))).
  { unfold forest, m', edited. cbn [top]. rewrite (upd_strip c None (top m) o k _ H). f_equal. apply erase_strip. }
  assert (St1 : stands m' (c ++ [i]) (MIterator (ls ++ [o]) (is ++ [b]))).
  { unfold stands. cbn [m_lists m_iters]. unfold m', edited. cbn [top]. unfold stands in St. rewrite El, Ei in St.
    rewrite (trail_upd_last c None (top m) o k (fst r) i i b _ _ H St Hb). rewrite removelast_last. reflexivity. }
  unfold erase in Er. rewrite at_path_snoc in Er. cbn [list_stack iter_stack] in Er. rewrite !back_snoc in Er. cbn [bind] in Er.
  unfold cerase, deref_list in Er. rewrite Hf in Er. cbn [bind fst snd] in Er. rewrite path_eqb_refl, map_length in Er.
  rewrite (proj2 (Nat.ltb_lt _ _) Hi) in Er. cbn [bind fst snd] in Er. rewrite set_snoc in Er. cbn [bind] in Er. rewrite <- Hm' in Er.
  pose proof (at_path_snoc c i) as Ap. apply stands_rel in St1.
  pose proof (sim_pop_loop m' Sm' dbg (length (is ++ [b])) _ _ St1) as Sim. rewrite Ap in Sim.
  assert (Len : length (iter_stack (at_path c) ++ [(c, i)]) = length (is ++ [b])).
  { destruct St1 as [_ S2]. rewrite Ap in S2. cbn [iter_stack m_iters] in S2. exact (sim_len _ _ _ S2). }
  rewrite Len in Er. destruct (pop_loop (forest m') dbg (length (is ++ [b])) _) as [itq| | | | |]; try discriminate. cbn [bind] in Er.
  injection Er as Ef Eq. destruct Sim as [it' [Ep Rq]].
  exists o, k, it'. split; [exact H|]. split; [exact Hi|]. cbv zeta. fold m'. split; [|split; [exact Sm'|split; [|exact Ef]]].
  - unfold mem_erase. rewrite El, Ei, !back_snoc. cbn [bind]. rewrite Eb. cbn [bind fst snd]. rewrite set_snoc. cbn [bind]. fold m'. rewrite Ep. reflexivity.
  - apply stands_rel. rewrite <- Eq. exact Rq.
Qed.

(** ** Theorems *)
Lemma stands_unique (m : mem) p it it' : stands m p it -> stands m p it' -> it = it'.
Proof. unfold stands. intros H H'. rewrite H in H'. destruct it, it'. cbn in *. congruence. Qed.

Lemma position_shape (f : list tree) n p : nth_error (positions f) n = Some p ->
  exists c i l, p = c ++ [i] /\ container f c = Some l /\ i <= length l.
Proof.
  intro H. unfold positions in H. destruct (Nat.lt_ge_cases n (length (preorder f))) as [L|L].
  - rewrite nth_error_app1 in H by exact L. destruct (preorder_node f n p H) as [t [_ N]].
    destruct (node_at_inv f p t N) as [c [i [l [E [C Nt]]]]]. exists c, i, l. split; [exact E|]. split; [exact C|].
    assert (Z : nth_error l i <> None) by congruence. apply nth_error_Some in Z. lia.
  - rewrite nth_error_app2 in H by exact L. destruct (n - length (preorder f)) as [|d]; [|destruct d; discriminate].
    injection H as <-. exists [], (length f), f. auto.
Qed.

Theorem stands_exists (m : mem) n p : nth_error (positions (forest m)) n = Some p -> exists it, stands m p it.
Proof.
  intro H. destruct (position_shape _ _ _ H) as [c [i [l [E [C L]]]]].
  destruct (trail_exists p None (top m)) as [ls [is T]].
  - rewrite E. destruct c; discriminate.
  - intros c' i' E'. rewrite E in E'. apply app_inj_tail in E'. destruct E' as [<- <-]. eauto.
  - exists (MIterator ls is). exact T.
Qed.

Theorem moves_ok dbg (m : mem) n p q it : sound m ->
  nth_error (positions (forest m)) n = Some p -> nth_error (positions (forest m)) (S n) = Some q -> stands m p it ->
  exists it', mem_incr dbg m it = Ok it' /\ stands m q it' /\ mem_decr dbg m it' = Ok it /\
    mem_deref m it = match node_at (forest m) p with Some s => Ok s | None => UB OutOfBounds end.
Proof.
  intros Sm Hp Hq St. pose proof (positions_step _ _ _ _ Hp Hq) as Sp. pose proof St as St0. apply stands_rel in St.
  pose proof (sim_incr m Sm dbg _ _ St) as Hi. rewrite (incr_step dbg _ _ _ Sp) in Hi. destruct Hi as [it' [E R]].
  exists it'. split; [exact E|]. pose proof R as R0. apply stands_rel in R. split; [exact R|]. split.
  - pose proof (sim_decr m Sm dbg _ _ R0) as Hd. rewrite (decr_step dbg _ _ _ Sp) in Hd. destruct Hd as [it2 [E2 R2]]. apply stands_rel in R2.
    rewrite E2. f_equal. eapply stands_unique; eassumption.
  - destruct (node_at (forest m) p) as [s|] eqn:N; [apply (stands_deref m p it s Sm St0 N)|].
    exfalso. assert (L : n < length (preorder (forest m))).
    { assert (Z : nth_error (positions (forest m)) (S n) <> None) by congruence. apply nth_error_Some in Z.
      rewrite positions_len in Z. rewrite preorder_len. lia. }
    unfold positions in Hp. rewrite nth_error_app1 in Hp by exact L. destruct (preorder_node _ _ _ Hp) as [t [_ N']]. congruence.
Qed.

Theorem eq_ok (m : mem) n n' p p' it it' : sound m ->
  nth_error (positions (forest m)) n = Some p -> nth_error (positions (forest m)) n' = Some p' ->
  stands m p it -> stands m p' it' -> mem_eq m it it' = Ok (Nat.eqb n n').
Proof.
  intros Sm Hp Hp' St St'. apply stands_rel in St, St'. pose proof (sim_it_eq m Sm _ _ _ _ St St') as H.
  destruct (comparisons (forest m) n n' p p' Hp Hp') as [E _]. rewrite E in H. destruct H as [b [-> <-]]. reflexivity.
Qed.

Lemma insert_forest (f : list tree) c i l t : container f c = Some l -> i <= length l ->
  insert f (at_path (c ++ [i])) t = Ok (set_container f c (firstn i l ++ t :: skipn i l), at_path (c ++ [i])).
Proof.
  intros C L. unfold insert. rewrite at_path_snoc. cbn [list_stack iter_stack]. rewrite !back_snoc. cbn [bind].
  unfold cinsert, deref_list. rewrite C. cbn [bind fst snd]. rewrite path_eqb_refl, (proj2 (Nat.leb_le _ _) L). cbn [bind fst snd].
  rewrite set_snoc. reflexivity.
Qed.
Lemma insert_after_forest (f : list tree) c i l t : container f c = Some l -> S i <= length l ->
  insert_after f (at_path (c ++ [i])) t = Ok (set_container f c (firstn (S i) l ++ t :: skipn (S i) l), at_path (c ++ [S i])).
Proof.
  intros C L. unfold insert_after. rewrite !at_path_snoc. cbn [list_stack iter_stack]. rewrite !back_snoc. cbn [bind].
  rewrite (cinc_ok f c i l C) by lia. cbn [bind].
  unfold cinsert, deref_list. rewrite C. cbn [bind fst snd]. rewrite path_eqb_refl, (proj2 (Nat.leb_le _ _) L). cbn [bind fst snd].
  rewrite set_snoc. reflexivity.
Qed.

Theorem mem_insert_ok kd re (m : mem) n p it t : sound m -> nth_error (positions (forest m)) n = Some p -> stands m p it ->
  exists before after m' it',
    mem_insert kd re m it t = Ok (m', it') /\ sound m' /\ stands m' p it' /\
    outline 0 (forest m) = before ++ after /\ length before = n /\
    outline 0 (forest m') = before ++ outline (pred (length p)) [t] ++ after /\
    mem_deref m' it' = Ok t.
Proof.
  intros Sm Hp St. destruct (insert_ok (forest m) n p t Hp) as [b [a [f' [Ei [Eo [L [Eo' N]]]]]]].
  destruct (position_shape _ _ _ Hp) as [c [i [l [-> [C Li]]]]].
  destruct (insert_run m kd re c i it t Sm St) as [o [k [it' [H [Hi R]]]]]. cbv zeta in R. destruct R as [R1 [R2 [R3 R4]]].
  set (m' := edited m c _ _) in *. exists b, a, m', it'.
  rewrite (forest_sub m _ _ _ H) in C. injection C as <-.
  rewrite (insert_forest _ c i _ t (forest_sub m _ _ _ H) Li), <- R4 in Ei. assert (f' = forest m') by congruence. subst f'.
  repeat (split; [assumption|]). apply (stands_deref m' (c ++ [i])); assumption.
Qed.

Theorem mem_insert_after_ok kd re (m : mem) n c i s it t : sound m -> nth_error (preorder (forest m)) n = Some (c ++ [i]) ->
  node_at (forest m) (c ++ [i]) = Some s -> stands m (c ++ [i]) it ->
  exists before after m' it',
    mem_insert_after kd re m it t = Ok (m', it') /\ sound m' /\ stands m' (c ++ [S i]) it' /\
    outline 0 (forest m) = before ++ outline (length c) [s] ++ after /\ length before = n /\
    outline 0 (forest m') = before ++ outline (length c) [s] ++ outline (length c) [t] ++ after /\
    mem_deref m' it' = Ok t.
Proof.
  intros Sm Hp Nd St. destruct (insert_after_ok (forest m) n c i s t Hp Nd) as [b [a [f' [Ei [Eo [L [Eo' N]]]]]]].
  destruct (insert_after_run m kd re c i it t s Sm St Nd) as [o [k [it' [H [Hi R]]]]]. cbv zeta in R. destruct R as [R1 [R2 [R3 R4]]].
  set (m' := edited m c _ _) in *. exists b, a, m', it'.
  assert (Li : S i <= length (map strip (snd k))) by (rewrite map_length; exact Hi).
  rewrite (insert_after_forest _ c i _ t (forest_sub m _ _ _ H) Li), <- R4 in Ei. assert (f' = forest m') by congruence. subst f'.
  repeat (split; [assumption|]). apply (stands_deref m' (c ++ [S i])); assumption.
Qed.

Theorem mem_erase_ok dbg kd (m : mem) n p s it : sound m -> nth_error (preorder (forest m)) n = Some p -> node_at (forest m) p = Some s ->
  stands m p it ->
  exists before after m' it' q,
    mem_erase dbg kd m it = Ok (m', it') /\ sound m' /\
    outline 0 (forest m) = before ++ outline (pred (length p)) [s] ++ after /\ length before = n /\
    outline 0 (forest m') = before ++ after /\
    nth_error (positions (forest m')) n = Some q /\ stands m' q it'.
Proof.
  intros Sm Hp Nd St. destruct (erase_ok dbg (forest m) n p s Hp Nd) as [b [a [f' [q [Ei [Eo [L [Eo' N]]]]]]]].
  destruct (node_at_inv _ _ _ Nd) as [c [i [l [-> [C Nt]]]]].
  destruct (erase_run m dbg kd c i it s f' q Sm St Nd Ei) as [o [k [it' [H [Hi R]]]]]. cbv zeta in R. destruct R as [R1 [R2 [R3 R4]]].
  set (m' := edited m c _ _) in *. exists b, a, m', it', q. subst f'. repeat (split; [assumption|]). assumption.
Qed.

(** Which of the other iterators stay valid. [P] tells the positions in the container at [q] that are lost. *)
Section Keep.
Variables (m : mem) (q : path) (o : option nat) (k k' : cont) (n' : nat).
Hypothesis Sm : sound m.
Hypothesis Hq : sub None (top m) q = Some (o, k).
Hypothesis Fr : fresh_change (next m) n' k k'.
Variable P : nat -> Prop.
Hypothesis Keep : forall j, ~ P j -> nth_error (pointers k) j = nth_error (pointers k') j /\ nth_error (snd k) j = nth_error (snd k') j.
Hypothesis Dec : forall j, P j \/ ~ P j.

Lemma keep_stands p jt : stands m p jt -> ~ through q P p -> stands (edited m q k' n') p jt.
Proof.
  intros St NT. unfold stands in *. unfold edited. cbn [top].
  assert (D : through q (fun _ => True) p \/ ~ through q (fun _ => True) p).
  { clear. revert p; induction q as [|i r IH]; intro p.
    - destruct p as [|j p]; [right; intros [j [r [E _]]]; discriminate|left; exists j, p; auto].
    - destruct p as [|j p]; [right; intros [j [s [E _]]]; discriminate|]. destruct (Nat.eq_dec i j) as [<-|NE].
      + destruct (IH p) as [[j [s [-> _]]]|N]; [left; exists j, s; auto|]. right. intros [j [s [E _]]]. apply N.
        injection E as ->. exists j, s. auto.
      + right. intros [j' [s [E _]]]. injection E as E _. congruence. }
  destruct D as [[j [r [-> _]]]|D].
  - assert (NP : ~ P j) by (intro; apply NT; exists j, r; auto). destruct (Keep j NP) as [K1 K2].
    rewrite (trail_upd_through q None (top m) o k k' j j r Hq K1 K2). exact St.
  - rewrite (trail_upd_other q None (top m) o k k' p Hq D). exact St.
Qed.
Lemma gone_level j r jt : stands m (q ++ j :: r) jt -> (forall x, nth_error (pointers k) j = Some x -> ~ In x (caddrs k')) ->
  (exists a, nth_error (m_iters jt) (length q) = Some a /\ ~ In a (addresses (edited m q k' n'))) /\
  (forall p, ~ stands (edited m q k' n') p jt).
Proof.
  intros St G. destruct (trail_level q None (top m) o k j r _ _ Hq St) as [a [Ha Hb]].
  assert (NI : ~ In a (addresses (edited m q k' n'))) by (eapply edited_gone; [exact Sm|exact Hq|eapply nth_pointers_in; exact Hb|apply G, Hb]).
  split; [exists a; auto|]. intros p Sp. apply NI. eapply stands_pointers; [exact Sp|]. eapply nth_error_In; exact Ha.
Qed.
End Keep.

(** Using a pointer that is not in memory *)
Theorem gone_use (m : mem) a : ~ In a (addresses m) ->
  m_deref m a = UB UseAfterFree /\ m_inc m a = UB UseAfterFree /\ m_dec m a = UB UseAfterFree /\ forall b, m_eq m a b = UB UseAfterFree.
Proof. intro N. unfold m_deref, m_inc, m_dec, m_eq. rewrite (m_place_gone m a N). auto. Qed.

(** How an insertion with a result relates to the run above. *)
Theorem insert_keeps kd re (m : mem) q i it t m' it' p jt : sound m -> stands m (q ++ [i]) it ->
  mem_insert kd re m it t = Ok (m', it') -> stands m p jt ->
  match kd with
  | Vector =>
      (~ through q (fun j => re = true \/ i <= j) p -> stands m' p jt) /\
      (through q (fun j => re = true \/ i <= j) p ->
        (exists a, nth_error (m_iters jt) (length q) = Some a /\ ~ In a (addresses m')) /\ forall p', ~ stands m' p' jt)
  | List =>
      (~ through q (fun j => i <= j) p -> stands m' p jt) /\
      (forall j r, p = q ++ j :: r -> i <= j -> stands m' (q ++ S j :: r) jt)
  end /\
  (forall j r s, p = q ++ j :: r -> r <> [] -> node_at (forest m) p = Some s -> mem_deref m' jt = Ok s).
Proof.
  intros Sm Sq E St. destruct (insert_run m kd re q i it t Sm Sq) as [o [k [it2 [H [Hi R]]]]]. cbv zeta in R. destruct R as [R1 [R2 _]].
  rewrite E in R1. injection R1 as -> <-. destruct (sub_sound m q o k Sm H) as [Nk Fk].
  split.
  - destruct kd.
    + split.
      * intro NT. eapply keep_stands with (P := fun j => re = true \/ i <= j); try eassumption.
        intros j Nj. apply insert_keep; [exact Hi|lia|]. destruct re; [elim Nj; auto|auto].
      * intros [j [r [-> Pj]]]. eapply gone_level; try eassumption. intros x Hx. eapply insert_stale; eauto.
    + split.
      * intro NT. eapply keep_stands with (P := fun j => i <= j); try eassumption.
        intros j Nj. apply insert_keep; [exact Hi|lia|auto].
      * intros j r -> Lj. unfold stands, edited. cbn [top].
        destruct (insert_shift List re (next m) k i t Hi j Lj eq_refl) as [K1 K2].
        rewrite (trail_upd_through q None (top m) o k _ j (S j) r H K1 K2). exact St.
  - intros j r s -> NE Nd. eapply deep_ok; try eassumption. intros s0 Hs0. apply (insert_element kd re (next m) k i t j s0 Hi Hs0).
Qed.

Theorem erase_keeps dbg kd (m : mem) q i s0 it m' it' p jt : sound m -> stands m (q ++ [i]) it -> node_at (forest m) (q ++ [i]) = Some s0 ->
  mem_erase dbg kd m it = Ok (m', it') -> stands m p jt ->
  (~ through q (fun j => i <= j) p -> stands m' p jt) /\
  match kd with
  | Vector =>
      through q (fun j => i <= j) p ->
        (exists a, nth_error (m_iters jt) (length q) = Some a /\ ~ In a (addresses m')) /\ forall p', ~ stands m' p' jt
  | List => forall j r, p = q ++ S j :: r -> i <= j -> stands m' (q ++ j :: r) jt
  end /\
  (forall j r s, p = q ++ j :: r -> j <> i -> r <> [] -> node_at (forest m) p = Some s -> mem_deref m' jt = Ok s) /\
  (forall r, p = q ++ i :: r -> mem_deref m' jt = UB UseAfterFree /\ forall p', ~ stands m' p' jt).
Proof.
  intros Sm Sq Nd0 E St. destruct (node_at_inv _ _ _ Nd0) as [c [x [l [Ec [C Nt]]]]]. apply app_inj_tail in Ec. destruct Ec as [<- <-].
  assert (exists n, nth_error (preorder (forest m)) n = Some (q ++ [i])) as [n Hn].
  { apply In_nth_error. apply preorder_complete. eauto. }
  destruct (erase_ok dbg (forest m) n _ s0 Hn Nd0) as [b [a [f' [q' [Ei _]]]]].
  destruct (erase_run m dbg kd q i it s0 f' q' Sm Sq Nd0 Ei) as [o [k [it2 [H [Hi R]]]]]. cbv zeta in R. destruct R as [R1 [R2 _]].
  rewrite E in R1. injection R1 as -> <-. destruct (sub_sound m q o k Sm H) as [Nk Fk].
  split; [|split; [|split]].
  - intro NT. eapply keep_stands with (P := fun j => i <= j); try eassumption.
    intros j Nj. apply erase_keep; [exact Hi|lia].
  - destruct kd.
    + intros [j [r [-> Pj]]]. eapply gone_level; try eassumption. intros y Hy. eapply erase_stale; eauto.
    + intros j r -> Lj. unfold stands, edited. cbn [top].
      destruct (erase_shift List (next m) k i Hi j Lj eq_refl) as [K1 K2].
      rewrite (trail_upd_through q None (top m) o k _ (S j) j r H K1 K2). exact St.
  - intros j r s -> NE Nr Nd. eapply deep_ok; try eassumption. intros s1 Hs1. apply (erase_element kd (next m) k i j s1 Hi (not_eq_sym NE) Hs1).
  - intros r ->.
    destruct (nth_error (snd k) i) as [u|] eqn:Eu; [|apply nth_error_None in Eu; lia].
    assert (Lv : (exists y, nth_error (m_iters jt) (length q) = Some y /\ ~ In y (addresses (edited m q (fst (erase_at kd (next m) k i)) (snd (erase_at kd (next m) k i))))) /\
                 (forall p, ~ stands (edited m q (fst (erase_at kd (next m) k i)) (snd (erase_at kd (next m) k i))) p jt)).
    { eapply gone_level; try eassumption. intros y Hy. rewrite (nth_pointers _ _ _ Eu) in Hy. injection Hy as <-.
      eapply erase_dead; eauto. left. reflexivity. }
    split; [|apply Lv].
    destruct (exists_last (l := i :: r)) as [c' [y Ey]]; [discriminate|]. pose proof St as St0. rewrite Ey, app_assoc in St.
    destruct (stands_last _ _ _ _ St) as [o1 [k1 [z [ls [is [H1 [Hz [El Eis]]]]]]]].
    unfold mem_deref. rewrite Eis, back_snoc. cbn [bind].
    assert (Iz : In z (taddrs u)).
    { destruct c' as [|i' c'].
      - injection Ey as <- _. rewrite app_nil_r, H in H1. injection H1 as <- <-. rewrite (nth_pointers _ _ _ Eu) in Hz. injection Hz as <-. left. reflexivity.
      - injection Ey as <- _. rewrite sub_app, H in H1. cbn [sub] in H1. rewrite Eu in H1.
        destruct (upd_caddrs _ _ _ _ _ H1) as [l1 [l2 [Ea _]]]. right. change (In z (caddrs (a_end u, a_children u))). rewrite Ea.
        apply in_or_app. right. apply in_or_app. left. eapply nth_pointers_in; exact Hz. }
    assert (NI : ~ In z (addresses (edited m q (fst (erase_at kd (next m) k i)) (snd (erase_at kd (next m) k i))))).
    { eapply edited_gone; [exact Sm|exact H| |eapply erase_dead; eauto]. right. rewrite (split_nth _ _ _ Eu), addrs_app, addrs_cons.
      apply in_or_app. right. apply in_or_app. auto. }
    rewrite (proj1 (gone_use _ z NI)). reflexivity.
Qed.

(** An iterator whose own container iterator is lost *)
Lemma stale_ops (m : mem) q o k jt ls is a : sound m -> sub None (top m) q = Some (o, k) -> m_lists jt = ls ++ [o] -> m_iters jt = is ++ [a] ->
  length ls = length is -> ~ In a (addresses m) ->
  mem_deref m jt = UB UseAfterFree /\ (forall dbg, mem_incr dbg m jt = UB UseAfterFree) /\ (forall dbg, mem_decr dbg m jt = UB UseAfterFree) /\
  forall kd re t, mem_insert kd re m jt t = UB UseAfterFree.
Proof.
  intros Sm H El Ei L N. destruct (gone_use m a N) as [G1 [G2 [G3 G4]]]. split; [|split; [|split]].
  - unfold mem_deref. rewrite Ei, back_snoc. cbn [bind]. rewrite G1. reflexivity.
  - intro dbg. unfold mem_incr. rewrite El, Ei, nonempty_snoc, assert_true. cbn [bind].
    replace (length (is ++ [a]) =? length (ls ++ [o])) with true by (symmetry; apply Nat.eqb_eq; rewrite !app_length; cbn; lia).
    rewrite assert_true. cbn [bind]. rewrite !back_snoc. cbn [bind]. destruct dbg.
    + unfold m_end. rewrite (m_list_path m Sm q o k H). cbn [bind]. rewrite G4. reflexivity.
    + cbn [bind]. rewrite G1. reflexivity.
  - intro dbg. unfold mem_decr. rewrite El, Ei, !nonempty_snoc, assert_true. cbn [bind]. rewrite !back_snoc. cbn [bind].
    unfold m_begin. rewrite (m_list_path m Sm q o k H). cbn [bind]. unfold nth_or_ub.
    destruct (nth_error (pointers k) 0) as [b|] eqn:E; [cbn [bind]; rewrite G4; reflexivity|].
    apply nth_error_None in E. rewrite pointers_len in E. lia.
  - intros kd re t. unfold mem_insert. rewrite El, Ei, !back_snoc. cbn [bind]. unfold m_insert.
    rewrite (m_list_path m Sm q o k H), (m_place_gone m a N). reflexivity.
Qed.
Lemma stands_last_len (m : mem) c i it : stands m (c ++ [i]) it -> exists o k a ls is,
  sub None (top m) c = Some (o, k) /\ nth_error (pointers k) i = Some a /\ m_lists it = ls ++ [o] /\ m_iters it = is ++ [a] /\ length ls = length is.
Proof.
  intro H. destruct (stands_last _ _ _ _ H) as [o [k [a [ls [is [H1 [H2 [H3 H4]]]]]]]]. exists o, k, a, ls, is.
  repeat (split; [assumption|]). apply stands_rel in H. destruct H as [F1 F2]. apply sim_len in F1, F2.
  destruct (at_path_len (c ++ [i])) as [L1 L2]. rewrite L2, H3 in F1. rewrite L1, H4 in F2. rewrite !app_length in F1, F2. cbn in F1, F2. lia.
Qed.

Theorem insert_stale_use re (m : mem) q i it t m' it' j jt : sound m -> stands m (q ++ [i]) it ->
  mem_insert Vector re m it t = Ok (m', it') -> stands m (q ++ [j]) jt -> re = true \/ i <= j ->
  mem_deref m' jt = UB UseAfterFree /\ (forall dbg, mem_incr dbg m' jt = UB UseAfterFree) /\ (forall dbg, mem_decr dbg m' jt = UB UseAfterFree) /\
  forall kd re t, mem_insert kd re m' jt t = UB UseAfterFree.
Proof.
  intros Sm Sq E St Hj. destruct (insert_run m Vector re q i it t Sm Sq) as [o [k [it2 [H [Hi R]]]]]. cbv zeta in R. destruct R as [R1 [R2 _]].
  rewrite E in R1. injection R1 as -> <-. destruct (sub_sound m q o k Sm H) as [Nk Fk].
  destruct (stands_last_len _ _ _ _ St) as [o' [k2 [a [ls [is [H' [Ha [El [Ei L]]]]]]]]]. rewrite H in H'. injection H' as <- <-.
  eapply stale_ops; [exact R2|apply (sub_upd q None (top m) o k _ H)|exact El|exact Ei|exact L|].
  eapply edited_gone; [exact Sm|exact H|eapply nth_pointers_in; exact Ha|]. eapply insert_stale; eauto.
Qed.
Theorem erase_stale_use dbg kd (m : mem) q i s0 it m' it' j jt : sound m -> stands m (q ++ [i]) it -> node_at (forest m) (q ++ [i]) = Some s0 ->
  mem_erase dbg kd m it = Ok (m', it') -> stands m (q ++ [j]) jt -> j = i \/ kd = Vector /\ i <= j ->
  mem_deref m' jt = UB UseAfterFree /\ (forall dbg, mem_incr dbg m' jt = UB UseAfterFree) /\ (forall dbg, mem_decr dbg m' jt = UB UseAfterFree) /\
  forall kd re t, mem_insert kd re m' jt t = UB UseAfterFree.
Proof.
  intros Sm Sq Nd0 E St Hj.
  assert (exists n, nth_error (preorder (forest m)) n = Some (q ++ [i])) as [n Hn].
  { apply In_nth_error. apply preorder_complete. eauto. }
  destruct (erase_ok dbg (forest m) n _ s0 Hn Nd0) as [b [a0 [f' [q' [Eq _]]]]].
  destruct (erase_run m dbg kd q i it s0 f' q' Sm Sq Nd0 Eq) as [o [k [it2 [H [Hi R]]]]]. cbv zeta in R. destruct R as [R1 [R2 _]].
  rewrite E in R1. injection R1 as -> <-. destruct (sub_sound m q o k Sm H) as [Nk Fk].
  destruct (stands_last_len _ _ _ _ St) as [o' [k2 [a [ls [is [H' [Ha [El [Ei L]]]]]]]]]. rewrite H in H'. injection H' as <- <-.
  eapply stale_ops; [exact R2|apply (sub_upd q None (top m) o k _ H)|exact El|exact Ei|exact L|].
  eapply edited_gone; [exact Sm|exact H|eapply nth_pointers_in; exact Ha|].
  destruct Hj as [->|[-> Hj]]; [|eapply erase_stale; eauto].
  destruct (nth_error (snd k) i) as [u|] eqn:Eu; [|apply nth_error_None in Eu; lia].
  rewrite (nth_pointers _ _ _ Eu) in Ha. injection Ha as <-. eapply erase_dead; eauto. left. reflexivity.
Qed.
End Proofs.

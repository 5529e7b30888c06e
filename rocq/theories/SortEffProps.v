From Verif Require Import Base SortModel SortSpec SortEffModel SortEffSpec SortEffProofs.

(** ** C99: comparators that throw, have effects or are inconsistent *)

(** Whatever the comparator answers: nothing outside of the range is touched, no element is lost or duplicated, and the only way to
    fail is a failing comparison or copy of elements of the range, after which nothing more is done. *)
Theorem C99_safe : forall (W A : Type) (cmp : W -> A -> A -> W * outcome bool) (copy : W -> A -> W * outcome unit) (moved : A -> A)
    depth w m first last, first <= last -> last <= length m ->
  exists w' m' r, sort_eff depth cmp copy moved w m first last = (w', m', r) /\ rearranged first last m m' /\
    (r = Ok tt \/ failed_in cmp copy (range m first last) w' r \/ r = Diverge).
Proof.
  intros W A cmp copy moved depth w m first last H1 H2.
  destruct (sort_hoare cmp copy moved depth w m first last (fun _ _ => True)) as [w' [m' [r [k [E [R [_ [_ H]]]]]]]]; auto.
  exists w', m', r. split; [exact E|]. split; [exact R|]. intuition.
Qed.
Print Assumptions C99_safe.

(** It ends if no element is ever said to be before itself. *)
Theorem C99_terminates : forall (W A : Type) (cmp : W -> A -> A -> W * outcome bool) (copy : W -> A -> W * outcome unit) (moved : A -> A)
    depth w m first last, first <= last -> last <= length m -> irreflexive_on cmp (range m first last) -> last - first < depth ->
  exists w' m' r, sort_eff depth cmp copy moved w m first last = (w', m', r) /\
    (r = Ok tt \/ failed_in cmp copy (range m first last) w' r).
Proof.
  intros W A cmp copy moved depth w m first last H1 H2 Irr D.
  destruct (sort_hoare cmp copy moved depth w m first last (fun _ _ => True)) as [w' [m' [r [k [E [R [_ [_ H]]]]]]]]; auto.
  exists w', m', r. split; [exact E|]. intuition.
Qed.
Print Assumptions C99_terminates.

(** Only elements of the range are compared and copied, never what is left of an element that was moved from: whatever such
    comparisons and copies preserve is preserved. *)
Theorem C99_compared : forall (W A : Type) (cmp : W -> A -> A -> W * outcome bool) (copy : W -> A -> W * outcome unit) (moved : A -> A)
    depth w m first last (P : W -> Prop), first <= last -> last <= length m -> P w ->
  (forall w x y, In x (range m first last) -> In y (range m first last) -> P w -> P (fst (cmp w x y))) ->
  (forall w x, In x (range m first last) -> P w -> P (fst (copy w x))) ->
  P (fst (fst (sort_eff depth cmp copy moved w m first last))).
Proof.
  intros W A cmp copy moved depth w m first last P H1 H2 H0 Hc Hy.
  destruct (sort_hoare cmp copy moved depth w m first last (fun _ => P)) as [w' [m' [r [k [E [R [I _]]]]]]]; auto.
  rewrite E. exact I.
Qed.
Print Assumptions C99_compared.

(** If it returns, and the answers were those of a strict weak order, the range is sorted, in the way of C40. *)
Theorem C99_sorted : forall (W A : Type) (cmp : W -> A -> A -> W * outcome bool) (copy : W -> A -> W * outcome unit) (moved : A -> A)
    (lt : A -> A -> bool) depth w m first last w' m',
  first <= last -> last <= length m -> strict_weak_order lt -> (forall w x y b, snd (cmp w x y) = Ok b -> b = lt x y) ->
  sort_eff depth cmp copy moved w m first last = (w', m', Ok tt) ->
  sorted lt (range m' first last) /\ quick_sort depth lt m first last = Ok m'.
Proof.
  intros W A cmp copy moved lt depth w m first last w' m' H1 H2 So0 Ag E.
  pose proof (sort_sim cmp copy moved lt depth w m first last w' m' Ag E) as Q. split; [|exact Q].
  destruct (SortProofs.sort_swo lt m first last So0 H1 H2) as [m2 [F [_ [_ [_ [_ So]]]]]].
  assert (Em : m' = m2); [|subst; exact So].
  destruct (Nat.le_gt_cases depth (last - first)) as [D|D]; [|rewrite F in Q by exact D; congruence].
  specialize (F (depth + S (last - first)) ltac:(lia)).
  rewrite (quick_sort_more lt _ _ _ _ _ _ Q) in F. congruence.
Qed.
Print Assumptions C99_sorted.

(** A comparator that throws at its eighth call: the elements are all there. One whose answers make no sense. *)
Definition eighth (w : nat) (x y : nat) : nat * outcome bool :=
  if Nat.eqb w 7 then (w, Throw RuntimeError) else (S w, Ok (Nat.ltb x y)).
Definition erratic (w x y : nat) : nat * outcome bool := (S w, Ok (negb (Nat.eqb x y) && Nat.odd w)).
Example C99_case : 
  sort_eff 6 eighth (fun w _ => (w, Ok tt)) (fun _ => 0) 0 [9; 5; 4; 3; 2; 1; 7] 1 6 = (7, [9; 2; 1; 3; 5; 4; 7], Throw RuntimeError) /\
  sort_eff 6 erratic (fun w _ => (w, Ok tt)) (fun _ => 0) 0 [9; 5; 4; 3; 2; 1; 7] 1 6 = (12, [9; 4; 2; 3; 5; 1; 7], Ok tt) /\
  sort_eff 6 eighth (fun w x => (w, if Nat.eqb x 3 then Throw RuntimeError else Ok tt)) (fun _ => 0) 0 [9; 5; 4; 3; 2; 1; 7] 1 6 =
    (0, [9; 5; 4; 3; 2; 1; 7], Throw RuntimeError).
Proof. vm_compute. auto. Qed.
Example C99_case_irreflexive : irreflexive_on erratic [5; 4; 3; 2; 1] /\ irreflexive_on eighth [5; 4; 3; 2; 1].
Proof.
  split; intros w x _; unfold erratic, eighth.
  - rewrite Nat.eqb_refl. discriminate.
  - destruct (Nat.eqb w 7); [discriminate|]. cbn [snd]. rewrite Nat.ltb_irrefl. discriminate.
Qed.

(** ** C100: the number of comparisons *)

Theorem C100_bound : forall (W A : Type) (cmp : W -> A -> A -> W * outcome bool) (copy : W -> A -> W * outcome unit) (moved : A -> A)
    depth w m first last k w' m' r,
  first <= last -> last <= length m -> irreflexive_on cmp (range m first last) ->
  sort_eff depth (counted cmp) (uncounted copy) moved (0, w) m first last = ((k, w'), m', r) ->
  k <= (last - first) * (last - first + 1) - 2.
Proof.
  intros W A cmp copy moved depth w m first last k w' m' r H1 H2 Irr E.
  destruct (sort_hoare (counted cmp) (uncounted copy) moved depth (0, w) m first last (fun n s => fst s <= n))
    as [w2 [m2 [r2 [n [E2 [_ [I [L _]]]]]]]]; auto.
  - intros a b s Hab Ha. lia.
  - intros a s x y _ _ Ha. unfold counted. destruct (cmp (snd s) x y). cbn. lia.
  - intros a s x _ Ha. unfold uncounted. destruct (copy (snd s) x). cbn. lia.
  - rewrite E in E2. injection E2 as <- <- <-. cbn [fst] in I.
    assert (n <= most (last - first)); [|unfold most in *; lia].
    apply L. intros [j s] x Hx. unfold counted. cbn [fst snd]. specialize (Irr s x Hx). destruct (cmp s x x). exact Irr.
Qed.
Print Assumptions C100_bound.

(** The bound is attained for every number of elements, all of them different. *)
Theorem C100_worst : forall (moved : nat -> nat) n depth, 1 <= depth -> n <= depth ->
  Permutation (worst n 0) (seq 0 n) /\
  sort_eff depth (counted (pure_cmp Nat.ltb)) (uncounted pure_copy) moved (0, tt) (worst n 0) 0 n =
    ((n * (n + 1) - 2, tt), seq 0 n, Ok tt).
Proof.
  intros moved n depth H1 H2. split; [apply worst_perm|]. unfold sort_eff.
  pose proof (worst_sort moved n 0 [] [] 0 depth H1 H2) as E. cbn [app length Nat.add] in E. rewrite !app_nil_r in E.
  unfold wcmp, wcopy in E. rewrite E. reflexivity.
Qed.
Print Assumptions C100_worst.

(** The recursion gets as deep as there are elements. *)
Theorem C100_deep : forall (moved : nat -> nat) n depth, depth < n ->
  snd (sort_eff depth (counted (pure_cmp Nat.ltb)) (uncounted pure_copy) moved (0, tt) (worst n 0) 0 n) = Diverge.
Proof.
  intros moved n depth H. unfold sort_eff.
  pose proof (worst_deep moved n 0 [] [] 0 depth H) as E. cbn [app length Nat.add] in E. rewrite !app_nil_r in E.
  unfold wcmp, wcopy in E. destruct (quick_sort_eff _ _ _ _ _ _ _) as [[w m] r]. exact E.
Qed.
Print Assumptions C100_deep.

(** std::sort needs O(n log n) comparisons. utki::sort does not keep to that. *)
Theorem C100_drop_in_refuted : ~ exists c, forall (l : list nat) moved depth k w m,
  2 <= length l -> length l < depth ->
  sort_eff depth (counted (pure_cmp Nat.ltb)) (uncounted pure_copy) moved (0, tt) l 0 (length l) = ((k, w), m, Ok tt) ->
  k <= c * (length l * Nat.log2 (length l)).
Proof.
  intros [c H]. destruct (log_below c) as [e [He He1]]. set (n := 2 ^ e) in *.
  assert (Hn : 2 <= n) by (unfold n; destruct e; [lia|]; cbn [Nat.pow]; pose proof (Nat.pow_nonzero 2 e); lia).
  destruct (C100_worst (fun x => x) n (S n) ltac:(lia) ltac:(lia)) as [_ E].
  specialize (H (worst n 0) (fun x => x) (S n) (n * (n + 1) - 2) tt (seq 0 n)).
  rewrite worst_length in H. specialize (H Hn ltac:(lia) E).
  unfold n in H at 4. rewrite Nat.log2_pow2 in H by lia. nia.
Qed.
Print Assumptions C100_drop_in_refuted.

Example C100_case : worst 8 0 = [1; 5; 3; 7; 0; 2; 4; 6] /\
  sort_eff 8 (counted (pure_cmp Nat.ltb)) (uncounted pure_copy) (fun _ => 0) (0, tt) [1; 5; 3; 7; 0; 2; 4; 6] 0 8 = ((70, tt), [0; 1; 2; 3; 4; 5; 6; 7], Ok tt) /\
  sort_eff 8 (counted (pure_cmp Nat.ltb)) (uncounted pure_copy) (fun _ => 0) (0, tt) [0; 1; 2; 3; 4; 5; 6; 7] 0 8 = ((26, tt), [0; 1; 2; 3; 4; 5; 6; 7], Ok tt).
Proof. vm_compute. auto. Qed.

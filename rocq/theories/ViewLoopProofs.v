(** Proofs of loops over views *)
From Verif Require Import Base ViewLoopModel ViewLoopSpec.
From Coq Require Import Lia.

(** Lists *)
Lemma skipn_nth : forall (l : list nat) j, j < length l -> skipn j l = nth j l 0 :: skipn (S j) l.
Proof.
  induction l as [|x l IH]; cbn; intros j H; [lia|]. destruct j as [|j]; [reflexivity|]. cbn. apply IH. lia.
Qed.
Lemma firstn_nth : forall (l : list nat) j, j < length l -> firstn (S j) l = firstn j l ++ [nth j l 0].
Proof.
  induction l as [|x l IH]; intros j H; [cbn in H; lia|]. destruct j as [|j]; [reflexivity|]. cbn in H. rewrite firstn_cons, IH by lia. reflexivity.
Qed.
Lemma follows_mid : forall l1 a b l2, ~ In a l1 -> follows a (l1 ++ a :: b :: l2) = Some b.
Proof.
  induction l1 as [|x l1 IH]; intros a b l2 N.
  - cbn. rewrite Nat.eqb_refl. reflexivity.
  - specialize (IH a b l2 (fun i => N (or_intror i))). cbn [app]. destruct (l1 ++ a :: b :: l2) as [|y r] eqn:E; [destruct l1; discriminate|].
    cbn. destruct (Nat.eqb_spec x a) as [->|_]; [destruct N; left; reflexivity|exact IH].
Qed.
Lemma follows_in : forall l a b, follows a l = Some b -> In a l /\ In b l.
Proof.
  induction l as [|x l IH]; intros a b H; [discriminate|]. destruct l as [|y l]; [discriminate|]. cbn in H.
  destruct (Nat.eqb_spec x a) as [->|_]; [injection H as <-; split; [left|right; left]; reflexivity|].
  destruct (IH a b H). split; right; assumption.
Qed.
Lemma follows_last : forall l a, NoDup (l ++ [a]) -> follows a (l ++ [a]) = None.
Proof.
  induction l as [|x l IH]; intros a D; [reflexivity|]. cbn [app] in *. inversion D as [|? ? N D']; subst. specialize (IH a D').
  destruct (l ++ [a]) as [|y r] eqn:E; [destruct l; discriminate|]. cbn. destruct (Nat.eqb_spec x a) as [->|_]; [|exact IH].
  destruct N. rewrite <- E. apply in_or_app. right. left. reflexivity.
Qed.
Lemma has_iff : forall a l, has a l = true <-> In a l.
Proof.
  intros a l. unfold has. rewrite existsb_exists. split; [intros (x & I & E); apply Nat.eqb_eq in E; subst; exact I|intros I; exists a; split; [exact I|apply Nat.eqb_refl]].
Qed.
Lemma nodup_mid : forall (l1 : list nat) a l2, NoDup (l1 ++ a :: l2) -> ~ In a l1 /\ ~ In a l2.
Proof.
  intros l1 a l2 D. apply NoDup_remove_2 in D. split; intros I; apply D; apply in_or_app; auto.
Qed.

(** Iterators *)
Lemma places_length : forall c, length (places c) = S (length (ids c)).
Proof. intros c. unfold places. rewrite app_length. cbn. lia. Qed.
Lemma places_ids : forall c i, i < length (ids c) -> nth i (places c) 0 = nth i (ids c) 0.
Proof. intros c i H. unfold places. apply app_nth1. exact H. Qed.
Lemma places_fin : forall c, nth (length (ids c)) (places c) 0 = fin c.
Proof. intros c. unfold places. rewrite app_nth2, Nat.sub_diag by lia. reflexivity. Qed.
Lemma begin_nth : forall c, it_begin c = nth 0 (places c) 0.
Proof. intros c. unfold it_begin. destruct (places c); reflexivity. Qed.

Lemma next_mid : forall c l1 a b l2, sound c -> places c = l1 ++ a :: b :: l2 -> it_next c a = Ok b.
Proof.
  intros c l1 a b l2 D E. unfold it_next. unfold sound in D. rewrite E in *. rewrite follows_mid; [reflexivity|]. apply (nodup_mid l1 a (b :: l2) D).
Qed.
Lemma next_gone : forall c a, ~ In a (places c) -> it_next c a = UB UseAfterFree.
Proof.
  intros c a N. unfold it_next. destruct (follows a (places c)) as [b|] eqn:F; [destruct N; apply (follows_in _ _ _ F)|].
  destruct (Nat.eqb_spec a (fin c)) as [->|_]; [|reflexivity]. destruct N. unfold places. apply in_or_app. right. left. reflexivity.
Qed.
Lemma next_end : forall c, sound c -> it_next c (fin c) = UB OutOfBounds.
Proof. intros c D. unfold it_next. unfold places. rewrite follows_last by exact D. rewrite Nat.eqb_refl. reflexivity. Qed.
Lemma prev_mid : forall c l1 a b l2, sound c -> places c = l1 ++ a :: b :: l2 -> it_prev c b = Ok a.
Proof.
  intros c l1 a b l2 D E. unfold it_prev. unfold sound in D. rewrite E in *.
  replace (rev (l1 ++ a :: b :: l2)) with (rev l2 ++ b :: a :: rev l1).
  - rewrite follows_mid; [reflexivity|]. rewrite <- in_rev. replace (l1 ++ a :: b :: l2) with ((l1 ++ [a]) ++ b :: l2) in D by (rewrite <- app_assoc; reflexivity).
    apply (nodup_mid (l1 ++ [a]) b l2 D).
  - rewrite rev_app_distr. cbn. rewrite <- !app_assoc. reflexivity.
Qed.
Lemma prev_gone : forall c a, ~ In a (places c) -> it_prev c a = UB UseAfterFree.
Proof.
  intros c a N. unfold it_prev. destruct (follows a (rev (places c))) as [b|] eqn:F; [destruct N; apply in_rev; apply (follows_in _ _ _ F)|].
  destruct (has a (places c)) eqn:H; [apply has_iff in H; contradiction|reflexivity].
Qed.
Lemma prev_first : forall c, sound c -> it_prev c (it_begin c) = UB OutOfBounds.
Proof.
  intros c D. unfold it_prev. unfold sound in D. destruct (places c) as [|x l] eqn:E; [unfold places in E; destruct (ids c); discriminate|].
  unfold it_begin. rewrite E. cbn [hd]. cbn [rev]. rewrite follows_last.
  - cbn. rewrite Nat.eqb_refl. reflexivity.
  - apply NoDup_rev in D. exact D.
Qed.
Lemma ref_mid : forall c l1 a b l2, sound c -> places c = l1 ++ a :: b :: l2 -> it_ref c a = Ok a.
Proof.
  intros c l1 a b l2 D E. unfold it_ref. assert (In a (ids c)) as I.
  { unfold places in E. destruct (exists_last (l := b :: l2)) as (r & z & Z); [discriminate|]. rewrite Z in E.
    change (l1 ++ a :: r ++ [z]) with (l1 ++ (a :: r) ++ [z]) in E. rewrite app_assoc in E. apply app_inj_tail in E. destruct E as [-> _].
    apply in_or_app. right. left. reflexivity. }
  apply has_iff in I. rewrite I. reflexivity.
Qed.
Lemma neq_in : forall c a b, In a (places c) -> In b (places c) -> it_neq c a b = Ok (negb (Nat.eqb a b)).
Proof. intros c a b A B. unfold it_neq. apply has_iff in A. apply has_iff in B. rewrite A, B. reflexivity. Qed.
Lemma neq_gone : forall c a b, ~ In a (places c) \/ ~ In b (places c) -> it_neq c a b = UB UseAfterFree.
Proof.
  intros c a b H. unfold it_neq. destruct (has a (places c)) eqn:A, (has b (places c)) eqn:B; cbn; try reflexivity.
  apply has_iff in A. apply has_iff in B. tauto.
Qed.

(** Places from the j-th on are those of P *)
Definition from (P : list nat) (j : nat) (c : coll) : Prop := sound c /\ exists l1, places c = l1 ++ skipn j P.
Definition upto (P : list nat) (j : nat) (c : coll) : Prop := sound c /\ exists l2, places c = firstn (S j) P ++ l2.
Lemma from_self : forall c, sound c -> forall j, j <= length (places c) -> from (places c) j c.
Proof. intros c D j _. split; [exact D|]. exists (firstn j (places c)). symmetry. apply firstn_skipn. Qed.
Lemma upto_self : forall c, sound c -> forall j, upto (places c) j c.
Proof. intros c D j. split; [exact D|]. exists (skipn (S j) (places c)). symmetry. apply firstn_skipn. Qed.
Lemma from_down : forall P j c, from P j c -> from P (S j) c.
Proof.
  intros P j c [D [l1 E]]. split; [exact D|]. destruct (Nat.lt_ge_cases j (length P)) as [L|L].
  - rewrite (skipn_nth P j L) in E. exists (l1 ++ [nth j P 0]). rewrite <- app_assoc. exact E.
  - rewrite skipn_all2 in * by lia. exists l1. exact E.
Qed.
Lemma upto_down : forall P j c, S j < length P -> upto P (S j) c -> upto P j c.
Proof.
  intros P j c L [D [l2 E]]. split; [exact D|]. rewrite (firstn_nth P (S j) L) in E. exists (nth (S j) P 0 :: l2). rewrite <- app_assoc in E. exact E.
Qed.
Lemma from_in : forall P j c m, from P j c -> j <= m -> m < length P -> In (nth m P 0) (places c).
Proof.
  intros P j c m [_ [l1 E]] J M. rewrite E. apply in_or_app. right. rewrite <- (firstn_skipn j P) at 1.
  rewrite app_nth2; rewrite firstn_length_le by lia; [|lia]. apply nth_In. rewrite skipn_length. lia.
Qed.
Lemma upto_in : forall P j c m, upto P j c -> m <= j -> j < length P -> In (nth m P 0) (places c).
Proof.
  intros P j c m [_ [l2 E]] J M. rewrite E. apply in_or_app. left. rewrite <- (firstn_skipn (S j) P) at 1.
  rewrite app_nth1; [apply nth_In|]; rewrite firstn_length_le by lia; lia.
Qed.
Lemma from_next : forall P j c, from P j c -> S j < length P -> it_next c (nth j P 0) = Ok (nth (S j) P 0).
Proof.
  intros P j c [D [l1 E]] L. rewrite (skipn_nth P j), (skipn_nth P (S j)) in E by lia. eapply next_mid; eassumption.
Qed.
Lemma from_ref : forall P j c, from P j c -> S j < length P -> it_ref c (nth j P 0) = Ok (nth j P 0).
Proof.
  intros P j c [D [l1 E]] L. rewrite (skipn_nth P j), (skipn_nth P (S j)) in E by lia. eapply ref_mid; eassumption.
Qed.
Lemma upto_prev : forall P j c, upto P (S j) c -> S j < length P -> it_prev c (nth (S j) P 0) = Ok (nth j P 0).
Proof.
  intros P j c [D [l2 E]] L. rewrite (firstn_nth P (S j)), (firstn_nth P j) in E by lia. rewrite <- !app_assoc in E. cbn in E. eapply prev_mid; eassumption.
Qed.
Lemma nodup_nth : forall (P : list nat) i j, NoDup P -> i < length P -> j < length P -> Nat.eqb (nth i P 0) (nth j P 0) = Nat.eqb i j.
Proof.
  intros P i j D I J. destruct (Nat.eqb_spec i j) as [->|N]; [apply Nat.eqb_refl|]. apply Nat.eqb_neq. intros E. apply N. eapply NoDup_nth; eassumption.
Qed.
Lemma advance_ok : forall P n j c, NoDup P -> from P j c -> j + n < length P -> it_advance c n (nth j P 0) = Ok (nth (j + n) P 0).
Proof.
  intros P. induction n as [|n IH]; intros j c D F L; [rewrite Nat.add_0_r; reflexivity|]. cbn. rewrite (from_next P j c F) by lia. cbn.
  rewrite IH by (try apply from_down; try assumption; lia). f_equal. f_equal. lia.
Qed.
Lemma advance_begin : forall c n, sound c -> n <= length (ids c) -> it_advance c n (it_begin c) = Ok (nth n (places c) 0).
Proof.
  intros c n D L. rewrite begin_nth. rewrite (advance_ok (places c) n 0 c D); [reflexivity| |].
  - apply from_self; [exact D|lia].
  - rewrite places_length. lia.
Qed.
Lemma advance_out : forall c n, sound c -> length (ids c) < n -> it_advance c n (it_begin c) = UB OutOfBounds.
Proof.
  intros c n D L. replace n with (length (ids c) + S (n - S (length (ids c)))) by lia. generalize (n - S (length (ids c))). intros d.
  assert (A : forall m j, j + m = length (ids c) -> it_advance c (m + S d) (nth j (places c) 0) = UB OutOfBounds).
  { induction m as [|m IH]; intros j J.
    - replace j with (length (ids c)) by lia. rewrite places_fin. cbn. rewrite next_end by exact D. reflexivity.
    - cbn. rewrite (from_next (places c) j c); [|apply from_self; [exact D|rewrite places_length; lia]|rewrite places_length; lia]. cbn. apply IH. lia. }
  rewrite begin_nth. apply A. lia.
Qed.

(** From a body that keeps a place to the invariant *)
Lemma same_from_step : forall P j c c', j < length P -> from P j c -> sound c' -> same_from (nth j P 0) c c' -> from P j c'.
Proof.
  intros P j c c' L [_ [l1 E]] D' H. split; [exact D'|]. rewrite (skipn_nth P j L) in *. destruct (H _ _ E) as [l1' E']. exists l1'. exact E'.
Qed.
Lemma same_upto_step : forall P j c c', S j < length P -> upto P (S j) c -> sound c' -> same_upto (nth j P 0) c c' -> upto P (S j) c'.
Proof.
  intros P j c c' L [_ [l2 E]] D' H. split; [exact D'|]. rewrite (firstn_nth P (S j)), (firstn_nth P j) in * by lia. rewrite <- !app_assoc in *. cbn in *.
  destruct (H _ _ _ E) as [l2' E']. exists l2'. rewrite <- app_assoc. exact E'.
Qed.

Lemma nth_split_skip : forall n (l l1 : list nat) a l2, skipn n l = l1 ++ a :: l2 -> nth (n + length l1) l 0 = a.
Proof.
  induction n as [|n IH]; intros l l1 a l2 E.
  - cbn in *. subst l. rewrite app_nth2, Nat.sub_diag by lia. reflexivity.
  - destruct l as [|x l]; [destruct l1; discriminate|]. cbn in *. eapply IH. exact E.
Qed.
Lemma seq_split_skip : forall n (l l1 : list nat) l2, skipn n l = l1 ++ l2 -> map (fun i => nth i l 0) (seq n (length l1)) = l1.
Proof.
  intros n l l1. revert n. induction l1 as [|a l1 IH]; intros n l2 E; [reflexivity|]. cbn [length seq map]. f_equal.
  - rewrite <- (Nat.add_0_r n). exact (nth_split_skip n l [] a (l1 ++ l2) E).
  - apply (IH (S n) l2). assert (L : n < length l) by (destruct (Nat.lt_ge_cases n (length l)) as [L|L]; [exact L|rewrite skipn_all2 in E by lia; discriminate]).
    rewrite (skipn_nth l n L) in E. injection E as _ E. exact E.
Qed.

Section Loops.
Context {S : Type}.
Variable colls : S -> nat -> coll.

(** Any loop: as long as the iterator moves from it d to it (d+1) and so on *)
Section Steps.
Context {I R : Type}.
Variable neq : S -> I -> I -> outcome bool.
Variable incr : S -> I -> outcome I.
Variable get : S -> I -> outcome R.
Variable body : R -> S -> S * outcome bool.
Variable pos : nat -> I.
Variable ref : nat -> R.
Variable last : I.
Variable inv : nat -> S -> Prop.
Variable m : nat.
Hypothesis inv_neq : forall d s, inv d s -> d < m -> neq s (pos d) last = Ok true.
Hypothesis inv_get : forall d s, inv d s -> d < m -> get s (pos d) = Ok (ref d).
Definition goes_on (d : nat) : Prop :=
  forall s s', inv d s -> body (ref d) s = (s', Ok true) -> incr s' (pos d) = Ok (pos (1 + d)) /\ inv (1 + d) s'.
Lemma loop_steps : forall n d fuel s, inv d s -> d + n <= m -> (forall i, d <= i < d + n -> goes_on i) -> n <= fuel ->
  match each body (map ref (seq d n)) s with
  | (s', Ok true) => loop neq incr get body fuel s (pos d) last = loop neq incr get body (fuel - n) s' (pos (d + n)) last /\ inv (d + n) s'
  | r => loop neq incr get body fuel s (pos d) last = r
  end.
Proof.
  induction n as [|n IH]; intros d fuel s V L K F.
  - cbn. rewrite Nat.sub_0_r, Nat.add_0_r. auto.
  - destruct fuel as [|fuel]; [lia|]. cbn [seq map each loop]. rewrite inv_neq, inv_get by (assumption || lia).
    destruct (body (ref d) s) as [s' o] eqn:B. destruct o as [[|]| | | | |]; try reflexivity.
    destruct (K d ltac:(lia) s s' V B) as [E V']. rewrite E.
    specialize (IH (1 + d) fuel s' V' ltac:(lia) ltac:(intros i H; apply K; lia) ltac:(lia)). cbn [Nat.add] in IH.
    replace (d + Datatypes.S n) with (Datatypes.S (d + n)) by lia. cbn [Nat.sub]. exact IH.
Qed.
End Steps.

Lemma ids_nth : forall l n d, n + d = length l -> map (fun i => nth i l 0) (seq n d) = skipn n l.
Proof.
  intros l n d. revert n. induction d as [|d IH]; intros n H; cbn.
  - rewrite skipn_all2 by lia. reflexivity.
  - rewrite IH by lia. rewrite (skipn_nth l n) by lia. reflexivity.
Qed.

(** skip_front *)
Section Forward.
Variables (k : nat) (body : nat -> S -> S * outcome bool) (s0 : S).
Let P := places (colls s0 k).
Hypothesis D : sound (colls s0 k).
Let m := length (ids (colls s0 k)).
Lemma forward_steps : forall n d fuel s, from P d (colls s k) -> d + n <= m -> (forall i, d <= i < d + n -> keeps colls same_from body k (nth i P 0)) -> n <= fuel ->
  let go := loop (fun s => it_neq (colls s k)) (fun s => it_next (colls s k)) (fun s => it_ref (colls s k)) body in
  match each body (map (fun i => nth i P 0) (seq d n)) s with
  | (s', Ok true) => go fuel s (nth d P 0) (nth m P 0) = go (fuel - n) s' (nth (d + n) P 0) (nth m P 0) /\ from P (d + n) (colls s' k)
  | r => go fuel s (nth d P 0) (nth m P 0) = r
  end.
Proof.
  intros n d fuel s V L K F. cbv zeta.
  assert (LP : length P = 1 + m) by (unfold P, m; apply places_length).
  apply (loop_steps _ _ _ body (fun i => nth i P 0) (fun i => nth i P 0) (nth m P 0) (fun d s => from P d (colls s k)) m); try assumption.
  - intros i s1 V1 I. rewrite neq_in; [|eapply from_in; [exact V1|lia|lia]|eapply from_in; [exact V1|lia|lia]].
    rewrite nodup_nth by (exact D || lia). destruct (Nat.eqb_spec i m); [lia|reflexivity].
  - intros i s1 V1 I. apply from_ref; [exact V1|lia].
  - intros i I s1 s2 V1 B. destruct (K i I s1 s2 (proj1 V1) B) as [D2 Sf].
    assert (V2 : from P i (colls s2 k)) by (eapply same_from_step; try eassumption; lia).
    split; [apply from_next; [exact V2|lia]|apply from_down; exact V2].
Qed.
End Forward.

Lemma skip_begin_ok : forall dbg n k s, sound (colls s k) -> n <= length (ids (colls s k)) ->
  skip_begin colls dbg n k s = Ok (nth n (places (colls s k)) 0).
Proof.
  intros dbg n k s D L. unfold skip_begin. rewrite (proj2 (Nat.leb_le _ _) L). rewrite advance_begin by assumption. destruct dbg; reflexivity.
Qed.
Lemma ids_places : forall c n d, n + d <= length (ids c) -> map (fun i => nth i (places c) 0) (seq n d) = map (fun i => nth i (ids c) 0) (seq n d).
Proof. intros c n d L. apply map_ext_in. intros i I. apply in_seq in I. apply places_ids. lia. Qed.

Lemma skip_front_ok : forall dbg n k body fuel s, sound (colls s k) -> n <= length (ids (colls s k)) ->
  (forall a, In a (skipn n (ids (colls s k))) -> keeps colls same_from body k a) -> length (ids (colls s k)) < fuel ->
  for_skip_front colls dbg n k body fuel s = each body (skipn n (ids (colls s k))) s.
Proof.
  intros dbg n k body fuel s D L K F. unfold for_skip_front. rewrite skip_begin_ok by assumption. cbn [range_for].
  set (c := colls s k) in *. set (m := length (ids c)) in *.
  pose proof (forward_steps k body s D (m - n) n fuel s) as H. fold c in H. fold m in H. cbv zeta in H.
  rewrite ids_places in H by (fold m; lia). rewrite ids_nth in H by (fold m; lia).
  assert (X : it_end c = nth m (places c) 0) by (unfold it_end, m; rewrite places_fin; reflexivity). rewrite X.
  replace (n + (m - n)) with m in H by lia.
  assert (Y : from (places c) n c) by (apply from_self; [exact D|rewrite places_length; fold m; lia]).
  specialize (H Y ltac:(lia)). specialize (H ltac:(intros i I; rewrite places_ids by (fold m; lia); apply K; rewrite <- (ids_nth (ids c) n (m - n)) by (fold m; lia);
    apply in_map_iff; exists i; split; [reflexivity|apply in_seq; lia])). specialize (H ltac:(lia)).
  destruct (each body (skipn n (ids c)) s) as [s' [[|]| | | | |]]; try exact H.
  destruct H as [H V]. rewrite H. destruct (fuel - (m - n)) as [|f] eqn:Ef; [lia|]. cbn [loop].
  assert (I : In (nth m (places c) 0) (places (colls s' k))) by (eapply from_in; [exact V|lia|rewrite places_length; fold m; lia]).
  rewrite neq_in by assumption. rewrite Nat.eqb_refl. reflexivity.
Qed.
Lemma skip_front_out : forall dbg n k body fuel s, sound (colls s k) -> length (ids (colls s k)) < n ->
  for_skip_front colls dbg n k body fuel s = (s, if dbg then Abort else UB OutOfBounds).
Proof.
  intros dbg n k body fuel s D L. unfold for_skip_front, skip_begin. rewrite (proj2 (Nat.leb_gt _ _) L). destruct dbg; cbn.
  - reflexivity.
  - rewrite advance_out by assumption. reflexivity.
Qed.
Lemma skip_front_gone : forall dbg n k body fuel s l1 a l2 s1 s2, sound (colls s k) -> skipn n (ids (colls s k)) = l1 ++ a :: l2 ->
  (forall a, In a l1 -> keeps colls same_from body k a) -> length (ids (colls s k)) < fuel ->
  each body l1 s = (s1, Ok true) -> body a s1 = (s2, Ok true) -> ~ In a (places (colls s2 k)) ->
  for_skip_front colls dbg n k body fuel s = (s2, UB UseAfterFree).
Proof.
  intros dbg n k body fuel s l1 a l2 s1 s2 D E K F E1 B G.
  set (c := colls s k) in *. set (m := length (ids c)) in *.
  assert (L : n + length l1 < m).
  { assert (X := f_equal (@length nat) E). rewrite skipn_length, app_length in X. cbn in X. fold m in X. lia. }
  unfold for_skip_front. rewrite skip_begin_ok by (exact D || (fold c; fold m; lia)). cbn [range_for]. fold c.
  assert (E' : skipn n (places c) = l1 ++ a :: (l2 ++ [fin c])).
  { unfold places. rewrite skipn_app. replace (n - length (ids c)) with 0 by (fold m; lia). rewrite E, <- app_assoc. reflexivity. }
  assert (NA : nth (n + length l1) (places c) 0 = a) by (eapply nth_split_skip; exact E').
  pose proof (forward_steps k body s D (length l1) n fuel s) as H. fold c in H. fold m in H. cbv zeta in H.
  rewrite (seq_split_skip _ _ _ _ E') in H. rewrite E1, NA in H.
  specialize (H (from_self c D n ltac:(rewrite places_length; fold m; lia)) ltac:(lia)).
  specialize (H ltac:(intros i I; apply K; rewrite <- (seq_split_skip _ _ _ _ E'); apply in_map_iff; exists i; split; [reflexivity|apply in_seq; lia]) ltac:(lia)).
  destruct H as [H V].
  assert (X : it_end c = nth m (places c) 0) by (unfold it_end, m; rewrite places_fin; reflexivity). rewrite X, H.
  destruct (fuel - length l1) as [|f] eqn:Ef; [lia|]. cbn [loop].
  assert (LP : length (places c) = 1 + m) by (apply places_length).
  assert (I1 : In a (places (colls s1 k))) by (rewrite <- NA; eapply from_in; [exact V|lia|lia]).
  assert (I2 : In (nth m (places c) 0) (places (colls s1 k))) by (eapply from_in; [exact V|lia|lia]).
  rewrite neq_in by assumption. rewrite <- NA at 1. rewrite nodup_nth by (exact D || lia). destruct (Nat.eqb_spec (n + length l1) m) as [Q|_]; [lia|]. cbn [negb].
  rewrite <- NA at 1. rewrite (from_ref _ _ _ V) by lia. rewrite NA, B. rewrite next_gone by exact G. reflexivity.
Qed.

(** The end is gone, the current place is not *)
Lemma skip_front_end_gone : forall dbg n k body fuel s l1 a l2 s1 s2, sound (colls s k) -> skipn n (ids (colls s k)) = l1 ++ a :: l2 ->
  (forall a, In a l1 -> keeps colls same_from body k a) -> length (ids (colls s k)) < fuel ->
  each body l1 s = (s1, Ok true) -> body a s1 = (s2, Ok true) -> In a (ids (colls s2 k)) -> ~ In (fin (colls s k)) (places (colls s2 k)) ->
  sound (colls s2 k) -> for_skip_front colls dbg n k body fuel s = (s2, UB UseAfterFree).
Proof.
  intros dbg n k body fuel s l1 a l2 s1 s2 D E K F E1 B Ia G D2.
  set (c := colls s k) in *. set (m := length (ids c)) in *.
  assert (L : n + length l1 < m).
  { assert (X := f_equal (@length nat) E). rewrite skipn_length, app_length in X. cbn in X. fold m in X. lia. }
  unfold for_skip_front. rewrite skip_begin_ok by (exact D || (fold c; fold m; lia)). cbn [range_for]. fold c.
  assert (E' : skipn n (places c) = l1 ++ a :: (l2 ++ [fin c])).
  { unfold places. rewrite skipn_app. replace (n - length (ids c)) with 0 by (fold m; lia). rewrite E, <- app_assoc. reflexivity. }
  assert (NA : nth (n + length l1) (places c) 0 = a) by (eapply nth_split_skip; exact E').
  pose proof (forward_steps k body s D (length l1) n fuel s) as H. fold c in H. fold m in H. cbv zeta in H.
  rewrite (seq_split_skip _ _ _ _ E') in H. rewrite E1, NA in H.
  specialize (H (from_self c D n ltac:(rewrite places_length; fold m; lia)) ltac:(lia)).
  specialize (H ltac:(intros i I; apply K; rewrite <- (seq_split_skip _ _ _ _ E'); apply in_map_iff; exists i; split; [reflexivity|apply in_seq; lia]) ltac:(lia)).
  destruct H as [H V].
  assert (X : it_end c = nth m (places c) 0) by (unfold it_end, m; rewrite places_fin; reflexivity). rewrite X, H.
  destruct (fuel - length l1) as [|[|f]] eqn:Ef; [lia|lia|]. cbn [loop].
  assert (LP : length (places c) = 1 + m) by (apply places_length).
  assert (I1 : In a (places (colls s1 k))) by (rewrite <- NA; eapply from_in; [exact V|lia|lia]).
  assert (I2 : In (nth m (places c) 0) (places (colls s1 k))) by (eapply from_in; [exact V|lia|lia]).
  rewrite neq_in by assumption. rewrite <- NA at 1. rewrite nodup_nth by (exact D || lia). destruct (Nat.eqb_spec (n + length l1) m) as [Q|_]; [lia|]. cbn [negb].
  rewrite <- NA at 1. rewrite (from_ref _ _ _ V) by lia. rewrite NA, B.
  apply in_split in Ia. destruct Ia as (p & q & Ia).
  destruct (it_next (colls s2 k) a) as [b| | | | |] eqn:Nx.
  - rewrite neq_gone; [reflexivity|]. right. rewrite <- X. exact G.
  - exfalso. unfold it_next in Nx. destruct (follows _ _); [|destruct (Nat.eqb _ _)]; discriminate.
  - exfalso. assert (exists b r, places (colls s2 k) = p ++ a :: b :: r) as (b & r' & Q).
    { unfold places. rewrite Ia. destruct q as [|y q]; [exists (fin (colls s2 k)), []|exists y, (q ++ [fin (colls s2 k)])]; rewrite <- app_assoc; reflexivity. }
    rewrite (next_mid _ _ _ _ _ D2 Q) in Nx. discriminate.
  - exfalso. unfold it_next in Nx. destruct (follows _ _); [|destruct (Nat.eqb _ _)]; discriminate.
  - exfalso. unfold it_next in Nx. destruct (follows _ _); [|destruct (Nat.eqb _ _)]; discriminate.
  - exfalso. unfold it_next in Nx. destruct (follows _ _); [|destruct (Nat.eqb _ _)]; discriminate.
Qed.

(** reverse *)
Lemma rev_nth_seq : forall (l : list nat), map (fun d => nth (length l - 1 - d) l 0) (seq 0 (length l)) = rev l.
Proof.
  intros l. rewrite <- (ids_nth (rev l) 0 (length (rev l)) eq_refl) at 1. cbn [skipn]. rewrite rev_length. apply map_ext_in. intros d I. apply in_seq in I.
  rewrite rev_nth by lia. f_equal. lia.
Qed.
Section Backward.
Variables (k : nat) (body : nat -> S -> S * outcome bool) (s0 : S).
Let P := places (colls s0 k).
Hypothesis D : sound (colls s0 k).
Let m := length (ids (colls s0 k)).
Lemma backward_steps : forall n fuel s, upto P m (colls s k) -> n <= m -> (forall i, m - n <= i < m -> keeps colls same_upto body k (nth i P 0)) -> n <= fuel ->
  let go := loop (fun s => it_neq (colls s k)) (fun s => it_prev (colls s k)) (fun s => it_prev (colls s k)) body in
  match each body (map (fun d => nth (m - 1 - d) P 0) (seq 0 n)) s with
  | (s', Ok true) => go fuel s (nth m P 0) (nth 0 P 0) = go (fuel - n) s' (nth (m - n) P 0) (nth 0 P 0) /\ upto P (m - n) (colls s' k)
  | r => go fuel s (nth m P 0) (nth 0 P 0) = r
  end.
Proof.
  intros n fuel s V L K F. cbv zeta.
  assert (LP : length P = 1 + m) by (unfold P, m; apply places_length).
  pose proof (loop_steps (fun s => it_neq (colls s k)) (fun s => it_prev (colls s k)) (fun s => it_prev (colls s k)) body
    (fun d => nth (m - d) P 0) (fun d => nth (m - 1 - d) P 0) (nth 0 P 0) (fun d s => upto P (m - d) (colls s k)) m) as H.
  cbv beta in H.
  assert (H1 : forall d s, upto P (m - d) (colls s k) -> d < m -> it_neq (colls s k) (nth (m - d) P 0) (nth 0 P 0) = Ok true).
  { intros d s1 V1 I. rewrite neq_in; [|eapply upto_in; [exact V1|lia|lia]|eapply upto_in; [exact V1|lia|lia]].
    rewrite nodup_nth by (exact D || lia). destruct (Nat.eqb_spec (m - d) 0); [lia|reflexivity]. }
  assert (H2 : forall d s, upto P (m - d) (colls s k) -> d < m -> it_prev (colls s k) (nth (m - d) P 0) = Ok (nth (m - 1 - d) P 0)).
  { intros d s1 V1 I. replace (m - d) with (1 + (m - 1 - d)) in * by lia. apply upto_prev; [exact V1|lia]. }
  specialize (H H1 H2 n 0 fuel s). rewrite Nat.sub_0_r in H. cbn [Nat.add] in H. apply H; try assumption.
  intros d I s1 s2 V1 B. unfold keeps in K. destruct (K (m - 1 - d) ltac:(lia) s1 s2 (proj1 V1) B) as [D2 Su].
  assert (V2 : upto P (m - d) (colls s2 k)).
  { replace (m - d) with (1 + (m - 1 - d)) in * by lia. eapply same_upto_step; try eassumption. lia. }
  split.
  - rewrite H2 by (assumption || lia). do 2 f_equal. lia.
  - replace (m - d) with (Datatypes.S (m - (1 + d))) in V2 by lia. apply upto_down; [lia|exact V2].
Qed.
End Backward.

Lemma in_nth_seq : forall (c : coll) i, i < length (ids c) -> In (nth i (places c) 0) (ids c).
Proof. intros c i I. rewrite places_ids by exact I. apply nth_In. exact I. Qed.
Lemma reverse_ok : forall k body fuel s, sound (colls s k) -> (forall a, In a (ids (colls s k)) -> keeps colls same_upto body k a) ->
  length (ids (colls s k)) < fuel -> for_reverse colls k body fuel s = each body (rev (ids (colls s k))) s.
Proof.
  intros k body fuel s D K F. unfold for_reverse. cbn [range_for].
  pose proof (backward_steps k body s D (length (ids (colls s k))) fuel s (upto_self _ D _) (le_n _)) as H.
  set (c := colls s k) in *. set (m := length (ids c)) in *. cbv zeta in H.
  specialize (H ltac:(intros i I; apply K; apply in_nth_seq; fold m; lia) ltac:(lia)).
  assert (X : it_end c = nth m (places c) 0) by (unfold it_end, m; rewrite places_fin; reflexivity). rewrite X, begin_nth.
  assert (R : map (fun d => nth (m - 1 - d) (places c) 0) (seq 0 m) = rev (ids c)).
  { rewrite <- rev_nth_seq. apply map_ext_in. intros d I. apply in_seq in I. apply places_ids. fold m. lia. }
  rewrite R in H. rewrite Nat.sub_diag in H.
  destruct (each body (rev (ids c)) s) as [s' [[|]| | | | |]]; try exact H.
  destruct H as [H V]. rewrite H. destruct (fuel - m) as [|f] eqn:Ef; [lia|]. cbn [loop].
  assert (I : In (nth 0 (places c) 0) (places (colls s' k))) by (eapply upto_in; [exact V|lia|rewrite places_length; lia]).
  rewrite neq_in by assumption. rewrite Nat.eqb_refl. reflexivity.
Qed.

(** reverse, the body takes the current element out of the collection: the one before it is passed over *)
Lemma reverse_erase : forall k body fuel s l1 z a b l2 s2 e, sound (colls s k) -> places (colls s k) = (l1 ++ [z]) ++ a :: b :: l2 ->
  In e (places (colls s k)) -> e <> b -> e <> a -> body a s = (s2, Ok true) -> places (colls s2 k) = (l1 ++ [z]) ++ b :: l2 ->
  let go := loop (fun s => it_neq (colls s k)) (fun s => it_prev (colls s k)) (fun s => it_prev (colls s k)) body in
  go (Datatypes.S fuel) s b e = go fuel s2 z e.
Proof.
  intros k body fuel s l1 z a b l2 s2 e D E Ie Nb Na B E2. cbv zeta. cbn [loop].
  assert (Ib : In b (places (colls s k))) by (rewrite E; apply in_or_app; right; right; left; reflexivity).
  rewrite neq_in by assumption. destruct (Nat.eqb_spec b e) as [Q|_]; [congruence|]. cbn [negb]. rewrite (prev_mid _ _ _ _ _ D E), B.
  assert (D2 : sound (colls s2 k)). { unfold sound in *. rewrite E2. rewrite E in D. apply NoDup_remove_1 in D. exact D. }
  rewrite <- app_assoc in E2. cbn in E2. rewrite (prev_mid _ _ _ _ _ D2 E2). reflexivity.
Qed.

Lemma reverse_gone : forall k body fuel s l1 a l2 s1 s2, sound (colls s k) -> rev (ids (colls s k)) = l1 ++ a :: l2 ->
  (forall a, In a l1 -> keeps colls same_upto body k a) -> length (ids (colls s k)) < fuel ->
  each body l1 s = (s1, Ok true) -> body a s1 = (s2, Ok true) -> ~ In (last l1 (fin (colls s k))) (places (colls s2 k)) ->
  for_reverse colls k body fuel s = (s2, UB UseAfterFree).
Proof.
  intros k body fuel s l1 a l2 s1 s2 D E K F E1 B G. unfold for_reverse. cbn [range_for].
  set (c := colls s k) in *. set (m := length (ids c)) in *.
  assert (L : length l1 < m). { assert (X := f_equal (@length nat) E). rewrite rev_length, app_length in X. cbn in X. fold m in X. lia. }
  assert (N : forall d, d < length l1 -> nth (m - 1 - d) (places c) 0 = nth d l1 0).
  { intros d Hd. rewrite places_ids by (fold m; lia). replace (m - 1 - d) with (length (ids c) - Datatypes.S d) by (fold m; lia).
    rewrite <- rev_nth by (fold m; lia). rewrite E. apply app_nth1. exact Hd. }
  assert (NA : nth (m - 1 - length l1) (places c) 0 = a).
  { rewrite places_ids by (fold m; lia). replace (m - 1 - length l1) with (length (ids c) - Datatypes.S (length l1)) by (fold m; lia).
    rewrite <- rev_nth by (fold m; lia). rewrite E. rewrite app_nth2, Nat.sub_diag by lia. reflexivity. }
  assert (R : map (fun d => nth (m - 1 - d) (places c) 0) (seq 0 (length l1)) = l1).
  { transitivity (map (fun i => nth i l1 0) (seq 0 (length l1))); [|exact (ids_nth l1 0 (length l1) eq_refl)].
    apply map_ext_in. intros d I. apply in_seq in I. apply N. lia. }
  assert (Nb : nth (m - length l1) (places c) 0 = last l1 (fin c)).
  { destruct l1 as [|x l1] using rev_ind; [rewrite Nat.sub_0_r; apply places_fin|]. rewrite last_last. rewrite app_length in *. cbn in *.
    replace (m - (length l1 + 1)) with (m - 1 - length l1) by lia. rewrite N by lia. rewrite app_nth2, Nat.sub_diag by lia. reflexivity. }
  pose proof (backward_steps k body s D (length l1) fuel s (upto_self _ D _) ltac:(fold c; fold m; lia)) as H. fold c in H. fold m in H. cbv zeta in H.
  rewrite R, E1 in H.
  specialize (H ltac:(intros i I; apply K; replace i with (m - 1 - (m - 1 - i)) by lia; rewrite N by lia; apply nth_In; lia) ltac:(lia)).
  destruct H as [H V].
  assert (X : it_end c = nth m (places c) 0) by (unfold it_end, m; rewrite places_fin; reflexivity). rewrite X, begin_nth, H.
  destruct (fuel - length l1) as [|f] eqn:Ef; [lia|]. cbn [loop].
  assert (LP : length (places c) = 1 + m) by (apply places_length).
  rewrite neq_in; [|eapply upto_in; [exact V|lia|lia]|eapply upto_in; [exact V|lia|lia]].
  rewrite nodup_nth by (exact D || lia). destruct (Nat.eqb_spec (m - length l1) 0) as [Q|_]; [lia|]. cbn [negb].
  assert (Pv : it_prev (colls s1 k) (nth (m - length l1) (places c) 0) = Ok (nth (m - 1 - length l1) (places c) 0)).
  { replace (m - length l1) with (1 + (m - 1 - length l1)) in * by lia. apply upto_prev; [exact V|lia]. }
  rewrite Pv, NA, B. rewrite Nb. rewrite prev_gone by exact G. reflexivity.
Qed.

(** zip *)
Lemma each_of_ok : forall f g h ks, (forall k, In k ks -> f k (g k) = Ok (h k)) -> each_of f ks (map g ks) = Ok (map h ks).
Proof.
  intros f g h. induction ks as [|k ks IH]; intros H; [reflexivity|]. cbn. rewrite (H k (or_introl eq_refl)). cbn.
  rewrite IH by (intros k' I; apply H; right; exact I). reflexivity.
Qed.
Lemma each_of_fails : forall (Q : ub -> Prop) f g ks, (forall k, In k ks -> (exists b, f k (g k) = Ok b) \/ exists u, Q u /\ f k (g k) = UB u) ->
  (exists k u, In k ks /\ f k (g k) = UB u) -> exists u, Q u /\ each_of f ks (map g ks) = UB u.
Proof.
  intros Q f g. induction ks as [|k ks IH]; intros H (k0 & u0 & I0 & E0); [destruct I0|]. cbn.
  destruct (H k (or_introl eq_refl)) as [[b E]|(u & U & E)].
  - rewrite E. cbn. destruct IH as (u & U & E'); [intros k' I; apply H; right; exact I| |exists u; rewrite E'; auto].
    exists k0, u0. destruct I0 as [->|I0]; [congruence|auto].
  - exists u. rewrite E. auto.
Qed.

Lemma row_places : forall ks s i, (forall k, In k ks -> i < length (ids (colls s k))) -> row colls ks s i = map (fun k => nth i (places (colls s k)) 0) ks.
Proof. intros ks s i H. apply map_ext_in. intros k I. symmetry. apply places_ids. apply H. exact I. Qed.

Section Zip.
Variables (v : zip_view) (body : list nat -> S -> S * outcome bool) (s0 : S).
Let P k := places (colls s0 k).
Let ks := over v.
Let m := min_size v.
Let pos d := map (fun k => nth d (P k) 0) ks.
Hypothesis nonempty : ks <> [].
Hypothesis D : forall k, In k ks -> sound (colls s0 k).
Hypothesis M : forall k, In k ks -> m <= length (ids (colls s0 k)).
Let inv d s := forall k, In k ks -> from (P k) d (colls s k).
Lemma zip_neq_ok : forall d s, inv d s -> d <= m -> zip_neq colls v s (pos d) (pos m) = Ok (negb (Nat.eqb d m)).
Proof.
  intros d s V L. unfold zip_neq. fold ks. unfold pos. destruct ks as [|k r] eqn:E; [congruence|]. cbn [map].
  assert (I : In k (k :: r)) by (left; reflexivity). assert (LP : m < length (P k)) by (unfold P; rewrite places_length; specialize (M k I); lia).
  rewrite neq_in; [|eapply from_in; [apply V; exact I|lia|lia]|eapply from_in; [apply V; exact I|lia|lia]].
  rewrite nodup_nth by (try (apply D; exact I); lia). reflexivity.
Qed.
Lemma zip_steps : forall n fuel, n <= m -> (forall i, i < n -> keeps_all colls body ks (pos i)) -> n <= fuel ->
  let go := loop (zip_neq colls v) (fun s => each_of (fun k => it_next (colls s k)) ks) (fun s => each_of (fun k => it_ref (colls s k)) ks) body in
  match each body (map pos (seq 0 n)) s0 with
  | (s', Ok true) => go fuel s0 (pos 0) (pos m) = go (fuel - n) s' (pos n) (pos m) /\ inv n s'
  | r => go fuel s0 (pos 0) (pos m) = r
  end.
Proof.
  intros n fuel L K F. cbv zeta.
  apply (loop_steps _ _ _ body pos pos (pos m) inv m) with (d := 0); try assumption.
  - intros d s V I. rewrite zip_neq_ok by (assumption || lia). destruct (Nat.eqb_spec d m); [lia|reflexivity].
  - intros d s V I. unfold pos. apply each_of_ok. intros k Ik. apply from_ref; [apply V; exact Ik|]. unfold P. rewrite places_length. specialize (M k Ik). lia.
  - intros k Ik. apply from_self; [apply D; exact Ik|lia].
  - intros d I s s' V B.
    assert (V' : inv d s').
    { specialize (K d ltac:(lia) s s' (fun k Ik => proj1 (V k Ik)) B). clear - K V I L M. intros k Ik.
      assert (W : sound (colls s' k) /\ same_from (nth d (P k) 0) (colls s k) (colls s' k)).
      { clear - K Ik. unfold pos in K. induction ks as [|x r IH]; [destruct Ik|]. inversion K; subst. destruct Ik as [<-|Ik]; [assumption|apply IH; assumption]. }
      destruct W as [W1 W2]. eapply same_from_step; try eassumption; [|apply V; exact Ik]. unfold P. rewrite places_length. specialize (M k Ik). lia. }
    split; [|intros k Ik; apply from_down; apply V'; exact Ik].
    unfold pos. apply each_of_ok. intros k Ik. apply from_next; [apply V'; exact Ik|]. unfold P. rewrite places_length. specialize (M k Ik). lia.
Qed.
Lemma zip_begin_pos : zip_begin colls v s0 = pos 0.
Proof. unfold zip_begin, pos. fold ks. apply map_ext. intros k. apply begin_nth. Qed.
Lemma zip_end_pos : zip_end colls v s0 = Ok (pos m).
Proof.
  unfold zip_end, zip_begin, pos. fold ks. fold m. apply each_of_ok. intros k Ik. apply advance_begin; [apply D; exact Ik|apply M; exact Ik].
Qed.
Lemma rows_pos : forall n, n <= m -> rows colls n ks s0 = map pos (seq 0 n).
Proof.
  intros n L. apply map_ext_in. intros i I. apply in_seq in I. apply row_places. intros k Ik. specialize (M k Ik). lia.
Qed.
Lemma zip_ok : forall fuel, (forall r, In r (rows colls m ks s0) -> keeps_all colls body ks r) -> m < fuel ->
  for_zip colls v body fuel s0 = each body (rows colls m ks s0) s0.
Proof.
  intros fuel K F. unfold for_zip. rewrite zip_begin_pos, zip_end_pos. cbn [range_for]. rewrite rows_pos in * by lia.
  pose proof (zip_steps m fuel (le_n _) ltac:(intros i I; apply K; apply in_map; apply in_seq; lia) ltac:(lia)) as H. cbv zeta in H. fold ks.
  destruct (each body (map pos (seq 0 m)) s0) as [s' [[|]| | | | |]]; try exact H.
  destruct H as [H V]. rewrite H. destruct (fuel - m) as [|f] eqn:Ef; [lia|]. cbn [loop]. rewrite zip_neq_ok by (assumption || lia). rewrite Nat.eqb_refl. reflexivity.
Qed.
Lemma zip_gone : forall fuel i s1 s2 k, i < m -> (forall j, j < i -> keeps_all colls body ks (row colls ks s0 j)) -> m < fuel ->
  each body (rows colls i ks s0) s0 = (s1, Ok true) -> body (row colls ks s0 i) s1 = (s2, Ok true) ->
  In k ks -> ~ In (nth i (ids (colls s0 k)) 0) (places (colls s2 k)) ->
  exists u, for_zip colls v body fuel s0 = (s2, UB u).
Proof.
  intros fuel i s1 s2 k I K F E1 B Ik G. unfold for_zip. rewrite zip_begin_pos, zip_end_pos. cbn [range_for]. rewrite rows_pos in * by lia. fold ks.
  assert (RP : forall j, j < m -> row colls ks s0 j = pos j) by (intros j J; apply row_places; intros k' I'; specialize (M k' I'); lia).
  pose proof (zip_steps i fuel ltac:(lia) ltac:(intros j J; rewrite <- RP by lia; apply K; exact J) ltac:(lia)) as H. cbv zeta in H. rewrite E1 in H.
  destruct H as [H V]. rewrite H. destruct (fuel - i) as [|f] eqn:Ef; [lia|]. cbn [loop]. rewrite zip_neq_ok by (assumption || lia).
  destruct (Nat.eqb_spec i m) as [Q|_]; [lia|]. cbn [negb].
  assert (X : each_of (fun k => it_ref (colls s1 k)) ks (pos i) = Ok (pos i)).
  { unfold pos. apply each_of_ok. intros k' I'. apply from_ref; [apply V; exact I'|]. unfold P. rewrite places_length. specialize (M k' I'). lia. }
  rewrite X. rewrite RP in B by exact I. rewrite B.
  destruct (each_of_fails (fun _ => True) (fun k => it_next (colls s2 k)) (fun k => nth i (P k) 0) ks) as (u & _ & U).
  - intros k' _. unfold it_next. destruct (follows _ _) as [b|]; [left; exists b; reflexivity|right; destruct (Nat.eqb _ _); eauto].
  - exists k, UseAfterFree. split; [exact Ik|]. apply next_gone. unfold P. rewrite places_ids by (specialize (M k Ik); lia). exact G.
  - exists u. change (map (fun k => nth i (P k) 0) ks) with (pos i) in U. rewrite U. reflexivity.
Qed.
End Zip.
Lemma zip_short : forall v body fuel s, (forall k, In k (over v) -> sound (colls s k)) -> (exists k, In k (over v) /\ length (ids (colls s k)) < min_size v) ->
  for_zip colls v body fuel s = (s, UB OutOfBounds).
Proof.
  intros v body fuel s D (k & Ik & L). unfold for_zip. cbn [range_for].
  destruct (each_of_fails (eq OutOfBounds) (fun k => it_advance (colls s k) (min_size v)) (fun k => it_begin (colls s k)) (over v)) as (u & <- & U).
  - intros k' I'. destruct (Nat.le_gt_cases (min_size v) (length (ids (colls s k')))) as [X|X].
    + left. eexists. apply advance_begin; [apply D; exact I'|exact X].
    + right. exists OutOfBounds. split; [reflexivity|]. apply advance_out; [apply D; exact I'|exact X].
  - exists k, OutOfBounds. split; [exact Ik|]. apply advance_out; [apply D; exact Ik|exact L].
  - unfold zip_end, zip_begin. rewrite U. reflexivity.
Qed.
Lemma least_spec : forall l, l <> [] -> In (least l) l /\ forall x, In x l -> least l <= x.
Proof.
  induction l as [|n l IH]; intros N; [congruence|]. destruct l as [|y l]; [cbn; split; [auto|intros x [->|[]]; lia]|].
  destruct IH as [I1 I2]; [discriminate|]. change (least (n :: y :: l)) with (Nat.min n (least (y :: l))). split.
  - destruct (Nat.min_dec n (least (y :: l))) as [->| ->]; [left; reflexivity|right; exact I1].
  - intros x [->|I]; [lia|]. specialize (I2 x I). lia.
Qed.
Lemma zip_smallest : forall ks s n, ks <> [] -> smallest colls n ks s -> min_size (zip colls ks s) = n.
Proof.
  intros ks s n N [S1 (k & Ik & Sk)]. cbn. destruct (least_spec (map (fun k => length (ids (colls s k))) ks)) as [I1 I2]; [destruct ks; discriminate || congruence|].
  apply in_map_iff in I1. destruct I1 as (k' & E' & I'). specialize (S1 k' I'). specialize (I2 (length (ids (colls s k))) (in_map _ _ _ Ik)). lia.
Qed.
End Loops.

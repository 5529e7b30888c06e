From Verif Require Import Base ListLemmas SortModel SortSpec.

Section Proofs.
Context {A : Type}.
Implicit Types m pre seg post : list A.

Lemma get_at pre x post : get (pre ++ x :: post) (length pre) = Ok x.
Proof. unfold get. rewrite nth_error_app2 by lia. rewrite Nat.sub_diag. reflexivity. Qed.

Lemma put_at pre x post y : put (pre ++ x :: post) (length pre) y = Ok (pre ++ y :: post).
Proof.
  unfold put. rewrite app_length. cbn [length].
  replace (Nat.ltb (length pre) (length pre + S (length post))) with true by (symmetry; apply Nat.ltb_lt; lia).
  rewrite firstn_app_exact. do 2 f_equal.
  replace (S (length pre)) with (length (pre ++ [x])) by (rewrite app_length; cbn; lia).
  change (pre ++ x :: post) with (pre ++ [x] ++ post). rewrite app_assoc, skipn_app_exact. reflexivity.
Qed.

Lemma inc_at pre x post : inc (pre ++ x :: post) (length pre) = Ok (S (length pre)).
Proof.
  unfold inc. rewrite app_length. cbn [length].
  replace (Nat.ltb (length pre) (length pre + S (length post))) with true by (symmetry; apply Nat.ltb_lt; lia).
  reflexivity.
Qed.

Lemma swap_at (a : list A) x b y c : iter_swap (a ++ x :: b ++ y :: c) (length a + S (length b)) (length a) =
  Ok (a ++ y :: b ++ x :: c).
Proof.
  unfold iter_swap. rewrite get_at.
  replace (a ++ x :: b ++ y :: c) with ((a ++ x :: b) ++ y :: c) by (rewrite <- app_assoc; reflexivity).
  replace (length a + S (length b)) with (length (a ++ x :: b)) by (rewrite app_length; cbn; lia).
  rewrite get_at. cbn [bind].
  rewrite put_at. cbn [bind]. rewrite <- app_assoc. cbn [app]. apply put_at.
Qed.

Lemma Forall_snoc {B} (P : B -> Prop) l x : Forall P l -> P x -> Forall P (l ++ [x]).
Proof. intros H Hx. apply Forall_app. auto. Qed.

(** find_if_not stops at the first element that fails the predicate. *)
Lemma find_loop (q : A -> bool) : forall seg,
  exists a b, seg = a ++ b /\ Forall (fun x => q x = true) a /\
    (forall x r, b = x :: r -> q x = false) /\
    forall pre post fuel, length seg < fuel -> find_if_not_loop fuel (pre ++ seg ++ post) q (length pre) (length pre + length seg) = Ok (length pre + length a).
Proof.
  induction seg as [|x seg IH].
  - exists [], []. split; [reflexivity|]. split; [constructor|]. split; [discriminate|].
    intros pre post [|fuel] Hf; [cbn in Hf; lia|]. cbn [find_if_not_loop length].
    rewrite Nat.add_0_r, Nat.eqb_refl. reflexivity.
  - destruct (q x) eqn:Q.
    + destruct IH as [a [b [-> [Ha [Hb E]]]]]. exists (x :: a), b. repeat split; auto.
      intros pre post [|fuel] Hf; [cbn in Hf; lia|]. cbn [find_if_not_loop length app].
      replace (Nat.eqb (length pre) (length pre + S (length (a ++ b)))) with false by (symmetry; apply Nat.eqb_neq; lia).
      rewrite get_at. cbn [bind]. rewrite Q. cbn [negb]. rewrite inc_at. cbn [bind].
      specialize (E (pre ++ [x]) post fuel). 
      rewrite (app_length pre) in E. cbn [length] in E, Hf. rewrite <- !app_assoc in E. cbn [app] in E.
      rewrite <- !app_assoc.
      replace (S (length pre)) with (length pre + 1) by lia.
      replace (length pre + S (length (a ++ b))) with (length pre + 1 + length (a ++ b)) by lia.
      rewrite E by lia. f_equal. lia.
    + exists [], (x :: seg). split; [reflexivity|]. split; [constructor|]. split.
      * intros y r H. injection H as <- <-. exact Q.
      * intros pre post [|fuel] Hf; [cbn in Hf; lia|]. cbn [find_if_not_loop length app].
        replace (Nat.eqb (length pre) (length pre + S (length seg))) with false by (symmetry; apply Nat.eqb_neq; lia).
        rewrite get_at. cbn [bind]. rewrite Q. cbn [negb]. f_equal. lia.
Qed.

Lemma part_loop (p : A -> bool) : forall rest a y b,
  Forall (fun x => p x = true) a -> Forall (fun x => p x = false) (y :: b) ->
  exists a' b', Permutation (a ++ (y :: b) ++ rest) (a' ++ b') /\
    Forall (fun x => p x = true) a' /\ Forall (fun x => p x = false) b' /\
    forall pre post fuel, length rest < fuel -> partition_loop fuel (pre ++ a ++ (y :: b) ++ rest ++ post) p (length pre + length a)
      (length pre + length a + S (length b)) (length pre + length a + S (length b) + length rest) =
    Ok (pre ++ a' ++ b' ++ post, length pre + length a').
Proof.
  induction rest as [|x rest IH]; intros a y b Ha Hb.
  - exists a, (y :: b). rewrite app_nil_r. split; [reflexivity|]. split; [assumption|]. split; [assumption|].
    intros pre post [|fuel] Hf; [cbn in Hf; lia|]. cbn [partition_loop length].
    rewrite Nat.add_0_r, Nat.eqb_refl. reflexivity.
  - destruct (p x) eqn:P.
    + inversion Hb as [|? ? Hy Hb']; subst.
      assert (Hb2 : Forall (fun z => p z = false) (b ++ [y])) by (apply Forall_snoc; assumption).
      destruct (b ++ [y]) as [|y' b'] eqn:Eb; [destruct b; discriminate|].
      assert (Lb : length b = length b').
      { assert (H : length (b ++ [y]) = length (y' :: b')) by congruence. rewrite app_length in H. cbn in H. lia. }
      destruct (IH (a ++ [x]) y' b') as [a'' [b'' [Pm [Ha'' [Hb'' E]]]]].
      { apply Forall_snoc; assumption. } { assumption. }
      exists a'', b''. split; [|split; [|split]]; auto.
      * rewrite <- Pm. rewrite <- Eb. rewrite <- !app_assoc. apply Permutation_app_head.
        cbn [app]. transitivity (x :: (y :: b) ++ rest).
        -- symmetry. exact (Permutation_middle (y :: b) rest x).
        -- constructor. exact (Permutation_middle b rest y).
      * intros pre post [|fuel] Hf; [cbn in Hf; lia|]. cbn [partition_loop]. cbn [length] in *.
        set (i := length pre + length a + S (length b)) in *.
        replace (Nat.eqb i (i + S (length rest))) with false by (symmetry; apply Nat.eqb_neq; lia).
        assert (G : get (pre ++ a ++ (y :: b) ++ (x :: rest) ++ post) i = Ok x).
        { replace (pre ++ a ++ (y :: b) ++ (x :: rest) ++ post) with ((pre ++ a ++ y :: b) ++ x :: rest ++ post)
            by (rewrite <- !app_assoc; reflexivity).
          replace i with (length (pre ++ a ++ y :: b)) by (unfold i; rewrite !app_length; cbn; lia). apply get_at. }
        rewrite G. cbn [bind]. rewrite P.
        assert (Sw : iter_swap (pre ++ a ++ (y :: b) ++ (x :: rest) ++ post) i (length pre + length a) =
                     Ok ((pre ++ a) ++ x :: b ++ y :: rest ++ post)).
        { replace (pre ++ a ++ (y :: b) ++ (x :: rest) ++ post) with ((pre ++ a) ++ y :: b ++ x :: rest ++ post)
            by (rewrite <- !app_assoc; reflexivity).
          unfold i. rewrite <- app_length. apply swap_at. }
        rewrite Sw. cbn [bind]. rewrite <- app_length, inc_at. cbn [bind].
        assert (I : inc ((pre ++ a) ++ x :: b ++ y :: rest ++ post) i = Ok (S i)).
        { replace ((pre ++ a) ++ x :: b ++ y :: rest ++ post) with ((pre ++ a ++ x :: b) ++ y :: rest ++ post)
            by (rewrite <- !app_assoc; reflexivity).
          replace i with (length (pre ++ a ++ x :: b)) by (unfold i; rewrite !app_length; cbn; lia). apply inc_at. }
        rewrite I. cbn [bind].
        rewrite <- (E pre post fuel) by lia. rewrite <- Eb. f_equal.
        -- rewrite <- !app_assoc. reflexivity.
        -- rewrite !app_length. cbn. lia.
        -- unfold i. rewrite !app_length. cbn. lia.
        -- unfold i. rewrite !app_length. cbn. lia.
    + destruct (IH a y (b ++ [x])) as [a'' [b'' [Pm [Ha'' [Hb'' E]]]]].
      { assumption. } { change (y :: b ++ [x]) with ((y :: b) ++ [x]). apply Forall_snoc; assumption. }
      exists a'', b''. split; [|split; [|split]]; auto.
      * rewrite <- Pm. cbn [app]. rewrite <- !app_assoc. reflexivity.
      * intros pre post [|fuel] Hf; [cbn in Hf; lia|]. cbn [partition_loop]. cbn [length] in *.
        set (i := length pre + length a + S (length b)) in *.
        replace (Nat.eqb i (i + S (length rest))) with false by (symmetry; apply Nat.eqb_neq; lia).
        assert (G : get (pre ++ a ++ (y :: b) ++ (x :: rest) ++ post) i = Ok x).
        { replace (pre ++ a ++ (y :: b) ++ (x :: rest) ++ post) with ((pre ++ a ++ y :: b) ++ x :: rest ++ post)
            by (rewrite <- !app_assoc; reflexivity).
          replace i with (length (pre ++ a ++ y :: b)) by (unfold i; rewrite !app_length; cbn; lia). apply get_at. }
        rewrite G. cbn [bind]. rewrite P. cbn [bind].
        assert (I : inc (pre ++ a ++ (y :: b) ++ (x :: rest) ++ post) i = Ok (S i)).
        { replace (pre ++ a ++ (y :: b) ++ (x :: rest) ++ post) with ((pre ++ a ++ y :: b) ++ x :: rest ++ post)
            by (rewrite <- !app_assoc; reflexivity).
          replace i with (length (pre ++ a ++ y :: b)) by (unfold i; rewrite !app_length; cbn; lia). apply inc_at. }
        rewrite I. cbn [bind].
        rewrite <- (E pre post fuel) by lia. f_equal.
        -- cbn [app]. rewrite <- !app_assoc. reflexivity.
        -- unfold i. rewrite !app_length. cbn. lia.
        -- unfold i. rewrite !app_length. cbn. lia.
Qed.

Lemma partition_ok (p : A -> bool) seg :
  exists a b, Permutation seg (a ++ b) /\ Forall (fun x => p x = true) a /\ Forall (fun x => p x = false) b /\
    forall pre post, partition (pre ++ seg ++ post) p (length pre) (length pre + length seg) =
    Ok (pre ++ (a ++ b) ++ post, length pre + length a).
Proof.
  unfold partition, find_if_not.
  destruct (find_loop p seg) as [a [b [E [Ha [Hb F]]]]].
  destruct b as [|y b].
  - rewrite app_nil_r in E. subst seg. exists a, []. rewrite app_nil_r. split; [reflexivity|].
    split; [assumption|]. split; [constructor|]. intros pre post.
    rewrite F by (rewrite !app_length; lia). cbn [bind]. rewrite Nat.eqb_refl. reflexivity.
  - destruct (part_loop p b a y []) as [a' [b' [Pm [Ha' [Hb' E']]]]].
    { assumption. } { constructor; [apply (Hb y b eq_refl)|constructor]. }
    exists a', b'. subst seg. split; [exact Pm|]. split; [assumption|]. split; [assumption|]. intros pre post.
    rewrite F by (rewrite !app_length; lia). cbn [bind].
    rewrite (app_length a). cbn [length].
    replace (Nat.eqb (length pre + length a) (length pre + (length a + S (length b)))) with false
      by (symmetry; apply Nat.eqb_neq; lia).
    assert (I : inc (pre ++ (a ++ y :: b) ++ post) (length pre + length a) = Ok (S (length pre + length a))).
    { replace (pre ++ (a ++ y :: b) ++ post) with ((pre ++ a) ++ y :: b ++ post)
        by (rewrite <- !app_assoc; reflexivity).
      rewrite <- app_length. apply inc_at. }
    rewrite I. cbn [bind].
    replace (pre ++ (a' ++ b') ++ post) with (pre ++ a' ++ b' ++ post) by (rewrite <- !app_assoc; reflexivity).
    rewrite <- (E' pre post (S (length (pre ++ (a ++ y :: b) ++ post)))) by (rewrite !app_length; cbn [length]; lia).
    f_equal.
    + cbn [app]. rewrite <- !app_assoc. reflexivity.
    + cbn [length]. lia.
    + cbn [length]. lia.
Qed.

(** All elements pass: nothing moves. *)
Lemma partition_all (p : A -> bool) pre seg post : Forall (fun x => p x = true) seg ->
  partition (pre ++ seg ++ post) p (length pre) (length pre + length seg) =
  Ok (pre ++ seg ++ post, length pre + length seg).
Proof.
  intro H. unfold partition, find_if_not.
  destruct (find_loop p seg) as [a [b [E [Ha [Hb F]]]]].
  rewrite F by (rewrite !app_length; lia). cbn [bind]. subst seg. apply Forall_app in H. destruct H as [_ H]. destruct b as [|y b].
  - rewrite app_nil_r, Nat.eqb_refl. reflexivity.
  - inversion H. rewrite (Hb y b eq_refl) in *. discriminate.
Qed.

Lemma half n : 2 <= n -> Z.to_nat (Z.quot (Z.of_nat n) 2) = n / 2 /\ n / 2 < n.
Proof.
  intro H. split.
  - rewrite Z.quot_div_nonneg by lia. change 2%Z with (Z.of_nat 2). rewrite <- Nat2Z.inj_div. apply Nat2Z.id.
  - apply Nat.div_lt; lia.
Qed.

Section Cmp.
Variable cmp : A -> A -> bool.

(** The recursion leaves the range a permutation for every irreflexive comparator; it is sorted if
    the comparator is a strict weak order. *)
Lemma sorted_app_mid (a e b : list A) :
  strict_weak_order cmp -> sorted cmp a -> sorted cmp b -> forall pivot,
  Forall (fun x => cmp x pivot = true) a -> Forall (fun x => cmp x pivot = false /\ cmp pivot x = false) e ->
  Forall (fun x => cmp pivot x = true) b -> sorted cmp (a ++ e ++ b).
Proof.
  intros [Irr [Tr Eq]] Sa Sb pv Fa Fe Fb.
  assert (Asym : forall x y, cmp x y = true -> cmp y x = false).
  { intros x y H. destruct (cmp y x) eqn:E; [|reflexivity]. rewrite <- (Irr x). rewrite (Tr _ _ _ H E). reflexivity. }
  assert (AE : forall x y, cmp x pv = true -> cmp y pv = false -> cmp y x = false).
  { intros x y Hx Hy. destruct (cmp y x) eqn:E; [|reflexivity]. rewrite <- Hy. symmetry. apply (Tr _ _ _ E Hx). }
  assert (EB : forall x y, cmp pv x = false -> cmp pv y = true -> cmp y x = false).
  { intros x y Hx Hy. destruct (cmp y x) eqn:E; [|reflexivity]. rewrite <- Hx. symmetry. apply (Tr _ _ _ Hy E). }
  intros i j x y Hij Hi Hj.
  rewrite Forall_forall in Fa, Fe, Fb.
  destruct (Nat.lt_ge_cases i (length a)) as [La|La].
  - rewrite nth_error_app1 in Hi by assumption.
    destruct (Nat.lt_ge_cases j (length a)) as [Lj|Lj].
    + rewrite nth_error_app1 in Hj by assumption. exact (Sa i j x y Hij Hi Hj).
    + rewrite nth_error_app2 in Hj by assumption. apply nth_error_In in Hi. apply nth_error_In in Hj.
      apply AE; [auto|]. apply in_app_or in Hj. destruct Hj as [Hj|Hj]; [apply Fe, Hj|]. apply Asym, Fb, Hj.
  - rewrite nth_error_app2 in Hi, Hj by lia.
    destruct (Nat.lt_ge_cases (i - length a) (length e)) as [Le|Le].
    + rewrite nth_error_app1 in Hi by assumption. apply nth_error_In in Hi.
      apply nth_error_In in Hj. apply in_app_or in Hj. destruct Hj as [Hj|Hj].
      * destruct (Fe _ Hi), (Fe _ Hj). apply (Eq y pv x); assumption.
      * apply EB; [apply Fe, Hi|auto].
    + rewrite nth_error_app2 in Hi, Hj by lia. refine (Sb _ _ x y _ Hi Hj). lia.
Qed.

Hypothesis irr : forall x, cmp x x = false.

Lemma quick_sort_ok : forall n seg, length seg <= n ->
  exists seg', Permutation seg seg' /\ (strict_weak_order cmp -> sorted cmp seg') /\
    forall pre post fuel, length seg < fuel ->
      quick_sort fuel cmp (pre ++ seg ++ post) (length pre) (length pre + length seg) = Ok (pre ++ seg' ++ post).
Proof.
  assert (Small : forall seg, length seg <= 1 -> 
    exists seg', Permutation seg seg' /\ (strict_weak_order cmp -> sorted cmp seg') /\
    forall pre post fuel, length seg < fuel ->
      quick_sort fuel cmp (pre ++ seg ++ post) (length pre) (length pre + length seg) = Ok (pre ++ seg' ++ post)).
  { intros seg L. exists seg. split; [reflexivity|]. split.
    - intros _ i j x y Hij Hi Hj. assert (j < length seg) by (apply nth_error_Some; congruence). lia.
    - intros pre post [|fuel] Hf; [lia|]. cbn [quick_sort].
      replace (Z.of_nat (length pre + length seg) - Z.of_nat (length pre))%Z with (Z.of_nat (length seg)) by lia.
      destruct (Z.leb_spec (Z.of_nat (length seg)) 1) as [L1|L1]; [reflexivity|lia]. }
  induction n as [|n IH]; intros seg Hn; [apply Small; lia|].
  destruct (Nat.le_gt_cases (length seg) 1) as [L|L]; [apply Small, L|]. clear Small.
  destruct (half (length seg)) as [Hh Lt]; [lia|].
  destruct (nth_error seg (length seg / 2)) as [pv|] eqn:Npv; [|apply nth_error_None in Npv; lia].
  destruct (partition_ok (fun e => cmp e pv) seg) as [a [b [Pm [Fa [Fb E1]]]]].
  destruct (partition_ok (fun e => negb (cmp pv e)) b) as [e [c [P2 [Fe [Fc E2]]]]].
  assert (Pall : Permutation seg (a ++ e ++ c)) by (rewrite Pm, P2; reflexivity).
  assert (Hpv : In pv (a ++ e ++ c)).
  { eapply Permutation_in; [exact Pall|]. eapply nth_error_In; eassumption. }
  assert (Ne : 1 <= length e).
  { rewrite Forall_forall in Fa, Fc.
    apply in_app_or in Hpv. destruct Hpv as [H|H]; [apply Fa in H; rewrite irr in H; discriminate|].
    apply in_app_or in H. destruct H as [H|H]; [destruct e; [contradiction|cbn; lia]|].
    apply Fc in H. rewrite irr in H. discriminate. }
  assert (Ltot : length seg = length a + length e + length c)
    by (rewrite (Permutation_length Pall), !app_length; lia).
  assert (Lb : length b = length e + length c) by (rewrite (Permutation_length P2), app_length; lia).
  destruct (IH a) as [a' [Pa [Sa Ea]]]; [lia|].
  destruct (IH c) as [c' [Pc [Sc Ec]]]; [lia|].
  exists (a' ++ e ++ c'). split; [|split].
  - rewrite Pall, Pa, Pc. reflexivity.
  - intro SWO. apply sorted_app_mid with (pivot := pv); auto.
    + eapply Permutation_Forall; [exact Pa|exact Fa].
    + rewrite Forall_forall in *. intros x Hx. split.
      * apply Fb. eapply Permutation_in; [symmetry; exact P2|]. apply in_or_app. auto.
      * apply Bool.negb_true_iff, Fe, Hx.
    + eapply Permutation_Forall; [exact Pc|]. eapply Forall_impl; [|exact Fc].
      cbv beta. intros x H. apply Bool.negb_false_iff in H. exact H.
  - intros pre post [|fuel] Hf; [lia|]. cbn [quick_sort].
    replace (Z.of_nat (length pre + length seg) - Z.of_nat (length pre))%Z with (Z.of_nat (length seg)) by lia.
    destruct (Z.leb_spec (Z.of_nat (length seg)) 1) as [L1|L1]; [lia|].
    rewrite Hh.
    assert (G : get (pre ++ seg ++ post) (length pre + length seg / 2) = Ok pv).
    { unfold get. rewrite nth_error_app2 by lia. rewrite nth_error_app1 by lia.
      replace (length pre + length seg / 2 - length pre) with (length seg / 2) by lia. rewrite Npv. reflexivity. }
    rewrite G. cbn [bind]. rewrite E1. cbn [bind].
    specialize (E2 (pre ++ a) post). rewrite app_length in E2.
    replace ((pre ++ a) ++ b ++ post) with (pre ++ (a ++ b) ++ post) in E2 by (rewrite <- !app_assoc; reflexivity).
    replace (length pre + length a + length b) with (length pre + length seg) in E2 by lia.
    rewrite E2. cbn [bind].
    replace ((pre ++ a) ++ (e ++ c) ++ post) with (pre ++ a ++ e ++ c ++ post) by (rewrite <- !app_assoc; reflexivity).
    rewrite Ea by lia. cbn [bind].
    assert (La : length a' = length a) by (symmetry; apply Permutation_length, Pa).
    specialize (Ec (pre ++ a' ++ e) post fuel).
    rewrite !app_length, La in Ec.
    replace (pre ++ a' ++ e ++ c ++ post) with ((pre ++ a' ++ e) ++ c ++ post) by (rewrite <- !app_assoc; reflexivity).
    replace (length pre + length a + length e) with (length pre + (length a + length e)) by lia.
    replace (length pre + length seg) with (length pre + (length a + length e) + length c) by lia.
    rewrite Ec by lia. rewrite <- !app_assoc. reflexivity.
Qed.
End Cmp.

(** Non-termination: the middle element is not before itself only if the comparator is irreflexive
    there; if every element compares true with the middle one nothing changes. *)
Lemma quick_sort_diverges cmp seg pv : 2 <= length seg -> nth_error seg (length seg / 2) = Some pv ->
  Forall (fun x => cmp x pv = true) seg ->
  forall pre post fuel, quick_sort fuel cmp (pre ++ seg ++ post) (length pre) (length pre + length seg) = Diverge.
Proof.
  intros L N F pre post. induction fuel as [|fuel IH]; [reflexivity|]. cbn [quick_sort].
  replace (Z.of_nat (length pre + length seg) - Z.of_nat (length pre))%Z with (Z.of_nat (length seg)) by lia.
  destruct (Z.leb_spec (Z.of_nat (length seg)) 1) as [L1|L1]; [lia|].
  destruct (half (length seg)) as [-> Lt]; [lia|].
  assert (G : get (pre ++ seg ++ post) (length pre + length seg / 2) = Ok pv).
  { unfold get. rewrite nth_error_app2 by lia. rewrite nth_error_app1 by lia.
    replace (length pre + length seg / 2 - length pre) with (length seg / 2) by lia. rewrite N. reflexivity. }
  rewrite G. cbn [bind]. rewrite partition_all by assumption. cbn [bind].
  assert (P2 : partition (pre ++ seg ++ post) (fun elem => negb (cmp pv elem)) (length pre + length seg) (length pre + length seg) =
               Ok (pre ++ seg ++ post, length pre + length seg)).
  { pose proof (partition_all (fun elem => negb (cmp pv elem)) (pre ++ seg) [] post (Forall_nil _)) as E.
    cbn [app length] in E. rewrite app_length, Nat.add_0_r, <- app_assoc in E. exact E. }
  rewrite P2. cbn [bind]. rewrite IH. reflexivity.
Qed.

Lemma split3 m first last : first <= last -> last <= length m ->
  m = firstn first m ++ firstn (last - first) (skipn first m) ++ skipn last m /\
  length (firstn first m) = first /\ length (firstn (last - first) (skipn first m)) = last - first.
Proof.
  intros H1 H2. split; [|split].
  - replace (skipn last m) with (skipn (last - first) (skipn first m))
      by (rewrite skipn_skipn; f_equal; lia).
    rewrite !firstn_skipn. reflexivity.
  - apply firstn_length_le. lia.
  - apply firstn_length_le. rewrite skipn_length. lia.
Qed.

Theorem sort_ok cmp m first last : (forall x, cmp x x = false) -> first <= last -> last <= length m ->
  exists m', (forall fuel, last - first < fuel -> quick_sort fuel cmp m first last = Ok m') /\
    length m' = length m /\
    firstn first m' = firstn first m /\ skipn last m' = skipn last m /\
    Permutation (firstn (last - first) (skipn first m)) (firstn (last - first) (skipn first m')) /\
    (strict_weak_order cmp -> sorted cmp (firstn (last - first) (skipn first m'))).
Proof.
  intros Irr H1 H2. destruct (split3 m first last H1 H2) as [E [L1 L2]].
  set (pre := firstn first m) in *. set (seg := firstn (last - first) (skipn first m)) in *.
  set (post := skipn last m) in *.
  destruct (quick_sort_ok cmp Irr (length seg) seg (le_n _)) as [seg' [P [S Q]]].
  pose proof (Permutation_length P) as LP.
  exists (pre ++ seg' ++ post).
  assert (F : firstn (last - first) (skipn first (pre ++ seg' ++ post)) = seg').
  { rewrite <- L1 at 2. rewrite skipn_app_exact. replace (last - first) with (length seg') by lia. apply firstn_app_exact. }
  split; [|split; [|split; [|split; [|split]]]].
  - intros fuel Hf. specialize (Q pre post fuel). rewrite L1 in Q. replace (first + length seg) with last in Q by lia.
    rewrite <- E in Q. apply Q. lia.
  - rewrite E at 1. rewrite !app_length. lia.
  - rewrite <- L1 at 1. apply firstn_app_exact.
  - rewrite app_assoc. replace last with (length (pre ++ seg')) at 1 by (rewrite app_length; lia).
    apply skipn_app_exact.
  - rewrite F. exact P.
  - rewrite F. exact S.
Qed.

Theorem sort_diverges cmp m first last pv : first + 2 <= last -> last <= length m ->
  nth_error m (first + (last - first) / 2) = Some pv ->
  (forall i x, first <= i < last -> nth_error m i = Some x -> cmp x pv = true) ->
  forall fuel, quick_sort fuel cmp m first last = Diverge.
Proof.
  intros H1 H2 N F fuel. destruct (split3 m first last ltac:(lia) H2) as [E [L1 L2]].
  assert (D : (last - first) / 2 < last - first) by (apply Nat.div_lt; lia).
  pose proof (quick_sort_diverges cmp (firstn (last - first) (skipn first m)) pv) as Q.
  rewrite L2 in Q. specialize (Q ltac:(lia)).
  assert (N' : nth_error (firstn (last - first) (skipn first m)) ((last - first) / 2) = Some pv).
  { rewrite nth_error_firstn. apply Nat.ltb_lt in D. rewrite D. rewrite nth_error_skipn. exact N. }
  specialize (Q N').
  assert (FA : Forall (fun x => cmp x pv = true) (firstn (last - first) (skipn first m))).
  { apply Forall_forall. intros x Hx. apply In_nth_error in Hx. destruct Hx as [k Hk].
    rewrite nth_error_firstn in Hk. destruct (Nat.ltb_spec k (last - first)) as [Lk|]; [|discriminate].
    rewrite nth_error_skipn in Hk. apply (F (first + k)); [lia|exact Hk]. }
  specialize (Q FA (firstn first m) (skipn last m) fuel). rewrite <- E, L1 in Q.
  replace (first + (last - first)) with last in Q by lia. exact Q.
Qed.

Theorem sort_reflexive_equal cmp m first last : first + 2 <= last -> last <= length m ->
  (forall x y, In x (firstn (last - first) (skipn first m)) -> In y (firstn (last - first) (skipn first m)) ->
     cmp x y = true) ->
  forall fuel, quick_sort fuel cmp m first last = Diverge.
Proof.
  intros H1 H2 F. assert (D : (last - first) / 2 < last - first) by (apply Nat.div_lt; lia).
  assert (I : forall i x, first <= i < last -> nth_error m i = Some x -> In x (firstn (last - first) (skipn first m))).
  { intros i x Hi Hx. apply nth_error_In with (n := i - first). rewrite nth_error_firstn.
    replace (Nat.ltb (i - first) (last - first)) with true by (symmetry; apply Nat.ltb_lt; lia).
    rewrite nth_error_skipn. rewrite <- Hx. f_equal. lia. }
  destruct (nth_error m (first + (last - first) / 2)) as [pv|] eqn:N; [|apply nth_error_None in N; lia].
  apply sort_diverges with (pv := pv); auto.
  intros i x Hi Hx. apply F; [eapply I; eassumption|]. eapply I; [|eassumption]. lia.
Qed.

Lemma sort_swo cmp m first last : strict_weak_order cmp -> first <= last -> last <= length m ->
  exists m', (forall fuel, last - first < fuel -> quick_sort fuel cmp m first last = Ok m') /\
    length m' = length m /\
    firstn first m' = firstn first m /\ skipn last m' = skipn last m /\
    Permutation (firstn (last - first) (skipn first m)) (firstn (last - first) (skipn first m')) /\
    sorted cmp (firstn (last - first) (skipn first m')).
Proof.
  intros S H1 H2. destruct (sort_ok cmp m first last (proj1 S) H1 H2) as [m' [Q [L [F [K [P So]]]]]].
  exists m'. auto 10.
Qed.

Lemma sort_irr cmp m first last : (forall x, cmp x x = false) -> first <= last -> last <= length m ->
  exists m', (forall fuel, last - first < fuel -> quick_sort fuel cmp m first last = Ok m') /\
    length m' = length m /\
    firstn first m' = firstn first m /\ skipn last m' = skipn last m /\
    Permutation (firstn (last - first) (skipn first m)) (firstn (last - first) (skipn first m')).
Proof.
  intros S H1 H2. destruct (sort_ok cmp m first last S H1 H2) as [m' [Q [L [F [K [P So]]]]]].
  exists m'. auto 10.
Qed.

Lemma sort_frame cmp seg : strict_weak_order cmp ->
  exists seg', Permutation seg seg' /\ sorted cmp seg' /\
    forall pre post fuel, length seg < fuel ->
      quick_sort fuel cmp (pre ++ seg ++ post) (length pre) (length pre + length seg) = Ok (pre ++ seg' ++ post).
Proof.
  intro S. destruct (quick_sort_ok cmp (proj1 S) (length seg) seg (le_n _)) as [seg' [P [So Q]]].
  exists seg'. auto.
Qed.
End Proofs.

From Verif Require Import Base ListLemmas SortModel SortSpec SortProofs SortEffModel SortEffSpec.

Section Memory.
Context {W A : Type}.
Implicit Types pre post : list A.
Lemma get_eff_at pre x post (w : W) : get_eff (length pre) (w, pre ++ x :: post) = ((w, pre ++ x :: post), Ok x).
Proof. unfold get_eff. cbn [snd]. rewrite nth_error_app2 by lia. rewrite Nat.sub_diag. reflexivity. Qed.

Lemma put_eff_at pre x post y (w : W) : put_eff (length pre) y (w, pre ++ x :: post) = ((w, pre ++ y :: post), Ok tt).
Proof.
  unfold put_eff. rewrite app_length. cbn [length].
  replace (Nat.ltb (length pre) (length pre + S (length post))) with true by (symmetry; apply Nat.ltb_lt; lia).
  rewrite firstn_app_exact. do 4 f_equal.
  replace (S (length pre)) with (length (pre ++ [x])) by (rewrite app_length; cbn; lia).
  change (pre ++ x :: post) with (pre ++ [x] ++ post). rewrite app_assoc, skipn_app_exact. reflexivity.
Qed.

Lemma inc_eff_at pre x post (w : W) : inc_eff (length pre) (w, pre ++ x :: post) = ((w, pre ++ x :: post), Ok (S (length pre))).
Proof.
  unfold inc_eff. cbn [snd]. rewrite app_length. cbn [length].
  replace (Nat.ltb (length pre) (length pre + S (length post))) with true by (symmetry; apply Nat.ltb_lt; lia).
  reflexivity.
Qed.

Variable moved : A -> A.
Lemma take_eff_at pre x post (w : W) : take_eff moved (length pre) (w, pre ++ x :: post) = ((w, pre ++ moved x :: post), Ok x).
Proof. unfold take_eff, andThen. rewrite get_eff_at, put_eff_at. reflexivity. Qed.

Lemma swap_eff_at (a : list A) x b y c (w : W) : 
  iter_swap_eff moved (length a + S (length b)) (length a) (w, a ++ x :: b ++ y :: c) =
  ((w, a ++ y :: b ++ x :: c), Ok tt).
Proof.
  unfold iter_swap_eff, andThen.
  assert (R : forall u v, a ++ u :: b ++ v :: c = (a ++ u :: b) ++ v :: c) by (intros; rewrite <- app_assoc; reflexivity).
  assert (L : forall u, length a + S (length b) = length (a ++ u :: b)) by (intros; rewrite app_length; cbn; lia).
  rewrite (R x y), (L x), take_eff_at. rewrite <- R, take_eff_at.
  rewrite (R (moved x)), <- (L x), (L (moved x)), put_eff_at. rewrite <- R. apply put_eff_at.
Qed.
End Memory.

Section Hoare.
Context {W A : Type}.
Variable cmp : W -> A -> A -> W * outcome bool.
Variable copy : W -> A -> W * outcome unit.
Variable moved : A -> A.
Implicit Types m pre seg post : list A.

(** The elements in the range, an invariant of the world that also counts the comparisons, and what a failure comes from. *)
Variable El : A -> Prop.
Variable Inv : nat -> W -> Prop.
Variable prov : W -> outcome unit -> Prop.
Hypothesis cmp_ok : forall w x y k, El x -> El y -> Inv k w ->
  Inv (S k) (fst (cmp w x y)) /\
  (failure (snd (cmp w x y)) <> Ok tt -> prov (fst (cmp w x y)) (failure (snd (cmp w x y)))).
Hypothesis copy_ok : forall w x k, El x -> Inv k w ->
  Inv k (fst (copy w x)) /\
  (failure (snd (copy w x)) <> Ok tt -> prov (fst (copy w x)) (failure (snd (copy w x)))).
Hypothesis Inv_le : forall k k' w, k <= k' -> Inv k w -> Inv k' w.

(** A predicate given to partition. *)
Definition predicate (q : A -> @eff W A bool) (yes no : A -> Prop) : Prop := forall x w m k, El x -> Inv k w ->
  exists w' r, q x (w, m) = ((w', m), r) /\ Inv (S k) w' /\
    match r with Ok true => yes x | Ok false => no x | _ => prov w' (failure r) end.

Lemma find_eff q yes no : predicate q yes no -> forall seg pre post w k fuel, length seg < fuel -> Forall El seg -> Inv k w ->
  exists w' k' r, find_if_not_eff fuel q (length pre) (length pre + length seg) (w, pre ++ seg ++ post) = ((w', pre ++ seg ++ post), r) /\
    Inv k' w' /\
    match r with
    | Ok x => exists a b, seg = a ++ b /\ x = length pre + length a /\ Forall yes a /\
        match b with [] => k' = k + length a | y :: _ => no y /\ k' = k + S (length a) end
    | _ => k' <= k + length seg /\ prov w' (failure r)
    end.
Proof.
  intro Hq. induction seg as [|x seg IH]; intros pre post w k [|fuel] Hf HE HI; try (cbn in Hf; lia).
  - exists w, k, (Ok (length pre)). cbn [find_if_not_eff length]. rewrite Nat.add_0_r, Nat.eqb_refl.
    split; [reflexivity|]. split; [exact HI|]. exists [], []. cbn. repeat split; auto; lia.
  - cbn [find_if_not_eff length app].
    replace (Nat.eqb (length pre) (length pre + S (length seg))) with false by (symmetry; apply Nat.eqb_neq; lia).
    unfold andThen at 1. rewrite get_eff_at. inversion HE as [|? ? Ex Es]; subst.
    destruct (Hq x w (pre ++ x :: seg ++ post) k Ex HI) as [w1 [r [Eq [I1 Hr]]]].
    unfold andThen at 1. rewrite Eq. destruct r as [[|]| | | | |]; cbn [negb].
    + unfold andThen. rewrite inc_eff_at.
      specialize (IH (pre ++ [x]) post w1 (S k) fuel). rewrite (app_length pre) in IH. cbn [length] in IH, Hf.
      rewrite <- !app_assoc in IH. cbn [app] in IH.
      replace (S (length pre)) with (length pre + 1) by lia.
      replace (length pre + S (length seg)) with (length pre + 1 + length seg) by lia.
      destruct (IH ltac:(lia) Es I1) as [w' [k' [r [-> [I' H]]]]]. exists w', k', r.
      split; [reflexivity|]. split; [exact I'|].
      destruct r as [z| | | | |]; try (destruct H; split; [lia|assumption]).
      destruct H as [a [b [-> [-> [Fa Hb]]]]]. exists (x :: a), b. cbn [length app].
      split; [reflexivity|]. split; [lia|]. split; [constructor; assumption|].
      destruct b; [lia|destruct Hb; split; [assumption|lia]].
    + exists w1, (S k), (Ok (length pre)). split; [reflexivity|]. split; [exact I1|].
      exists [], (x :: seg). cbn. repeat split; auto; lia.
    + exists w1, (S k), (Throw e). repeat split; auto; lia.
    + exists w1, (S k), (UB r). repeat split; auto; lia.
    + exists w1, (S k), Abort. repeat split; auto; lia.
    + exists w1, (S k), Terminate. repeat split; auto; lia.
    + exists w1, (S k), Diverge. repeat split; auto; lia.
Qed.

Lemma part_eff q yes no : predicate q yes no -> forall rest a y b pre post w k fuel, length rest < fuel -> Forall El rest -> Inv k w ->
  Forall yes a -> Forall no (y :: b) ->
  exists w' k' r a' b', Permutation (a ++ (y :: b) ++ rest) (a' ++ b') /\
    partition_loop_eff moved fuel q (length pre + length a)
      (length pre + length a + S (length b)) (length pre + length a + S (length b) + length rest)
      (w, pre ++ a ++ (y :: b) ++ rest ++ post) =
    ((w', pre ++ (a' ++ b') ++ post), r) /\
    Inv k' w' /\ k' <= k + length rest /\
    match r with
    | Ok z => z = length pre + length a' /\ Forall yes a' /\ Forall no b'
    | _ => prov w' (failure r)
    end.
Proof.
  intro Hq. induction rest as [|x rest IH]; intros a y b pre post w k [|fuel] Hf HE HI Ha Hb; try (cbn in Hf; lia).
  - exists w, k, (Ok (length pre + length a)), a, (y :: b). rewrite app_nil_r. split; [reflexivity|].
    cbn [partition_loop_eff length]. rewrite Nat.add_0_r, Nat.eqb_refl.
    split; [unfold ret; rewrite <- app_assoc; reflexivity|]. split; [exact HI|]. split; [lia|]. auto.
  - cbn [partition_loop_eff length].
    set (i := length pre + length a + S (length b)) in *.
    replace (Nat.eqb i (i + S (length rest))) with false by (symmetry; apply Nat.eqb_neq; lia).
    set (m0 := pre ++ a ++ (y :: b) ++ (x :: rest) ++ post).
    assert (M0 : m0 = (pre ++ a ++ y :: b) ++ x :: rest ++ post) by (unfold m0; rewrite <- !app_assoc; reflexivity).
    assert (Li : i = length (pre ++ a ++ y :: b)) by (unfold i; rewrite !app_length; cbn; lia).
    unfold andThen at 1. rewrite M0, Li, get_eff_at, <- M0, <- Li.
    inversion HE as [|? ? Ex Es]; subst.
    destruct (Hq x w m0 k Ex HI) as [w1 [r [Eq [I1 Hr]]]].
    unfold andThen at 1. rewrite Eq.
    assert (Fail : Permutation (a ++ (y :: b) ++ x :: rest) (a ++ ((y :: b) ++ x :: rest)) /\ m0 = pre ++ (a ++ (y :: b) ++ x :: rest) ++ post).
    { split; [reflexivity|]. unfold m0. rewrite <- !app_assoc. reflexivity. }
    destruct Fail as [FP FM].
    destruct r as [[|]| | | | |].
    2: { unfold andThen, ret. rewrite M0, Li, inc_eff_at, <- Li.
      specialize (IH a y (b ++ [x]) pre post w1 (S k) fuel).
      cbn [length] in Hf. rewrite app_length in IH. cbn [length] in IH.
      destruct IH as [w' [k' [r [a' [b' [P [E [I' [Lk H]]]]]]]]]; auto; [lia|apply (Forall_snoc no (y :: b) x); assumption|].
      exists w', k', r, a', b'. split; [rewrite <- P; cbn [app]; rewrite <- !app_assoc; reflexivity|].
      split; [|split; [assumption|split; [lia|assumption]]].
      rewrite <- E. f_equal.
      - unfold i. lia.
      - unfold i. lia.
      - f_equal. rewrite <- !app_assoc. cbn [app]. rewrite <- !app_assoc. reflexivity. }
    2-6: (eexists w1, (S k), _, a, ((y :: b) ++ x :: rest); split; [exact FP|]; rewrite <- FM;
          split; [reflexivity|]; split; [exact I1|]; split; [lia|exact Hr]).
    (* the element is swapped with the first one that failed *)
    inversion Hb as [|? ? Hy Hb']; subst.
    assert (Hb2 : Forall no (b ++ [y])) by (apply Forall_snoc; assumption).
    destruct (b ++ [y]) as [|y' b'] eqn:Eb; [destruct b; discriminate|].
    assert (Lb : length b = length b').
    { assert (H : length (b ++ [y]) = length (y' :: b')) by congruence. rewrite app_length in H. cbn in H. lia. }
    assert (Sw : iter_swap_eff moved i (length pre + length a) (w1, m0) = ((w1, (pre ++ a) ++ x :: b ++ y :: rest ++ post), Ok tt)).
    { replace m0 with ((pre ++ a) ++ y :: b ++ x :: rest ++ post) by (unfold m0; rewrite <- !app_assoc; reflexivity).
      unfold i. rewrite <- app_length. apply swap_eff_at. }
    unfold andThen. rewrite Sw. rewrite <- app_length, inc_eff_at.
    replace ((pre ++ a) ++ x :: b ++ y :: rest ++ post) with ((pre ++ a ++ x :: b) ++ y :: rest ++ post)
      by (rewrite <- !app_assoc; reflexivity).
    replace i with (length (pre ++ a ++ x :: b)) by (unfold i; rewrite !app_length; cbn; lia). rewrite inc_eff_at.
    specialize (IH (a ++ [x]) y' b' pre post w1 (S k) fuel).
    destruct IH as [w' [k' [r [a' [b'' [P [E [I' [Lk H]]]]]]]]]; auto; [cbn in Hf; lia|apply Forall_snoc; assumption|].
    exists w', k', r, a', b''. split.
    { rewrite <- P. rewrite <- Eb. rewrite <- !app_assoc. apply Permutation_app_head.
      cbn [app]. transitivity (x :: (y :: b) ++ rest).
      - symmetry. exact (Permutation_middle (y :: b) rest x).
      - constructor. exact (Permutation_middle b rest y). }
    split; [|split; [assumption|split; [lia|assumption]]].
    rewrite <- E. rewrite <- Eb. f_equal.
    + rewrite !app_length. cbn. lia.
    + rewrite !app_length. cbn. lia.
    + rewrite !app_length. cbn. lia.
    + f_equal. rewrite <- !app_assoc. reflexivity.
Qed.

Lemma partition_eff_ok q yes no pv : predicate q yes no -> El pv -> forall seg pre post w k, Forall El seg -> Inv k w ->
  exists w' k' r a b, Permutation seg (a ++ b) /\
    partition_eff copy moved pv q (length pre) (length pre + length seg) (w, pre ++ seg ++ post) =
    ((w', pre ++ (a ++ b) ++ post), r) /\
    Inv k' w' /\ k' <= k + length seg /\
    match r with
    | Ok z => z = length pre + length a /\ Forall yes a /\ Forall no b
    | _ => prov w' (failure r)
    end.
Proof.
  intros Hq Epv seg pre post w k HE HI. unfold partition_eff. cbn [snd].
  unfold andThen at 1. unfold call_copy. destruct (copy_ok w pv k Epv HI) as [Ic Pc].
  destruct (copy w pv) as [w1 rc]. cbn [fst snd] in Ic, Pc.
  destruct rc as [[]| | | | |].
  2-6: (eexists w1, k, _, [], seg; split; [reflexivity|]; split; [reflexivity|]; split; [exact Ic|]; split; [lia|];
        apply Pc; discriminate).
  unfold andThen at 1.
  destruct (find_eff q yes no Hq seg pre post w1 k (S (length (pre ++ seg ++ post)))) as [w2 [k2 [r [-> [I2 H]]]]]; auto.
  { rewrite !app_length. lia. }
  destruct r as [z| | | | |].
  2-6: (destruct H as [Lk H]; eexists w2, k2, _, [], seg; split; [reflexivity|]; split; [reflexivity|]; split; [exact I2|]; split; [lia|exact H]).
  destruct H as [a [b [-> [-> [Fa Hb]]]]]. rewrite app_length. destruct b as [|y b].
  - rewrite Nat.add_0_r, Nat.eqb_refl. exists w2, k2, (Ok (length pre + length a)), a, [].
    split; [reflexivity|]. split; [reflexivity|]. split; [exact I2|]. cbn [length]. split; [lia|]. auto.
  - destruct Hb as [Hy ->]. cbn [length].
    replace (Nat.eqb (length pre + length a) (length pre + (length a + S (length b)))) with false
      by (symmetry; apply Nat.eqb_neq; lia).
    assert (EI : inc_eff (length pre + length a) (w2, pre ++ (a ++ y :: b) ++ post) = ((w2, pre ++ (a ++ y :: b) ++ post), Ok (S (length pre + length a)))).
    { replace (pre ++ (a ++ y :: b) ++ post) with ((pre ++ a) ++ y :: b ++ post) by (rewrite <- !app_assoc; reflexivity).
      rewrite <- app_length. apply inc_eff_at. }
    unfold andThen. rewrite EI. apply Forall_app in HE. destruct HE as [_ HE]. inversion HE as [|? ? Ey Eb]; subst.
    destruct (part_eff q yes no Hq b a y [] pre post w2 (k + S (length a)) (S (length (pre ++ (a ++ y :: b) ++ post)))) as
      [w' [k' [r [a' [b' [P [E [I' [Lk H]]]]]]]]]; auto.
    { rewrite !app_length. cbn. lia. }
    exists w', k', r, a', b'. split; [exact P|]. split; [|split; [assumption|split; [lia|exact H]]].
    rewrite <- E. f_equal.
    + cbn. lia.
    + cbn. lia.
    + f_equal. rewrite <- !app_assoc. reflexivity.
Qed.

Definition irreflexive : Prop := forall w x, El x -> snd (cmp w x x) <> Ok true.
Definition most n := n * (n + 1) - 2.
Lemma most_step n a c : 2 <= n -> a + c + 1 <= n -> most a + most c + 2 * n <= most n.
Proof.
  intros H1 H2. unfold most. destruct a as [|a].
  - destruct c as [|c]; nia.
  - destruct c as [|c]; nia.
Qed.

Lemma quick_eff : forall fuel seg pre post w k, Forall El seg -> Inv k w ->
  exists w' k' r seg', Permutation seg seg' /\
    quick_sort_eff cmp copy moved fuel (length pre) (length pre + length seg) (w, pre ++ seg ++ post) =
    ((w', pre ++ seg' ++ post), r) /\
    Inv k' w' /\ (irreflexive -> k' <= k + most (length seg)) /\
    (r = Ok tt \/ prov w' r \/ r = Diverge /\ ~ (irreflexive /\ length seg < fuel)).
Proof.
  induction fuel as [|fuel IH]; intros seg pre post w k HE HI.
  - exists w, k, Diverge, seg. split; [reflexivity|]. split; [reflexivity|]. split; [exact HI|]. split; [lia|].
    right. right. split; [reflexivity|]. lia.
  - cbn [quick_sort_eff].
    replace (Z.of_nat (length pre + length seg) - Z.of_nat (length pre))%Z with (Z.of_nat (length seg)) by lia.
    destruct (Z.leb_spec (Z.of_nat (length seg)) 1) as [L1|L1].
    { exists w, k, (Ok tt), seg. split; [reflexivity|]. split; [reflexivity|]. split; [exact HI|]. split; [lia|]. auto. }
    destruct (half (length seg)) as [-> Lt]; [lia|].
    destruct (nth_error seg (length seg / 2)) as [pv|] eqn:Npv; [|apply nth_error_None in Npv; lia].
    assert (G : get_eff (length pre + length seg / 2) (w, pre ++ seg ++ post) = ((w, pre ++ seg ++ post), Ok pv)).
    { unfold get_eff. cbn [snd]. rewrite nth_error_app2 by lia. rewrite nth_error_app1 by lia.
      replace (length pre + length seg / 2 - length pre) with (length seg / 2) by lia. rewrite Npv. reflexivity. }
    assert (Epv : El pv) by (rewrite Forall_forall in HE; apply HE; eapply nth_error_In; eassumption).
    assert (M0 : forall n, k <= k + n) by lia.
    unfold andThen at 1. rewrite G.
    unfold andThen at 1. unfold call_copy at 1.
    destruct (copy_ok w pv k Epv HI) as [Ic Pc]. destruct (copy w pv) as [w1 rc]. cbn [fst snd] in Ic, Pc.
    destruct rc as [[]| | | | |].
    2-6: (eexists w1, k, _, seg; split; [reflexivity|]; split; [reflexivity|]; split; [exact Ic|]; split; [intros; lia|];
          right; left; apply Pc; discriminate).
    unfold andThen at 1. unfold call_copy at 1. clear Pc.
    destruct (copy_ok w1 pv k Epv Ic) as [Ic2 Pc]. destruct (copy w1 pv) as [w2 rc]. cbn [fst snd] in Ic2, Pc.
    destruct rc as [[]| | | | |].
    2-6: (eexists w2, k, _, seg; split; [reflexivity|]; split; [reflexivity|]; split; [exact Ic2|]; split; [intros; lia|];
          right; left; apply Pc; discriminate).
    clear Pc.
    destruct (partition_eff_ok (fun elem => call_cmp cmp elem pv) (fun x => exists w, snd (cmp w x pv) = Ok true)
      (fun x => True) pv) with (seg := seg) (pre := pre) (post := post) (w := w2) (k := k)
      as [w3 [k3 [r [a [b [Pm [E1 [I3 [L3 H3]]]]]]]]]; auto.
    { intros x w0 m0 k0 Ex H0. unfold call_cmp. destruct (cmp_ok w0 x pv k0 Ex Epv H0) as [J Pr].
      destruct (cmp w0 x pv) as [w' r] eqn:Ec. cbn [fst snd] in J, Pr. exists w', r. split; [reflexivity|]. split; [exact J|].
      destruct r as [[|]| | | | |]; try (apply Pr; discriminate); auto.
      exists w0. rewrite Ec. reflexivity. }
    unfold andThen at 1. rewrite E1.
    assert (B3 : k3 <= k + most (length seg)).
    { assert (0 + 0 + 1 <= length seg) by lia. pose proof (most_step (length seg) 0 0 ltac:(lia) H). cbn [most] in *. lia. }
    destruct r as [z| | | | |].
    2-6: (eexists w3, k3, _, (a ++ b); split; [exact Pm|]; split; [reflexivity|]; split; [exact I3|]; split; [auto|];
          right; left; exact H3).
    destruct H3 as [-> [Fa _]].
    unfold andThen at 1. unfold call_copy at 1.
    destruct (copy_ok w3 pv k3 Epv I3) as [Ic3 Pc]. destruct (copy w3 pv) as [w4 rc]. cbn [fst snd] in Ic3, Pc.
    destruct rc as [[]| | | | |].
    2-6: (eexists w4, k3, _, (a ++ b); split; [exact Pm|]; split; [reflexivity|]; split; [exact Ic3|]; split; [auto|];
          right; left; apply Pc; discriminate).
    clear Pc.
    assert (HEab : Forall El (a ++ b)) by (eapply Permutation_Forall; eassumption).
    apply Forall_app in HEab. destruct HEab as [HEa HEb].
    destruct (partition_eff_ok (fun elem => andThen (call_cmp cmp pv elem) (fun b => ret (negb b))) (fun x => True)
      (fun x => exists w, snd (cmp w pv x) = Ok true) pv) with (seg := b) (pre := pre ++ a) (post := post) (w := w4) (k := k3)
      as [w5 [k5 [r [e [c [P2 [E2 [I5 [L5 H5]]]]]]]]]; auto.
    { intros x w0 m0 k0 Ex H0. unfold call_cmp, andThen. destruct (cmp_ok w0 pv x k0 Epv Ex H0) as [J Pr].
      destruct (cmp w0 pv x) as [w' r] eqn:Ec. cbn [fst snd] in J, Pr.
      destruct r as [[|]| | | | |]; (eexists w', _; split; [reflexivity|]; split; [exact J|]); try (apply Pr; discriminate); cbn; auto.
      exists w0. rewrite Ec. reflexivity. }
    assert (Lseg : length seg = length a + length b) by (rewrite (Permutation_length Pm), app_length; lia).
    assert (Lb : length b = length e + length c) by (rewrite (Permutation_length P2), app_length; lia).
    rewrite app_length in E2.
    replace ((pre ++ a) ++ b ++ post) with (pre ++ (a ++ b) ++ post) in E2 by (rewrite <- !app_assoc; reflexivity).
    replace (length pre + length a + length b) with (length pre + length seg) in E2 by lia.
    unfold andThen at 1. rewrite E2.
    replace ((pre ++ a) ++ (e ++ c) ++ post) with (pre ++ (a ++ e ++ c) ++ post) by (rewrite <- !app_assoc; reflexivity).
    assert (Pall : Permutation seg (a ++ e ++ c)) by (rewrite Pm, P2; reflexivity).
    assert (B5 : k5 <= k + 2 * length seg) by lia.
    assert (B5' : k5 <= k + most (length seg)).
    { pose proof (most_step (length seg) 0 0 ltac:(lia) ltac:(lia)). lia. }
    destruct r as [z| | | | |].
    2-6: (eexists w5, k5, _, (a ++ e ++ c); split; [exact Pall|]; split; [reflexivity|]; split; [exact I5|]; split; [auto|];
          right; left; exact H5).
    destruct H5 as [-> [_ Fc]].
    assert (Ne : irreflexive -> length a + length c + 1 <= length seg).
    { intro Irr. rewrite Forall_forall in Fa, Fc. 
      assert (Hpv : In pv (a ++ e ++ c)) by (eapply Permutation_in; [exact Pall|]; eapply nth_error_In; eassumption).
      apply in_app_or in Hpv. destruct Hpv as [H|H]; [apply Fa in H; destruct H as [w0 H]; apply Irr in H; [contradiction|assumption]|].
      apply in_app_or in H. destruct H as [H|H]; [destruct e; [contradiction|cbn in *; lia]|].
      apply Fc in H. destruct H as [w0 H]. apply Irr in H; [contradiction|assumption]. }
    replace (pre ++ (a ++ e ++ c) ++ post) with (pre ++ a ++ (e ++ c ++ post)) by (rewrite <- !app_assoc; reflexivity).
    destruct (IH a pre (e ++ c ++ post) w5 k5 HEa I5) as [w6 [k6 [r [a' [Pa [E6 [I6 [L6 H6]]]]]]]].
    unfold andThen at 1. rewrite E6.
    assert (La : length a' = length a) by (symmetry; apply Permutation_length, Pa).
    assert (B6 : irreflexive -> k6 <= k + most (length seg)).
    { intro Irr. specialize (L6 Irr). specialize (Ne Irr). pose proof (most_step (length seg) (length a) (length c) ltac:(lia) Ne). lia. }
    assert (P6 : Permutation seg (a' ++ e ++ c)) by (rewrite Pall, Pa; reflexivity).
    assert (M6 : pre ++ a' ++ e ++ c ++ post = pre ++ (a' ++ e ++ c) ++ post) by (rewrite <- !app_assoc; reflexivity).
    destruct r as [[]| | | | |].
    2-6: (eexists w6, k6, _, (a' ++ e ++ c); split; [exact P6|]; split; [rewrite <- M6; reflexivity|]; split; [exact I6|]; split; [exact B6|];
          destruct H6 as [H6|[H6|[H6 N]]]; first [discriminate | right; left; exact H6 |
            right; right; split; [reflexivity|]; intros [Irr Lf]; apply N; split; [exact Irr|]; specialize (Ne Irr); lia]).
    apply (Permutation_Forall P2) in HEb. apply Forall_app in HEb. destruct HEb as [_ HEc].
    specialize (IH c (pre ++ a' ++ e) post w6 k6 HEc I6). rewrite !app_length, La in IH.
    replace (pre ++ a' ++ e ++ c ++ post) with ((pre ++ a' ++ e) ++ c ++ post) by (rewrite <- !app_assoc; reflexivity).
    replace (length (pre ++ a) + length e) with (length pre + (length a + length e)) by (rewrite app_length; lia).
    replace (length pre + length seg) with (length pre + (length a + length e) + length c) by lia.
    destruct IH as [w7 [k7 [r [c' [Pc [E7 [I7 [L7 H7]]]]]]]]. rewrite E7.
    exists w7, k7, r, (a' ++ e ++ c'). split; [rewrite P6, Pc; reflexivity|].
    split; [rewrite <- !app_assoc; reflexivity|]. split; [exact I7|]. split.
    + intro Irr. specialize (L7 Irr). specialize (L6 Irr). specialize (Ne Irr). pose proof (most_step (length seg) (length a) (length c) ltac:(lia) Ne). lia.
    + destruct H7 as [H7|[H7|[H7 N]]]; auto. right. right. split; [exact H7|]. intros [Irr Lf]. apply N. split; [exact Irr|].
      specialize (Ne Irr). lia.
Qed.
End Hoare.

(** ** A comparator whose answers are those of a function *)
Section Sim.
Context {W A : Type}.
Variable cmp : W -> A -> A -> W * outcome bool.
Variable copy : W -> A -> W * outcome unit.
Variable moved : A -> A.
Variable lt : A -> A -> bool.
Implicit Types m : list A.
Hypothesis agrees : forall w x y b, snd (cmp w x y) = Ok b -> b = lt x y.

Definition answers (q : A -> @eff W A bool) (p : A -> bool) : Prop := forall x w m s b,
  q x (w, m) = (s, Ok b) -> snd s = m /\ b = p x.

Lemma andThen_ok {X Y} (n : @eff W A X) (k : X -> @eff W A Y) s s' y : andThen n k s = (s', Ok y) ->
  exists s1 x, n s = (s1, Ok x) /\ k x s1 = (s', Ok y).
Proof. unfold andThen. destruct (n s) as [s1 [x| | | | |]]; intro H; try discriminate. exists s1, x. auto. Qed.

Definition upd (i : nat) (x : A) (m : list A) := firstn i m ++ x :: skipn (S i) m.
Lemma nth_upd i x m j : i < length m -> nth_error (upd i x m) j = if Nat.eqb j i then Some x else nth_error m j.
Proof.
  intro H. unfold upd. destruct (Nat.eqb_spec j i) as [->|N].
  - rewrite nth_error_app2; rewrite firstn_length_le by lia; [|lia]. rewrite Nat.sub_diag. reflexivity.
  - destruct (Nat.lt_ge_cases j i).
    + rewrite nth_error_app1 by (rewrite firstn_length_le by lia; lia). rewrite nth_error_firstn.
      replace (Nat.ltb j i) with true by (symmetry; apply Nat.ltb_lt; lia). reflexivity.
    + rewrite nth_error_app2; rewrite firstn_length_le by lia; [|lia].
      replace (j - i) with (S (j - i - 1)) by lia. cbn [nth_error]. rewrite nth_error_skipn. f_equal. lia.
Qed.
Lemma length_upd i x m : i < length m -> length (upd i x m) = length m.
Proof. intro H. unfold upd. rewrite app_length. cbn [length]. rewrite firstn_length_le, skipn_length by lia. lia. Qed.

Lemma put_ok i x (w : W) m s : put_eff i x (w, m) = (s, Ok tt) -> i < length m /\ s = (w, upd i x m).
Proof.
  unfold put_eff. destruct (Nat.ltb_spec i (length m)) as [H|H]; intro E; [|discriminate].
  injection E as <-. auto.
Qed.
Lemma get_ok i (w : W) m s x : get_eff i (w, m) = (s, Ok x) -> s = (w, m) /\ nth_error m i = Some x.
Proof. unfold get_eff. cbn [snd]. destruct (nth_error m i); intro E; [|discriminate]. injection E as <- <-. auto. Qed.
Lemma inc_ok i (w : W) m s x : inc_eff i (w, m) = (s, Ok x) -> s = (w, m) /\ inc m i = Ok x.
Proof. unfold inc_eff, inc. cbn [snd]. destruct (Nat.ltb i (length m)); intro E; [|discriminate]. injection E as <- <-. auto. Qed.
Lemma take_ok i (w : W) m s x : take_eff moved i (w, m) = (s, Ok x) ->
  i < length m /\ nth_error m i = Some x /\ s = (w, upd i (moved x) m).
Proof.
  unfold take_eff. intro H. apply andThen_ok in H. destruct H as [s1 [y [H1 H]]]. apply get_ok in H1. destruct H1 as [-> N].
  apply andThen_ok in H. destruct H as [s2 [[] [H2 H]]]. apply put_ok in H2. destruct H2 as [L ->].
  unfold ret in H. injection H as <- <-. auto.
Qed.

Lemma swap_sim a b (w : W) m s : iter_swap_eff moved a b (w, m) = (s, Ok tt) -> exists m', s = (w, m') /\ iter_swap m a b = Ok m'.
Proof.
  unfold iter_swap_eff. intro H. apply andThen_ok in H. destruct H as [s1 [x [H1 H]]]. apply take_ok in H1.
  destruct H1 as [La [Na ->]]. apply andThen_ok in H. destruct H as [s2 [y [H2 H]]]. apply take_ok in H2.
  destruct H2 as [Lb [Nb ->]]. apply andThen_ok in H. destruct H as [s3 [[] [H3 H]]]. apply put_ok in H3.
  destruct H3 as [_ ->]. apply put_ok in H. destruct H as [_ ->].
  eexists. split; [reflexivity|]. rewrite length_upd in Lb by assumption.
  assert (Nb' : exists z, nth_error m b = Some z).
  { destruct (nth_error m b) eqn:E; [eauto|]. apply nth_error_None in E. lia. }
  destruct Nb' as [z Nz].
  unfold iter_swap, get, put. rewrite Na, Nz. cbn [bind].
  replace (Nat.ltb a (length m)) with true by (symmetry; apply Nat.ltb_lt; lia). cbn [bind].
  fold (upd a z m). rewrite length_upd by lia.
  replace (Nat.ltb b (length m)) with true by (symmetry; apply Nat.ltb_lt; lia). f_equal.
  fold (upd b x (upd a z m)).
  apply nth_error_ext. intro j.
  repeat (rewrite nth_upd by (rewrite ?length_upd; rewrite ?length_upd; rewrite ?length_upd; lia)).
  rewrite nth_upd in Nb by lia.
  destruct (Nat.eqb_spec j b) as [->|Hb]; [reflexivity|].
  destruct (Nat.eqb_spec j a) as [->|Ha]; [|reflexivity].
  destruct (Nat.eqb_spec b a) as [->|]; [contradiction|]. congruence.
Qed.

Lemma find_sim q p : answers q p -> forall fuel first last w m s x,
  find_if_not_eff fuel q first last (w, m) = (s, Ok x) -> snd s = m /\ find_if_not_loop fuel m p first last = Ok x.
Proof.
  intros Hq. induction fuel as [|fuel IH]; intros first last w m s x; cbn [find_if_not_eff find_if_not_loop].
  - discriminate.
  - destruct (Nat.eqb first last).
    + unfold ret. intro H. injection H as <- <-. auto.
    + intro H. apply andThen_ok in H. destruct H as [s1 [y [H1 H]]]. apply get_ok in H1. destruct H1 as [-> N].
      unfold get. rewrite N. cbn [bind]. apply andThen_ok in H. destruct H as [[w2 m2] [b [H2 H]]].
      apply Hq in H2. destruct H2 as [E2 ->]. cbn in E2. subst m2.
      destruct (p y); cbn [negb] in *.
      * apply andThen_ok in H. destruct H as [s3 [f [H3 H]]]. apply inc_ok in H3. destruct H3 as [-> ->]. cbn [bind].
        eapply IH, H.
      * unfold ret in H. injection H as <- <-. auto.
Qed.

Lemma loop_sim q p : answers q p -> forall fuel first i last w m s x,
  partition_loop_eff moved fuel q first i last (w, m) = (s, Ok x) ->
  partition_loop fuel m p first i last = Ok (snd s, x).
Proof.
  intros Hq. induction fuel as [|fuel IH]; intros first i last w m s x; cbn [partition_loop_eff partition_loop].
  - discriminate.
  - destruct (Nat.eqb i last).
    + unfold ret. intro H. injection H as <- <-. auto.
    + intro H. apply andThen_ok in H. destruct H as [s1 [y [H1 H]]]. apply get_ok in H1. destruct H1 as [-> N].
      unfold get. rewrite N. cbn [bind]. apply andThen_ok in H. destruct H as [[w2 m2] [b [H2 H]]].
      apply Hq in H2. destruct H2 as [E2 ->]. cbn in E2. subst m2.
      apply andThen_ok in H. destruct H as [[w3 m3] [f [H3 H]]].
      apply andThen_ok in H. destruct H as [s4 [i' [H4 H]]]. apply inc_ok in H4. destruct H4 as [-> I4].
      destruct (p y).
      * apply andThen_ok in H3. destruct H3 as [s5 [[] [H5 H3]]]. apply swap_sim in H5. destruct H5 as [m5 [-> ->]]. cbn [bind].
        apply inc_ok in H3. destruct H3 as [E3 ->]. injection E3 as <- <-. cbn [bind]. rewrite I4. cbn [bind].
        eapply IH, H.
      * unfold ret in H3. injection H3 as <- <- <-. cbn [bind]. rewrite I4. cbn [bind]. eapply IH, H.
Qed.

Lemma copy_same pv (w : W) m s u : call_copy copy pv (w, m) = (s, Ok u) -> snd s = m.
Proof. unfold call_copy. destruct (copy w pv). intro H. injection H as <- _. reflexivity. Qed.

Lemma partition_sim pv q p : answers q p -> forall first last w m s x,
  partition_eff copy moved pv q first last (w, m) = (s, Ok x) ->
  partition m p first last = Ok (snd s, x).
Proof.
  intros Hq first last w m s x H. unfold partition_eff in H. cbn [snd] in H.
  apply andThen_ok in H. destruct H as [[w1 m1] [u [H1 H]]]. apply copy_same in H1. cbn in H1. subst m1.
  apply andThen_ok in H. destruct H as [[w2 m2] [f [H2 H]]]. apply (find_sim q p Hq) in H2. destruct H2 as [E2 H2].
  cbn in E2. subst m2. unfold partition, find_if_not. rewrite H2. cbn [bind].
  destruct (Nat.eqb f last).
  - unfold ret in H. injection H as <- <-. reflexivity.
  - apply andThen_ok in H. destruct H as [s3 [i [H3 H]]]. apply inc_ok in H3. destruct H3 as [-> ->]. cbn [bind].
    eapply loop_sim; eassumption.
Qed.

Lemma quick_sim : forall fuel first last w m s,
  quick_sort_eff cmp copy moved fuel first last (w, m) = (s, Ok tt) ->
  quick_sort fuel lt m first last = Ok (snd s).
Proof.
  induction fuel as [|fuel IH]; intros first last w m s; cbn [quick_sort_eff quick_sort]; [discriminate|].
  destruct (Z.of_nat last - Z.of_nat first <=? 1)%Z.
  - unfold ret. intro H. injection H as <-. reflexivity.
  - intro H. apply andThen_ok in H. destruct H as [s1 [pv [H1 H]]]. apply get_ok in H1. destruct H1 as [-> N].
    unfold get. rewrite N. cbn [bind].
    apply andThen_ok in H. destruct H as [[w1 m1] [u [H1 H]]]. apply copy_same in H1. cbn in H1. subst m1.
    apply andThen_ok in H. destruct H as [[w2 m2] [u2 [H1 H]]]. apply copy_same in H1. cbn in H1. subst m2.
    apply andThen_ok in H. destruct H as [[w3 m3] [mid1 [H1 H]]].
    apply (partition_sim pv _ (fun elem => lt elem pv)) in H1.
    2: { intros x w0 m0 s0 b. unfold call_cmp. destruct (cmp w0 x pv) as [w' r] eqn:E. intro Q. injection Q as <- ->.
         split; [reflexivity|]. apply (agrees w0). rewrite E. reflexivity. }
    rewrite H1. cbn [bind snd].
    apply andThen_ok in H. destruct H as [[w4 m4] [u4 [H4 H]]]. apply copy_same in H4. cbn in H4. subst m4.
    apply andThen_ok in H. destruct H as [[w5 m5] [mid2 [H5 H]]].
    apply (partition_sim pv _ (fun elem => negb (lt pv elem))) in H5.
    2: { intros x w0 m0 s0 b. unfold call_cmp, andThen, ret. destruct (cmp w0 pv x) as [w' r] eqn:E. intro Q. 
         destruct r as [z| | | | |]; try discriminate. injection Q as <- <-.
         split; [reflexivity|]. f_equal. apply (agrees w0). rewrite E. reflexivity. }
    rewrite H5. cbn [bind snd].
    apply andThen_ok in H. destruct H as [[w6 m6] [[] [H6 H]]]. apply IH in H6. rewrite H6. cbn [bind snd].
    eapply IH, H.
Qed.
End Sim.

(** ** The worst case *)
Lemma worst_perm : forall n lo, Permutation (worst n lo) (seq lo n).
Proof.
  induction n as [|n IH]; intro lo; [constructor|]. cbn [worst seq]. specialize (IH (S lo)).
  destruct (worst n (S lo)) as [|a l] eqn:E; [apply Permutation_nil in IH; rewrite IH; constructor; constructor|].
  rewrite <- E in *. set (w := worst n (S lo)) in *. set (i := S n / 2 - 1).
  assert (Lw : length w = n) by (rewrite (Permutation_length IH), seq_length; reflexivity).
  assert (Hn : 1 <= n) by (rewrite <- Lw, E; cbn; lia).
  assert (Hi : i < length w).
  { unfold i. assert (S n / 2 <= n) by (apply Nat.div_le_upper_bound; lia). lia. }
  rewrite <- IH. rewrite <- (firstn_skipn i w) at 4. rewrite (skipn_nth w i (nth i w 0)) by (apply nth_error_nth'; exact Hi).
  transitivity (nth i w 0 :: lo :: firstn i w ++ skipn (S i) w).
  - constructor. symmetry. apply Permutation_middle.
  - rewrite perm_swap. constructor. apply Permutation_middle.
Qed.

Lemma worst_length n lo : length (worst n lo) = n.
Proof. rewrite (Permutation_length (worst_perm n lo)), seq_length. reflexivity. Qed.


Section Worst.
Definition wcmp := counted (pure_cmp Nat.ltb).
Definition wcopy := uncounted (A := nat) pure_copy.
Variable moved : nat -> nat.
Notation state := (nat * unit * list nat)%type.

Definition counts (q : nat -> @eff (nat * unit) nat bool) (p : nat -> bool) : Prop := forall x k m,
  q x ((k, tt), m) = (((S k, tt), m), Ok (p x)).

Lemma skip_eff q p first last : counts q p -> forall b l rest fuel k, Forall (fun x => p x = false) b -> length l + length b <= last ->
  partition_loop_eff moved (length b + fuel) q first (length l) last ((k, tt), l ++ b ++ rest) =
  partition_loop_eff moved fuel q first (length l + length b) last ((k + length b, tt), l ++ b ++ rest).
Proof.
  intro Hq. induction b as [|x b IH]; intros l rest fuel k F L; cbn [length Nat.add] in *.
  - rewrite !Nat.add_0_r. reflexivity.
  - cbn [partition_loop_eff app].
    replace (Nat.eqb (length l) last) with false by (symmetry; apply Nat.eqb_neq; lia).
    inversion F as [|? ? Px Fb]; subst.
    unfold andThen. rewrite get_eff_at, Hq, Px. unfold ret. rewrite inc_eff_at.
    specialize (IH (l ++ [x]) rest fuel (S k) Fb). rewrite app_length in IH. cbn [length] in IH.
    rewrite <- app_assoc in IH. cbn [app] in IH. replace (S (length l)) with (length l + 1) by lia. rewrite IH by lia.
    f_equal; [lia|]. do 2 f_equal. lia.
Qed.

Lemma none_eff q p first : counts q p -> forall b l post fuel k, Forall (fun x => p x = false) b -> length b < fuel ->
  partition_loop_eff moved fuel q first (length l) (length l + length b) ((k, tt), l ++ b ++ post) =
  (((k + length b, tt), l ++ b ++ post), Ok first).
Proof.
  intros Hq b l post fuel k F L. replace fuel with (length b + S (fuel - length b - 1)) by lia.
  rewrite skip_eff with (p := p) by auto. cbn [partition_loop_eff]. rewrite Nat.eqb_refl. reflexivity.
Qed.

Lemma copy_none pv s : call_copy wcopy pv s = (s, Ok tt).
Proof. destruct s as [[k []] m]. reflexivity. Qed.

Lemma first_partition q p pv pre x b post k : counts q p -> Forall (fun x => p x = false) (x :: b) ->
  partition_eff wcopy moved pv q (length pre) (length pre + S (length b)) ((k, tt), pre ++ (x :: b) ++ post) =
  (((k + S (length b), tt), pre ++ (x :: b) ++ post), Ok (length pre)).
Proof.
  intros Hq F. inversion F as [|? ? Px Fb]; subst. unfold partition_eff. unfold andThen at 1. rewrite copy_none. cbn [snd].
  unfold andThen at 1. cbn [find_if_not_eff].
  replace (Nat.eqb (length pre) (length pre + S (length b))) with false by (symmetry; apply Nat.eqb_neq; lia).
  unfold andThen at 1. cbn [app]. rewrite get_eff_at. unfold andThen at 1. rewrite Hq, Px. cbn [negb]. unfold ret.
  replace (Nat.eqb (length pre) (length pre + S (length b))) with false by (symmetry; apply Nat.eqb_neq; lia).
  unfold andThen. rewrite inc_eff_at.
  pose proof (none_eff q p (length pre) Hq b (pre ++ [x]) post (S (length (pre ++ x :: b ++ post))) (S k) Fb) as E.
  rewrite (app_length pre [x]) in E. cbn [length] in E. rewrite <- app_assoc in E. cbn [app] in E.
  replace (S (length pre)) with (length pre + 1) by lia.
  replace (length pre + S (length b)) with (length pre + 1 + length b) by lia. rewrite E.
  - do 3 f_equal. lia.
  - rewrite app_length. cbn. rewrite app_length. lia.
Qed.

Lemma second_partition q p pv pre x b y c post k : counts q p -> Forall (fun x => p x = false) (x :: b ++ c) -> p y = true ->
  partition_eff wcopy moved pv q (length pre) (length pre + S (length b + S (length c))) ((k, tt), pre ++ (x :: b ++ y :: c) ++ post) =
  (((k + S (length b + S (length c)), tt), pre ++ (y :: b ++ x :: c) ++ post), Ok (S (length pre))).
Proof.
  intros Hq F Py. inversion F as [|? ? Px Fbc]; subst. apply Forall_app in Fbc. destruct Fbc as [Fb Fc].
  unfold partition_eff. unfold andThen at 1. rewrite copy_none. cbn [snd].
  unfold andThen at 1. cbn [find_if_not_eff].
  set (n := S (length b + S (length c))).
  replace (Nat.eqb (length pre) (length pre + n)) with false by (symmetry; apply Nat.eqb_neq; lia).
  unfold andThen at 1. cbn [app]. rewrite get_eff_at. unfold andThen at 1. rewrite Hq, Px. cbn [negb]. unfold ret at 1.
  replace (Nat.eqb (length pre) (length pre + n)) with false by (symmetry; apply Nat.eqb_neq; lia).
  unfold andThen at 1. rewrite inc_eff_at.
  assert (M : forall u v, pre ++ u :: (b ++ v :: c) ++ post = (pre ++ [u]) ++ b ++ (v :: c ++ post)) by
    (intros; rewrite <- !app_assoc; reflexivity).
  rewrite (M x y). set (len := length ((pre ++ [x]) ++ b ++ y :: c ++ post)).
  assert (Hlen : length b + length c + 2 <= len) by (unfold len; rewrite !app_length; cbn; rewrite app_length; lia).
  replace (S len) with (length b + S (len - length b)) by lia.
  replace (S (length pre)) with (length (pre ++ [x])) by (rewrite app_length; cbn; lia).
  rewrite skip_eff with (p := p) by (auto; rewrite app_length; cbn; lia).
  cbn [partition_loop_eff]. 
  replace (Nat.eqb (length (pre ++ [x]) + length b) (length pre + n)) with false
    by (symmetry; apply Nat.eqb_neq; rewrite app_length; cbn; lia).
  unfold andThen at 1.
  replace ((pre ++ [x]) ++ b ++ y :: c ++ post) with (((pre ++ [x]) ++ b) ++ y :: c ++ post) by (rewrite <- !app_assoc; reflexivity).
  rewrite <- app_length, get_eff_at. unfold andThen at 1. rewrite Hq, Py.
  assert (Sw : iter_swap_eff moved (length ((pre ++ [x]) ++ b)) (length pre)
    (S (S k + length b), tt, ((pre ++ [x]) ++ b) ++ y :: c ++ post) =
    ((S (S k + length b), tt, pre ++ y :: b ++ x :: c ++ post), Ok tt)).
  { replace (((pre ++ [x]) ++ b) ++ y :: c ++ post) with (pre ++ x :: b ++ y :: c ++ post) by (rewrite <- !app_assoc; reflexivity).
    replace (length ((pre ++ [x]) ++ b)) with (length pre + S (length b)) by (rewrite !app_length; cbn; lia).
    apply swap_eff_at. }
  unfold andThen. rewrite Sw, inc_eff_at.
  replace (pre ++ y :: b ++ x :: c ++ post) with ((pre ++ y :: b) ++ x :: c ++ post) by (rewrite <- !app_assoc; reflexivity).
  replace (length ((pre ++ [x]) ++ b)) with (length (pre ++ y :: b)) by (rewrite !app_length; cbn; lia).
  rewrite inc_eff_at.
  pose proof (none_eff q p (S (length pre)) Hq c ((pre ++ y :: b) ++ [x]) post (len - length b) (S (S k + length b)) Fc ltac:(lia)) as E.
  replace (S (length (pre ++ y :: b))) with (length ((pre ++ y :: b) ++ [x])) by (rewrite !app_length; cbn; lia).
  replace (length pre + n) with (length ((pre ++ y :: b) ++ [x]) + length c) by (unfold n; rewrite !app_length; cbn; lia).
  replace ((pre ++ y :: b) ++ x :: c ++ post) with (((pre ++ y :: b) ++ [x]) ++ c ++ post) by (rewrite <- !app_assoc; reflexivity).
  rewrite E. replace (S (S k + length b) + length c) with (k + n) by (unfold n; lia).
  do 2 f_equal; [rewrite <- !app_assoc; cbn [app]; rewrite <- ?app_assoc; reflexivity|].
  rewrite app_length. cbn. lia.
Qed.


(** One call: the least element is moved to the front with two comparisons per element. *)
Lemma worst_step n lo pre post k fuel : 1 <= n ->
  quick_sort_eff wcmp wcopy moved (S fuel) (length pre) (length pre + S n) ((k, tt), pre ++ worst (S n) lo ++ post) =
  match fuel with
  | O => (((k + 2 * S n, tt), (pre ++ [lo]) ++ worst n (S lo) ++ post), Diverge)
  | S _ => quick_sort_eff wcmp wcopy moved fuel (length (pre ++ [lo])) (length (pre ++ [lo]) + n)
      ((k + 2 * S n, tt), (pre ++ [lo]) ++ worst n (S lo) ++ post)
  end.
Proof.
  intro Hn. set (w := worst n (S lo)). set (i := S n / 2 - 1).
  assert (Lw : length w = n) by apply worst_length.
  assert (Hi2 : S n / 2 <= n) by (apply Nat.div_le_upper_bound; lia).
  assert (Hi1 : 1 <= S n / 2) by (apply Nat.div_le_lower_bound; lia).
  assert (Hi : i < length w) by (unfold i; lia).
  set (x := nth i w 0). set (b := firstn i w). set (c := skipn (S i) w).
  assert (Ew : w = b ++ x :: c).
  { unfold b, x, c. rewrite <- (firstn_skipn i w) at 1. f_equal. apply skipn_nth, nth_error_nth', Hi. }
  assert (Lb : length b = i) by (unfold b; rewrite firstn_length_le; lia).
  assert (Lc : length b + S (length c) = n) by (rewrite <- Lw, Ew, app_length; reflexivity).
  assert (E : worst (S n) lo = x :: b ++ lo :: c).
  { cbn [worst]. fold w. destruct w as [|z w'] eqn:Z; [cbn in Lw; lia|]. reflexivity. }
  assert (Gt : Forall (fun z => lo < z) w).
  { apply Forall_forall. intros z Hz. apply (Permutation_in _ (worst_perm n (S lo))), in_seq in Hz. lia. }
  assert (Gx : lo < x) by (rewrite Forall_forall in Gt; apply Gt; rewrite Ew; apply in_or_app; right; left; reflexivity).
  assert (Gbc : Forall (fun z => lo < z) (b ++ c)).
  { rewrite Forall_forall in *. intros z Hz. apply Gt. rewrite Ew. apply in_app_or in Hz. apply in_or_app. destruct Hz; [left|right; right]; assumption. }
  rewrite E. cbn [quick_sort_eff].
  replace (Z.of_nat (length pre + S n) - Z.of_nat (length pre))%Z with (Z.of_nat (S n)) by lia.
  destruct (Z.leb_spec (Z.of_nat (S n)) 1) as [L1|L1]; [lia|].
  destruct (half (S n)) as [-> _]; [lia|].
  assert (G : get_eff (length pre + S n / 2) ((k, tt), pre ++ (x :: b ++ lo :: c) ++ post) = (((k, tt), pre ++ (x :: b ++ lo :: c) ++ post), Ok lo)).
  { replace (pre ++ (x :: b ++ lo :: c) ++ post) with ((pre ++ x :: b) ++ lo :: c ++ post)
      by (rewrite <- !app_assoc; cbn [app]; rewrite <- app_assoc; reflexivity).
    replace (length pre + S n / 2) with (length (pre ++ x :: b)) by (rewrite app_length; cbn [length]; lia). apply get_eff_at. }
  unfold andThen at 1. rewrite G. unfold andThen at 1. rewrite copy_none. unfold andThen at 1. rewrite copy_none.
  unfold andThen at 1.
  assert (P1 : partition_eff wcopy moved lo (fun elem => call_cmp wcmp elem lo) (length pre) (length pre + S n)
    ((k, tt), pre ++ (x :: b ++ lo :: c) ++ post) = (((k + S n, tt), pre ++ (x :: b ++ lo :: c) ++ post), Ok (length pre))).
  { replace n with (length (b ++ lo :: c)) by (rewrite app_length; cbn [length]; lia).
    apply first_partition with (p := fun e => Nat.ltb e lo).
    - intros z k0 m0. reflexivity.
    - constructor; [apply Nat.ltb_ge; lia|]. apply Forall_app in Gbc. destruct Gbc as [Gb Gc].
      apply Forall_app. split; [eapply Forall_impl; [|exact Gb]; cbv beta; intros z Hz; apply Nat.ltb_ge; lia|].
      constructor; [apply Nat.ltb_irrefl|]. eapply Forall_impl; [|exact Gc]; cbv beta; intros z Hz; apply Nat.ltb_ge; lia. }
  rewrite P1. unfold andThen at 1. rewrite copy_none. unfold andThen at 1.
  assert (P2 : partition_eff wcopy moved lo (fun elem => andThen (call_cmp wcmp lo elem) (fun b => ret (negb b))) (length pre) (length pre + S n)
    ((k + S n, tt), pre ++ (x :: b ++ lo :: c) ++ post) = (((k + S n + S n, tt), pre ++ (lo :: b ++ x :: c) ++ post), Ok (S (length pre)))).
  { rewrite <- Lc. apply second_partition with (p := fun e => negb (Nat.ltb lo e)).
    - intros z k0 m0. reflexivity.
    - constructor; [apply Bool.negb_false_iff, Nat.ltb_lt, Gx|].
      eapply Forall_impl; [|exact Gbc]; intros z Hz; apply Bool.negb_false_iff, Nat.ltb_lt, Hz.
    - rewrite Nat.ltb_irrefl. reflexivity. }
  rewrite P2. rewrite <- Ew. unfold andThen.
  replace (k + S n + S n) with (k + 2 * S n) by lia.
  replace (pre ++ (lo :: w) ++ post) with ((pre ++ [lo]) ++ w ++ post) by (rewrite <- !app_assoc; reflexivity).
  destruct fuel as [|fuel]; [reflexivity|].
  assert (Q : forall s, quick_sort_eff wcmp wcopy moved (S fuel) (length pre) (length pre) s = (s, Ok tt)).
  { intro s. cbn [quick_sort_eff]. rewrite Z.sub_diag. reflexivity. }
  rewrite Q. f_equal; rewrite app_length; cbn; lia.
Qed.

Lemma worst_sort : forall n lo pre post k fuel, 1 <= fuel -> n <= fuel ->
  quick_sort_eff wcmp wcopy moved fuel (length pre) (length pre + n) ((k, tt), pre ++ worst n lo ++ post) =
  (((k + most n, tt), pre ++ seq lo n ++ post), Ok tt).
Proof.
  assert (Small : forall n lo pre post k fuel, n <= 1 ->
    quick_sort_eff wcmp wcopy moved (S fuel) (length pre) (length pre + n) ((k, tt), pre ++ worst n lo ++ post) =
    (((k + most n, tt), pre ++ seq lo n ++ post), Ok tt)).
  { intros n lo pre post k fuel L. cbn [quick_sort_eff].
    replace (Z.of_nat (length pre + n) - Z.of_nat (length pre))%Z with (Z.of_nat n) by lia.
    destruct (Z.leb_spec (Z.of_nat n) 1) as [_|L1]; [|lia].
    assert (Hn : n = 0 \/ n = 1) by lia.
    destruct Hn as [->| ->]; unfold most; cbn; rewrite Nat.add_0_r; reflexivity. }
  induction n as [|n IH]; intros lo pre post k [|fuel] F1 F2; try lia; [apply Small; lia|].
  destruct (Nat.le_gt_cases (S n) 1) as [L|L]; [apply Small, L|].
  rewrite worst_step by lia. destruct fuel as [|fuel]; [lia|]. rewrite IH by lia. f_equal. f_equal.
  - f_equal. unfold most. nia.
  - rewrite <- !app_assoc. reflexivity.
Qed.

Lemma worst_deep : forall n lo pre post k fuel, fuel < n ->
  snd (quick_sort_eff wcmp wcopy moved fuel (length pre) (length pre + n) ((k, tt), pre ++ worst n lo ++ post)) = Diverge.
Proof.
  induction n as [|n IH]; intros lo pre post k [|fuel] F; try lia; try reflexivity.
  rewrite worst_step by lia. destruct fuel as [|fuel]; [reflexivity|]. apply IH. lia.
Qed.
End Worst.

(** ** The theorems *)
Section Main.
Context {W A : Type}.
Variable cmp : W -> A -> A -> W * outcome bool.
Variable copy : W -> A -> W * outcome unit.
Variable moved : A -> A.
Implicit Types m : list A.

Lemma sort_hoare depth w m first last (Inv : nat -> W -> Prop) : first <= last -> last <= length m -> Inv 0 w ->
  (forall k k' w, k <= k' -> Inv k w -> Inv k' w) ->
  (forall k w x y, In x (range m first last) -> In y (range m first last) -> Inv k w -> Inv (S k) (fst (cmp w x y))) ->
  (forall k w x, In x (range m first last) -> Inv k w -> Inv k (fst (copy w x))) ->
  exists w' m' r k, sort_eff depth cmp copy moved w m first last = (w', m', r) /\ rearranged first last m m' /\
    Inv k w' /\ (irreflexive_on cmp (range m first last) -> k <= most (last - first)) /\
    (r = Ok tt \/ failed_in cmp copy (range m first last) w' r \/
     r = Diverge /\ ~ (irreflexive_on cmp (range m first last) /\ last - first < depth)).
Proof.
  intros H1 H2 I0 Mono Hc Hy. destruct (split3 m first last H1 H2) as [E [L1 L2]].
  fold (range m first last) in *. set (seg := range m first last) in *.
  set (pre := firstn first m) in *. set (post := skipn last m) in *.
  destruct (quick_eff cmp copy moved (fun x => In x seg) Inv (failed_in cmp copy seg)) with
    (fuel := depth) (seg := seg) (pre := pre) (post := post) (w := w) (k := 0) as [w' [k' [r [seg' [P [Q [I' [Lk H]]]]]]]]; auto.
  - intros w0 x y k Ex Ey HI. split; [auto|]. intro N. split; [exact N|]. left.
    exists w0, x, y, (snd (cmp w0 x y)). split; [exact Ex|]. split; [exact Ey|]. split; [destruct (cmp w0 x y); reflexivity|reflexivity].
  - intros w0 x k Ex HI. split; [auto|]. intro N. split; [exact N|]. right.
    exists w0, x. split; [exact Ex|]. destruct (copy w0 x) as [w1 [[]| | | | |]]; reflexivity.
  - apply Forall_forall. auto.
  - exists w', (pre ++ seg' ++ post), r, k'.
    pose proof (Permutation_length P) as LP.
    assert (F : range (pre ++ seg' ++ post) first last = seg').
    { unfold range. rewrite <- L1 at 2. rewrite skipn_app_exact. replace (last - first) with (length seg') by lia. apply firstn_app_exact. }
    rewrite L1 in Q. replace (first + length seg) with last in Q by lia. rewrite <- E in Q.
    split; [unfold sort_eff; rewrite Q; reflexivity|]. split; [|split; [exact I'|split]].
    + split; [rewrite E at 1; rewrite !app_length; lia|]. split; [rewrite <- L1 at 1; apply firstn_app_exact|].
      split; [rewrite app_assoc; replace last with (length (pre ++ seg')) at 1 by (rewrite app_length; lia); apply skipn_app_exact|].
      rewrite F. exact P.
    + intro Irr. rewrite L2 in Lk. specialize (Lk Irr). lia.
    + rewrite L2 in H. exact H.
Qed.
End Main.

Lemma sort_sim {W A} (cmp : W -> A -> A -> W * outcome bool) copy (moved : A -> A) (lt : A -> A -> bool) depth w m first last w' m' :
  (forall w x y b, snd (cmp w x y) = Ok b -> b = lt x y) ->
  sort_eff depth cmp copy moved w m first last = (w', m', Ok tt) -> quick_sort depth lt m first last = Ok m'.
Proof.
  intros Ag. unfold sort_eff. destruct (quick_sort_eff cmp copy moved depth first last (w, m)) as [[w1 m1] r] eqn:E.
  intro H. injection H as <- <- ->. apply (quick_sim cmp copy moved lt Ag) in E. exact E.
Qed.

Lemma log_below : forall c, exists k, c * k + 2 <= 2 ^ k /\ 1 <= k.
Proof.
  intro c. assert (Sq : forall k, 4 <= k -> k * k <= 2 ^ k).
  { intros k Hk. induction Hk as [|k Hk IH]; [cbn; lia|]. cbn [Nat.pow]. nia. }
  exists (c + 4). split; [|lia]. specialize (Sq (c + 4) ltac:(lia)). nia.
Qed.

Lemma quick_sort_more {A} (lt : A -> A -> bool) : forall fuel m first last m' k,
  quick_sort fuel lt m first last = Ok m' -> quick_sort (fuel + k) lt m first last = Ok m'.
Proof.
  induction fuel as [|fuel IH]; intros m first last m' k; cbn [quick_sort Nat.add]; [discriminate|].
  destruct (Z.of_nat last - Z.of_nat first <=? 1)%Z; [auto|].
  destruct (get m _) as [pv| | | | |]; cbn [bind]; try discriminate.
  destruct (partition m _ first last) as [[m1 mid1]| | | | |]; cbn [bind]; try discriminate.
  destruct (partition m1 _ mid1 last) as [[m2 mid2]| | | | |]; cbn [bind]; try discriminate.
  destruct (quick_sort fuel lt m2 first mid1) as [m3| | | | |] eqn:E; cbn [bind]; try discriminate.
  rewrite (IH _ _ _ _ k E). cbn [bind]. apply IH.
Qed.

(** Proofs about overloaded. *)
From Verif Require Import Base OverloadModel OverloadSpec.
From Coq Require Import Permutation FinFun.

Definition beats (cv : conversions) (fs : list param) (a : arg) (i : nat) : Prop :=
  exists p r, viable cv fs a i = Some (p, r) /\ forall j q s, j <> i -> viable cv fs a j = Some (q, s) -> better p q a r s = true.

Lemma viable_lt : forall cv fs a j x, viable cv fs a j = Some x -> j < length fs.
Proof. intros cv fs a j x H. apply nth_error_Some. unfold viable in H. destruct (nth_error fs j); congruence. Qed.

Lemma is_best_beats : forall cv fs a i, is_best cv fs a i = true <-> beats cv fs a i.
Proof.
  intros cv fs a i. unfold is_best, beats. destruct (viable cv fs a i) as [[p r]|] eqn:V; [|split; [discriminate|intros (p & r & H & _); discriminate]].
  rewrite forallb_forall. split.
  - intros H. exists p, r. split; [reflexivity|]. intros j q s N Vj. specialize (H j). rewrite in_seq in H.
    specialize (H (conj (Nat.le_0_l _) (viable_lt _ _ _ _ _ Vj))). rewrite Vj in H. apply Nat.eqb_neq in N. rewrite N in H. exact H.
  - intros (p' & r' & E & H) j _. injection E as <- <-. destruct (Nat.eqb_spec j i) as [|N]; [reflexivity|]. cbn.
    destruct (viable cv fs a j) as [[q s]|] eqn:Vj; [|reflexivity]. eapply H; eassumption.
Qed.

Lemma better_sequence_asym : forall p q r s, better_sequence p q r s = true -> better_sequence q p s r = false.
Proof.
  intros p q r s. unfold better_sequence.
  destruct (Nat.ltb_spec (rank_no r) (rank_no s)) as [L|L].
  - intros _. destruct (Nat.ltb_spec (rank_no s) (rank_no r)); [lia|]. destruct (Nat.eqb_spec (rank_no s) (rank_no r)); [lia|reflexivity].
  - destruct (Nat.eqb_spec (rank_no r) (rank_no s)) as [E|E]; [|discriminate]. rewrite E, Nat.ltb_irrefl, Nat.eqb_refl.
    destruct p as [|t c rv], q as [|u d rw]; try discriminate; try reflexivity. rewrite (Nat.eqb_sym u t).
    destruct (Nat.eqb (rank_no s) 4 && negb (Nat.eqb t u)); [discriminate|].
    destruct rv, rw, c, d, (Nat.eqb t u); cbn; try discriminate; try reflexivity.
Qed.
Lemma better_asym : forall p q a r s, better p q a r s = true -> better q p a s r = false.
Proof.
  intros p q a r s H. unfold better in *. apply orb_true_iff in H. destruct H as [H|H].
  - rewrite H. rewrite (better_sequence_asym _ _ _ _ H). reflexivity.
  - apply andb_true_iff in H. destruct H as [H1 H2]. apply negb_true_iff in H1. rewrite H1. cbn.
    apply andb_false_iff. right. destruct p, q; cbn in *; congruence || reflexivity.
Qed.
Lemma beats_once : forall cv fs a i j, beats cv fs a i -> beats cv fs a j -> i = j.
Proof.
  intros cv fs a i j (p & r & V & B) (q & s & W & C). destruct (Nat.eq_dec i j) as [|N]; [assumption|].
  assert (X := B j q s (fun e => N (eq_sym e)) W). assert (Y := C i p r N V). apply better_asym in X. congruence.
Qed.
Lemma call_iff : forall cv fs a i, call cv fs a = Some i <-> beats cv fs a i.
Proof.
  intros cv fs a i. unfold call. split.
  - intros H. apply find_some in H. apply is_best_beats. apply H.
  - intros H. destruct (find (is_best cv fs a) (seq 0 (length fs))) as [j|] eqn:F.
    + apply find_some in F. destruct F as [_ F]. apply is_best_beats in F. f_equal. eapply beats_once; eassumption.
    + assert (I : In i (seq 0 (length fs))). { destruct H as (p & r & V & _). apply in_seq. apply viable_lt in V. lia. }
      apply (find_none _ _ F) in I. apply is_best_beats in H. congruence.
Qed.
Lemma call_none : forall cv fs a, call cv fs a = None <-> forall i, ~ beats cv fs a i.
Proof.
  intros cv fs a. split.
  - intros H i B. apply call_iff in B. congruence.
  - intros H. destruct (call cv fs a) as [i|] eqn:C; [|reflexivity]. apply call_iff in C. destruct (H i C).
Qed.

(** The order of the functors does not matter. *)
Lemma beats_perm : forall cv fs fs' a i, Permutation fs fs' -> beats cv fs a i -> exists j, beats cv fs' a j /\ nth_error fs' j = nth_error fs i.
Proof.
  intros cv fs fs' a i P (p & r & V & B). apply Permutation_sym in P. assert (L := Permutation_length P).
  apply Permutation_nth_error_bis in P. destruct P as (g & In & Bg & G). rewrite L in Bg.
  assert (VG : forall n, viable cv fs a n = viable cv fs' a (g n)). { intros n. unfold viable. rewrite G. reflexivity. }
  exists (g i). split; [|symmetry; apply G]. exists p, r. split; [rewrite <- VG; exact V|].
  intros j q s N Vj. assert (Lj := viable_lt _ _ _ _ _ Vj). rewrite L in Lj.
  assert (Su : bSurjective (length fs) g). { apply bInjective_bSurjective; [exact Bg|]. intros x y _ _ E. apply In. exact E. }
  destruct (Su j Lj) as (n & Ln & <-). apply (B n q s); [congruence|]. rewrite VG. exact Vj.
Qed.
Lemma call_perm : forall cv fs fs' a, Permutation fs fs' ->
  match call cv fs a with
  | Some i => exists j, call cv fs' a = Some j /\ nth_error fs' j = nth_error fs i
  | None => call cv fs' a = None
  end.
Proof.
  intros cv fs fs' a P. destruct (call cv fs a) as [i|] eqn:C.
  - apply call_iff in C. destruct (beats_perm _ _ _ _ _ P C) as (j & B & N). exists j. split; [apply call_iff; exact B|exact N].
  - apply call_none. intros j B. apply Permutation_sym in P. destruct (beats_perm _ _ _ _ _ P B) as (i & B' & _).
    apply (proj1 (call_none _ _ _) C i B').
Qed.

Lemma viable_nth : forall cv fs a j q s, viable cv fs a j = Some (q, s) -> nth_error fs j = Some q /\ sequence cv (deduce q a) a = Some s.
Proof.
  intros cv fs a j q s H. unfold viable in H. destruct (nth_error fs j) as [p|]; [|discriminate].
  destruct (sequence cv (deduce p a) a) as [r|] eqn:E; [|discriminate]. injection H as <- <-. auto.
Qed.
Lemma viable_intro : forall cv fs a j q s, nth_error fs j = Some q -> sequence cv (deduce q a) a = Some s -> viable cv fs a j = Some (q, s).
Proof. intros cv fs a j q s H E. unfold viable. rewrite H, E. reflexivity. Qed.

(** A functor that takes the very type beats those for other types. *)
Lemma other_type : forall cv p q a s t, for_type q = Some t -> t <> atype a -> sequence cv (deduce q a) a = Some s -> better p q a identity s = true.
Proof.
  intros cv p q a s t F N S. assert (Nz : Nat.ltb 0 (rank_no s) = true).
  { apply Nat.eqb_neq in N. destruct q; try discriminate; injection F as <-; cbn in S; rewrite N in S; unfold converted in S;
      destruct (cv (atype a) t0) as [c|]; try discriminate; injection S as <-; destruct c; reflexivity. }
  unfold better, better_sequence. cbn [rank_no] in *. rewrite Nz. reflexivity.
Qed.
Lemma generic_identity : forall cv q a s, for_type q = None -> sequence cv (deduce q a) a = Some s -> s = identity.
Proof.
  intros cv q a s F S. destruct q; try discriminate; cbn in S; rewrite Nat.eqb_refl in S; destruct a as [t [] []]; cbn in S; congruence.
Qed.
Lemma over_generic : forall cv q a s, for_type q = None -> sequence cv (deduce q a) a = Some s -> better (by_value (atype a)) q a identity s = true.
Proof.
  intros cv q a s F S. rewrite (generic_identity _ _ _ _ F S). destruct q; try discriminate; unfold better; cbn; reflexivity.
Qed.

Lemma by_value_called : forall cv fs a k, nth_error fs k = Some (by_value (atype a)) ->
  (forall j q, nth_error fs j = Some q -> for_type q = Some (atype a) -> j = k) -> call cv fs a = Some k.
Proof.
  intros cv fs a k K U. apply call_iff. exists (by_value (atype a)), identity. split; [apply viable_intro; [exact K|cbn; rewrite Nat.eqb_refl; reflexivity]|].
  intros j q s N V. apply viable_nth in V. destruct V as [Q S]. destruct (for_type q) as [t|] eqn:F.
  - destruct (Nat.eq_dec t (atype a)) as [->|Nt]; [destruct N; eapply U; eassumption|]. eapply other_type; eassumption.
  - eapply over_generic; eassumption.
Qed.

Lemma cref_generic : forall cv q a s, for_type q = None -> sequence cv (deduce q a) a = Some s ->
  better (by_cref (atype a)) q a identity s = negb (taken_away q a) /\ better q (by_cref (atype a)) a s identity = taken_away q a.
Proof.
  intros cv q a s F S. assert (s = identity) as -> by (eapply generic_identity; eassumption).
  destruct q; try discriminate; cbn in S; rewrite Nat.eqb_refl in S; destruct a as [t c v]; cbn in *;
    destruct c, v; cbn in *; try discriminate; unfold better, better_sequence; cbn; rewrite ?Nat.eqb_refl; split; reflexivity.
Qed.
Lemma cref_called : forall cv fs a k, nth_error fs k = Some (by_cref (atype a)) ->
  (forall j q, nth_error fs j = Some q -> for_type q = Some (atype a) -> j = k) ->
  (forall j q, nth_error fs j = Some q -> for_type q = None -> taken_away q a = false) -> call cv fs a = Some k.
Proof.
  intros cv fs a k K U T. apply call_iff. exists (by_cref (atype a)), identity.
  split; [apply viable_intro; [exact K|cbn; rewrite Nat.eqb_refl; reflexivity]|].
  intros j q s N V. apply viable_nth in V. destruct V as [Q S]. destruct (for_type q) as [t|] eqn:F.
  - destruct (Nat.eq_dec t (atype a)) as [->|Nt]; [destruct N; eapply U; eassumption|]. eapply other_type; eassumption.
  - destruct (cref_generic cv q a s F S) as [B _]. rewrite B, (T j q Q F). reflexivity.
Qed.
Lemma taken_called : forall cv fs a k g, nth_error fs k = Some g -> for_type g = None -> taken_away g a = true ->
  (forall j q, nth_error fs j = Some q -> j <> k -> for_type q = Some (atype a) -> q = by_cref (atype a)) ->
  (forall j q, nth_error fs j = Some q -> for_type q = None -> j = k) -> call cv fs a = Some k.
Proof.
  intros cv fs a k g K G T H1 H2. apply call_iff. exists g, identity.
  assert (Sg : sequence cv (deduce g a) a = Some identity).
  { destruct g; try discriminate; cbn; rewrite Nat.eqb_refl; destruct a as [t [] []]; cbn in *; congruence. }
  split; [apply viable_intro; assumption|].
  intros j q s N V. apply viable_nth in V. destruct V as [Q S]. destruct (for_type q) as [t|] eqn:F; [|destruct N; eauto].
  destruct (Nat.eq_dec t (atype a)) as [->|Nt]; [|eapply other_type; eassumption].
  rewrite (H1 j q Q N F) in *. cbn in S. rewrite Nat.eqb_refl in S. injection S as <-.
  destruct (cref_generic cv g a identity G Sg) as [_ B]. rewrite B. exact T.
Qed.

Lemma generic_called : forall cv fs a k g, nth_error fs k = Some g -> plain_generic g ->
  (forall j q, nth_error fs j = Some q -> for_type q <> Some (atype a)) ->
  (forall j q, nth_error fs j = Some q -> for_type q = None -> j = k) -> call cv fs a = Some k.
Proof.
  intros cv fs a k g K G H1 H2. apply call_iff. exists g, identity.
  split; [apply viable_intro; [exact K|destruct G as [->| ->]; cbn; rewrite Nat.eqb_refl; reflexivity]|].
  intros j q s N V. apply viable_nth in V. destruct V as [Q S]. destruct (for_type q) as [t|] eqn:F; [|destruct N; eauto].
  eapply other_type; [exact F| |exact S]. intros ->. exact (H1 j q Q F).
Qed.

Lemma usual_called : forall cv fs a k, usual fs -> meant_for fs (atype a) k -> call cv fs a = Some k.
Proof.
  intros cv fs a k [U1 U2] (p & K & M). destruct M as [M|[M N]].
  - assert (U : forall j q, nth_error fs j = Some q -> for_type q = Some (atype a) -> j = k). { intros j q Q F. eapply U2; [exact Q|exact K|congruence]. }
    destruct (U1 k p K) as [[->| ->]|[t [->| ->]]]; try discriminate; injection M as ->.
    + apply by_value_called; assumption.
    + apply cref_called; try assumption. intros j q Q F. destruct (U1 j q Q) as [[->| ->]|[t' [->| ->]]]; reflexivity || discriminate.
  - eapply generic_called; [exact K| |exact N|].
    + destruct (U1 k p K) as [G|[t [->| ->]]]; [exact G|discriminate|discriminate].
    + intros j q Q F. eapply U2; [exact Q|exact K|congruence].
Qed.
Lemma usual_visit : forall cv fs alternatives const rv i t k, usual fs -> (forall t, In t alternatives -> exists k, meant_for fs t k) ->
  nth_error alternatives i = Some t -> meant_for fs t k -> visit cv fs alternatives const rv i = Some k.
Proof.
  intros cv fs alts const rv i t k U A T M. unfold visit. rewrite (proj2 (forallb_forall _ _)).
  - rewrite T. apply usual_called; assumption.
  - intros u I. destruct (A u I) as [j J]. rewrite (usual_called cv fs {| atype := u; aconst := const; arvalue := rv |} j U J). reflexivity.
Qed.

(** No functor for the type and no generic one: the best conversion is taken. *)
Lemma converting_called : forall cv fs a k u c, usual fs -> (forall j q, nth_error fs j = Some q -> for_type q <> None) ->
  (forall j q, nth_error fs j = Some q -> for_type q <> Some (atype a)) ->
  (exists p, nth_error fs k = Some p /\ for_type p = Some u) -> cv (atype a) u = Some c ->
  (forall j q w d, nth_error fs j = Some q -> j <> k -> for_type q = Some w -> cv (atype a) w = Some d -> rank_no (via c) < rank_no (via d)) ->
  call cv fs a = Some k.
Proof.
  intros cv fs a k u c [U1 U2] H1 H2 (p & K & F) C B. apply call_iff. exists p, (via c).
  assert (Sq : forall j q w, nth_error fs j = Some q -> for_type q = Some w -> sequence cv (deduce q a) a = converted cv (atype a) w).
  { intros j q w Q Fw. assert (N : w <> atype a) by (intros ->; exact (H2 j q Q Fw)). apply Nat.eqb_neq in N.
    destruct (U1 j q Q) as [[->| ->]|[x [->| ->]]]; try discriminate; injection Fw as ->; cbn; rewrite N; reflexivity. }
  split; [apply viable_intro; [exact K|rewrite (Sq k p u K F); unfold converted; rewrite C; reflexivity]|].
  intros j q s N V. apply viable_nth in V. destruct V as [Q S]. destruct (for_type q) as [w|] eqn:Fq; [|destruct (H1 j q Q Fq)].
  rewrite (Sq j q w Q Fq) in S. unfold converted in S. destruct (cv (atype a) w) as [d|] eqn:D; [|discriminate]. injection S as <-.
  assert (L := B j q w d Q N Fq D). apply Nat.ltb_lt in L. unfold better, better_sequence. rewrite L. reflexivity.
Qed.

Lemma twice_ambiguous : forall cv fs a j k p q, j <> k -> nth_error fs j = Some p -> nth_error fs k = Some q ->
  plain p (atype a) -> plain q (atype a) -> (forall i x, nth_error fs i = Some x -> plain_generic x \/ exists t, plain x t) -> call cv fs a = None.
Proof.
  intros cv fs a j k p q N J K P Q U. apply call_none. intros i (x & r & V & B).
  assert (Sp : forall y, plain y (atype a) -> sequence cv (deduce y a) a = Some identity) by (intros y [->| ->]; cbn; rewrite Nat.eqb_refl; reflexivity).
  assert (Hit : exists m y, m <> i /\ nth_error fs m = Some y /\ plain y (atype a)).
  { destruct (Nat.eq_dec j i) as [<-|Nj]; [exists k, q; auto|exists j, p; auto]. }
  destruct Hit as (m & y & Nm & M & Py). assert (X := B m y identity Nm (viable_intro _ _ _ _ _ _ M (Sp y Py))).
  apply viable_nth in V. destruct V as [Xi Sx].
  destruct (U i x Xi) as [G|[t G]].
  - assert (F : for_type x = None) by (destruct G as [->| ->]; reflexivity). assert (r = identity) as -> by (eapply generic_identity; eassumption).
    destruct G as [->| ->], Py as [->| ->]; unfold better, better_sequence in X; cbn in X; rewrite ?Nat.eqb_refl in X; cbn in X; discriminate.
  - destruct (Nat.eq_dec t (atype a)) as [->|Nt].
    + rewrite (Sp x G) in Sx. injection Sx as <-.
      destruct G as [->| ->], Py as [->| ->]; unfold better, better_sequence in X; cbn in X; rewrite ?Nat.eqb_refl in X; cbn in X; discriminate.
    + assert (Y : better y x a identity r = true). { eapply other_type; [|exact Nt|exact Sx]. destruct G as [->| ->]; reflexivity. }
      apply better_asym in Y. congruence.
Qed.

(** Generic functors among themselves *)
Lemma choice_viable : forall cv g a, for_type g = None -> (sequence cv (deduce g a) a = Some identity <-> In g (auto_value :: choice a)).
Proof.
  intros cv g a G. destruct g; try discriminate; cbn [deduce sequence]; rewrite Nat.eqb_refl; destruct a as [t [] []]; cbn; intuition congruence.
Qed.
Lemma choice_better : forall g q a, In g (choice a) -> In q (choice a) -> behind (choice a) g q -> better g q a identity identity = true.
Proof.
  intros g q [t c v] G Q (before & after & E & N). unfold choice in *. cbn [aconst arvalue] in *.
  assert (R : forall x, In x (before ++ [g]) -> x <> q) by (intros x I ->; exact (N I)).
  destruct c, v; cbn in G, Q;
    (destruct before as [|b0 before]; [|destruct before as [|b1 before]; [|destruct before as [|b2 before]; [|destruct before; discriminate]]]);
    cbn in E; injection E as; subst;
    repeat (match goal with H : _ \/ _ |- _ => destruct H | H : False |- _ => destruct H end; subst);
    try discriminate;
    try (exfalso; eapply R; [|reflexivity]; cbn; tauto);
    unfold better, better_sequence; cbn; rewrite ?Nat.eqb_refl; reflexivity.
Qed.
Lemma choice_generic : forall g a, In g (choice a) -> for_type g = None.
Proof. intros g [t [] []] I; cbn in I; intuition (subst; reflexivity). Qed.
Lemma choice_called : forall cv fs a n g, nth_error fs n = Some g -> In g (choice a) ->
  (forall j q, nth_error fs j = Some q -> for_type q <> Some (atype a)) ->
  (forall j q, nth_error fs j = Some q -> for_type q = None -> j <> n -> q <> auto_value /\ behind (choice a) g q) ->
  call cv fs a = Some n.
Proof.
  intros cv fs a n g K G U H. apply call_iff. exists g, identity. pose proof (choice_generic g a G) as F. split.
  - apply viable_intro; [exact K|]. apply choice_viable; [exact F|right; exact G].
  - intros j q s N V. apply viable_nth in V. destruct V as [Q S]. destruct (for_type q) as [t|] eqn:Fq.
    + eapply other_type; [exact Fq| |exact S]. intros ->. exact (U j q Q Fq).
    + assert (s = identity) as -> by (eapply generic_identity; eassumption). destruct (H j q Q Fq N) as [Nv B].
      apply choice_viable in S; [|exact Fq]. destruct S as [S|S]; [congruence|]. apply choice_better; assumption.
Qed.
Lemma over_auto : forall p a r cv, for_type p <> Some (atype a) -> sequence cv (deduce p a) a = Some r -> better p auto_value a r identity = false.
Proof.
  intros p a r cv F S. destruct (for_type p) as [t|] eqn:Fp.
  - assert (N : t <> atype a) by congruence. apply Nat.eqb_neq in N.
    assert (Nz : exists c, r = via c).
    { destruct p; try discriminate; injection Fp as ->; cbn in S; rewrite N in S; unfold converted in S;
        destruct (cv (atype a) t) as [c|]; try discriminate; try (injection S as <-; eauto);
        destruct (binds_temporary _ _); try discriminate; injection S as <-; eauto. }
    destruct Nz as [c ->]. unfold better, better_sequence. destruct c; reflexivity.
  - assert (r = identity) as -> by (eapply generic_identity; eassumption). destruct p; try discriminate; reflexivity.
Qed.
Lemma auto_ambiguous : forall cv fs a n j q, nth_error fs n = Some auto_value -> nth_error fs j = Some q -> j <> n ->
  In q (auto_value :: choice a) -> (forall i p, nth_error fs i = Some p -> for_type p <> Some (atype a)) -> call cv fs a = None.
Proof.
  intros cv fs a n j q K J N Q U. apply call_none. intros i (p & r & V & B).
  assert (Fq : for_type q = None) by (destruct Q as [<-|Q]; [reflexivity|exact (choice_generic q a Q)]).
  assert (Vn : viable cv fs a n = Some (auto_value, identity)) by (apply viable_intro; [exact K|cbn; rewrite Nat.eqb_refl; reflexivity]).
  assert (Vj : viable cv fs a j = Some (q, identity)) by (apply viable_intro; [exact J|apply choice_viable; assumption]).
  destruct (Nat.eq_dec i n) as [->|Ni].
  - rewrite Vn in V. injection V as <- <-. specialize (B j q identity N Vj).
    destruct q; try discriminate; unfold better, better_sequence in B; cbn in B; discriminate.
  - specialize (B n auto_value identity (fun e => Ni (eq_sym e)) Vn). apply viable_nth in V. destruct V as [P S].
    rewrite (over_auto p a r cv (U i p P) S) in B. discriminate.
Qed.

(** Functors that take references, whether generic or not *)
Definition concerns (q : param) (a : arg) : Prop := for_type q = None \/ for_type q = Some (atype a).
Lemma concerns_identity : forall cv q a s, concerns q a -> sequence cv (deduce q a) a = Some s -> s = identity.
Proof.
  intros cv q a s [F|F] S; [eapply generic_identity; eassumption|].
  destruct q; try discriminate; injection F as ->; cbn in S; rewrite Nat.eqb_refl in S; try congruence; destruct a as [t [] []]; cbn in S; congruence.
Qed.
Lemma takers_concern : forall g a, In g (takers a) -> concerns g a.
Proof. intros g [t [] []] I; cbn in I; unfold concerns; intuition (subst; cbn; auto). Qed.
Lemma takers_viable : forall cv q a, concerns q a -> (sequence cv (deduce q a) a = Some identity <-> takes_value q a \/ In q (takers a)).
Proof.
  intros cv q [t c v] [F|F]; destruct q; try discriminate; try (injection F as ->); cbn [deduce sequence atype]; rewrite Nat.eqb_refl;
    unfold takes_value; destruct c, v; cbn; intuition congruence.
Qed.
Lemma takers_better : forall g q a, In g (takers a) -> In q (takers a) -> behind (takers a) g q -> better g q a identity identity = true.
Proof.
  intros g q [t c v] G Q (before & after & E & N). unfold takers in *. cbn [aconst arvalue atype] in *.
  assert (R : forall x, In x (before ++ [g]) -> x <> q) by (intros x I ->; exact (N I)).
  destruct c, v; cbn in G, Q;
    (destruct before as [|b0 before]; [|destruct before as [|b1 before]; [|destruct before as [|b2 before]; [|destruct before as [|b3 before];
      [|destruct before as [|b4 before]; [|destruct before; discriminate]]]]]);
    cbn in E; try discriminate; injection E as; subst;
    repeat (match goal with H : _ \/ _ |- _ => destruct H | H : False |- _ => destruct H end; subst);
    try discriminate;
    try (exfalso; eapply R; [|reflexivity]; cbn; tauto);
    unfold better, better_sequence; cbn; rewrite ?Nat.eqb_refl; reflexivity.
Qed.
Lemma concerns_dec : forall q a, concerns q a \/ exists t, for_type q = Some t /\ t <> atype a.
Proof.
  intros q a. unfold concerns. destruct (for_type q) as [t|]; [|auto]. destruct (Nat.eq_dec t (atype a)) as [->|N]; [auto|right; exists t; auto].
Qed.
Lemma taker_called : forall cv fs a n g, nth_error fs n = Some g -> In g (takers a) ->
  (forall j q, nth_error fs j = Some q -> j <> n -> ~ takes_value q a /\ (In q (takers a) -> behind (takers a) g q)) ->
  call cv fs a = Some n.
Proof.
  intros cv fs a n g K G H. apply call_iff. exists g, identity. split.
  - apply viable_intro; [exact K|]. apply takers_viable; [apply takers_concern; exact G|right; exact G].
  - intros j q s N V. apply viable_nth in V. destruct V as [Q S]. destruct (H j q Q N) as [Nv B]. destruct (concerns_dec q a) as [C|(t & F & Nt)].
    + assert (s = identity) as -> by (eapply concerns_identity; eassumption). apply takers_viable in S; [|exact C].
      destruct S as [S|S]; [destruct (Nv S)|]. apply takers_better; auto.
    + eapply other_type; eassumption.
Qed.
Lemma none_takes : forall cv fs a, (forall j q, nth_error fs j = Some q -> ~ takes_value q a /\ ~ In q (takers a)) ->
  (forall j q t, nth_error fs j = Some q -> for_type q = Some t -> t <> atype a -> cv (atype a) t = None) -> call cv fs a = None.
Proof.
  intros cv fs a H C. apply call_none. intros i (p & r & V & _). apply viable_nth in V. destruct V as [P S]. destruct (H i p P) as [Nv Nt].
  destruct (concerns_dec p a) as [Cp|(t & F & N)].
  - assert (r = identity) as -> by (eapply concerns_identity; eassumption). apply takers_viable in S; [|exact Cp]. tauto.
  - specialize (C i p t P F N). apply Nat.eqb_neq in N. destruct p; try discriminate; injection F as ->; cbn in S; rewrite N in S;
      unfold converted in S; rewrite ?C in S; discriminate.
Qed.
Lemma ref_converts : forall cv fs a t n, fs = [by_ref t] -> t <> atype a -> call cv fs a <> Some n.
Proof.
  intros cv fs a t n -> N E. apply call_iff in E. destruct E as (p & r & V & _). apply viable_nth in V. destruct V as [P S].
  apply Nat.eqb_neq in N. destruct n as [|n]; [injection P as <-|destruct n; discriminate]. cbn in S. rewrite N in S. discriminate.
Qed.

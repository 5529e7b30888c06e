(** Proofs about contains *)
From Verif Require Import Base SortSpec UtilSpec ContainsModel ContainsSpec.
Local Open Scope nat_scope.

(** ** Sequences *)
Section Sequence.
Variables (S A B : Type) (eq : A -> B -> run S bool) (v : B).
Lemma find_from_cases : forall c i s, exists r s', find_from eq c v i s = (r, s') /\
  ((exists a x b s1, c = a ++ x :: b /\ passed eq v a s s1 /\ eq x v s1 = (Ok true, s') /\ r = Ok (i + length a)) \/
   (passed eq v c s s' /\ r = Ok (i + length c)) \/
   (exists a x b s1 q, c = a ++ x :: b /\ passed eq v a s s1 /\ eq x v s1 = (q, s') /\ fails q /\
     match q with Ok _ => False | Throw e => r = Throw e | UB u => r = UB u | Abort => r = Abort | Terminate => r = Terminate | Diverge => r = Diverge end)).
Proof.
  induction c as [|x c IH]; intros i s; cbn [find_from].
  - exists (Ok i), s. split; [reflexivity|]. right. left. split; [constructor|]. cbn. f_equal. lia.
  - unfold next_. destruct (eq x v s) as [q s1] eqn:E.
    assert (F : forall r, fails q -> match q with Ok _ => False | Throw e => r = Throw e | UB u => r = UB u | Abort => r = Abort | Terminate => r = Terminate | Diverge => r = Diverge end ->
      exists r0 s', (r, s1) = (r0, s') /\ ((exists a y b s2, x :: c = a ++ y :: b /\ passed eq v a s s2 /\ eq y v s2 = (Ok true, s') /\ r0 = Ok (i + length a)) \/
       (passed eq v (x :: c) s s' /\ r0 = Ok (i + length (x :: c))) \/
       (exists a y b s2 q, x :: c = a ++ y :: b /\ passed eq v a s s2 /\ eq y v s2 = (q, s') /\ fails q /\
         match q with Ok _ => False | Throw e => r0 = Throw e | UB u => r0 = UB u | Abort => r0 = Abort | Terminate => r0 = Terminate | Diverge => r0 = Diverge end))).
    { intros r Fq M. exists r, s1. split; [reflexivity|]. right. right. exists [], x, c, s, q. split; [reflexivity|]. split; [constructor|]. auto. }
    destruct q as [[]|e|u| | |]; try (apply F; [exact I|reflexivity]).
    + exists (Ok i), s1. split; [reflexivity|]. left. exists [], x, c, s. split; [reflexivity|]. split; [constructor|]. split; [exact E|]. cbn. f_equal. lia.
    + destruct (IH (i + 1) s1) as (r & s' & E' & H). exists r, s'. split; [exact E'|]. destruct H as [H|[H|H]].
      * destruct H as (a & y & b & s2 & -> & P & Q & ->). left. exists (x :: a), y, b, s2. split; [reflexivity|]. split; [econstructor; eassumption|]. split; [exact Q|]. cbn. f_equal. lia.
      * destruct H as (P & ->). right. left. split; [econstructor; eassumption|]. cbn. f_equal. lia.
      * destruct H as (a & y & b & s2 & q & -> & P & Q & W). right. right. exists (x :: a), y, b, s2, q. split; [reflexivity|]. split; [econstructor; eassumption|]. auto.
Qed.
Lemma sequence_cases : forall c s, let (r, s') := contains_sequence eq c v s in
  (r = Ok true /\ exists a x b s1, c = a ++ x :: b /\ passed eq v a s s1 /\ eq x v s1 = (Ok true, s')) \/
  (r = Ok false /\ passed eq v c s s') \/
  (fails r /\ exists a x b s1, c = a ++ x :: b /\ passed eq v a s s1 /\ eq x v s1 = (r, s')).
Proof.
  intros c s. unfold contains_sequence, next_. destruct (find_from_cases c 0 s) as (r & s' & -> & [H|[H|H]]).
  - destruct H as (a & x & b & s1 & -> & P & Q & ->). cbn. left. split.
    + rewrite app_length. cbn. destruct (Nat.eqb_spec (length a) (length a + Datatypes.S (length b))); [lia|reflexivity].
    + exists a, x, b, s1. auto.
  - destruct H as (P & ->). cbn. rewrite Nat.eqb_refl. right. left. auto.
  - destruct H as (a & x & b & s1 & q & -> & P & Q & Fq & W).
    destruct q as [|e|u| | |]; [destruct W|..]; subst r; right; right; (split; [exact I|]); exists a, x, b, s1; auto.
Qed.
End Sequence.

(** ** Maps *)
Section Map.
Variables (S K V : Type) (less : K -> K -> run S bool) (lt : K -> K -> bool).
Lemma find_app : forall A f (a b : list A), find f (a ++ b) = match find f a with Some x => Some x | None => find f b end.
Proof. induction a as [|x a IH]; intros b; cbn; [reflexivity|]. destruct (f x); auto. Qed.
Section Pure.
Hypothesis Less : forall a b s, fst (less a b s) = Ok (lt a b).
Hypothesis Trans : forall a b c, lt a b = true -> lt b c = true -> lt a c = true.
Lemma less_next : forall A a b (k : bool -> run S A) s, next_ (less a b) k s = k (lt a b) (snd (less a b s)).
Proof. intros A a b k s. unfold next_. pose proof (Less a b s) as E. destruct (less a b s) as [x s']. cbn in *. subst. reflexivity. Qed.
Lemma sorted_parts : forall (a : list (K * V)) p b, is_map lt (a ++ p :: b) -> is_map lt a /\ is_map lt b /\ forall q, In q a -> lt (fst q) (fst p) = true.
Proof.
  induction a as [|x a IH]; intros p b H; cbn in H.
  - inversion H; subst. split; [constructor|]. split; [assumption|]. intros q [].
  - inversion H as [|? ? H1 H2]; subst. destruct (IH p b H1) as (A & B & C). rewrite Forall_app in H2. destruct H2 as (H2 & H3). inversion H3; subst. split; [constructor; assumption|].
    split; [exact B|]. intros q [<-|I]; auto.
Qed.
Lemma lower_bound_find : forall (t : tree (K * V)) k y s, is_map lt (in_order t) ->
  fst (lower_bound less t k y s) = Ok (match find (fun p => negb (lt (fst p) k)) (in_order t) with Some p => Some p | None => y end).
Proof.
  induction t as [|l IHl p r IHr]; intros k y s H; cbn [lower_bound in_order]; [reflexivity|]. rewrite less_next. cbn [in_order] in H.
  destruct (sorted_parts _ _ _ H) as (Hl & Hr & C). rewrite find_app. cbn [find]. destruct (lt (fst p) k) eqn:E; cbn [negb].
  - rewrite IHr by exact Hr. replace (find (fun q => negb (lt (fst q) k)) (in_order l)) with (@None (K * V)); [reflexivity|].
    clear - C E Trans. induction (in_order l) as [|q a IH]; cbn; [reflexivity|]. rewrite (Trans (fst q) (fst p) k (C q (or_introl eq_refl)) E). cbn. apply IH. intros z I. apply C. right. exact I.
  - rewrite IHl by exact Hl. destruct (find _ (in_order l)); reflexivity.
Qed.
Lemma map_result : forall (t : tree (K * V)) k s, is_map lt (in_order t) -> exists b, fst (contains_map less t k s) = Ok b /\ (b = true <-> exists p, In p (in_order t) /\ same lt k (fst p)).
Proof.
  intros t k s H. unfold contains_map, map_find. pose proof (lower_bound_find t k None s H) as E. unfold next_ at 1 2.
  destruct (lower_bound less t k None s) as [o s1]. cbn [fst] in E. subst o. destruct (find (fun p => negb (lt (fst p) k)) (in_order t)) as [p|] eqn:F.
  - rewrite less_next. cbn. exists (negb (lt k (fst p))). split; [destruct (lt k (fst p)); reflexivity|]. destruct (find_some _ _ F) as (I & N). apply negb_true_iff in N.
    split; [intros B; apply negb_true_iff in B; exists p; split; [exact I|split; assumption]|]. intros (q & J & Q1 & Q2). apply negb_true_iff. destruct (lt k (fst p)) eqn:L; [|reflexivity].
    exfalso. clear I. assert (P : p = q \/ lt (fst p) (fst q) = true).
    { clear - F J H Q2. induction (in_order t) as [|x a IH]; [destruct J|]. cbn in F. inversion H as [|? ? H1 H2]; subst. destruct (lt (fst x) k) eqn:E; cbn in F.
      - destruct J as [->|J]; [congruence|]. auto.
      - injection F as ->. destruct J as [->|J]; [auto|]. right. rewrite Forall_forall in H2. apply H2. exact J. }
    destruct P as [->|P]; [congruence|]. rewrite (Trans _ _ _ L P) in Q1. discriminate.
  - cbn. exists false. split; [reflexivity|]. split; [discriminate|]. intros (q & J & Q1 & Q2). pose proof (find_none _ _ F q J) as X. cbn in X. rewrite Q2 in X. discriminate.
Qed.
End Pure.
Lemma map_failure : forall (t : tree (K * V)) k s r s', contains_map less t k s = (r, s') -> fails r ->
  exists q s1, (less (fst q) k s1 = (r, s') \/ less k (fst q) s1 = (r, s')) /\ In q (in_order t).
Proof.
  intros t k s r s' E Fr. unfold contains_map, map_find in E.
  assert (L : forall (t : tree (K * V)) y s, match lower_bound less t k y s with
    | (Ok None, _) => y = None
    | (Ok (Some q), _) => y = Some q \/ In q (in_order t)
    | (Throw e, s') => exists q s1, less (fst q) k s1 = (Throw e, s') /\ In q (in_order t)
    | (UB u, s') => exists q s1, less (fst q) k s1 = (UB u, s') /\ In q (in_order t)
    | (Abort, s') => exists q s1, less (fst q) k s1 = (Abort, s') /\ In q (in_order t)
    | (Terminate, s') => exists q s1, less (fst q) k s1 = (Terminate, s') /\ In q (in_order t)
    | (Diverge, s') => exists q s1, less (fst q) k s1 = (Diverge, s') /\ In q (in_order t)
    end).
  { clear. induction t as [|l IHl p r IHr]; intros y s; cbn [lower_bound in_order].
    - cbn. destruct y; auto.
    - unfold next_. destruct (less (fst p) k s) as [[[]|e|u| | |] s1] eqn:E; try (exists p, s; split; [exact E|apply in_elt]).
      + specialize (IHr y s1). destruct (lower_bound less r k y s1) as [[[q|]|e|u| | |] s2]; [destruct IHr; [auto|right; apply in_or_app; right; right; assumption]|exact IHr|..];
          destruct IHr as (q & s3 & Q & I); exists q, s3; (split; [exact Q|]); apply in_or_app; right; right; exact I.
      + specialize (IHl (Some p) s1). destruct (lower_bound less l k (Some p) s1) as [[[q|]|e|u| | |] s2];
          [right; destruct IHl as [IHl|IHl]; [injection IHl as ->; apply in_elt|apply in_or_app; left; exact IHl]|discriminate|..];
          destruct IHl as (q & s3 & Q & I); exists q, s3; (split; [exact Q|]); apply in_or_app; left; exact I. }
  specialize (L t None s). unfold next_ at 1 2 in E. destruct (lower_bound less t k None s) as [[[q|]|e|u| | |] s1].
  - destruct L as [L|L]; [discriminate|]. unfold next_, done in E. destruct (less k (fst q) s1) as [[[]|e|u| | |] s2] eqn:C; injection E as <- <-; try (destruct Fr; fail); exists q, s1; auto.
  - cbn in E. injection E as <- <-. destruct Fr.
  - injection E as <- <-. destruct L as (q & s2 & Q & I). exists q, s2. auto.
  - injection E as <- <-. destruct L as (q & s2 & Q & I). exists q, s2. auto.
  - injection E as <- <-. destruct L as (q & s2 & Q & I). exists q, s2. auto.
  - injection E as <- <-. destruct L as (q & s2 & Q & I). exists q, s2. auto.
  - injection E as <- <-. destruct L as (q & s2 & Q & I). exists q, s2. auto.
Qed.
End Map.
Lemma map_comparisons : forall K V (lt : K -> K -> bool) (t : tree (K * V)) k,
  snd (contains_map (fun a b n => (Ok (lt a b), Datatypes.S n)) t k 0) <= height t + 1.
Proof.
  intros K V lt t k. set (less := fun a b n => (Ok (lt a b), Datatypes.S n)).
  assert (L : forall (t : tree (K * V)) y n, exists q, lower_bound less t k y n = (Ok q, snd (lower_bound less t k y n)) /\ snd (lower_bound less t k y n) <= n + height t).
  { clear. induction t as [|l IHl p r IHr]; intros y n; cbn [lower_bound height].
    - exists y. cbn. split; [reflexivity|lia].
    - unfold next_. cbn. destruct (lt (fst p) k); [destruct (IHr y (Datatypes.S n)) as (q & E & H)|destruct (IHl (Some p) (Datatypes.S n)) as (q & E & H)]; exists q; (split; [exact E|]); lia. }
  destruct (L t None 0) as (q & E & H). unfold contains_map, map_find, next_. rewrite E. destruct q as [q|]; cbn; lia.
Qed.

(** ** Tables *)
Section Table.
Variables (K V : Type) (hash : K -> Z) (eq : K -> K -> bool).
Hypothesis Eq : equivalence eq.
Hypothesis Hash : forall a b, eq a b = true -> hash a = hash b.
Notation table := (table K V).
Notation place := (place K hash).
Lemma place_eq : forall n a b, eq a b = true -> place n a = place n b.
Proof. intros n a b E. unfold ContainsModel.place. rewrite (Hash a b E). reflexivity. Qed.
Lemma fits_eq : forall k p, fits K V hash eq k p = eq k (fst p).
Proof. intros k p. unfold fits. destruct (eq k (fst p)) eqn:E; [|apply andb_false_r]. rewrite (Hash _ _ E), Z.eqb_refl. reflexivity. Qed.
Definition holds (m : table) (k : K) : Prop := exists p, In p (bucket m (place (count m) k)) /\ eq k (fst p) = true.
Lemma contains_holds : forall m k, contains_table K V hash eq m k = true <-> holds m k.
Proof.
  intros m k. unfold contains_table, table_find. destruct (find _ _) as [p|] eqn:F.
  - split; [intros _|reflexivity]. destruct (find_some _ _ F) as (I & E). rewrite fits_eq in E. exists p. auto.
  - split; [discriminate|]. intros (p & I & E). pose proof (find_none _ _ F p I) as X. rewrite fits_eq in X. congruence.
Qed.
Definition placed (m : table) : Prop := 1 <= count m /\ forall i p, In p (bucket m i) -> i = place (count m) (fst p).
Lemma place_bound : forall n k, 1 <= n -> place n k < n.
Proof. intros n k H. unfold ContainsModel.place. pose proof (Z.mod_pos_bound (hash k) (Z.of_nat n)). lia. Qed.
Lemma step : forall m o ops, placed m -> (forall k, holds m k <-> present eq ops k = true) ->
  placed (apply_op K V hash eq m o) /\ forall k, holds (apply_op K V hash eq m o) k <-> present eq (o :: ops) k = true.
Proof.
  destruct Eq as (Refl & Sym & Trans). intros m o ops (P1 & P2) H. destruct o as [k v|k|n]; cbn [apply_op present].
  - destruct (table_find K V hash eq m k) as [q|] eqn:F.
    + split; [split; assumption|]. intros k0. rewrite orb_true_iff, <- H. split; [auto|]. intros [E|X]; [|exact X].
      unfold table_find in F. destruct (find_some _ _ F) as (I & Q). rewrite fits_eq in Q. exists q. split; [rewrite <- (place_eq (count m) k k0 E); exact I|eauto].
    + split.
      * split; [exact P1|]. intros i p I. cbn in *. destruct (Nat.eqb_spec i (place (count m) k)) as [->|N]; [|apply P2; exact I]. destruct I as [<-|I]; [reflexivity|apply P2; exact I].
      * intros k0. rewrite orb_true_iff, <- H. unfold holds. cbn. split.
        -- intros (p & I & E). destruct (Nat.eqb_spec (place (count m) k0) (place (count m) k)) as [N|N]; [|right; eauto]. destruct I as [<-|I]; [left; cbn in E; auto|].
           right. exists p. rewrite N. auto.
        -- intros [E|(p & I & E)].
           ++ rewrite <- (place_eq (count m) k k0 E), Nat.eqb_refl. exists (k, v). split; [left; reflexivity|]. cbn. auto.
           ++ exists p. split; [|exact E]. destruct (Nat.eqb_spec (place (count m) k0) (place (count m) k)) as [N|N]; [|exact I]. right. rewrite <- N. exact I.
  - split.
    + split; [exact P1|]. intros i p I. cbn in *. destruct (Nat.eqb_spec i (place (count m) k)) as [->|N]; [|apply P2; exact I]. apply filter_In in I. apply P2. tauto.
    + intros k0. rewrite andb_true_iff, negb_true_iff, <- H. unfold holds. cbn. split.
      * intros (p & I & E). destruct (Nat.eqb_spec (place (count m) k0) (place (count m) k)) as [N|N].
        -- apply filter_In in I. rewrite fits_eq, negb_true_iff in I. destruct I as (I & X). split; [|exists p; rewrite N; auto].
           destruct (eq k k0) eqn:Y; [|reflexivity]. rewrite (Trans _ _ _ Y E) in X. discriminate.
        -- split; [|eauto]. destruct (eq k k0) eqn:Y; [|reflexivity]. destruct N. symmetry. apply place_eq. exact Y.
      * intros (X & p & I & E). exists p. split; [|exact E]. destruct (Nat.eqb_spec (place (count m) k0) (place (count m) k)) as [N|N]; [|exact I].
        apply filter_In. split; [rewrite <- N; exact I|]. rewrite fits_eq, negb_true_iff. destruct (eq k (fst p)) eqn:Y; [|reflexivity]. rewrite (Trans _ _ _ Y (Sym _ _ E)) in X. discriminate.
  - assert (N1 : 1 <= Nat.max 1 n) by lia. split.
    + split; [exact N1|]. intros i p I. cbn [bucket count] in *. apply filter_In in I. destruct I as (_ & I). apply Nat.eqb_eq in I. auto.
    + intros k0. rewrite <- H. unfold holds. cbn [bucket count]. split.
      * intros (p & I & E). apply filter_In in I. destruct I as (I & _). apply in_flat_map in I. destruct I as (i & _ & I). exists p. split; [|exact E].
        rewrite (place_eq _ _ _ E). rewrite <- (P2 i p I). exact I.
      * intros (p & I & E). exists p. split; [|exact E]. apply filter_In. split; [|apply Nat.eqb_eq; symmetry; apply place_eq; exact E].
        apply in_flat_map. exists (place (count m) k0). split; [|exact I]. apply in_seq. pose proof (place_bound (count m) k0 P1). lia.
Qed.
Lemma table_result : forall ops k, contains_table K V hash eq (table_of K V hash eq ops) k = present eq (rev ops) k.
Proof.
  intros ops k. assert (X : placed (table_of K V hash eq ops) /\ forall k, holds (table_of K V hash eq ops) k <-> present eq (rev ops) k = true).
  { induction ops as [|o ops IH] using rev_ind.
    - split; [split; [cbn; lia|intros i p []]|]. intros k0. cbn. split; [intros (p & [] & _)|discriminate].
    - unfold table_of. rewrite fold_left_app, rev_app_distr. cbn [fold_left rev app]. apply step; apply IH. }
  destruct X as (_ & X). specialize (X k). rewrite <- contains_holds in X. destruct (contains_table _ _ _ _ _ _), (present _ _ _); destruct X; auto; symmetry; auto.
Qed.

Definition differ (p q : K * V) : Prop := eq (fst p) (fst q) = false.
Lemma ordered_filter : forall f (l : list (K * V)), ForallOrdPairs differ l -> ForallOrdPairs differ (filter f l).
Proof.
  intros f l H. induction H as [|p l F H IH]; cbn; [constructor|]. destruct (f p); [|exact IH]. constructor; [|exact IH].
  rewrite Forall_forall in *. intros q I. apply F. apply filter_In in I. tauto.
Qed.
Lemma ordered_app : forall a b, ForallOrdPairs differ a -> ForallOrdPairs differ b -> (forall p q, In p a -> In q b -> differ p q) -> ForallOrdPairs differ (a ++ b).
Proof.
  intros a b Ha Hb C. induction Ha as [|p a F Ha IH]; cbn; [exact Hb|]. constructor; [|apply IH; intros x y X Y; apply C; [right; exact X|exact Y]].
  apply Forall_app. split; [exact F|]. apply Forall_forall. intros q I. apply C; [left; reflexivity|exact I].
Qed.
Lemma ordered_all : forall (m : table) n i, placed m -> (forall j, ForallOrdPairs differ (bucket m j)) -> ForallOrdPairs differ (flat_map (bucket m) (seq i n)).
Proof.
  intros m n. induction n as [|n IH]; intros i P H; cbn; [constructor|]. apply ordered_app; [apply H|apply IH; assumption|].
  intros p q I J. apply in_flat_map in J. destruct J as (j & B & J). apply in_seq in B. destruct P as (_ & P). pose proof (P i p I) as X. pose proof (P j q J) as Y.
  unfold differ. destruct (eq (fst p) (fst q)) eqn:E; [|reflexivity]. rewrite (place_eq _ _ _ E) in X. lia.
Qed.
Lemma step_unique : forall m o, placed m -> (forall j, ForallOrdPairs differ (bucket m j)) -> forall j, ForallOrdPairs differ (bucket (apply_op K V hash eq m o) j).
Proof.
  intros m o P H j. destruct o as [k v|k|n]; cbn [apply_op].
  - destruct (table_find K V hash eq m k) as [q|] eqn:F; [apply H|]. cbn. destruct (Nat.eqb j _); [|apply H]. constructor; [|apply H].
    apply Forall_forall. intros p I. pose proof (find_none _ _ F p I) as X. rewrite fits_eq in X. exact X.
  - cbn. destruct (Nat.eqb j _); [apply ordered_filter|]; apply H.
  - cbn [bucket]. apply ordered_filter. apply ordered_all; assumption.
Qed.
Lemma table_unique : forall ops, ForallOrdPairs (fun p q => eq (fst p) (fst q) = false) (flat_map (bucket (table_of K V hash eq ops)) (seq 0 (count (table_of K V hash eq ops)))).
Proof.
  intros ops. assert (X : (placed (table_of K V hash eq ops) /\ forall k, holds (table_of K V hash eq ops) k <-> present eq (rev ops) k = true) /\
    forall j, ForallOrdPairs differ (bucket (table_of K V hash eq ops) j)).
  { induction ops as [|o ops IH] using rev_ind.
    - split; [|intros j; constructor]. split; [split; [cbn; lia|intros i p []]|]. intros k0. cbn. split; [intros (p & [] & _)|discriminate].
    - destruct IH as ((P & H) & U). unfold table_of in *. rewrite fold_left_app, rev_app_distr. cbn [fold_left rev app]. split; [apply step; assumption|apply step_unique; assumption]. }
  destruct X as ((P & _) & U). apply ordered_all; assumption.
Qed.
End Table.

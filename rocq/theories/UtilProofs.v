From Verif Require Import Base ListLemmas SortSpec UtilModel UtilSpec.
Local Open Scope Z_scope.

(** ** next, prev *)
Lemma std_next_ok len p d : 0 <= p + d <= len -> std_next len p d = Ok (p + d).
Proof. intro H. unfold std_next. replace ((0 <=? p + d) && (p + d <=? len)) with true by lia. reflexivity. Qed.
Lemma std_next_bad len p d : ~ (0 <= p + d <= len) -> std_next len p d = UB BadPointer.
Proof. intro H. unfold std_next. replace ((0 <=? p + d) && (p + d <=? len)) with false by lia. reflexivity. Qed.

Lemma div_step n m : 0 < m -> m < n -> (n - m) / m = n / m - 1.
Proof. intros H1 H2. replace n with ((n - m) + 1 * m) at 2 by lia. rewrite Z.div_add by lia. lia. Qed.

Lemma next_exact maxd len : 0 < maxd -> forall fuel iter n, 0 <= iter <= len -> 0 <= n < 2 ^ 64 -> n / maxd < Z.of_nat fuel ->
  next fuel maxd len iter n = if iter + n <=? len then Ok (iter + n) else UB BadPointer.
Proof.
  intros Hm. unfold next. induction fuel as [|fuel IH]; intros iter n Hi Hn Hf.
  - pose proof (Z.div_pos n maxd). lia.
  - cbn [next_loop]. destruct (Z.ltb_spec maxd n) as [H|H].
    + rewrite Z.mod_small by lia.
      destruct (Z.leb_spec (iter + maxd) len) as [L|L].
      * rewrite std_next_ok by lia. cbn [bind]. rewrite IH; try lia.
        -- replace (iter + maxd + (n - maxd)) with (iter + n) by lia. reflexivity.
        -- rewrite div_step by lia. lia.
      * rewrite std_next_bad by lia. destruct (Z.leb_spec (iter + n) len); [lia|reflexivity].
    + unfold to_difference. replace (n <=? maxd) with true by lia. cbn [bind].
      destruct (Z.leb_spec (iter + n) len) as [L|L]; [apply std_next_ok|apply std_next_bad]; lia.
Qed.

Lemma prev_exact maxd len : 0 < maxd -> forall fuel iter n, 0 <= iter <= len -> 0 <= n < 2 ^ 64 -> n / maxd < Z.of_nat fuel ->
  prev fuel maxd len iter n = if n <=? iter then Ok (iter - n) else UB BadPointer.
Proof.
  intros Hm. unfold prev, std_prev. induction fuel as [|fuel IH]; intros iter n Hi Hn Hf.
  - pose proof (Z.div_pos n maxd). lia.
  - cbn [prev_loop]. unfold std_prev. destruct (Z.ltb_spec maxd n) as [H|H].
    + rewrite Z.mod_small by lia.
      destruct (Z.leb_spec maxd iter) as [L|L].
      * rewrite std_next_ok by lia. cbn [bind]. rewrite IH; try lia.
        -- replace (iter + - maxd - (n - maxd)) with (iter - n) by lia.
           replace (n - maxd <=? iter + - maxd) with (n <=? iter) by lia. reflexivity.
        -- rewrite div_step by lia. lia.
      * rewrite std_next_bad by lia. destruct (Z.leb_spec n iter); [lia|reflexivity].
    + unfold to_difference. replace (n <=? maxd) with true by lia. cbn [bind].
      destruct (Z.leb_spec n iter) as [L|L]; [rewrite std_next_ok by lia; f_equal; lia|apply std_next_bad; lia].
Qed.

Lemma prev_next maxd len fuel iter n j : 0 < maxd -> 0 <= iter <= len -> 0 <= n < 2 ^ 64 -> n / maxd < Z.of_nat fuel ->
  next fuel maxd len iter n = Ok j -> prev fuel maxd len j n = Ok iter.
Proof.
  intros Hm Hi Hn Hf. rewrite next_exact by assumption. destruct (Z.leb_spec (iter + n) len) as [L|L]; [|discriminate].
  intro E. injection E as <-. rewrite prev_exact by lia. replace (n <=? iter + n) with true by lia. f_equal. lia.
Qed.

Lemma next_std_exact len iter n : 0 <= iter <= len -> 0 <= n < 2 ^ 64 ->
  next_std len iter n = if iter + n <=? len then Ok (iter + n) else UB BadPointer.
Proof.
  intros Hi Hn. unfold next_std. apply next_exact; auto; [reflexivity|].
  unfold ptrdiff_max. assert (n / (2 ^ 63 - 1) <= 2); [|lia].
  apply Z.lt_succ_r. apply Z.div_lt_upper_bound; lia.
Qed.

Lemma end_pointer_ok {A} (c : list A) : end_pointer c = Ok (Z.of_nat (length c)).
Proof. unfold end_pointer. rewrite std_next_ok by lia. reflexivity. Qed.

(** ** views *)
Lemma deref_ok {A} (c : list A) i x : nth_error c i = Some x -> deref c (Z.of_nat i) = Ok x.
Proof. intro H. unfold deref. replace (Z.of_nat i <? 0) with false by lia. rewrite Nat2Z.id, H. reflexivity. Qed.

Lemma iterate_ok {A} (c : list A) : forall k i fuel, (i + k)%nat = length c -> (k < fuel)%nat ->
  iterate fuel c (Z.of_nat i) (Z.of_nat (length c)) = Ok (skipn i c).
Proof.
  induction k as [|k IH]; intros i fuel E L; (destruct fuel as [|fuel]; [lia|]); cbn [iterate].
  - replace (Z.of_nat i =? Z.of_nat (length c)) with true by lia. rewrite skipn_all2 by lia. reflexivity.
  - replace (Z.of_nat i =? Z.of_nat (length c)) with false by lia.
    destruct (nth_error c i) as [x|] eqn:Ex; [|apply nth_error_None in Ex; lia].
    rewrite (deref_ok c i x Ex). cbn [bind]. rewrite std_next_ok by lia. cbn [bind].
    replace (Z.of_nat i + 1) with (Z.of_nat (S i)) by lia. rewrite IH by lia. cbn [bind].
    rewrite (skipn_nth c i x Ex). reflexivity.
Qed.

Lemma skip_front_ok {A} fuel dbg n (c : list A) : (n <= length c)%nat -> Z.of_nat n < 2 ^ 64 -> (length c - n < fuel)%nat ->
  skip_front_iterate fuel dbg (Z.of_nat n) c = Ok (skipn n c).
Proof.
  intros H Hn L. unfold skip_front_iterate, skip_front_begin.
  replace (Z.of_nat n <=? Z.of_nat (length c)) with true by lia. unfold assert_. rewrite andb_false_r. cbn [bind].
  rewrite next_std_exact by lia. replace (0 + Z.of_nat n <=? Z.of_nat (length c)) with true by lia. cbn [bind Z.add].
  apply (iterate_ok c (length c - n)); lia.
Qed.

Lemma skip_front_bad {A} fuel dbg n (c : list A) : (length c < n)%nat -> Z.of_nat n < 2 ^ 64 ->
  skip_front_iterate fuel dbg (Z.of_nat n) c = if dbg then Abort else UB BadPointer.
Proof.
  intros H Hn. unfold skip_front_iterate, skip_front_begin, assert_.
  replace (Z.of_nat n <=? Z.of_nat (length c)) with false by lia. destruct dbg; cbn [negb andb bind]; [reflexivity|].
  rewrite next_std_exact by lia. replace (0 + Z.of_nat n <=? Z.of_nat (length c)) with false by lia. reflexivity.
Qed.

Lemma reverse_loop_ok {A} (c : list A) : forall i fuel, (i <= length c)%nat -> (i < fuel)%nat ->
  reverse_loop fuel c (Z.of_nat i) 0 = Ok (rev (firstn i c)).
Proof.
  induction i as [|i IH]; intros fuel H L; (destruct fuel as [|fuel]; [lia|]); cbn [reverse_loop].
  - reflexivity.
  - replace (Z.of_nat (S i) =? 0) with false by lia. unfold std_prev. rewrite std_next_ok by lia. cbn [bind].
    replace (Z.of_nat (S i) + - (1)) with (Z.of_nat i) by lia.
    destruct (nth_error c i) as [x|] eqn:Ex; [|apply nth_error_None in Ex; lia].
    rewrite (deref_ok c i x Ex). cbn [bind]. rewrite IH by lia. cbn [bind].
    assert (E : firstn (S i) c = firstn i c ++ [x]).
    { clear IH H L. revert i Ex. induction c as [|y c IHc]; intros [|i] Ex; try discriminate.
      - injection Ex as ->. reflexivity.
      - cbn [nth_error] in Ex. cbn [firstn app]. f_equal. change (firstn (S i) c = firstn i c ++ [x]). apply IHc, Ex. }
    rewrite E, rev_app_distr. reflexivity.
Qed.

Lemma reverse_ok {A} fuel (c : list A) : (length c < fuel)%nat -> reverse_iterate fuel c = Ok (rev c).
Proof. intro H. unfold reverse_iterate. rewrite reverse_loop_ok by lia. rewrite firstn_all. reflexivity. Qed.

Lemma mapM_ok {A B} (f : A -> outcome B) (R : A -> B -> Prop) l :
  (forall x, In x l -> exists y, f x = Ok y /\ R x y) -> exists l', mapM f l = Ok l' /\ Forall2 R l l'.
Proof.
  induction l as [|x l IH]; intro H; [exists []; split; [reflexivity|constructor]|].
  destruct (H x (or_introl eq_refl)) as [y [E1 R1]]. destruct IH as [l' [E2 R2]]; [intros z Hz; apply H; right; exact Hz|].
  exists (y :: l'). cbn [mapM]. rewrite E1. cbn [bind]. rewrite E2. split; [reflexivity|constructor; assumption].
Qed.

Lemma mapM_bad {A B} (f : A -> outcome B) e l :
  (forall x, In x l -> (exists y, f x = Ok y) \/ f x = UB e) -> (exists x, In x l /\ f x = UB e) -> mapM f l = UB e.
Proof.
  induction l as [|x l IH]; intros H [z [Hz Ez]]; [destruct Hz|]. cbn [mapM].
  destruct (H x (or_introl eq_refl)) as [[y E]|E]; rewrite E; cbn [bind]; [|reflexivity].
  destruct Hz as [->|Hz]; [congruence|]. rewrite IH; [reflexivity|intros w Hw; apply H; right; exact Hw|eauto].
Qed.

Lemma mapM_const {A B} (f : A -> outcome B) (v : B) l : (forall x, In x l -> f x = Ok v) -> mapM f l = Ok (map (fun _ => v) l).
Proof.
  induction l as [|x l IH]; intro H; [reflexivity|]. cbn [mapM map]. rewrite (H x (or_introl eq_refl)). cbn [bind].
  rewrite IH; [reflexivity|intros z Hz; apply H; right; exact Hz].
Qed.

Lemma combine_const {A B} (l : list A) (v : B) : combine l (map (fun _ => v) l) = map (fun x => (x, v)) l.
Proof. induction l as [|x l IH]; [reflexivity|]. cbn. rewrite IH. reflexivity. Qed.
Lemma mapM_map {A B C} (f : B -> outcome C) (g : A -> B) l : mapM f (map g l) = mapM (fun x => f (g x)) l.
Proof. induction l as [|x l IH]; [reflexivity|]. cbn [mapM map]. rewrite IH. reflexivity. Qed.

Lemma zip_loop_ok {A} (cs : list (list A)) (m : nat) : cs <> [] -> Forall (fun c => (m <= length c)%nat) cs ->
  forall k i fuel, (i + k = m)%nat -> (k < fuel)%nat ->
  exists ts, zip_loop fuel cs (map (fun _ => Z.of_nat i) cs) (map (fun _ => Z.of_nat m) cs) = Ok ts /\
    length ts = k /\ forall j t, nth_error ts j = Some t -> row cs (i + j) t.
Proof.
  intros NE F. rewrite Forall_forall in F. induction k as [|k IH]; intros i fuel E L; (destruct fuel as [|fuel]; [lia|]); cbn [zip_loop].
  - exists []. replace (zip_ne _ _) with false; [split; [reflexivity|]; split; [reflexivity|intros [|j] t H; discriminate]|].
    destruct cs as [|c cs]; [contradiction|]. cbn [map zip_ne]. symmetry. apply negb_false_iff. lia.
  - replace (zip_ne _ _) with true
      by (destruct cs as [|c cs]; [contradiction|]; cbn [map zip_ne]; symmetry; apply negb_true_iff; lia).
    unfold zip_deref. rewrite combine_const, mapM_map. cbn [fst snd].
    destruct (mapM_ok (fun c => deref c (Z.of_nat i)) (fun c x => nth_error c i = Some x) cs) as [t [Et Rt]].
    { intros c Hc. specialize (F c Hc). destruct (nth_error c i) as [x|] eqn:Ex; [|apply nth_error_None in Ex; lia].
      exists x. split; [apply deref_ok, Ex|reflexivity]. }
    rewrite Et. cbn [bind]. unfold zip_next. rewrite combine_const, mapM_map. cbn [fst snd].
    rewrite (mapM_const _ (Z.of_nat (S i))).
    2:{ intros c Hc. specialize (F c Hc). rewrite std_next_ok by lia. f_equal. lia. }
    cbn [bind]. destruct (IH (S i) fuel) as [ts [E1 [E2 E3]]]; [lia|lia|]. rewrite E1. cbn [bind].
    exists (t :: ts). split; [reflexivity|]. split; [cbn [length]; lia|].
    intros [|j] t' H; [injection H as <-; rewrite Nat.add_0_r; exact Rt|].
    replace (i + S j)%nat with (S i + j)%nat by lia. apply E3, H.
Qed.

Lemma zip_iterate_ok {A} fuel m (cs : list (list A)) : cs <> [] -> Z.of_nat m < 2 ^ 64 ->
  Forall (fun c => (m <= length c)%nat) cs -> (m < fuel)%nat ->
  exists ts, zip_iterate fuel (Z.of_nat m) cs = Ok ts /\ length ts = m /\
    forall i t, nth_error ts i = Some t -> row cs i t.
Proof.
  intros NE Hm F L. unfold zip_iterate, zip_end, zip_begin.
  rewrite (mapM_const _ (Z.of_nat m)).
  2:{ intros c Hc. rewrite Forall_forall in F. specialize (F c Hc). rewrite next_std_exact by lia.
      replace (0 + Z.of_nat m <=? Z.of_nat (length c)) with true by lia. reflexivity. }
  cbn [bind]. apply (zip_loop_ok cs m NE F m 0 fuel); lia.
Qed.

Lemma zip_iterate_bad {A} fuel m (cs : list (list A)) : Z.of_nat m < 2 ^ 64 ->
  Exists (fun c => (length c < m)%nat) cs -> zip_iterate fuel (Z.of_nat m) cs = UB BadPointer.
Proof.
  intros Hm E. unfold zip_iterate, zip_end. rewrite Exists_exists in E. destruct E as [c [Hc Lc]].
  rewrite (mapM_bad _ BadPointer); [reflexivity| |].
  - intros x _. rewrite next_std_exact by lia. destruct (_ <=? _); eauto.
  - exists c. split; [exact Hc|]. rewrite next_std_exact by lia.
    replace (0 + Z.of_nat m <=? Z.of_nat (length c)) with false by lia. reflexivity.
Qed.

Lemma zip_min_spec {A} (cs : list (list A)) : cs <> [] -> exists m, zip_min_size cs = Z.of_nat m /\
  Forall (fun c => (m <= length c)%nat) cs /\ Exists (fun c => m = length c) cs.
Proof.
  intro NE. destruct cs as [|c cs]; [contradiction|]. clear NE. unfold zip_min_size.
  assert (G : forall cs (a : nat), exists m, fold_left (fun m c => Z.min m (Z.of_nat (length c))) cs (Z.of_nat a) = Z.of_nat m /\
    (m <= a)%nat /\ Forall (fun c : list A => (m <= length c)%nat) cs /\ (m = a \/ Exists (fun c => m = length c) cs)).
  { clear. induction cs as [|d cs IH]; intro a.
    - exists a. split; [reflexivity|]. split; [lia|]. split; [constructor|left; reflexivity].
    - cbn [fold_left]. rewrite <- Nat2Z.inj_min. destruct (IH (Nat.min a (length d))) as [m [E [L [F X]]]].
      exists m. split; [exact E|]. split; [lia|]. split; [constructor; [lia|exact F]|].
      destruct X as [X|X]; [|right; apply Exists_cons_tl, X].
      destruct (Nat.le_gt_cases a (length d)); [left; lia|right; apply Exists_cons_hd; lia]. }
  destruct (G cs (length c)) as [m [E [L [F X]]]]. exists m. split; [exact E|]. split; [constructor; assumption|].
  destruct X as [X|X]; [apply Exists_cons_hd, X|apply Exists_cons_tl, X].
Qed.

(** ** Maps *)
Section SWO.
Context {K : Type}.
Variable lt : K -> K -> bool.
Hypothesis H : strict_weak_order lt.
Let irr := proj1 H.
Let tra := proj1 (proj2 H).
Let inc := proj2 (proj2 H).

Lemma asym a b : lt a b = true -> lt b a = false.
Proof. intro E. destruct (lt b a) eqn:E'; [|reflexivity]. rewrite <- (irr a). symmetry. eapply tra; eauto. Qed.
(** a ~ b, b < c -> a < c *)
Lemma same_lt a b c : lt a b = false -> lt b a = false -> lt b c = true -> lt a c = true.
Proof.
  intros E1 E2 E3. destruct (lt a c) eqn:E4; [reflexivity|].
  destruct (lt c a) eqn:E5.
  - rewrite (tra b c a E3 E5) in E2. discriminate.
  - destruct (inc b a c E2 E1 E4 E5) as [E6 _]. congruence.
Qed.
Lemma lt_same a b c : lt b c = false -> lt c b = false -> lt a b = true -> lt a c = true.
Proof.
  intros E1 E2 E3. destruct (lt a c) eqn:E4; [reflexivity|].
  destruct (lt c a) eqn:E5.
  - rewrite (tra c a b E5 E3) in E2. discriminate.
  - destruct (inc a c b E4 E5 E2 E1) as [E6 _]. congruence.
Qed.
Lemma same_refl a : same lt a a. Proof. split; apply irr. Qed.
Lemma same_sym a b : same lt a b -> same lt b a. Proof. intros [E1 E2]. split; assumption. Qed.
Lemma same_trans a b c : same lt a b -> same lt b c -> same lt a c.
Proof. intros [E1 E2] [E3 E4]. exact (inc a b c E1 E2 E3 E4). Qed.
Lemma equivalent_same a b : equivalent lt a b = true <-> same lt a b.
Proof. unfold equivalent, same. rewrite andb_true_iff, !negb_true_iff. reflexivity. Qed.

Context {V : Type}.
Implicit Types m : list (K * V).

Lemma insert_in k v m : is_map lt m -> forall x, In x (map_insert lt k v m) <->
  In x m \/ (x = (k, v) /\ forall p, In p m -> ~ same lt k (fst p)).
Proof.
  induction 1 as [|[k' v'] m S IH F]; intro x; cbn [map_insert].
  - cbn. split; [intros [<-|[]]; right; split; auto|intros [[]|[-> _]]; left; reflexivity].
  - rewrite Forall_forall in F. destruct (lt k' k) eqn:E1; [|destruct (lt k k') eqn:E2].
    + cbn [In]. rewrite IH. split.
      * intros [X|[X|[X Y]]]; auto. right. split; [exact X|]. intros p [<-|Hp]; [|apply Y, Hp].
        cbn [fst]. intros [A B]. congruence.
      * intros [[X|X]|[X Y]]; auto. right. right. split; auto.
    + cbn [In]. split; [intros [X|X]; auto|intros [X|[X _]]; auto]. right. split; [auto|].
      intros p [<-|Hp] [A B]; cbn [fst] in *; [congruence|]. specialize (F p Hp). cbv beta in F. cbn [fst] in F.
      rewrite (tra k k' (fst p) E2 F) in A. discriminate.
    + split; [auto|]. intros [X|[_ Y]]; [exact X|]. exfalso. apply (Y (k', v') (or_introl eq_refl)). split; assumption.
Qed.

Lemma insert_map k v m : is_map lt m -> is_map lt (map_insert lt k v m).
Proof.
  induction 1 as [|[k' v'] m S IH F]; cbn [map_insert]; [repeat constructor|].
  destruct (lt k' k) eqn:E1; [|destruct (lt k k') eqn:E2].
  - constructor; [exact IH|]. rewrite Forall_forall in *. intros x Hx. apply insert_in in Hx; [|exact S].
    destruct Hx as [Hx|[-> _]]; [apply F, Hx|exact E1].
  - constructor; [constructor; [exact S|exact F]|]. constructor; [exact E2|].
    rewrite Forall_forall in *. intros x Hx. specialize (F x Hx). cbn [fst] in *. eapply tra; eauto.
  - constructor; assumption.
Qed.

Lemma map_unique m p q : is_map lt m -> In p m -> In q m -> same lt (fst p) (fst q) -> p = q.
Proof.
  induction 1 as [|x m S IH F]; intros Hp Hq E; [destruct Hp|]. rewrite Forall_forall in F.
  destruct Hp as [->|Hp], Hq as [->|Hq]; auto.
  - specialize (F q Hq). cbv beta in F. destruct E. congruence.
  - specialize (F p Hp). cbv beta in F. destruct E. congruence.
Qed.

Lemma find_spec k m p : is_map lt m -> (map_find lt k m = Some p <-> In p m /\ same lt k (fst p)).
Proof.
  intro S. split.
  - induction m as [|[k' v'] m IH]; [discriminate|]. cbn [map_find].
    inversion S as [|? ? S' F]; subst. destruct (equivalent lt k k') eqn:E.
    + intro X. injection X as <-. split; [left; reflexivity|apply equivalent_same, E].
    + intro X. destruct (IH S' X) as [X1 X2]. split; [right; exact X1|exact X2].
  - intros [Hp E]. induction m as [|[k' v'] m IH]; [destruct Hp|]. cbn [map_find].
    inversion S as [|? ? S' F]; subst. destruct (equivalent lt k k') eqn:E'.
    + f_equal. apply equivalent_same in E'.
      apply (map_unique ((k', v') :: m) (k', v') p S); [left; reflexivity|exact Hp|].
      cbn [fst]. eapply same_trans; [apply same_sym, E'|exact E].
    + destruct Hp as [<-|Hp]; [|apply IH; assumption]. cbn [fst] in E. apply equivalent_same in E. congruence.
Qed.

Lemma map_ext m m' : is_map lt m -> is_map lt m' -> (forall p, In p m <-> In p m') -> m = m'.
Proof.
  intro S. revert m'. induction S as [|p m S IH F]; intros m' S' E.
  - destruct m' as [|q m']; [reflexivity|]. exfalso. apply (proj2 (E q)). left. reflexivity.
  - destruct S' as [|q m' S' F']; [exfalso; apply (proj1 (E p)); left; reflexivity|].
    rewrite Forall_forall in *.
    assert (p = q) as ->.
    { destruct (proj1 (E p) (or_introl eq_refl)) as [->|Hp]; [reflexivity|].
      destruct (proj2 (E q) (or_introl eq_refl)) as [->|Hq]; [reflexivity|].
      specialize (F q Hq). specialize (F' p Hp). cbv beta in *. apply asym in F. congruence. }
    f_equal. apply IH; [exact S'|]. intro r. specialize (E r). cbn [In] in E.
    split; intro Hr.
    + destruct (proj1 E (or_intror Hr)) as [->|X]; [|exact X]. specialize (F r Hr). cbv beta in F. rewrite irr in F. discriminate.
    + destruct (proj2 E (or_intror Hr)) as [->|X]; [|exact X]. specialize (F' r Hr). cbv beta in F'. rewrite irr in F'. discriminate.
Qed.
End SWO.

Section Flip.
Context {K V : Type}.
Variable lt : V -> V -> bool.
Hypothesis H : strict_weak_order lt.
Implicit Types m : list (K * V).

Lemma flip_snoc m p : flip_map lt (m ++ [p]) = map_insert lt (snd p) (fst p) (flip_map lt m).
Proof. unfold flip_map. rewrite fold_left_app. reflexivity. Qed.

Lemma first_app m p k v : first_with lt (m ++ [p]) k v <->
  first_with lt m k v \/ (p = (k, v) /\ forall k' v', In (k', v') m -> ~ same lt v v').
Proof.
  split.
  - intros [m1 [m2 [E F]]]. destruct m2 as [|q m2] using rev_ind.
    + apply app_inj_tail in E. destruct E as [-> ->]. right. split; [reflexivity|exact F].
    + left. clear IHm2. rewrite app_comm_cons, app_assoc in E. apply app_inj_tail in E. destruct E as [-> _].
      exists m1, m2. split; [reflexivity|exact F].
  - intros [[m1 [m2 [-> F]]]|[-> F]].
    + exists m1, (m2 ++ [p]). split; [rewrite <- app_assoc; reflexivity|exact F].
    + exists m, []. split; [reflexivity|exact F].
Qed.

Lemma flip_spec m : is_map lt (flip_map lt m) /\ forall v k, In (v, k) (flip_map lt m) <-> first_with lt m k v.
Proof.
  induction m as [|p m [IH1 IH2]] using rev_ind.
  - split; [constructor|]. intros v k. cbn. split; [tauto|]. intros [m1 [m2 [E _]]]. destruct m1; discriminate.
  - rewrite flip_snoc. split; [apply insert_map; assumption|]. intros v k. rewrite first_app, insert_in, IH2 by assumption.
    destruct p as [k0 v0]. cbn [fst snd]. apply or_iff_compat_l. split.
    + intros [E F]. injection E as -> ->. split; [reflexivity|]. intros k' v' Hin Hs.
      (* the first element with this value is in the map *)
      assert (G : exists k'' v'', first_with lt m k'' v'' /\ same lt v0 v'').
      { clear F IH1 IH2. revert k' v' Hin Hs. induction m as [|x m IH] using rev_ind; intros k' v' Hin Hs; [destruct Hin|].
        destruct (Exists_dec (fun p => same lt v0 (snd p)) m) as [X|X].
        { intro p. unfold same. destruct (lt v0 (snd p)), (lt (snd p) v0); try (right; intros []; discriminate). left. auto. }
        - rewrite Exists_exists in X. destruct X as [[k1 v1] [X1 X2]]. destruct (IH k1 v1 X1 X2) as [k2 [v2 [Y1 Y2]]].
          exists k2, v2. split; [apply first_app; left; exact Y1|exact Y2].
        - apply in_app_or in Hin. destruct Hin as [Hin|[->|[]]].
          + exfalso. apply X. rewrite Exists_exists. exists (k', v'). auto.
          + exists k', v'. split; [|exact Hs]. apply first_app. right. split; [reflexivity|].
            intros k1 v1 Hin Hs'. apply X. rewrite Exists_exists. exists (k1, v1). split; [exact Hin|].
            cbn [snd]. eapply same_trans; eauto. }
      destruct G as [k'' [v'' [G1 G2]]]. apply IH2 in G1. apply (F _ G1). exact G2.
    + intros [E F]. injection E as -> ->. split; [reflexivity|]. intros [v1 k1] Hin Hs. cbn [fst] in Hs.
      apply IH2 in Hin. destruct Hin as [m1 [m2 [-> _]]]. apply (F k1 v1); [apply in_or_app; right; left; reflexivity|exact Hs].
Qed.

Lemma distinct_first m k v : distinct_values lt m -> In (k, v) m -> first_with lt m k v.
Proof.
  intros D Hin. apply in_split in Hin. destruct Hin as [m1 [m2 ->]]. exists m1, m2. split; [reflexivity|].
  intros k' v' Hin Hs. induction m1 as [|x m1 IH]; [destruct Hin|].
  inversion D as [|? ? F D']; subst. destruct Hin as [->|Hin]; [|apply IH; assumption].
  rewrite Forall_forall in F. apply (F (k, v)); [apply in_or_app; right; left; reflexivity|].
  cbn [snd]. apply same_sym, Hs.
Qed.
End Flip.

Lemma flip_twice {K V} (lt1 : K -> K -> bool) (lt2 : V -> V -> bool) (m : list (K * V)) :
  strict_weak_order lt1 -> strict_weak_order lt2 -> is_map lt1 m -> distinct_values lt2 m ->
  flip_map lt1 (flip_map lt2 m) = m.
Proof.
  intros H1 H2 M D.
  destruct (flip_spec lt2 H2 m) as [A B]. destruct (flip_spec lt1 H1 (flip_map lt2 m)) as [A' B'].
  apply (map_ext lt1 H1); auto. intros [k v]. rewrite B'. split.
  - intros [m1 [m2 [E _]]]. assert (In (v, k) (flip_map lt2 m)) as I by (rewrite E; apply in_or_app; right; left; reflexivity).
    apply B in I. destruct I as [n1 [n2 [-> _]]]. apply in_or_app. right. left. reflexivity.
  - intro Hin. pose proof (distinct_first lt2 m k v D Hin) as F. apply B in F.
    apply in_split in F. destruct F as [m1 [m2 E]]. exists m1, m2. split; [exact E|].
    intros v' k' Hin' Hs.
    assert (In (v', k') (flip_map lt2 m)) as I by (rewrite E; apply in_or_app; left; exact Hin').
    pose proof I as I'. apply B in I. destruct I as [n1 [n2 [En _]]].
    assert (Hin2 : In (k', v') m) by (rewrite En; apply in_or_app; right; left; reflexivity).
    pose proof (map_unique lt1 m (k, v) (k', v') M Hin Hin2 Hs) as Eq. injection Eq as <- <-.
    (* the element would be twice in the flipped map *)
    rewrite E in A. apply in_split in Hin'. destruct Hin' as [l1 [l2 ->]].
    clear - A H2. rewrite <- app_assoc in A. cbn [app] in A.
    assert (S : is_map lt2 ((v, k) :: l2 ++ (v, k) :: m2)).
    { clear - A. induction l1 as [|x l1 IH]; [exact A|]. inversion A; subst. apply IH. assumption. }
    inversion S as [|? ? _ F]; subst. rewrite Forall_forall in F.
    specialize (F (v, k)). cbv beta in F. cbn [fst] in F. rewrite (proj1 H2) in F.
    discriminate F. apply in_or_app. right. left. reflexivity.
Qed.

(** ** contains *)
Lemma find_ge {A} eqb (v : A) c : forall p, p <= std_find eqb v c p <= p + Z.of_nat (length c) /\
  (std_find eqb v c p = p + Z.of_nat (length c) <-> forall x, In x c -> eqb x v = false).
Proof.
  induction c as [|x c IH]; intro p; cbn [std_find length].
  - split; [lia|]. split; [intros _ ? []|]. lia.
  - destruct (eqb x v) eqn:E.
    + split; [lia|]. split; [lia|]. intro F. rewrite (F x (or_introl eq_refl)) in E. discriminate.
    + destruct (IH (p + 1)) as [I1 I2]. split; [lia|]. replace (p + Z.of_nat (S (length c))) with (p + 1 + Z.of_nat (length c)) by lia.
      rewrite I2. split; [|intros F y Hy; apply F; right; exact Hy]. intros F y [<-|Hy]; auto.
Qed.

Lemma contains_spec {A} eqb (c : list A) v : contains eqb c v = true <-> exists x, In x c /\ eqb x v = true.
Proof.
  unfold contains. rewrite negb_true_iff. destruct (find_ge eqb v c 0) as [_ F]. rewrite Z.add_0_l in F.
  rewrite Z.eqb_neq, F. clear F. split.
  - intro N. induction c as [|x c IH]; [exfalso; apply N; intros ? []|].
    destruct (eqb x v) eqn:E; [exists x; split; [left; reflexivity|exact E]|].
    destruct IH as [y [Hy Ey]]; [|exists y; split; [right; exact Hy|exact Ey]].
    intro F. apply N. intros y [<-|Hy]; auto.
  - intros [x [Hx E]] F. rewrite (F x Hx) in E. discriminate.
Qed.

Lemma contains_map_spec {K V} (lt : K -> K -> bool) (m : list (K * V)) k : strict_weak_order lt -> is_map lt m ->
  (contains_map lt m k = true <-> exists p, In p m /\ same lt k (fst p)).
Proof.
  intros H M. unfold contains_map. destruct (map_find lt k m) as [p|] eqn:E.
  - apply (find_spec lt H) in E; [|exact M]. split; [intros _; exists p; exact E|reflexivity].
  - split; [discriminate|]. intros [p Hp]. apply (find_spec lt H k m p M) in Hp. congruence.
Qed.

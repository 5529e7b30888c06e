(** Proofs about linq. *)
From Verif Require Import Base SortSpec UtilModel UtilSpec UtilProofs LinqModel LinqSpec.

Section Seq.
Context {A : Type}.
Variable moved : A -> A.
Lemma select_loop_ok {B} p (func : A -> B) h l : fst (select_loop moved p func h l) = map func l /\ snd (select_loop moved p func h l) = map (pass moved p h) l.
Proof. induction l as [|e l [IH1 IH2]]; cbn; [auto|]. destruct (select_loop moved p func h l). cbn in *. rewrite IH1, IH2. auto. Qed.
Lemma pass_borrowed p l : map (pass moved p Borrowed) l = l.
Proof. induction l as [|x l IH]; [reflexivity|]. cbn [map]. rewrite IH. destruct p; reflexivity. Qed.
Lemma select_ok {B} p (func : A -> B) a : elements (fst (select moved p func a)) = map func (elements a) /\ (held a = Borrowed -> snd (select moved p func a) = elements a).
Proof.
  unfold select. destruct (select_loop_ok p func (held a) (elements a)) as [E1 E2]. destruct (select_loop moved p func (held a) (elements a)). cbn in *.
  split; [exact E1|]. intro H. rewrite E2, H. apply pass_borrowed.
Qed.
Lemma select_index_loop_ok {B} p (func : A -> N -> B) h : forall l i, (i + N.of_nat (length l) < 2 ^ 64)%N ->
  length (fst (select_index_loop moved p func h l i)) = length l /\
  (forall j x, nth_error l j = Some x -> nth_error (fst (select_index_loop moved p func h l i)) j = Some (func x (i + N.of_nat j)%N)) /\
  snd (select_index_loop moved p func h l i) = map (pass moved p h) l.
Proof.
  induction l as [|e l IH]; intros i L; cbn [select_index_loop].
  - split; [reflexivity|]. split; [|reflexivity]. intros j x H. destruct j; discriminate.
  - cbn [length] in L. rewrite N.mod_small by lia. destruct (IH (i + 1)%N ltac:(lia)) as (E1 & E2 & E3).
    destruct (select_index_loop moved p func h l (i + 1)%N) as [ret l']. cbn [fst snd length map] in *. split; [lia|]. split; [|congruence].
    intros [|j] x J; cbn in *; [injection J as <-; do 2 f_equal; lia|]. rewrite (E2 j x J). do 2 f_equal. lia.
Qed.
Lemma select_index_ok {B} p (func : A -> N -> B) a : (N.of_nat (length (elements a)) < 2 ^ 64)%N ->
  length (elements (fst (select_index moved p func a))) = length (elements a) /\
  (forall j x, nth_error (elements a) j = Some x -> nth_error (elements (fst (select_index moved p func a))) j = Some (func x (N.of_nat j))) /\
  (held a = Borrowed -> snd (select_index moved p func a) = elements a).
Proof.
  intro L. unfold select_index. destruct (select_index_loop_ok p func (held a) (elements a) 0%N ltac:(lia)) as (E1 & E2 & E3).
  destruct (select_index_loop moved p func (held a) (elements a) 0%N). cbn [fst snd elements] in *. split; [exact E1|]. split; [exact E2|].
  intro H. rewrite E3, H. apply pass_borrowed.
Qed.

Lemma where_loop_borrowed insert p func : forall l ret, where_loop moved insert p func Borrowed l ret = (fold_left (fun r x => insert x r) (filter func l) ret, l).
Proof.
  induction l as [|e l IH]; intro ret; cbn [where_loop filter fold_left]; [reflexivity|].
  replace (pass moved p Borrowed e) with e by (destruct p; reflexivity). cbn [take]. destruct (func e); cbn [fold_left]; rewrite IH; reflexivity.
Qed.
Lemma where_loop_ref insert func h : forall l ret, fst (where_loop moved insert ByConstRef func h l ret) = fold_left (fun r x => insert x r) (filter func l) ret.
Proof.
  induction l as [|e l IH]; intro ret; cbn [where_loop filter fold_left pass]; [reflexivity|].
  destruct (func e); cbn [fold_left]; rewrite <- IH; destruct (where_loop moved insert ByConstRef func h l _); reflexivity.
Qed.
Lemma where_loop_value insert func : forall l ret, fst (where_loop moved insert ByValue func Owned l ret) = fold_left (fun r x => insert x r) (map moved (filter func l)) ret.
Proof.
  induction l as [|e l IH]; intro ret; cbn [where_loop filter fold_left pass take]; [reflexivity|].
  destruct (func e); cbn [fold_left map]; rewrite <- IH; destruct (where_loop moved insert ByValue func Owned l _); reflexivity.
Qed.
Lemma push_all (l ret : list A) : fold_left (fun r x => push_end x r) l ret = ret ++ l.
Proof. revert ret. induction l as [|x l IH]; intro ret; cbn [fold_left]; [rewrite app_nil_r; reflexivity|]. rewrite IH. unfold push_end. rewrite <- app_assoc. reflexivity. Qed.
Lemma where_fst insert p func a : fst (where_ moved insert p func a) = {| held := Owned; elements := fst (where_loop moved insert p func (held a) (elements a) []) |}.
Proof. unfold where_. destruct (where_loop moved insert p func (held a) (elements a) []). reflexivity. Qed.
Lemma where_snd insert p func a : snd (where_ moved insert p func a) = snd (where_loop moved insert p func (held a) (elements a) []).
Proof. unfold where_. destruct (where_loop moved insert p func (held a) (elements a) []). reflexivity. Qed.
Lemma where_any insert p func a : p = ByConstRef \/ held a = Borrowed ->
  elements (fst (where_ moved insert p func a)) = fold_left (fun r x => insert x r) (filter func (elements a)) [] /\
  (held a = Borrowed -> snd (where_ moved insert p func a) = elements a).
Proof.
  intro H. rewrite where_fst, where_snd. cbn [elements]. split.
  - destruct H as [->| ->]; [apply where_loop_ref|]. rewrite where_loop_borrowed. reflexivity.
  - intros ->. rewrite where_loop_borrowed. reflexivity.
Qed.
Lemma where_ok p func a : p = ByConstRef \/ held a = Borrowed ->
  elements (fst (where_ moved push_end p func a)) = filter func (elements a) /\ (held a = Borrowed -> snd (where_ moved push_end p func a) = elements a).
Proof. intro H. destruct (where_any push_end p func a H) as [E1 E2]. split; [rewrite E1; apply push_all|exact E2]. Qed.
Lemma where_by_value func a : held a = Owned -> elements (fst (where_ moved push_end ByValue func a)) = map moved (filter func (elements a)).
Proof. intro H. rewrite where_fst. cbn [elements]. rewrite H, where_loop_value. apply push_all. Qed.

Lemma order_swo {K} (lt : K -> K -> bool) (func : A -> K) : strict_weak_order lt -> strict_weak_order (fun x y => lt (func x) (func y)).
Proof. intros (H1 & H2 & H3). split; [intro; apply H1|]. split; intros; [eapply H2|eapply H3]; eassumption. Qed.
Lemma order_ok {K} std_sort (lt : K -> K -> bool) (func : A -> K) a : sorts std_sort -> strict_weak_order lt ->
  Permutation (elements (fst (order_by std_sort lt func a))) (elements a) /\
  sorted (fun x y => lt (func x) (func y)) (elements (fst (order_by std_sort lt func a))) /\
  (held a = Borrowed -> snd (order_by std_sort lt func a) = elements a).
Proof.
  intros S H. destruct (S _ (elements a) (order_swo lt func H)) as [P Q]. unfold order_by. destruct (held a); cbn; auto. split; [exact P|]. split; [exact Q|discriminate].
Qed.
(** What an owned collection is like afterwards. *)
Lemma select_left {B} p (func : A -> B) a : snd (select moved p func a) = map (pass moved p (held a)) (elements a).
Proof.
  unfold select. destruct (select_loop_ok p func (held a) (elements a)) as [_ E2]. destruct (select_loop moved p func (held a) (elements a)). exact E2.
Qed.
Lemma select_index_left {B} p (func : A -> N -> B) a : snd (select_index moved p func a) = map (pass moved p (held a)) (elements a).
Proof.
  unfold select_index. generalize 0%N as i. induction (elements a) as [|e l IH]; intro i; cbn [select_index_loop map]; [reflexivity|].
  specialize (IH ((i + 1) mod 2 ^ 64)%N). destruct (select_index_loop moved p func (held a) l _) as [r l']. cbn [snd] in *. rewrite IH. reflexivity.
Qed.
Lemma where_left insert p func a : snd (where_ moved insert p func a) =
  map (fun x => if func x then take moved (held a) (pass moved p (held a) x) else pass moved p (held a) x) (elements a).
Proof.
  unfold where_. generalize (@nil A) as ret. induction (elements a) as [|e l IH]; intro ret; cbn [where_loop map]; [reflexivity|].
  specialize (IH (if func e then insert (pass moved p (held a) e) ret else ret)).
  destruct (where_loop moved insert p func (held a) l _) as [r l']. cbn [snd] in *. rewrite IH. reflexivity.
Qed.
Lemma group_left {K} (lt : K -> K -> bool) (key : A -> K) a : snd (group_by moved lt key a) = map (take moved (held a)) (elements a).
Proof.
  unfold group_by. generalize (@nil (K * list A)) as ret. induction (elements a) as [|v l IH]; intro ret; cbn [group_loop map]; [reflexivity|].
  specialize (IH (map_modify lt (key v) (fun g => g ++ [v]) (map_insert lt (key v) [] ret))).
  destruct (group_loop moved lt key (held a) l _) as [r l']. cbn [snd] in *. rewrite IH. reflexivity.
Qed.
End Seq.

(** where on a map *)
Lemma map_insert_last {K V} (lt : K -> K -> bool) (H : strict_weak_order lt) (m : list (K * V)) k v : is_map lt (m ++ [(k, v)]) -> map_insert lt k v m = m ++ [(k, v)].
Proof.
  induction m as [|[k' v'] m IH]; intro S; cbn [map_insert app]; [reflexivity|]. cbn [app] in S. inversion S as [|? ? S' F]; subst.
  rewrite Forall_forall in F. assert (E : lt k' k = true) by (apply (F (k, v)); apply in_or_app; right; left; reflexivity). rewrite E. f_equal. apply IH. exact S'.
Qed.
Lemma is_map_app {K V} (lt : K -> K -> bool) (a b : list (K * V)) : is_map lt (a ++ b) -> is_map lt a /\ is_map lt b.
Proof.
  induction a as [|x a IH]; cbn; intro S; [split; [constructor|exact S]|]. inversion S as [|? ? S' F]; subst. destruct (IH S') as [H1 H2]. split; [|exact H2].
  constructor; [exact H1|]. rewrite Forall_forall in *. intros y Hy. apply F. apply in_or_app. auto.
Qed.
Lemma insert_all {K V} (lt : K -> K -> bool) (H : strict_weak_order lt) : forall (l m : list (K * V)), is_map lt (m ++ l) ->
  fold_left (fun r x => map_insert_pair lt x r) l m = m ++ l.
Proof.
  induction l as [|[k v] l IH]; intros m S; cbn [fold_left]; [rewrite app_nil_r; reflexivity|]. unfold map_insert_pair at 2. cbn [fst snd].
  replace (m ++ (k, v) :: l) with ((m ++ [(k, v)]) ++ l) in * by (rewrite <- app_assoc; reflexivity).
  rewrite map_insert_last; [apply IH; exact S|exact H|]. apply is_map_app in S. apply S.
Qed.
Lemma is_map_filter {K V} (lt : K -> K -> bool) f (m : list (K * V)) : is_map lt m -> is_map lt (filter f m).
Proof.
  induction 1 as [|x m S IH F]; cbn; [constructor|]. destruct (f x); [|exact IH]. constructor; [exact IH|]. rewrite Forall_forall in *. intros y Hy.
  apply filter_In in Hy. apply F. apply Hy.
Qed.
Lemma where_map_ok {K V} (lt : K -> K -> bool) moved p func (a : aggregator (K * V)) : strict_weak_order lt -> is_map lt (elements a) -> p = ByConstRef \/ held a = Borrowed ->
  elements (fst (where_ moved (map_insert_pair lt) p func a)) = filter func (elements a) /\
  (held a = Borrowed -> snd (where_ moved (map_insert_pair lt) p func a) = elements a).
Proof.
  intros H M P. destruct (where_any moved (map_insert_pair lt) p func a P) as [E1 E2]. split; [|exact E2]. rewrite E1, (insert_all lt H); [reflexivity|].
  apply is_map_filter. exact M.
Qed.

(** group_by *)
Section Group.
Context {A K : Type}.
Variable lt : K -> K -> bool.
Hypothesis H : strict_weak_order lt.
Variable key : A -> K.
Variable moved : A -> A.
Notation groups_t := (list (K * list A)).
Definition gstep (ret : groups_t) (v : A) : groups_t := map_modify lt (key v) (fun g => g ++ [v]) (map_insert lt (key v) [] ret).
Lemma group_loop_fold h : forall l ret, fst (group_loop moved lt key h l ret) = fold_left gstep l ret /\ (h = Borrowed -> snd (group_loop moved lt key h l ret) = l).
Proof.
  induction l as [|v l IH]; intro ret; cbn [group_loop fold_left]; [auto|].
  destruct (IH (map_modify lt (key v) (fun g => g ++ [v]) (map_insert lt (key v) [] ret))) as [E1 E2].
  destruct (group_loop moved lt key h l _) as [r l']. cbn [fst snd] in *. split; [exact E1|]. intros ->. cbn [take]. rewrite E2 by reflexivity. reflexivity.
Qed.
Lemma modify_map k (f : list A -> list A) m : is_map lt m ->
  map_modify lt k f m = map (fun p => (fst p, if equivalent lt k (fst p) then f (snd p) else snd p)) m.
Proof.
  induction 1 as [|[k' v] m S IH F]; cbn; [reflexivity|]. destruct (equivalent lt k k') eqn:E; [|rewrite IH; reflexivity]. f_equal.
  rewrite <- (map_id m) at 1. apply map_ext_in. intros [k2 v2] J. rewrite Forall_forall in F. specialize (F _ J). cbn in *.
  destruct (equivalent lt k k2) eqn:E2; [|reflexivity]. exfalso. apply equivalent_same in E. apply equivalent_same in E2.
  destruct (same_trans lt H _ _ _ (same_sym lt _ _ E) E2) as [J1 _]. congruence.
Qed.
Lemma is_map_keys (m m' : groups_t) : map fst m = map fst m' -> is_map lt m -> is_map lt m'.
Proof.
  revert m'. induction m as [|[k v] m IH]; intros [|[k' v'] m'] E S; cbn in E; try discriminate; [constructor|]. injection E as -> E. inversion S as [|? ? S' F]; subst.
  constructor; [apply IH; assumption|]. rewrite Forall_forall in *. intros [k2 v2] J. cbn. apply (in_map fst) in J. rewrite <- E in J. apply in_map_iff in J.
  destruct J as ([k3 v3] & E3 & J). cbn in E3. subst k3. exact (F _ J).
Qed.
Record inv (l : list A) (r : groups_t) : Prop := {
  i_map : is_map lt r;
  i_groups : forall k g, In (k, g) r -> g <> [] /\ g = filter (fun x => equivalent lt (key x) k) l;
  i_all : forall x, In x l -> exists k g, In (k, g) r /\ same lt (key x) k
}.
Lemma same_dec a b : {same lt a b} + {~ same lt a b}.
Proof. unfold same. destruct (lt a b), (lt b a); try (right; intros []; discriminate). left. auto. Qed.
Lemma key_dec k (r : groups_t) : (exists p, In p r /\ same lt k (fst p)) \/ (forall p, In p r -> ~ same lt k (fst p)).
Proof.
  induction r as [|q r [(p & J & E)|IH]]; [right; intros p []|left; exists p; split; [right; exact J|exact E]|].
  destruct (same_dec k (fst q)) as [E|E]; [left; exists q; split; [left; reflexivity|exact E]|]. right. intros p [<-|J]; auto.
Qed.
Lemma gstep_in l r v : inv l r -> forall k g', In (k, g') (gstep r v) <->
  (exists g, In (k, g) r /\ g' = if equivalent lt (key v) k then g ++ [v] else g) \/ (k = key v /\ g' = [v] /\ forall p, In p r -> ~ same lt (key v) (fst p)).
Proof.
  intros I k g'. unfold gstep. rewrite modify_map by (apply insert_map; [exact H|apply I]). rewrite in_map_iff. split.
  - intros ([k1 g1] & E & J). cbn in E. injection E as -> E. apply (insert_in lt H) in J; [|apply I]. destruct J as [J|[J F]].
    + left. exists g1. auto.
    + injection J as -> ->. right. rewrite (proj2 (equivalent_same lt _ _)) in E by (apply same_refl; exact H). auto.
  - intros [(g & J & ->)|(-> & -> & F)].
    + exists (k, g). split; [reflexivity|]. apply (insert_in lt H); [apply I|]. auto.
    + exists (key v, []). cbn. rewrite (proj2 (equivalent_same lt _ _)) by (apply same_refl; exact H). split; [reflexivity|]. apply (insert_in lt H); [apply I|]. auto.
Qed.
Lemma equivalent_sym a b : equivalent lt a b = equivalent lt b a.
Proof. unfold equivalent. apply andb_comm. Qed.
Lemma gstep_inv l r v : inv l r -> inv (l ++ [v]) (gstep r v).
Proof.
  intro I. constructor.
  - unfold gstep. rewrite modify_map by (apply insert_map; [exact H|apply I]). eapply is_map_keys; [|apply (insert_map lt H (key v) [] r (i_map _ _ I))].
    rewrite map_map. reflexivity.
  - intros k g' J. apply (gstep_in l r v I) in J. rewrite filter_app. cbn [filter]. destruct J as [(g & J & ->)|(-> & -> & F)].
    + destruct (i_groups _ _ I _ _ J) as [N E]. rewrite <- E. destruct (equivalent lt (key v) k).
      * split; [destruct g; discriminate|reflexivity].
      * rewrite app_nil_r. auto.
    + rewrite (proj2 (equivalent_same lt _ _)) by (apply same_refl; exact H). split; [discriminate|].
      replace (filter (fun x => equivalent lt (key x) (key v)) l) with (@nil A); [reflexivity|]. symmetry. destruct (filter _ l) as [|x q] eqn:E; [reflexivity|]. exfalso.
      assert (J : In x (filter (fun x => equivalent lt (key x) (key v)) l)) by (rewrite E; left; reflexivity). apply filter_In in J. destruct J as [J1 J2].
      apply equivalent_same in J2. destruct (i_all _ _ I _ J1) as (k & g & J3 & J4). apply (F _ J3). cbn.
      eapply (same_trans lt H); [apply same_sym; exact J2|exact J4].
  - intros x J. apply in_app_or in J. destruct J as [J|[<-|[]]].
    + destruct (i_all _ _ I _ J) as (k & g & J1 & J2). exists k. eexists. split; [apply (gstep_in l r v I); left; exists g; split; [exact J1|reflexivity]|exact J2].
    + destruct (key_dec (key v) r) as [([k g] & J & E)|F].
      * exists k. eexists. split; [apply (gstep_in l r v I); left; exists g; split; [exact J|reflexivity]|exact E].
      * exists (key v), [v]. split; [apply (gstep_in l r v I); right; auto|apply same_refl; exact H].
Qed.
Lemma fold_inv l : inv l (fold_left gstep l []).
Proof.
  induction l as [|v l IH] using rev_ind.
  - constructor; [constructor|intros k g []|intros x []].
  - rewrite fold_left_app. cbn [fold_left]. apply gstep_inv. exact IH.
Qed.
Lemma inv_groups l r : inv l r -> groups lt key l r.
Proof.
  intros [I1 I2 I3]. split; [exact I1|]. split.
  - intros k g J. destruct (I2 k g J) as [N E]. split; [exact N|]. exists (fun x => equivalent lt (key x) k). split; [intro x; apply equivalent_same|exact E].
  - intros x J. destruct (I3 x J) as (k & g & J1 & J2). exists k, g. split; [exact J1|]. split; [|exact J2]. destruct (I2 k g J1) as [_ ->]. apply filter_In.
    split; [exact J|apply equivalent_same; exact J2].
Qed.
Lemma insert_concat k (r : groups_t) : Permutation (concat (map snd (map_insert lt k [] r))) (concat (map snd r)).
Proof.
  induction r as [|[k' g] r IH]; cbn; [constructor|]. destruct (lt k' k); [cbn; apply Permutation_app_head; exact IH|]. destruct (lt k k'); cbn; apply Permutation_refl.
Qed.
Lemma modify_concat k v (r : groups_t) : (exists p, In p r /\ same lt k (fst p)) ->
  Permutation (concat (map snd (map_modify lt k (fun g => g ++ [v]) r))) (concat (map snd r) ++ [v]).
Proof.
  induction r as [|[k' g] r IH]; intros (p & J & E); [destruct J|]. cbn [map_modify]. destruct (equivalent lt k k') eqn:Q; cbn [map snd concat].
  - rewrite <- !app_assoc. apply Permutation_app_head. apply Permutation_app_comm.
  - rewrite <- app_assoc. apply Permutation_app_head. apply IH. destruct J as [<-|J]; [|exists p; auto]. cbn in E. apply equivalent_same in E. congruence.
Qed.
Lemma fold_concat l : Permutation (concat (map snd (fold_left gstep l []))) l.
Proof.
  induction l as [|v l IH] using rev_ind; [constructor|]. rewrite fold_left_app. cbn [fold_left]. pose proof (fold_inv l) as I.
  set (r := fold_left gstep l []) in *. unfold gstep. rewrite modify_concat; [rewrite insert_concat; apply Permutation_app_tail; exact IH|].
  destruct (key_dec (key v) r) as [(p & J & E)|F].
  - exists p. split; [|exact E]. apply (insert_in lt H); [apply I|]. auto.
  - exists (key v, []). split; [|apply same_refl; exact H]. apply (insert_in lt H); [apply I|]. auto.
Qed.
Lemma group_ok a : groups lt key (elements a) (elements (fst (group_by moved lt key a))) /\
  Permutation (concat (map snd (elements (fst (group_by moved lt key a))))) (elements a) /\
  (held a = Borrowed -> snd (group_by moved lt key a) = elements a).
Proof.
  unfold group_by. destruct (group_loop_fold (held a) (elements a) []) as [E1 E2]. destruct (group_loop moved lt key (held a) (elements a) []) as [r l]. cbn [fst snd elements] in *.
  rewrite E1. split; [apply inv_groups, fold_inv|]. split; [apply fold_concat|exact E2].
Qed.
End Group.

From Verif Require Import Base SortSpec UtilModel UtilSpec LinqModel LinqSpec LinqProofs LinqEffModel LinqEffSpec.

Section LinqEff.
Context {W A : Type}.
Variable copy : W -> A -> W * outcome unit.
Variable moved : A -> A.

Lemma transfer_when h w e : transfer copy h w e = when (borrowed h) (copy w e) w.
Proof. destruct h; reflexivity. Qed.
Lemma call_rvalue_after {B} p (func : W -> A -> W * outcome B) h w e :
  call_rvalue copy p func h w e = after (when (by_value p && borrowed h) (copy w e) w) (fun w _ => func w e).
Proof. unfold call_rvalue. destruct p, h; reflexivity. Qed.

(** go_on after a compound step *)
Lemma go_on_ok {X Y C} w (x : X) (left : C) (k : W -> X -> W * C * outcome Y) : go_on (w, Ok x) left k = k w x.
Proof. reflexivity. Qed.
Lemma go_on_cases {X Y C} (m : W * outcome X) (left : C) (k : W -> X -> W * C * outcome Y) :
  (exists w x, m = (w, Ok x) /\ go_on m left k = k w x) \/
  (exists w r o, m = (w, r) /\ same_failure r o /\ go_on m left k = (w, left, o)).
Proof.
  destruct m as [w [x|e|r| | |]]; [left; eauto|..]; right.
  - exists w, (Throw e), (Throw e). repeat split; constructor.
  - exists w, (UB r), (UB r). repeat split; constructor.
  - exists w, Abort, Abort. repeat split; constructor.
  - exists w, Terminate, Terminate. repeat split; constructor.
  - exists w, Diverge, Diverge. repeat split; constructor.
Qed.
Lemma finish_eq {X Y} (f : X -> Y) front (m : W * list A * outcome X) :
  finish f front m = (fst (fst m), front ++ snd (fst m), x <- snd m ;; Ok (f x)).
Proof. destruct m as [[w l] r]. reflexivity. Qed.
Lemma same_bind {X Y Z} (r : outcome X) (o : outcome Y) (f : Y -> Z) : same_failure r o -> same_failure r (y <- o ;; Ok (f y)).
Proof. destruct 1; constructor. Qed.

Lemma after_fail {X Y Z} (r : outcome X) (o : outcome Y) : same_failure r o ->
  exists r' : outcome Z, same_failure r' o /\ forall (w : W) k, after (w, r) k = (w, r').
Proof.
  destruct 1 as [e|r| | |]; [exists (Throw e)|exists (UB r)|exists Abort|exists Terminate|exists Diverge]; split; constructor.
Qed.

(** Going on with the rest after one element *)
Lemma traverses_cons {R Y Z} (step : W -> A -> W * outcome R) left failed (result : list R -> Y -> Prop) (result' : list R -> Z -> Prop) f w x r w1 l w' l' o :
  step w x = (w1, Ok r) -> (forall rs y, result rs y -> result' (r :: rs) (f y)) ->
  traverses step left failed result w1 l w' l' o ->
  traverses step left failed result' w (x :: l) w' (left x r :: l') (y <- o ;; Ok (f y)).
Proof.
  intros E F [(rs & y & V & -> & -> & Q)|(done & x' & rest & rs & w2 & r' & -> & V & S & Sf & ->)].
  - left. exists (r :: rs), (f y). repeat split; eauto using visits_cons.
  - right. exists (x :: done), x', rest, (r :: rs), w2, r'. repeat split; eauto using visits_cons, same_bind.
Qed.
Lemma traverses_fail {R Y} (step : W -> A -> W * outcome R) left failed (result : list R -> Y -> Prop) w x l w' r o :
  step w x = (w', r) -> same_failure r o -> traverses step left failed result w (x :: l) w' (failed x :: l) o.
Proof. intros E S. right. exists [], x, l, [], w, r. repeat split; auto using visits_nil. Qed.
Lemma traverses_map {R Y Z} (step : W -> A -> W * outcome R) left failed (result : list R -> Y -> Prop) (result' : list R -> Z -> Prop) f w l w' l' o :
  (forall rs y, result rs y -> result' rs (f y)) ->
  traverses step left failed result w l w' l' o -> traverses step left failed result' w l w' l' (y <- o ;; Ok (f y)).
Proof.
  intros F [(rs & y & V & -> & -> & Q)|(done & x' & rest & rs & w2 & r' & -> & V & S & Sf & ->)].
  - left. exists rs, (f y). repeat split; auto.
  - right. exists done, x', rest, rs, w2, r'. repeat split; eauto using same_bind.
Qed.

(** select *)
Lemma pass_give {R} p h x (r : R) : pass moved p h x = give moved p h x r.
Proof. destruct p, h; reflexivity. Qed.

Lemma select_loop_run {B} p (func : W -> A -> W * outcome B) h : forall l i w w' l' o,
  select_eff_loop copy moved p (fun _ => func) h i w l = (w', l', o) ->
  traverses (select_step copy p func h) (give moved p h) (fun x => give moved p h x tt) eq w l w' l' o.
Proof.
  induction l as [|e l IH]; intros i w w' l' o; cbn [select_eff_loop].
  - intros [= <- <- <-]. left. exists [], []. repeat split. constructor.
  - rewrite call_rvalue_after. fold (select_step copy p func h w e).
    edestruct (@go_on_cases) as [(w1 & x & E & ->)|(w1 & r & o1 & E & S & ->)].
    + rewrite finish_eq. destruct (select_eff_loop copy moved p (fun _ => func) h _ w1 l) as [[w2 l2] o2] eqn:Q. cbn [fst snd].
      intros [= <- <- <-]. rewrite (pass_give p h e x). cbn [app]. eapply traverses_cons; [exact E| |eapply IH; exact Q].
      intros rs y ->. reflexivity.
    + intros [= <- <- <-]. rewrite (pass_give p h e tt). apply (traverses_fail (select_step copy p func h) (give moved p h) (fun x => give moved p h x tt) eq w e l w1 r o1 E S).
Qed.
Lemma select_eff_run {B} p (func : W -> A -> W * outcome B) w a w' l' o : select_eff copy moved p func w a = (w', l', o) ->
  traverses (select_step copy p func (held a)) (give moved p (held a)) (fun x => give moved p (held a) x tt) (fun rs y => y = linq_rvalue rs) w (elements a) w' l' o.
Proof.
  unfold select_eff. rewrite finish_eq. destruct (select_eff_loop _ _ _ _ _ _ _ _) as [[w2 l2] o2] eqn:Q. intros [= <- <- <-].
  eapply traverses_map; [|eapply select_loop_run; exact Q]. intros rs y ->. reflexivity.
Qed.
End LinqEff.

(** select with an index: the same for pairs of an index and an element *)
Lemma indexed_cons {A} i (x : A) l : indexed i (x :: l) = (i, x) :: indexed (i + 1) l.
Proof.
  unfold indexed. cbn [length seq map combine]. rewrite N.add_0_r. f_equal. f_equal. rewrite <- seq_shift, map_map. apply map_ext. intros j. lia.
Qed.
Lemma indexed_snd {A} : forall (l : list A) i, map snd (indexed i l) = l.
Proof. induction l as [|x l IH]; intro i; [reflexivity|]. rewrite indexed_cons. cbn. f_equal. apply IH. Qed.

Section Index.
Context {W A B : Type}.
Variable copy : W -> A -> W * outcome unit.
Variable moved : A -> A.
Variables (p : param) (h : hold) (func : N -> W -> A -> W * outcome B).
Let copy2 (w : W) (x : N * A) := copy w (snd x).
Let moved2 (x : N * A) := (fst x, moved (snd x)).
Let func2 (w : W) (x : N * A) := func (fst x) w (snd x).
Lemma select_index_pairs : forall l i w, (i + N.of_nat (length l) < 2 ^ 64)%N ->
  let '(w', l', o) := select_eff_loop copy2 moved2 p (fun _ => func2) h i w (indexed i l) in
  select_eff_loop copy moved p func h i w l = (w', map snd l', o).
Proof.
  induction l as [|e l IH]; intros i w L; [reflexivity|]. rewrite indexed_cons. cbn [select_eff_loop].
  assert (E : call_rvalue copy2 p func2 h w (i, e) = call_rvalue copy p (func i) h w e).
  { rewrite !call_rvalue_after. reflexivity. }
  rewrite E. cbn [length] in L. rewrite N.mod_small by lia.
  assert (P : snd (pass moved2 p h (i, e)) = pass moved p h e) by (destruct p, h; reflexivity).
  destruct (call_rvalue copy p (func i) h w e) as [w1 [x|?|?| | |]] eqn:Q; cbn [go_on]; rewrite ?P, ?indexed_snd; cbn [map]; rewrite ?P, ?indexed_snd; try reflexivity.
  specialize (IH (i + 1)%N w1 ltac:(lia)). destruct (select_eff_loop copy2 _ _ _ _ _ _ _) as [[w2 l2] o2]. rewrite IH. cbn. rewrite P. reflexivity.
Qed.
End Index.
Lemma select_index_eff_run {W A B} copy (moved : A -> A) p (func : N -> W -> A -> W * outcome B) w a w' l' o :
  (N.of_nat (length (elements a)) < 2 ^ 64)%N -> select_index_eff copy moved p func w a = (w', l', o) ->
  exists l2, l' = map snd l2 /\
  traverses (select_step (fun w x => copy w (snd x)) p (fun w x => func (fst x) w (snd x)) (held a))
    (give (fun x => (fst x, moved (snd x))) p (held a)) (fun x => give (fun x => (fst x, moved (snd x))) p (held a) x tt)
    (fun rs y => y = linq_rvalue rs) w (indexed 0 (elements a)) w' l2 o.
Proof.
  intros L. unfold select_index_eff. rewrite finish_eq. intro E.
  pose proof (select_index_pairs copy moved p (held a) func (elements a) 0 w ltac:(lia)) as Q.
  destruct (select_eff_loop (fun w0 x => copy w0 (snd x)) _ _ _ _ _ _ _) as [[w2 l2] o2] eqn:R. rewrite Q in E. injection E as <- <- <-.
  exists l2. split; [reflexivity|]. eapply traverses_map; [|eapply select_loop_run; exact R]. intros rs y ->. reflexivity.
Qed.

Section LinqEff2.
Context {W A : Type}.
Variable copy : W -> A -> W * outcome unit.
Variable moved : A -> A.

(** where *)
Lemma where_loop_run insert p func h : forall l w ret w' l' o,
  where_eff_loop copy moved insert p func h w l ret = (w', l', o) ->
  traverses (where_step copy p func h) (where_left moved p h) (fun x => give moved p h x tt)
    (fun bs y => y = fold_left (fun r x => insert x r) (map (fun x => give moved p h x tt) (chosen l bs)) ret) w l w' l' o.
Proof.
  induction l as [|e l IH]; intros w ret w' l' o; cbn [where_eff_loop].
  - intros [= <- <- <-]. left. exists [], ret. repeat split. constructor.
  - rewrite call_rvalue_after, (pass_give moved p h e tt).
    assert (G : borrowed h = true -> give moved p h e tt = e) by (unfold give; intros ->; rewrite andb_false_r; reflexivity).
    edestruct (@go_on_cases) as [(w1 & b & E & ->)|(w1 & r & o1 & E & S & ->)].
    + destruct b.
      * rewrite transfer_when. edestruct (@go_on_cases) as [(w2 & u & E2 & ->)|(w2 & r & o1 & E2 & S & ->)].
        -- rewrite finish_eq. destruct (where_eff_loop _ _ _ _ _ _ _ _ _) as [[w3 l3] o3] eqn:Q. intros [= <- <- <-]. cbn [app fst snd].
           replace (take moved h (give moved p h e tt)) with (where_left moved p h e true) by (unfold where_left; destruct h; reflexivity).
           eapply (traverses_cons _ _ _ _ _ (fun y => y)); [| |eapply IH; exact Q].
           ++ unfold where_step. destruct (after _ _) as [w4 o4] eqn:E4 in E. injection E as -> ->.
              destruct (when (by_value p && borrowed h) (copy w e) w) as [w5 [u5|?|?| | |]]; cbn [after] in *; try discriminate E4.
              rewrite E4. cbn [after andb]. destruct (borrowed h) eqn:B; [rewrite <- (G eq_refl) at 1|]; cbn [when] in *; rewrite ?E2; [reflexivity|].
              injection E2 as -> _. reflexivity.
           ++ intros rs y ->. cbn. reflexivity.
        -- intros [= <- <- <-]. destruct (after_fail (W := W) (Z := bool) r o1 S) as (r' & S' & AF).
           eapply (traverses_fail _ _ (fun x => give moved p h x tt)); [|exact S'].
           unfold where_step. destruct (when (by_value p && borrowed h) (copy w e) w) as [w5 [u5|?|?| | |]]; cbn [after] in *; try discriminate E.
           rewrite E. cbn [after andb]. destruct (borrowed h) eqn:B; cbn [when] in *; [|injection E2 as _ <-; inversion S].
           rewrite (G eq_refl) in E2. rewrite E2. apply AF.
      * rewrite finish_eq. destruct (where_eff_loop _ _ _ _ _ _ _ _ _) as [[w3 l3] o3] eqn:Q. intros [= <- <- <-]. cbn [app fst snd].
        change (give moved p h e tt) with (where_left moved p h e false) at 1.
        eapply (traverses_cons _ _ _ _ _ (fun y => y)); [| |eapply IH; exact Q].
        -- unfold where_step. destruct (when (by_value p && borrowed h) (copy w e) w) as [w5 [u5|?|?| | |]]; cbn [after] in *; try discriminate E.
           rewrite E. reflexivity.
        -- intros rs y ->. reflexivity.
    + intros [= <- <- <-].
      destruct (when (by_value p && borrowed h) (copy w e) w) as [w5 r5] eqn:E5.
      eapply (traverses_fail _ _ (fun x => give moved p h x tt)); [unfold where_step; rewrite E5|exact S].
      destruct r5; cbn [after] in *; try (rewrite E; destruct S; reflexivity); injection E as -> <-; reflexivity.
Qed.
Lemma where_eff_run insert p func w a w' l' o : where_eff copy moved insert p func w a = (w', l', o) ->
  traverses (where_step copy p func (held a)) (where_left moved p (held a)) (fun x => give moved p (held a) x tt)
    (fun bs y => y = linq_rvalue (fold_left (fun r x => insert x r) (map (fun x => give moved p (held a) x tt) (chosen (elements a) bs)) []))
    w (elements a) w' l' o.
Proof.
  unfold where_eff. rewrite finish_eq. destruct (where_eff_loop _ _ _ _ _ _ _ _ _) as [[w2 l2] o2] eqn:Q. intros [= <- <- <-].
  eapply traverses_map; [|eapply where_loop_run; exact Q]. intros rs y ->. reflexivity.
Qed.
End LinqEff2.

(** group_by: the same as grouping pairs of a key and an element *)
Definition drop_keys {K A} (g : list (K * list (K * A))) : list (K * list A) := map (fun kg => (fst kg, map snd (snd kg))) g.
Lemma drop_insert {K A} (lt : K -> K -> bool) k : forall g : list (K * list (K * A)), drop_keys (map_insert lt k [] g) = map_insert lt k [] (drop_keys g).
Proof.
  induction g as [|[k' v] g IH]; [reflexivity|]. cbn. destruct (lt k k'), (lt k' k); cbn; try reflexivity; f_equal; exact IH.
Qed.
Lemma drop_modify {K A} (lt : K -> K -> bool) k (x : A) : forall g : list (K * list (K * A)),
  drop_keys (map_modify lt k (fun v => v ++ [(k, x)]) g) = map_modify lt k (fun v => v ++ [x]) (drop_keys g).
Proof.
  induction g as [|[k' v] g IH]; [reflexivity|]. cbn. destruct (equivalent lt k k'); cbn; [rewrite map_app; reflexivity|]. f_equal. exact IH.
Qed.

Section LinqEff3.
Context {W A K : Type}.
Variable copy : W -> A -> W * outcome unit.
Variable moved : A -> A.
Variables (p : param) (lt : K -> K -> bool) (func : W -> A -> W * outcome K).
Lemma group_loop_run h : forall l w g w' l' o,
  group_eff_loop copy moved p lt func h w l (drop_keys g) = (w', l', o) ->
  traverses (group_step copy p func h) (group_left moved h) (fun x => x)
    (fun ks y => y = drop_keys (fst (group_loop (fun x => x) lt fst Owned (combine ks l) g))) w l w' l' o.
Proof.
  induction l as [|v l IH]; intros w g w' l' o; cbn [group_eff_loop].
  - intros [= <- <- <-]. left. exists [], (drop_keys g). repeat split. constructor.
  - unfold call_lvalue. rewrite call_rvalue_after. cbn [borrowed]. rewrite andb_true_r.
    edestruct (@go_on_cases) as [(w1 & k & E & ->)|(w1 & r & o1 & E & S & ->)].
    + rewrite transfer_when. edestruct (@go_on_cases) as [(w2 & u & E2 & ->)|(w2 & r & o1 & E2 & S & ->)].
      * rewrite finish_eq, <- drop_insert, <- drop_modify. destruct (group_eff_loop _ _ _ _ _ _ _ _ _) as [[w3 l3] o3] eqn:Q. intros [= <- <- <-]. cbn [app fst snd].
        replace (take moved h v) with (group_left moved h v k) by (destruct h; reflexivity).
        eapply (traverses_cons _ _ _ _ _ (fun y => y)); [| |eapply IH; exact Q].
        -- unfold group_step. destruct (when (by_value p) (copy w v) w) as [w5 [u5|?|?| | |]]; cbn [after] in *; try discriminate E.
           rewrite E. cbn [after]. rewrite E2. reflexivity.
        -- intros rs y ->. cbn [combine group_loop fst]. destruct (group_loop _ _ _ _ (combine rs l) _); reflexivity.
      * intros [= <- <- <-]. destruct (after_fail (W := W) (Z := K) r o1 S) as (r' & S' & AF).
        eapply (traverses_fail _ _ (fun x => x)); [|exact S'].
        unfold group_step. destruct (when (by_value p) (copy w v) w) as [w5 [u5|?|?| | |]]; cbn [after] in *; try discriminate E.
        rewrite E. cbn [after]. rewrite E2. apply AF.
    + intros [= <- <- <-].
      destruct (when (by_value p) (copy w v) w) as [w5 r5] eqn:E5.
      eapply (traverses_fail _ _ (fun x => x)); [unfold group_step; rewrite E5|exact S].
      destruct r5; cbn [after] in *; try (rewrite E; destruct S; reflexivity); injection E as -> <-; reflexivity.
Qed.
Lemma group_by_eff_run w a w' l' o : strict_weak_order lt -> group_by_eff copy moved p lt func w a = (w', l', o) ->
  traverses (group_step copy p func (held a)) (group_left moved (held a)) (fun x => x)
    (fun ks y => exists g, groups lt fst (combine ks (elements a)) g /\ y = linq_rvalue (map (fun kg => (fst kg, map snd (snd kg))) g))
    w (elements a) w' l' o.
Proof.
  intros SW. unfold group_by_eff. rewrite finish_eq. destruct (group_eff_loop _ _ _ _ _ _ _ _ _) as [[w2 l2] o2] eqn:Q. intros [= <- <- <-].
  eapply traverses_map; [|apply (group_loop_run _ _ _ []); exact Q]. intros ks y ->.
  eexists. split; [|reflexivity].
  pose proof (group_ok lt SW fst (fun x => x) (linq_rvalue (combine ks (elements a)))) as [G _].
  unfold group_by in G. cbn [held elements linq_rvalue] in G. destruct (group_loop _ _ _ _ _ _). exact G.
Qed.

(** order_by *)
Lemma copy_all_run : forall l w w' r, copy_all copy w l = (w', r) ->
  (r = Ok tt /\ exists us, visits copy w l w' us) \/
  (exists done x rest us w1, l = done ++ x :: rest /\ visits copy w done w1 us /\ copy w1 x = (w', r) /\ same_failure r r).
Proof.
  induction l as [|x l IH]; intros w w' r; cbn [copy_all].
  - intros [= <- <-]. left. split; [reflexivity|]. exists []. constructor.
  - destruct (copy w x) as [w1 r1] eqn:E. destruct r1 as [[]|e|u| | |];
      try (intros [= <- <-]; right; exists [], x, l, [], w; repeat split; auto using visits_nil; constructor).
    intro Q. destruct (IH _ _ _ Q) as [(-> & us & V)|(done & y & rest & us & w2 & -> & V & C & S)].
    + left. split; [reflexivity|]. exists (tt :: us). econstructor; eauto.
    + right. exists (x :: done), y, rest, (tt :: us), w2. repeat split; auto. econstructor; eauto.
Qed.
Lemma comparer_ok key w x y w' b : (forall w x w' k, func w x = (w', Ok k) -> k = key x) ->
  comparer lt func w x y = (w', Ok b) -> b = lt (key x) (key y).
Proof.
  intro H. unfold comparer. destruct (func w x) as [w1 r1] eqn:E1. destruct r1; try discriminate.
  destruct (func w1 y) as [w2 r2] eqn:E2. destruct r2; cbn; try discriminate. intros [= <- <-].
  rewrite <- (H _ _ _ _ E1), <- (H _ _ _ _ E2). reflexivity.
Qed.
Lemma comparer_fail w x y w' r (o : outcome unit) : comparer lt func w x y = (w', r) -> same_failure r o ->
  exists w1 z r', func w1 z = (w', r') /\ same_failure r' o.
Proof.
  unfold comparer. destruct (func w x) as [w1 r1] eqn:E1. destruct r1;
    try (intros [= <- <-] S; inversion S; subst; do 3 eexists; (split; [exact E1|constructor])).
  destruct (func w1 y) as [w2 r2] eqn:E2. destruct r2; cbn; intros [= <- <-] S; inversion S; subst; do 3 eexists; (split; [exact E2|constructor]).
Qed.
Lemma same_failure_trans {X Y Z} (r : outcome X) (o : outcome Y) (f : Y -> outcome Z) : same_failure r o -> same_failure r (y <- o ;; f y).
Proof. destruct 1; constructor. Qed.
Lemma swo_key (key : A -> K) : strict_weak_order lt -> strict_weak_order (fun x y => lt (key x) (key y)).
Proof.
  intros (I & T & E). split; [|split]; intros; eauto.
Qed.
Lemma order_by_eff_run std_sort key w a w' l' o : sorts_eff std_sort -> strict_weak_order lt ->
  (forall w x w' k, func w x = (w', Ok k) -> k = key x) ->
  order_by_eff copy std_sort lt func w a = (w', l', o) ->
  (held a = Borrowed -> l' = elements a) /\
  ((exists y, o = Ok (linq_rvalue y) /\ Permutation y (elements a) /\ sorted (fun x y => lt (key x) (key y)) y) \/
   (exists w1 x r, func w1 x = (w', r) /\ same_failure r o) \/
   (held a = Borrowed /\ exists done x rest us w1 r, elements a = done ++ x :: rest /\ visits copy w done w1 us /\ copy w1 x = (w', r) /\ same_failure r o)).
Proof.
  intros SS SW H. unfold order_by_eff.
  assert (L : forall w l w' l' r, std_sort (comparer lt func) w l = (w', l', r) ->
    (r = Ok tt /\ Permutation l' l /\ sorted (fun x y => lt (key x) (key y)) l') \/ (exists w1 x r', func w1 x = (w', r') /\ same_failure r' r)).
  { intros u l u' m r Q. destruct (SS (comparer lt func) (fun x y => lt (key x) (key y)) (swo_key key SW)
      (fun w x y w' b => comparer_ok key w x y w' b H) _ _ _ _ _ Q) as [C|(w1 & x & y & r' & C & S)]; [left; exact C|right].
    eapply comparer_fail; eassumption. }
  destruct (held a).
  - edestruct (@go_on_cases) as [(w1 & u & E & ->)|(w1 & r & o1 & E & S & ->)].
    + destruct (std_sort (comparer lt func) w1 (elements a)) as [[w2 l2] r2] eqn:Q. intros [= <- <- <-]. split; [reflexivity|].
      destruct (L _ _ _ _ _ Q) as [(-> & P & So)|(w3 & x & r' & F & S)]; [left; exists l2; auto|right; left].
      exists w3, x, r'. split; [exact F|]. apply same_failure_trans. exact S.
    + intros [= <- <- <-]. split; [reflexivity|]. right. right. split; [reflexivity|].
      destruct (copy_all_run _ _ _ _ E) as [(-> & _)|(done & x & rest & us & w2 & -> & V & C & _)]; [inversion S|].
      exists done, x, rest, us, w2, r. repeat split; auto.
  - destruct (std_sort (comparer lt func) w (elements a)) as [[w2 l2] r2] eqn:Q. intro D. split; [discriminate|].
    destruct (L _ _ _ _ _ Q) as [(-> & P & So)|(w3 & x & r' & F & S)].
    + injection D as <- <- <-. left. exists l2. auto.
    + right. left. exists w3, x, r'. destruct S; injection D as <- <- <-; (split; [exact F|constructor]).
Qed.
End LinqEff3.

(** Functions without effects *)
Section Pure.
Context {W A : Type}.
Variable moved : A -> A.
Let nocopy (w : W) (_ : A) : W * outcome unit := (w, Ok tt).
Let lift {B} (f : A -> B) (w : W) (x : A) : W * outcome B := (w, Ok (f x)).
Lemma call_pure {B} p (f : A -> B) h w e : call_rvalue nocopy p (lift f) h w e = (w, Ok (f e)).
Proof. destruct p, h; reflexivity. Qed.
Lemma select_pure {B} p (f : A -> B) w a : select_eff nocopy moved p (lift f) w a = (w, snd (select moved p f a), Ok (fst (select moved p f a))).
Proof.
  unfold select_eff, select. enough (Q : forall l i, select_eff_loop nocopy moved p (fun _ => lift f) (held a) i w l =
    (w, snd (select_loop moved p f (held a) l), Ok (fst (select_loop moved p f (held a) l)))).
  { rewrite Q. destruct (select_loop moved p f (held a) (elements a)). reflexivity. }
  induction l as [|e l IH]; intro i; [reflexivity|]. cbn [select_eff_loop select_loop]. rewrite call_pure. cbn [go_on]. rewrite IH.
  destruct (select_loop moved p f (held a) l). reflexivity.
Qed.
Lemma select_index_pure {B} p (f : A -> N -> B) w a :
  select_index_eff nocopy moved p (fun i => lift (fun x => f x i)) w a = (w, snd (select_index moved p f a), Ok (fst (select_index moved p f a))).
Proof.
  unfold select_index_eff, select_index. enough (Q : forall l i, select_eff_loop nocopy moved p (fun i => lift (fun x => f x i)) (held a) i w l =
    (w, snd (select_index_loop moved p f (held a) l i), Ok (fst (select_index_loop moved p f (held a) l i)))).
  { rewrite Q. destruct (select_index_loop moved p f (held a) (elements a) 0). reflexivity. }
  induction l as [|e l IH]; intro i; [reflexivity|]. cbn [select_eff_loop select_index_loop]. rewrite call_pure. cbn [go_on]. rewrite IH.
  destruct (select_index_loop moved p f (held a) l _). reflexivity.
Qed.
Lemma where_pure insert p f w a :
  where_eff nocopy moved insert p (lift f) w a = (w, snd (where_ moved insert p f a), Ok (fst (where_ moved insert p f a))).
Proof.
  unfold where_eff, where_. enough (Q : forall l ret, where_eff_loop nocopy moved insert p (lift f) (held a) w l ret =
    (w, snd (where_loop moved insert p f (held a) l ret), Ok (fst (where_loop moved insert p f (held a) l ret)))).
  { rewrite Q. destruct (where_loop moved insert p f (held a) (elements a) []). reflexivity. }
  induction l as [|e l IH]; intro ret; [reflexivity|]. cbn [where_eff_loop where_loop]. rewrite call_pure. cbn [go_on].
  destruct (f e).
  - replace (transfer nocopy (held a) w (pass moved p (held a) e)) with (w, Ok tt) by (destruct (held a); reflexivity). cbn [go_on]. rewrite IH.
    destruct (where_loop moved insert p f (held a) l _). reflexivity.
  - rewrite IH. destruct (where_loop moved insert p f (held a) l _). reflexivity.
Qed.
Lemma group_by_pure {K} p (lt : K -> K -> bool) f w a :
  group_by_eff nocopy moved p lt (lift f) w a = (w, snd (group_by moved lt f a), Ok (fst (group_by moved lt f a))).
Proof.
  unfold group_by_eff, group_by. enough (Q : forall l ret, group_eff_loop nocopy moved p lt (lift f) (held a) w l ret =
    (w, snd (group_loop moved lt f (held a) l ret), Ok (fst (group_loop moved lt f (held a) l ret)))).
  { rewrite Q. destruct (group_loop moved lt f (held a) (elements a) []). reflexivity. }
  induction l as [|e l IH]; intro ret; [reflexivity|]. cbn [group_eff_loop group_loop]. unfold call_lvalue. rewrite call_pure. cbn [go_on].
  replace (transfer nocopy (held a) w e) with (w, Ok tt) by (destruct (held a); reflexivity). cbn [go_on]. rewrite IH.
  destruct (group_loop moved lt f (held a) l _). reflexivity.
Qed.
End Pure.

(** An owned collection is not copied *)
Section NoCopy.
Context {W A : Type}.
Variables copy copy' : W -> A -> W * outcome unit.
Variable moved : A -> A.
Lemma call_owned {B} p (f : W -> A -> W * outcome B) w e : call_rvalue copy p f Owned w e = call_rvalue copy' p f Owned w e.
Proof. destruct p; reflexivity. Qed.
Lemma go_on_ext {X Y C} (m : W * outcome X) (left : C) (k k' : W -> X -> W * C * outcome Y) :
  (forall w x, k w x = k' w x) -> go_on m left k = go_on m left k'.
Proof. intro H. destruct m as [w [x|?|?| | |]]; cbn; auto. Qed.
Lemma select_loop_owned {B} p (f : N -> W -> A -> W * outcome B) : forall l i w,
  select_eff_loop copy moved p f Owned i w l = select_eff_loop copy' moved p f Owned i w l.
Proof.
  induction l as [|e l IH]; intros i w; [reflexivity|]. cbn [select_eff_loop]. rewrite call_owned. apply go_on_ext. intros w1 x. rewrite IH. reflexivity.
Qed.
Lemma where_loop_owned insert p f : forall l w ret,
  where_eff_loop copy moved insert p f Owned w l ret = where_eff_loop copy' moved insert p f Owned w l ret.
Proof.
  induction l as [|e l IH]; intros w ret; [reflexivity|]. cbn [where_eff_loop]. rewrite call_owned. apply go_on_ext. intros w1 [|]; rewrite ?IH; [|reflexivity].
  cbn [transfer go_on]. rewrite IH. reflexivity.
Qed.
Lemma group_loop_owned {K} (lt : K -> K -> bool) f : forall l w ret,
  group_eff_loop copy moved ByConstRef lt f Owned w l ret = group_eff_loop copy' moved ByConstRef lt f Owned w l ret.
Proof.
  induction l as [|e l IH]; intros w ret; [reflexivity|]. cbn [group_eff_loop]. unfold call_lvalue. rewrite !call_rvalue_after. cbn [by_value andb when].
  apply go_on_ext. intros w1 k. cbn [transfer go_on]. rewrite IH. reflexivity.
Qed.
Lemma owned_uncopied w a : held a = Owned ->
  (forall B p (f : W -> A -> W * outcome B), select_eff copy moved p f w a = select_eff copy' moved p f w a) /\
  (forall B p (f : N -> W -> A -> W * outcome B), select_index_eff copy moved p f w a = select_index_eff copy' moved p f w a) /\
  (forall insert p f, where_eff copy moved insert p f w a = where_eff copy' moved insert p f w a) /\
  (forall K (lt : K -> K -> bool) f, group_by_eff copy moved ByConstRef lt f w a = group_by_eff copy' moved ByConstRef lt f w a) /\
  (forall K std_sort (lt : K -> K -> bool) f, order_by_eff copy std_sort lt f w a = order_by_eff copy' std_sort lt f w a).
Proof.
  intro H. repeat split; intros.
  - unfold select_eff. rewrite H, select_loop_owned. reflexivity.
  - unfold select_index_eff. rewrite H, select_loop_owned. reflexivity.
  - unfold where_eff. rewrite H, where_loop_owned. reflexivity.
  - unfold group_by_eff. rewrite H, group_loop_owned. reflexivity.
  - unfold order_by_eff. rewrite H. reflexivity.
Qed.
End NoCopy.

(** A borrowed collection is unchanged *)
Section Borrowed.
Context {W A : Type}.
Lemma visits_length {X R} (step : W -> X -> W * outcome R) w l w' rs : visits step w l w' rs -> length rs = length l.
Proof. induction 1; cbn; congruence. Qed.
Lemma each_id {X R} (left : X -> R -> X) : (forall x r, left x r = x) -> forall l rs, length rs = length l -> each left l rs = l.
Proof.
  intros H. unfold each. induction l as [|x l IH]; intros [|r rs] L; cbn in *; try discriminate; [reflexivity|]. rewrite H, IH by congruence. reflexivity.
Qed.
Lemma traverses_same {X R Y} (step : W -> X -> W * outcome R) left failed (result : list R -> Y -> Prop) w l w' l' o :
  (forall x r, left x r = x) -> (forall x, failed x = x) -> traverses step left failed result w l w' l' o -> l' = l.
Proof.
  intros H F [(rs & y & V & -> & _)|(done & x & rest & rs & w1 & r & -> & V & _ & _ & ->)]; apply visits_length in V.
  - apply each_id; assumption.
  - rewrite F, each_id by assumption. reflexivity.
Qed.
End Borrowed.

Section All.
Context {W A : Type}.
Variable copy : W -> A -> W * outcome unit.
Variable moved : A -> A.
Lemma fold_push_end : forall (l r : list A), fold_left (fun r x => push_end x r) l r = r ++ l.
Proof. unfold push_end. induction l as [|x l IH]; intro r; cbn [fold_left]; [rewrite app_nil_r; reflexivity|]. rewrite IH, <- app_assoc. reflexivity. Qed.
Lemma where_seq_run p func w a w' l' o : where_eff copy moved push_end p func w a = (w', l', o) ->
  traverses (where_step copy p func (held a)) (where_left moved p (held a)) (fun x => give moved p (held a) x tt)
    (fun bs y => y = linq_rvalue (map (fun x => give moved p (held a) x tt) (chosen (elements a) bs))) w (elements a) w' l' o.
Proof.
  intro E. apply where_eff_run in E. destruct E as [(rs & y & V & L & O & R)|F]; [left|right; exact F].
  rewrite fold_push_end in R. exists rs, y. repeat split; assumption.
Qed.
Lemma borrowed_unchanged w a : held a = Borrowed ->
  (forall B p (f : W -> A -> W * outcome B), snd (fst (select_eff copy moved p f w a)) = elements a) /\
  (forall B p (f : N -> W -> A -> W * outcome B), snd (fst (select_index_eff copy moved p f w a)) = elements a) /\
  (forall insert p f, snd (fst (where_eff copy moved insert p f w a)) = elements a) /\
  (forall K p (lt : K -> K -> bool) f, snd (fst (group_by_eff copy moved p lt f w a)) = elements a) /\
  (forall K std_sort (lt : K -> K -> bool) f, snd (fst (order_by_eff copy std_sort lt f w a)) = elements a).
Proof.
  intro H. assert (G : forall p R x (r : R), give moved p Borrowed x r = x) by (intros; unfold give; cbn; rewrite andb_false_r; reflexivity).
  repeat split; intros.
  - destruct (select_eff copy moved p f w a) as [[w' l'] o] eqn:E. apply select_eff_run in E. rewrite H in E.
    apply traverses_same in E; auto.
  - unfold select_index_eff. rewrite finish_eq, H. cbn [fst snd app]. generalize 0%N as i. generalize (elements a) as l. intro l. revert w.
    induction l as [|e l IH]; intros w i; [reflexivity|]. cbn [select_eff_loop].
    rewrite (pass_give moved p Borrowed e tt), G.
    edestruct (@go_on_cases) as [(w1 & x & _ & ->)|(w1 & r & o1 & _ & _ & ->)]; [|reflexivity].
    rewrite finish_eq. cbn. f_equal. apply IH.
  - destruct (where_eff copy moved insert p f w a) as [[w' l'] o] eqn:E. apply where_eff_run in E. rewrite H in E.
    apply traverses_same in E; auto. intros x b. unfold where_left. cbn. rewrite andb_false_r. apply G.
  - unfold group_by_eff. rewrite finish_eq, H. cbn [fst snd app].
    destruct (group_eff_loop copy moved p lt f Borrowed w (elements a) []) as [[w' l'] o] eqn:E.
    apply (group_loop_run copy moved p lt f Borrowed _ w []) in E. apply traverses_same in E; auto.
  - unfold order_by_eff. rewrite H. edestruct (@go_on_cases) as [(w1 & x & _ & ->)|(w1 & r & o1 & _ & _ & ->)]; [|reflexivity].
    destruct (std_sort _ _ _) as [[w2 l2] r2]. reflexivity.
Qed.
End All.

From Verif Require Import Base SortSpec RefModel RefMoreModel RefMoreSpec.

Definition refers (o : nat) (e : nat * ptr) : bool := match snd e with Some o' => Nat.eqb o' o | None => false end.
Definition refcount (l : store ptr) (o : nat) : nat := length (filter (refers o) l).
Lemma refcount_add l v p o : refcount (add l v p) o = (if refers o (v, p) then 1 else 0) + refcount l o.
Proof. unfold refcount, add. cbn [filter]. destruct (refers o (v, p)); reflexivity. Qed.
Lemma refcount_remove : forall l v p o, lookup l v = Some p -> refcount l o = (if refers o (v, p) then 1 else 0) + refcount (remove l v) o.
Proof.
  unfold refcount. induction l as [|[x q] l IH]; intros v p o; cbn [lookup remove]; [discriminate|]. destruct (Nat.eqb_spec x v) as [->|N].
  - intros [= ->]. cbn [filter]. destruct (refers o (v, p)); reflexivity.
  - intro L. cbn [filter]. specialize (IH v p o L). destruct (refers o (x, q)); cbn [length]; lia.
Qed.
Lemma lookup_keys : forall (l : store ptr) v p, lookup l v = Some p -> In v (map fst l).
Proof. induction l as [|[x q] l IH]; intros v p; cbn; [discriminate|]. destruct (Nat.eqb_spec x v); [intros _; left; assumption|]. eauto. Qed.
Lemma lookup_none : forall (l : store ptr) v, lookup l v = None -> ~ In v (map fst l).
Proof.
  induction l as [|[x q] l IH]; intros v; cbn; [tauto|]. destruct (Nat.eqb_spec x v); [discriminate|]. intros L [->|J]; [tauto|]. eapply IH; eassumption.
Qed.
Lemma remove_keys : forall (l : store ptr) v x, In x (map fst (remove l v)) -> In x (map fst l).
Proof. induction l as [|[y q] l IH]; intros v x; cbn; [tauto|]. destruct (Nat.eqb y v); cbn; [tauto|]. intros [->|J]; eauto. Qed.
Lemma remove_nodup : forall (l : store ptr) v, NoDup (map fst l) -> NoDup (map fst (remove l v)).
Proof.
  induction l as [|[y q] l IH]; intros v N; cbn; [constructor|]. inversion N as [|? ? Q M]; subst. destruct (Nat.eqb y v); [exact M|]. cbn. constructor; [|auto].
  intro J. apply Q. eapply remove_keys. exact J.
Qed.
Lemma lookup_remove : forall (l : store ptr) v x, NoDup (map fst l) -> lookup (remove l v) x = if Nat.eqb x v then None else lookup l x.
Proof.
  induction l as [|[y q] l IH]; intros v x N; cbn; [destruct (Nat.eqb x v); reflexivity|]. inversion N as [|? ? Q M]; subst.
  destruct (Nat.eqb_spec y v) as [->|D].
  - destruct (Nat.eqb_spec x v) as [->|E].
    + destruct (lookup l v) eqn:L; [|reflexivity]. exfalso. apply Q. eapply lookup_keys. exact L.
    + destruct (Nat.eqb_spec v x); congruence.
  - cbn. destruct (Nat.eqb_spec y x) as [->|E]; [destruct (Nat.eqb_spec x v); congruence|]. apply IH. exact M.
Qed.
Lemma refcount_pos : forall l o, NoDup (map fst l) -> (refcount l o <> 0 <-> exists v, lookup l v = Some (Some o)).
Proof.
  intros l o N. split.
  - induction l as [|[x q] l IH]; [cbn; tauto|]. inversion N as [|? ? Q M]; subst. unfold refcount. cbn [filter]. destruct (refers o (x, q)) eqn:R.
    + intros _. exists x. cbn. rewrite Nat.eqb_refl. unfold refers in R. cbn in R. destruct q as [o'|]; [|discriminate]. apply Nat.eqb_eq in R. subst. reflexivity.
    + intro C. destruct (IH M C) as [v V]. exists v. cbn. destruct (Nat.eqb_spec x v) as [->|]; [|exact V]. exfalso. apply Q. eapply lookup_keys. exact V.
  - intros [v V]. rewrite (refcount_remove l v _ o V). unfold refers. cbn. rewrite Nat.eqb_refl. lia.
Qed.

Lemma nth_replace : forall l o x o', nth_error (replace l o x) o' = if Nat.eqb o' o then match nth_error l o with Some _ => Some x | None => None end else nth_error l o'.
Proof.
  induction l as [|y l IH]; intros o x o'.
  - cbn [replace]. destruct o', o; cbn; try reflexivity; destruct (Nat.eqb o' o); reflexivity.
  - destruct o, o'; cbn [replace nth_error Nat.eqb]; try reflexivity. rewrite IH. reflexivity.
Qed.
Lemma replace_same : forall l o x, nth_error l o = Some x -> replace l o x = l.
Proof. induction l as [|y l IH]; intros [|o] x; cbn; try discriminate; [intros [= ->]; reflexivity|]. intro E. f_equal. auto. Qed.

(** What the count and weak_this say about the phase *)
Definition consistent (x : object) (n : nat) : Prop :=
  (n <> 0 -> weak_this x = true /\ ob_phase x = Complete) /\
  (n = 0 -> weak_this x = true -> ob_phase x = Destructing \/ ob_phase x = Gone).
Record Inv (s : world) : Prop := {
  inv_keys : NoDup (map fst (owners s));
  inv_wkeys : NoDup (map fst (watchers s));
  inv_count : forall o, uses s o = refcount (owners s) o;
  inv_obj : forall o x, nth_error (objs s) o = Some x -> consistent x (uses s o);
  inv_fresh : forall o, nth_error (objs s) o = None -> uses s o = 0;
  inv_weak : forall w o, lookup (watchers s) w = Some (Some o) -> exists x, nth_error (objs s) o = Some x /\ weak_this x = true
}.
Lemma inv_start : Inv start.
Proof.
  constructor; cbn; intros; try (destruct o; discriminate); try discriminate; try reflexivity; constructor.
Qed.

Lemma add_keys (l : store ptr) v p : NoDup (map fst l) -> lookup l v = None -> NoDup (map fst (add l v p)).
Proof. intros N L. cbn. constructor; [apply lookup_none; exact L|exact N]. Qed.
Lemma lookup_add (l : store ptr) v p x : lookup (add l v p) x = if Nat.eqb x v then Some p else lookup l x.
Proof. cbn. rewrite (Nat.eqb_sym v x). destruct (Nat.eqb x v); reflexivity. Qed.

Lemma inv_own s v p : Inv s -> lookup (owners s) v = None -> (forall o, p = Some o -> uses s o <> 0) -> Inv (own s v p).
Proof.
  intros I L U. unfold own. destruct p as [o|]; [|constructor; try apply I].
  - specialize (U o eq_refl). constructor; cbn [one_more objs uses owners watchers]; try apply I.
    + apply add_keys; [apply I|exact L].
    + intro o'. rewrite refcount_add. unfold refers, upd. cbn [snd]. rewrite (Nat.eqb_sym o o'). destruct (Nat.eqb_spec o' o) as [->|]; rewrite (inv_count s I); reflexivity.
    + intros o' x E. unfold upd. destruct (Nat.eqb_spec o' o) as [->|]; [|apply (inv_obj s I); exact E].
      destruct (inv_obj s I o x E) as [C _]. split; [intros _; apply C; exact U|discriminate].
    + intros o' E. unfold upd. destruct (Nat.eqb_spec o' o) as [->|]; [|apply (inv_fresh s I); exact E]. rewrite (inv_fresh s I o E) in U. congruence.
  - cbn [owners]. apply add_keys; [apply I|exact L].
Qed.
Lemma inv_watch s w p : Inv s -> lookup (watchers s) w = None -> (forall o, p = Some o -> exists x, nth_error (objs s) o = Some x /\ weak_this x = true) -> Inv (watch s w p).
Proof.
  intros I L U. constructor; cbn [watch objs uses owners watchers]; try apply I.
  - apply add_keys; [apply I|exact L].
  - intros w' o. rewrite lookup_add. destruct (Nat.eqb w' w); [|apply I]. intros [= ->]. auto.
Qed.
Lemma inv_phase s o x p : Inv s -> nth_error (objs s) o = Some x -> uses s o = 0 -> (weak_this x = true -> p = Destructing \/ p = Gone) ->
  Inv (set_phase s o x p).
Proof.
  intros I E U P. constructor; cbn [set_phase objs uses owners watchers]; try apply I.
  - intros o' y. rewrite nth_replace, E. destruct (Nat.eqb_spec o' o) as [->|]; [|apply I]. intros [= <-]. rewrite U. split; [congruence|]. intros _. exact P.
  - intros o'. rewrite nth_replace, E. destruct (Nat.eqb_spec o' o) as [->|]; [discriminate|apply I].
  - intros w o' L. rewrite nth_replace, E. destruct (inv_weak s I w o' L) as (y & Y & W). destruct (Nat.eqb_spec o' o) as [->|]; [|eauto].
    exists (with_phase x p). split; [reflexivity|]. cbn. congruence.
Qed.
(** An owner less, of which the variable has already gone *)
Lemma inv_drop s v o : Inv s -> lookup (owners s) v = Some (Some o) ->
  Inv (one_less {| objs := objs s; uses := uses s; owners := remove (owners s) v; watchers := watchers s |} o).
Proof.
  intros I L. unfold one_less. cbn [objs uses owners watchers].
  assert (C : forall o', refcount (remove (owners s) v) o' = upd (uses s) o (pred (uses s o)) o').
  { intro o'. pose proof (refcount_remove _ _ _ o' L) as R. rewrite <- (inv_count s I) in R. unfold refers in R. cbn in R. unfold upd.
    rewrite (Nat.eqb_sym o o') in R. destruct (Nat.eqb_spec o' o) as [Q|Q]; [rewrite Q in *|]; lia. }
  assert (P : uses s o <> 0). { rewrite (inv_count s I). apply refcount_pos; [apply I|]. exists v. exact L. }
  destruct (nth_error (objs s) o) as [x|] eqn:E; [|exfalso; apply P; apply (inv_fresh s I); exact E].
  destruct (inv_obj s I o x E) as [Q _]. destruct (Q P) as [W Ph].
  destruct (pred (uses s o)) as [|n] eqn:N.
  - constructor; cbn [set_phase objs uses owners watchers]; try apply I.
    + apply remove_nodup, I.
    + intro o'. symmetry. apply C.
    + intros o' y. rewrite nth_replace, E. unfold upd. destruct (Nat.eqb_spec o' o) as [->|]; [|apply I]. intros [= <-]. split; [congruence|]. cbn. auto.
    + intros o'. rewrite nth_replace, E. unfold upd. destruct (Nat.eqb_spec o' o) as [->|]; [discriminate|apply I].
    + intros w o' Lw. rewrite nth_replace, E. destruct (inv_weak s I w o' Lw) as (y & Y & Wy). destruct (Nat.eqb_spec o' o) as [->|]; [|eauto].
      exists (with_phase x Destructing). split; [reflexivity|]. exact W.
  - constructor; cbn [objs uses owners watchers]; try apply I.
    + apply remove_nodup, I.
    + intro o'. symmetry. apply C.
    + intros o' y Y. unfold upd. destruct (Nat.eqb_spec o' o) as [->|]; [|apply I; exact Y]. rewrite E in Y. injection Y as <-. split; [auto|discriminate].
    + intros o' Y. unfold upd. destruct (Nat.eqb_spec o' o) as [->|]; [congruence|apply I; exact Y].
Qed.
(** The temporary of make_weak_from *)
Lemma weak_temporary s w o : uses s o <> 0 ->
  let s' := one_less (watch (one_more s o) w (Some o)) o in
  objs s' = objs s /\ owners s' = owners s /\ watchers s' = add (watchers s) w (Some o) /\ forall o', uses s' o' = uses s o'.
Proof.
  intro U. unfold one_less. cbn [watch one_more objs uses owners watchers].
  assert (Q : upd (uses s) o (S (uses s o)) o = S (uses s o)) by (unfold upd; rewrite Nat.eqb_refl; reflexivity). rewrite Q. cbn [pred].
  destruct (uses s o) as [|n] eqn:E; [congruence|]. cbn [objs uses owners watchers]. repeat split.
  intro o'. unfold upd. destruct (Nat.eqb_spec o' o) as [->|]; congruence.
Qed.

Lemma used_owned s o : Inv s -> (uses s o <> 0 <-> owned s o).
Proof. intro I. rewrite (inv_count s I). apply refcount_pos, I. Qed.
Lemma shared_from_this_owned s o x : Inv s -> nth_error (objs s) o = Some x ->
  shared_from_this s o x = if Nat.eqb (uses s o) 0 then None else Some o.
Proof.
  intros I E. unfold shared_from_this. destruct (Nat.eqb_spec (uses s o) 0) as [Z|Z]; [rewrite andb_false_r; reflexivity|].
  destruct (inv_obj s I o x E) as [C _]. destruct (C Z) as [-> _]. reflexivity.
Qed.

(** An object is not used any more for ever *)
Definition over (s : world) (o : nat) : Prop := (exists x, nth_error (objs s) o = Some x /\ weak_this x = true) /\ uses s o = 0.

Section Steps.
Variable derives : nat -> nat -> bool.
Variable dbg : bool.

Lemma with_object_ok {A} s o (k : object -> outcome A) r : with_object s o k = Ok r ->
  exists x, nth_error (objs s) o = Some x /\ ob_phase x <> Gone /\ k x = Ok r.
Proof.
  unfold with_object. destruct (nth_error (objs s) o) as [x|]; [|discriminate]. intro H. exists x. split; [reflexivity|].
  destruct (ob_phase x) eqn:P; try discriminate; (split; [discriminate|exact H]).
Qed.
Lemma fresh_ok {A} l v (k : outcome A) r : fresh l v k = Ok r -> lookup l v = None /\ k = Ok r.
Proof. unfold fresh. destruct (lookup l v); [discriminate|auto]. Qed.
Lemma held_by_ok {A} l v (k : ptr -> outcome A) r : held_by l v k = Ok r -> exists p, lookup l v = Some p /\ k p = Ok r.
Proof. unfold held_by. destruct (lookup l v); [eauto|discriminate]. Qed.
Lemma shared_from_ok s o t x p : Inv s -> nth_error (objs s) o = Some x -> shared_from derives s o t x = Some p ->
  uses s o <> 0 /\ forall o', p = Some o' -> o' = o.
Proof.
  intros I E. unfold shared_from. rewrite (shared_from_this_owned s o x I E). destruct (Nat.eqb_spec (uses s o) 0); [discriminate|].
  intros [= <-]. split; [assumption|]. destruct (ob_base x); [destruct (derives (ob_class x) t)|]; congruence.
Qed.
Lemma assert_ok {A} c (k : outcome A) r : (assert_ dbg c ;;; k) = Ok r -> k = Ok r.
Proof. unfold assert_. destruct dbg, c; cbn; congruence. Qed.

(** What any step does to objects, owners and watchers that it does not name: enough for the rest *)
Definition keeps (a : op) (s s' : world) : Prop :=
  (forall w p, lookup (watchers s) w = Some p -> a <> drop_watcher w -> lookup (watchers s') w = Some p) /\
  (forall o, over s o -> over s' o).

Lemma over_same s s' : (forall o x, nth_error (objs s) o = Some x -> exists x', nth_error (objs s') o = Some x' /\ (weak_this x = true -> weak_this x' = true)) ->
  (forall o, over s o -> uses s o = 0 -> uses s' o = 0) -> forall o, over s o -> over s' o.
Proof.
  intros H U o O. pose proof O as [(x & E & W) Z]. destruct (H o x E) as (x' & E' & W'). split; [exists x'; auto|]. apply U; assumption.
Qed.
Lemma same_objs s s' : objs s' = objs s -> forall o x, nth_error (objs s) o = Some x -> exists x', nth_error (objs s') o = Some x' /\ (weak_this x = true -> weak_this x' = true).
Proof. intros -> o x E. eauto. Qed.
Lemma phase_objs s o x p : nth_error (objs s) o = Some x ->
  forall o' x', nth_error (objs s) o' = Some x' -> exists y, nth_error (objs (set_phase s o x p)) o' = Some y /\ (weak_this x' = true -> weak_this y = true).
Proof.
  intros E o' x' E'. cbn [set_phase objs]. rewrite nth_replace, E. destruct (Nat.eqb_spec o' o) as [->|]; [|eauto].
  exists (with_phase x p). split; [reflexivity|]. rewrite E in E'. injection E' as <-. auto.
Qed.
Lemma keeps_phase a s o x p : nth_error (objs s) o = Some x -> keeps a s (set_phase s o x p).
Proof. intro E. split; [cbn; auto|]. apply over_same; [apply phase_objs; exact E|]. auto. Qed.
Lemma keeps_own a s v p : (forall o, p = Some o -> uses s o <> 0) -> keeps a s (own s v p).
Proof.
  intro U. split; [destruct p; cbn; auto|]. apply over_same; [apply same_objs; destruct p; reflexivity|].
  intros o O Z. destruct p as [o'|]; cbn; [|exact Z]. unfold upd. destruct (Nat.eqb_spec o o') as [->|]; [|exact Z]. exfalso. apply (U o' eq_refl). exact Z.
Qed.
Lemma keeps_watch a s w p : lookup (watchers s) w = None -> keeps a s (watch s w p).
Proof.
  intro L. split.
  - intros w' q E _. cbn [watch watchers]. rewrite lookup_add. destruct (Nat.eqb_spec w' w) as [->|]; [congruence|exact E].
  - apply over_same; [apply same_objs; reflexivity|]. auto.
Qed.

Lemma inv_same s s' : (forall o, uses s' o = uses s o) -> objs s' = objs s -> owners s' = owners s -> watchers s' = watchers s -> Inv s -> Inv s'.
Proof.
  intros U O W V I. constructor; rewrite ?O, ?W, ?V; try apply I; intros; rewrite ?U; apply I; assumption.
Qed.
Lemma step_inv a s s' x : Inv s -> step derives dbg a s = Ok (s', x) -> Inv s' /\ keeps a s s'.
Proof.
  intros I. destruct a as [b c|o|o u|o|v o|o|o|o|v u|v|v o t|w o t|w v|v w|w]; cbn [step]; intro H.
  - (* begin_object *) injection H as <- _.
    assert (N : forall o y, nth_error (objs s ++ [{| ob_base := b; ob_class := c; ob_phase := Constructing; weak_this := false |}]) o = Some y ->
      nth_error (objs s) o = Some y \/ (nth_error (objs s) o = None /\ weak_this y = false)).
    { intros o y. destruct (nth_error (objs s) o) as [z|] eqn:E.
      - rewrite nth_error_app1 by (apply nth_error_Some; congruence). left. congruence.
      - apply nth_error_None in E. rewrite nth_error_app2 by exact E. destruct (o - length (objs s)) as [|k]; cbn; [intros [= <-]; auto|]. destruct k; discriminate. }
    assert (G : forall o y, nth_error (objs s) o = Some y ->
      nth_error (objs s ++ [{| ob_base := b; ob_class := c; ob_phase := Constructing; weak_this := false |}]) o = Some y).
    { intros o y E. rewrite nth_error_app1; [exact E|]. apply nth_error_Some. congruence. }
    split; [constructor; cbn [objs uses owners watchers]; try apply I|].
    + intros o y E. destruct (N o y E) as [E'|[E' W]]; [apply I; exact E'|]. rewrite (inv_fresh s I o E'). split; congruence.
    + intros o E. apply (inv_fresh s I). destruct (nth_error (objs s) o) eqn:Q; [|reflexivity]. rewrite (G _ _ Q) in E. discriminate.
    + intros w o L. destruct (inv_weak s I w o L) as (y & E & W). exists y. auto.
    + split; [cbn; auto|]. apply over_same; [|auto]. intros o y E. exists y. cbn. auto.
  - (* begin_copy *) apply with_object_ok in H. destruct H as (x0 & E0 & _ & H). injection H as <- _.
    set (new := {| ob_base := ob_base x0; ob_class := ob_class x0; ob_phase := Constructing; weak_this := false |}).
    assert (N : forall o y, nth_error (objs s ++ [new]) o = Some y -> nth_error (objs s) o = Some y \/ (nth_error (objs s) o = None /\ weak_this y = false)).
    { intros o1 y. destruct (nth_error (objs s) o1) as [z|] eqn:E.
      - rewrite nth_error_app1 by (apply nth_error_Some; congruence). left. congruence.
      - apply nth_error_None in E. rewrite nth_error_app2 by exact E. destruct (o1 - length (objs s)) as [|k]; cbn; [intros [= <-]; auto|]. destruct k; discriminate. }
    assert (G : forall o y, nth_error (objs s) o = Some y -> nth_error (objs s ++ [new]) o = Some y).
    { intros o1 y E. rewrite nth_error_app1; [exact E|]. apply nth_error_Some. congruence. }
    split; [constructor; cbn [objs uses owners watchers]; try apply I|].
    + intros o1 y E. destruct (N o1 y E) as [E'|[E' W]]; [apply I; exact E'|]. rewrite (inv_fresh s I o1 E'). split; congruence.
    + intros o1 E. apply (inv_fresh s I). destruct (nth_error (objs s) o1) eqn:Q; [|reflexivity]. rewrite (G _ _ Q) in E. discriminate.
    + intros w o1 L. destruct (inv_weak s I w o1 L) as (y & E & W). exists y. auto.
    + split; [cbn; auto|]. apply over_same; [|auto]. intros o1 y E. exists y. cbn. auto.
  - (* assign_object *) apply with_object_ok in H. destruct H as (y & _ & _ & H). apply with_object_ok in H. destruct H as (z & _ & _ & H).
    injection H as <- _. split; [exact I|]. split; auto.
  - (* complete *) apply with_object_ok in H. destruct H as (y & E & _ & H). destruct (ob_phase y) eqn:P; try discriminate. injection H as <- _.
    destruct (inv_obj s I o y E) as [C D]. assert (Z : uses s o = 0). { destruct (Nat.eq_dec (uses s o) 0) as [|Q]; [assumption|]. destruct (C Q). congruence. }
    split; [apply inv_phase; auto|apply keeps_phase; exact E]. intro W. destruct (D Z W); congruence.
  - (* complete_make *) apply fresh_ok in H. destruct H as [L H]. apply with_object_ok in H. destruct H as (y & E & _ & H). destruct (ob_phase y) eqn:P; try discriminate.
    injection H as <- _.
    destruct (inv_obj s I o y E) as [C D]. assert (Z : uses s o = 0). { destruct (Nat.eq_dec (uses s o) 0) as [|Q]; [assumption|]. destruct (C Q). congruence. }
    split; [constructor; cbn [objs uses owners watchers]; try apply I|].
    + apply add_keys; [apply I|exact L].
    + intro o'. rewrite refcount_add. unfold refers, upd. cbn [snd]. rewrite (Nat.eqb_sym o o').
      destruct (Nat.eqb_spec o' o) as [->|]; rewrite <- (inv_count s I); [rewrite Z|]; reflexivity.
    + intros o' z. rewrite nth_replace, E. unfold upd. destruct (Nat.eqb_spec o' o) as [->|]; [|apply I]. intros [= <-]. split; cbn; [auto|discriminate].
    + intros o'. rewrite nth_replace, E. unfold upd. destruct (Nat.eqb_spec o' o) as [->|]; [discriminate|apply I].
    + intros w o' Lw. rewrite nth_replace, E. destruct (inv_weak s I w o' Lw) as (z & Ez & W). destruct (Nat.eqb_spec o' o) as [->|]; [|eauto]. eexists. split; reflexivity.
    + split; [cbn; auto|]. apply over_same; cbn [objs uses].
      * intros o' z Ez. rewrite nth_replace, E. destruct (Nat.eqb_spec o' o) as [->|]; [|eauto]. eexists. split; reflexivity.
      * intros o' [(z & Ez & W) _] Z'. unfold upd. destruct (Nat.eqb_spec o' o) as [->|]; [|exact Z']. rewrite E in Ez. injection Ez as <-.
        destruct (D Z W); congruence.
  - (* abandon *) apply with_object_ok in H. destruct H as (y & E & _ & H). destruct (ob_phase y) eqn:P; try discriminate. injection H as <- _.
    destruct (inv_obj s I o y E) as [C D]. assert (Z : uses s o = 0). { destruct (Nat.eq_dec (uses s o) 0) as [|Q]; [assumption|]. destruct (C Q). congruence. }
    split; [apply inv_phase; auto|apply keeps_phase; exact E].
  - (* begin_end *) apply with_object_ok in H. destruct H as (y & E & _ & H). destruct (ob_phase y) eqn:P, (weak_this y) eqn:W; try discriminate. injection H as <- _.
    destruct (inv_obj s I o y E) as [C D]. assert (Z : uses s o = 0). { destruct (Nat.eq_dec (uses s o) 0) as [|Q]; [assumption|]. destruct (C Q). congruence. }
    split; [apply inv_phase; auto|apply keeps_phase; exact E].
  - (* finish_end *) apply with_object_ok in H. destruct H as (y & E & _ & H). destruct (ob_phase y) eqn:P; try discriminate. injection H as <- _.
    destruct (inv_obj s I o y E) as [C D]. assert (Z : uses s o = 0). { destruct (Nat.eq_dec (uses s o) 0) as [|Q]; [assumption|]. destruct (C Q). congruence. }
    split; [apply inv_phase; auto|apply keeps_phase; exact E].
  - (* copy_owner *) apply fresh_ok in H. destruct H as [L H]. apply held_by_ok in H. destruct H as (p & Lu & H). injection H as <- _.
    assert (U : forall o, p = Some o -> uses s o <> 0). { intros o ->. apply used_owned; [exact I|]. exists u. exact Lu. }
    split; [apply inv_own; assumption|apply keeps_own; exact U].
  - (* drop_owner *) apply held_by_ok in H. destruct H as (p & Lv & H). injection H as <- _. destruct p as [o|].
    + split; [apply (inv_drop s v o I Lv)|]. unfold one_less. cbn [objs uses].
      assert (P : uses s o <> 0). { apply used_owned; [exact I|]. exists v. exact Lv. }
      destruct (nth_error (objs s) o) as [y|] eqn:E; [|exfalso; apply P; apply (inv_fresh s I); exact E].
      destruct (pred (uses s o)) as [|n].
      * split; [cbn; auto|]. apply over_same.
        -- intros o' z Ez. cbn [set_phase objs]. rewrite nth_replace, E. destruct (Nat.eqb_spec o' o) as [->|]; [|eauto].
           eexists. split; [reflexivity|]. rewrite E in Ez. injection Ez as <-. auto.
        -- intros o' _ Z. cbn. unfold upd. destruct (Nat.eqb_spec o' o) as [->|]; [reflexivity|exact Z].
      * split; [cbn; auto|]. apply over_same; [apply same_objs; reflexivity|]. intros o' _ Z. cbn. unfold upd. destruct (Nat.eqb_spec o' o) as [->|]; [congruence|exact Z].
    + split; [|split; [cbn; auto|]; apply over_same; [apply same_objs; reflexivity|auto]]. constructor; cbn [objs uses owners watchers]; try apply I.
      * apply remove_nodup, I.
      * intro o. rewrite (inv_count s I), (refcount_remove _ _ _ o Lv). reflexivity.
  - (* make_shared_from *) apply fresh_ok in H. destruct H as [L H]. apply with_object_ok in H. destruct H as (y & E & _ & H).
    destruct (shared_from derives s o t y) as [p|] eqn:F; [|injection H as <- _; split; [exact I|split; auto]].
    apply assert_ok in H. injection H as <- _. destruct (shared_from_ok s o t y p I E F) as [U Eo].
    assert (U' : forall o', p = Some o' -> uses s o' <> 0). { intros o' Q. rewrite (Eo o' Q). exact U. }
    split; [apply inv_own; assumption|apply keeps_own; exact U'].
  - (* make_weak_from *) apply fresh_ok in H. destruct H as [L H]. apply with_object_ok in H. destruct H as (y & E & _ & H).
    destruct (ob_base y) eqn:B.
    + destruct (shared_from derives s o t y) as [p|] eqn:F; [|injection H as <- _; split; [exact I|split; auto]].
      apply assert_ok in H. injection H as <- _. destruct (shared_from_ok s o t y p I E F) as [U Eo]. destruct p as [o'|].
      * rewrite (Eo o' eq_refl). destruct (weak_temporary s w o U) as (T1 & T2 & T3 & T4).
        assert (Iw : Inv (watch s w (Some o))).
        { apply inv_watch; auto. intros o1 [= <-]. exists y. split; [exact E|]. destruct (inv_obj s I o y E) as [C _]. apply C. exact U. }
        split.
        -- eapply inv_same; [| | | |exact Iw]; assumption.
        -- split.
           ++ intros w' q Lq _. rewrite T3, lookup_add. destruct (Nat.eqb_spec w' w) as [->|]; [congruence|exact Lq].
           ++ apply over_same; [apply same_objs; exact T1|]. intros o1 _ Z. rewrite T4. exact Z.
      * split; [apply inv_watch; auto; discriminate|apply keeps_watch; exact L].
    + injection H as <- _. split; [|apply keeps_watch; exact L]. apply inv_watch; auto. intros o1. destruct (weak_this y) eqn:W; [|discriminate].
      intros [= <-]. exists y. auto.
  - (* make_weak *) apply fresh_ok in H. destruct H as [L H]. apply held_by_ok in H. destruct H as (p & Lv & H). injection H as <- _.
    split; [apply inv_watch; auto|apply keeps_watch; exact L]. intros o ->.
    assert (P : uses s o <> 0). { apply used_owned; [exact I|]. exists v. exact Lv. }
    destruct (nth_error (objs s) o) as [y|] eqn:E; [|exfalso; apply P; apply (inv_fresh s I); exact E]. exists y. split; [reflexivity|].
    destruct (inv_obj s I o y E) as [C _]. apply C. exact P.
  - (* lock *) apply fresh_ok in H. destruct H as [L H]. apply held_by_ok in H. destruct H as (p & Lv & H). injection H as <- _.
    assert (U : forall o, locked s p = Some o -> uses s o <> 0).
    { intros o. unfold locked. destruct p as [o'|]; [|discriminate]. destruct (Nat.eqb_spec (uses s o') 0); [discriminate|]. congruence. }
    split; [apply inv_own; assumption|apply keeps_own; exact U].
  - (* drop_watcher *) apply held_by_ok in H. destruct H as (p & Lv & H). injection H as <- _. split; [constructor; cbn [objs uses owners watchers]; try apply I|].
    + apply remove_nodup, I.
    + intros w' o. rewrite lookup_remove by apply I. destruct (Nat.eqb w' w); [discriminate|apply I].
    + split; [|apply over_same; [apply same_objs; reflexivity|auto]]. intros w' q Lq Nw. cbn [watchers]. rewrite lookup_remove by apply I.
      destruct (Nat.eqb_spec w' w) as [->|]; [congruence|exact Lq].
Qed.
Lemma run_inv : forall h s s' xs, Inv s -> run derives dbg h s = Ok (s', xs) ->
  Inv s' /\ (forall w p, lookup (watchers s) w = Some p -> ~ In (drop_watcher w) h -> lookup (watchers s') w = Some p) /\ (forall o, over s o -> over s' o).
Proof.
  induction h as [|a h IH]; intros s s' xs I; cbn [run].
  - intros [= <- <-]. auto.
  - destruct (step derives dbg a s) as [[s1 x]|?|?| | |] eqn:E; cbn [bind]; try discriminate.
    destruct (step_inv a s s1 x I E) as [I1 [K1 K2]].
    destruct (run derives dbg h s1) as [[s2 ys]|?|?| | |] eqn:R; cbn [bind]; try discriminate. intros [= <- <-].
    destruct (IH _ _ _ I1 R) as (I2 & K3 & K4). split; [exact I2|]. split; [|auto].
    intros w p L N. apply K3; [|intro J; apply N; right; exact J]. apply K1; [exact L|]. intros ->. apply N. left. reflexivity.
Qed.
Notation reachable := (reachable derives dbg).
Lemma reachable_inv s : reachable s -> Inv s.
Proof. intros (h & xs & R). apply (run_inv _ _ _ _ inv_start R). Qed.

Lemma owners_own s v p : owners (own s v p) = add (owners s) v p.
Proof. destruct p; reflexivity. Qed.
Lemma objs_own s v p : objs (own s v p) = objs s.
Proof. destruct p; reflexivity. Qed.
Lemma watchers_own s v p : watchers (own s v p) = watchers s.
Proof. destruct p; reflexivity. Qed.
Lemma own_only s v p : only_owner_added s (own s v p) v p.
Proof. split; [apply objs_own|]. split; [apply watchers_own|]. intro x. rewrite owners_own. apply lookup_add. Qed.
Lemma with_object_living {A} s o x (k : object -> outcome A) : nth_error (objs s) o = Some x -> ob_phase x <> Gone -> with_object s o k = k x.
Proof. unfold with_object. intros -> P. destruct (ob_phase x); congruence. Qed.
Lemma owned_cases s o : Inv s -> {owned s o /\ Nat.eqb (uses s o) 0 = false} + {~ owned s o /\ Nat.eqb (uses s o) 0 = true}.
Proof.
  intro I. destruct (Nat.eqb_spec (uses s o) 0) as [Z|Z]; [right|left]; (split; [|reflexivity]).
  - intro O. apply (used_owned s o I) in O. contradiction.
  - apply (used_owned s o I). exact Z.
Qed.

Lemma from_owned s v o b c t : reachable s -> exists_as s o b c -> owned s o -> derives c t = true -> lookup (owners s) v = None ->
  exists s', step derives dbg (make_shared_from v o t) s = Ok (s', done) /\ only_owner_added s s' v (Some o).
Proof.
  intros R (x & E & Hb & Hc & P) O D L. apply reachable_inv in R. cbn [step]. unfold fresh. rewrite L, (with_object_living s o x _ E P).
  unfold shared_from. rewrite (shared_from_this_owned s o x R E). destruct (owned_cases s o R) as [[_ ->]|[N _]]; [|contradiction].
  rewrite Hc, D. exists (own s v (Some o)). split; [|apply own_only]. unfold assert_. destruct (ob_base x), dbg; reflexivity.
Qed.
Lemma from_unowned s v o b c t : reachable s -> exists_as s o b c -> ~ owned s o -> lookup (owners s) v = None ->
  step derives dbg (make_shared_from v o t) s = Ok (s, bad_weak_ptr).
Proof.
  intros R (x & E & Hb & Hc & P) O L. apply reachable_inv in R. cbn [step]. unfold fresh. rewrite L, (with_object_living s o x _ E P).
  unfold shared_from. rewrite (shared_from_this_owned s o x R E). destruct (owned_cases s o R) as [[N _]|[_ ->]]; [contradiction|]. reflexivity.
Qed.
Lemma weak_shared_owned s w o c t : reachable s -> exists_as s o UtkiShared c -> owned s o -> derives c t = true -> lookup (watchers s) w = None ->
  exists s', step derives dbg (make_weak_from w o t) s = Ok (s', done) /\ only_watcher_added s s' w (Some o).
Proof.
  intros R (x & E & Hb & Hc & P) O D L. apply reachable_inv in R. cbn [step]. unfold fresh. rewrite L, (with_object_living s o x _ E P).
  rewrite Hb. unfold shared_from. rewrite (shared_from_this_owned s o x R E). destruct (owned_cases s o R) as [[_ U]|[N _]]; [|contradiction].
  rewrite U, Hb, Hc, D. apply Nat.eqb_neq in U. destruct (weak_temporary s w o U) as (T1 & T2 & T3 & _).
  eexists. split; [unfold assert_; destruct dbg; reflexivity|]. split; [exact T1|]. split; [exact T2|]. intro y. rewrite T3. apply lookup_add.
Qed.
Lemma weak_shared_unowned s w o c t : reachable s -> exists_as s o UtkiShared c -> ~ owned s o -> lookup (watchers s) w = None ->
  step derives dbg (make_weak_from w o t) s = Ok (s, bad_weak_ptr).
Proof.
  intros R (x & E & Hb & Hc & P) O L. apply reachable_inv in R. cbn [step]. unfold fresh. rewrite L, (with_object_living s o x _ E P).
  rewrite Hb. unfold shared_from. rewrite (shared_from_this_owned s o x R E). destruct (owned_cases s o R) as [[N _]|[_ ->]]; [contradiction|]. reflexivity.
Qed.
Lemma locked_owned s p : Inv s -> forall o, locked s p = Some o <-> p = Some o /\ owned s o.
Proof.
  intros I o. unfold locked. destruct p as [o'|]; [|split; [discriminate|intros [[=] _]]].
  destruct (owned_cases s o' I) as [[O ->]|[O ->]]; (split; [intro H|intros [[= ->] H]]); try congruence; try contradiction. injection H as <-. auto.
Qed.
Lemma weak_std s w o c t : reachable s -> exists_as s o StdEnable c -> lookup (watchers s) w = None ->
  exists s' p, step derives dbg (make_weak_from w o t) s = Ok (s', done) /\ only_watcher_added s s' w p /\ (owned s o -> p = Some o) /\
    (~ owned s o -> forall h s2 xs, run derives dbg h s' = Ok (s2, xs) -> forall o', p = Some o' -> ~ owned s2 o').
Proof.
  intros R (x & E & Hb & Hc & P) L. apply reachable_inv in R. cbn [step]. unfold fresh. rewrite L, (with_object_living s o x _ E P), Hb.
  eexists. exists (if weak_this x then Some o else None). split; [reflexivity|]. split; [|split].
  - split; [reflexivity|]. split; [reflexivity|]. intro y. apply lookup_add.
  - intro O. apply (used_owned s o R) in O. destruct (inv_obj s R o x E) as [C _]. destruct (C O) as [-> _]. reflexivity.
  - intros O h s2 xs Rn o'. destruct (weak_this x) eqn:W; [|discriminate]. intros [= <-].
    assert (I' : Inv (watch s w (Some o))). { apply inv_watch; auto. intros o1 [= <-]. exists x. auto. }
    destruct (run_inv _ _ _ _ I' Rn) as (I2 & _ & K). intro O2. apply (used_owned s2 o I2) in O2. apply O2. apply K. split; [exists x; auto|].
    cbn. destruct (owned_cases s o R) as [[N _]|[_ Z]]; [contradiction|]. apply Nat.eqb_eq. exact Z.
Qed.
Lemma lock_now s v w p : reachable s -> lookup (watchers s) w = Some p -> lookup (owners s) v = None ->
  exists s' q, step derives dbg (lock v w) s = Ok (s', done) /\ only_owner_added s s' v q /\ forall o, q = Some o <-> p = Some o /\ owned s o.
Proof.
  intros R Lw Lv. apply reachable_inv in R. cbn [step]. unfold fresh, held_by. rewrite Lv, Lw. eexists. eexists. split; [reflexivity|].
  split; [apply own_only|]. apply locked_owned. exact R.
Qed.
Lemma watcher_stays s w p h s2 xs : reachable s -> lookup (watchers s) w = Some p -> run derives dbg h s = Ok (s2, xs) -> ~ In (drop_watcher w) h ->
  lookup (watchers s2) w = Some p /\ forall o, p = Some o -> ~ owned s o -> ~ owned s2 o.
Proof.
  intros R L Rn N. apply reachable_inv in R. destruct (run_inv _ _ _ _ R Rn) as (I2 & K1 & K2). split; [auto|].
  intros o -> O O2. apply (used_owned s2 o I2) in O2. apply O2. apply K2. split; [apply (inv_weak s R w o L)|].
  destruct (owned_cases s o R) as [[Q _]|[_ Z]]; [contradiction|]. apply Nat.eqb_eq. exact Z.
Qed.
Lemma owned_complete s o : reachable s -> owned s o -> in_phase s o Complete.
Proof.
  intros R O. apply reachable_inv in R. apply (used_owned s o R) in O. destruct (nth_error (objs s) o) as [x|] eqn:E; [|rewrite (inv_fresh s R o E) in O; congruence].
  exists x. split; [exact E|]. destruct (inv_obj s R o x E) as [C _]. apply C. exact O.
Qed.
Lemma drop_phase s v o : reachable s -> lookup (owners s) v = Some (Some o) ->
  exists s', step derives dbg (drop_owner v) s = Ok (s', done) /\
    (forall x, lookup (owners s') x = if Nat.eqb x v then None else lookup (owners s) x) /\
    (owned s' o -> in_phase s' o Complete) /\ (~ owned s' o -> in_phase s' o Destructing) /\
    forall o', o' <> o -> nth_error (objs s') o' = nth_error (objs s) o'.
Proof.
  intros R L. pose proof (owned_complete s o R (ex_intro _ v L)) as (x & E & P). apply reachable_inv in R. cbn [step]. unfold held_by. rewrite L.
  eexists. split; [reflexivity|].
  pose proof (inv_drop s v o R L) as I'. revert I'. unfold one_less. cbn [objs uses owners watchers]. rewrite E.
  destruct (pred (uses s o)) as [|n]; intro I'; (split; [intro y; cbn; apply lookup_remove, R|]); split; [|split| |split].
  - intro O. exfalso. apply (used_owned _ _ I') in O. apply O. cbn. unfold upd. rewrite Nat.eqb_refl. reflexivity.
  - intros _. exists (with_phase x Destructing). split; [|reflexivity]. cbn. rewrite nth_replace, Nat.eqb_refl, E. reflexivity.
  - intros o' D. cbn. rewrite nth_replace. destruct (Nat.eqb_spec o' o); [contradiction|reflexivity].
  - intros _. exists x. auto.
  - intro O. exfalso. apply O. apply (used_owned _ _ I'). cbn. unfold upd. rewrite Nat.eqb_refl. discriminate.
  - reflexivity.
Qed.
Lemma copy_unowned s o b c : reachable s -> exists_as s o b c ->
  exists s', step derives dbg (begin_copy o) s = Ok (s', done) /\ owners s' = owners s /\ watchers s' = watchers s /\
    (forall o' x, nth_error (objs s) o' = Some x -> nth_error (objs s') o' = Some x) /\
    exists_as s' (length (objs s)) b c /\ in_phase s' (length (objs s)) Constructing /\ ~ owned s' (length (objs s)).
Proof.
  intros R (x & E & Hb & Hc & P). apply reachable_inv in R. cbn [step]. rewrite (with_object_living s o x _ E P). eexists. split; [reflexivity|]. cbn [owners watchers objs].
  split; [reflexivity|]. split; [reflexivity|]. split; [|split; [|split]].
  - intros o' y Y. rewrite nth_error_app1; [exact Y|]. apply nth_error_Some. congruence.
  - eexists. cbn. rewrite nth_error_app2, Nat.sub_diag by lia. split; [reflexivity|]. cbn. repeat split; auto. discriminate.
  - eexists. cbn. rewrite nth_error_app2, Nat.sub_diag by lia. split; reflexivity.
  - intros O. assert (Q : owned s (length (objs s))) by exact O. apply (used_owned s _ R) in Q. apply Q. apply (inv_fresh s R). apply nth_error_None. lia.
Qed.
End Steps.

(** Comparisons *)
Section Compare.
Context {T : Type}.
Variable dbg : bool.
Variable objects : nat -> T.
Variables less equal : T -> T -> outcome bool.
Lemma noexcept_without {A} (m : outcome A) : noexcept m = without_exception m.
Proof. destruct m; reflexivity. Qed.
Lemma compare_ok : forall o o' x,
  ref_less dbg objects less (Some o) x = without_exception (less (objects o) x) /\
  ref_equals dbg objects equal (Some o) x = without_exception (equal (objects o) x) /\
  refs_equal dbg objects equal (Some o) (Some o') = without_exception (equal (objects o) (objects o')) /\
  refs_less dbg objects less (Some o) (Some o') = without_exception (less (objects o) (objects o')).
Proof. intros. unfold ref_less, ref_equals, refs_equal, refs_less, get_object, ref_get, assert_. destruct dbg; cbn; repeat split; apply noexcept_without. Qed.
Lemma compare_null : forall p x,
  ref_less dbg objects less None x = (if dbg then Abort else UB NullDeref) /\
  ref_equals dbg objects equal None x = (if dbg then Abort else UB NullDeref) /\
  refs_equal dbg objects equal None p = (if dbg then Abort else UB NullDeref) /\ refs_equal dbg objects equal p None = (if dbg then Abort else UB NullDeref) /\
  refs_less dbg objects less None p = (if dbg then Abort else UB NullDeref) /\ refs_less dbg objects less p None = (if dbg then Abort else UB NullDeref).
Proof. intros. unfold ref_less, ref_equals, refs_equal, refs_less, get_object, ref_get, assert_. destruct dbg, p; cbn; repeat split. Qed.
Lemma compare_order (lt : T -> T -> bool) : strict_weak_order lt -> (forall x y, less x y = Ok (lt x y)) ->
  exists before : nat -> nat -> bool, strict_weak_order before /\ forall o o', refs_less dbg objects less (Some o) (Some o') = Ok (before o o').
Proof.
  intros (I & Tr & E) L. exists (fun o o' => lt (objects o) (objects o')). split; [split; [|split]; intros; eauto|].
  intros o o'. destruct (compare_ok o o' (objects o)) as (_ & _ & _ & ->). rewrite L. reflexivity.
Qed.
End Compare.

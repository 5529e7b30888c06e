(** Proofs about copies of signals. *)
From Verif Require Import Base SignalCopyModel SignalCopySpec.

Section Proofs.
Context {F A W : Type}.
Variable call : F -> A -> W -> W * option exn.
Implicit Types (s : state F W) (o : op F A).
Local Notation step := (@step F A W call).
Local Notation run := (@run F A W call).

Lemma run_app dbg l1 : forall l2 s, run dbg (l1 ++ l2) s =
  (r <- run dbg l1 s ;; let '(s1, x1) := r in r <- run dbg l2 s1 ;; let '(s2, x2) := r in Ok (s2, x1 ++ x2)).
Proof.
  induction l1 as [|o l1 IH]; intros l2 s; cbn [app SignalCopyModel.run bind].
  - destruct (run dbg l2 s) as [[s2 x2]| | | | |]; reflexivity.
  - destruct (step dbg o s) as [[s1 x]| | | | |]; cbn [bind]; try reflexivity. rewrite IH.
    destruct (run dbg l1 s1) as [[s2 x2]| | | | |]; cbn [bind]; try reflexivity.
    destruct (run dbg l2 s2) as [[s3 x3]| | | | |]; reflexivity.
Qed.
Lemma run_length dbg : forall l s s' xs, run dbg l s = Ok (s', xs) -> length xs = length l.
Proof.
  induction l as [|o l IH]; intros s s' xs E; cbn [SignalCopyModel.run] in E; [injection E as <- <-; reflexivity|].
  destruct (step dbg o s) as [[s1 x]| | | | |]; cbn [bind] in E; try discriminate.
  destruct (run dbg l s1) as [[s2 x2]| | | | |] eqn:E2; cbn [bind] in E; try discriminate.
  injection E as <- <-. cbn [length]. f_equal. eapply IH. exact E2.
Qed.

Lemma copy_snd (l : list (nat * F)) b : map snd (combine (seq b (length l)) (map snd l)) = map snd l.
Proof.
  revert b. induction l as [|[c f] l IH]; intro b; cbn [length seq map combine snd]; [reflexivity|]. f_equal. apply IH.
Qed.
Lemma copy_ids (l : list (nat * F)) b c : In c (map fst (combine (seq b (length l)) (map snd l))) -> b <= c < b + length l.
Proof.
  revert b. induction l as [|[x f] l IH]; intros b H; cbn [length seq map combine fst In] in *; [destruct H|].
  destruct H as [<-|H]; [lia|]. apply IH in H. lia.
Qed.

(** ** One step *)
Lemma step_other dbg o s s' x k : step dbg o s = Ok (s', x) -> target o <> Some k -> signals s' k = signals s k.
Proof.
  intros E T. assert (P : forall i l s0, i <> k -> signals (put i l s0) k = signals s0 k).
  { intros i l s0 N. cbn. destruct (Nat.eqb_spec k i); [congruence|reflexivity]. }
  destruct o as [i|i j|i j|i|i f|i c|i a|i]; cbn [SignalCopyModel.step target copy_list] in E, T.
  - destruct (signals s i); [discriminate|]. injection E as <- <-. apply P. congruence.
  - destruct (signals s i); [discriminate|]. unfold get in E. destruct (signals s j) as [l|]; [|discriminate].
    cbn [bind] in E. injection E as <- <-. rewrite P by congruence. reflexivity.
  - unfold get in E. destruct (signals s i) as [l0|]; [|discriminate]. cbn [bind] in E.
    destruct (signals s j) as [l|]; [|discriminate]. cbn [bind] in E. destruct (Nat.eqb i j).
    + injection E as <- <-. reflexivity.
    + injection E as <- <-. rewrite P by congruence. reflexivity.
  - unfold get in E. destruct (signals s i) as [l|]; [|discriminate]. cbn [bind] in E.
    destruct (assert_ dbg (Nat.eqb (length l) 0)); try discriminate. cbn [bind] in E. injection E as <- <-. apply P. congruence.
  - unfold get in E. destruct (signals s i) as [l|]; [|discriminate]. cbn [bind] in E. injection E as <- <-. rewrite P by congruence. reflexivity.
  - unfold get in E. destruct (signals s i) as [l|]; [|discriminate]. cbn [bind] in E.
    destruct (existsb _ l); [|discriminate]. injection E as <- <-. apply P. congruence.
  - unfold get in E. destruct (signals s i) as [l|]; [|discriminate]. cbn [bind] in E.
    destruct (emit_to call l a (world s)) as [[w fs] r]. injection E as <- <-. reflexivity.
  - unfold get in E. destruct (signals s i) as [l|]; [|discriminate]. cbn [bind] in E. injection E as <- <-. reflexivity.
Qed.

(** Numbers in use are below [fresh]. *)
Definition below s : Prop := forall i l, signals s i = Some l -> forall c, In c (map fst l) -> c < fresh s.
Lemma step_fresh dbg o s s' x : step dbg o s = Ok (s', x) ->
  fresh s <= fresh s' /\ forall c, x = r_connection c -> c = fresh s /\ fresh s < fresh s'.
Proof.
  intro E. destruct o as [i|i j|i j|i|i f|i c|i a|i]; cbn [SignalCopyModel.step copy_list] in E; unfold get in E;
    try (destruct (signals s i) as [l|]; try discriminate; cbn [bind] in E);
    try (destruct (signals s j) as [l'|]; try discriminate; cbn [bind] in E);
    try (destruct (Nat.eqb i j));
    try (destruct (assert_ dbg _); try discriminate; cbn [bind] in E);
    try (destruct (existsb _ l); try discriminate);
    try (destruct (emit_to call l a (world s)) as [[w fs] r]);
    injection E as <- <-; cbn; (split; [lia|intros c0 H; try discriminate]).
  injection H as <-. split; [reflexivity|lia].
Qed.
Lemma step_below dbg o s s' x : step dbg o s = Ok (s', x) -> below s -> below s'.
Proof.
  intros E B k lk Ek c Hc. destruct (step_fresh dbg o s s' x E) as [FR _].
  destruct (target o) as [t|] eqn:T; [destruct (Nat.eq_dec t k) as [->|N]|].
  2,3: rewrite (step_other dbg o s s' x k E) in Ek by congruence; specialize (B k lk Ek c Hc); lia.
  destruct o as [i|i j|i j|i|i f|i d|i a|i]; cbn [target] in T; try discriminate; injection T as ->;
    cbn [SignalCopyModel.step copy_list] in E; unfold get in E;
    destruct (signals s k) as [l|] eqn:El; try discriminate; cbn [bind] in E.
  - injection E as <- <-. cbn in Ek. rewrite Nat.eqb_refl in Ek. injection Ek as <-. destruct Hc.
  - destruct (signals s j) as [l'|]; [|discriminate]. cbn [bind] in E. injection E as <- <-. cbn in Ek |- *. rewrite Nat.eqb_refl in Ek.
    injection Ek as <-. apply copy_ids in Hc. lia.
  - destruct (signals s j) as [l'|]; [|discriminate]. cbn [bind] in E. destruct (Nat.eqb k j); injection E as <- <-.
    + eapply B; eauto.
    + cbn in Ek |- *. rewrite Nat.eqb_refl in Ek. injection Ek as <-. apply copy_ids in Hc. lia.
  - destruct (assert_ dbg _); try discriminate. cbn [bind] in E. injection E as <- <-. cbn in Ek. rewrite Nat.eqb_refl in Ek. discriminate.
  - injection E as <- <-. cbn in Ek |- *. rewrite Nat.eqb_refl in Ek. injection Ek as <-. rewrite map_app, in_app_iff in Hc.
    destruct Hc as [Hc|[<-|[]]]; [specialize (B k l El c Hc); lia|cbn; lia].
  - destruct (existsb _ l); [|discriminate]. injection E as <- <-. cbn in Ek |- *. rewrite Nat.eqb_refl in Ek. injection Ek as <-.
    apply in_map_iff in Hc. destruct Hc as (y & <- & Hy). apply filter_In in Hy. apply (B k l El). apply in_map. tauto.
Qed.
Lemma run_below dbg : forall l s s' xs, run dbg l s = Ok (s', xs) -> below s ->
  below s' /\ fresh s <= fresh s' /\ forall c, In (r_connection c) xs -> fresh s <= c < fresh s'.
Proof.
  induction l as [|o l IH]; intros s s' xs E B; cbn [SignalCopyModel.run] in E.
  - injection E as <- <-. split; [exact B|]. split; [lia|intros c []].
  - destruct (step dbg o s) as [[s1 x]| | | | |] eqn:E1; cbn [bind] in E; try discriminate.
    destruct (run dbg l s1) as [[s2 x2]| | | | |] eqn:E2; cbn [bind] in E; try discriminate. injection E as <- <-.
    destruct (step_fresh _ _ _ _ _ E1) as [F1 C1]. destruct (IH _ _ _ E2 (step_below _ _ _ _ _ E1 B)) as (B2 & F2 & C2).
    split; [exact B2|]. split; [lia|]. intros c [->|H]; [destruct (C1 c eq_refl); lia|]. specialize (C2 c H). lia.
Qed.
Lemma init_below w : below (init (F := F) w).
Proof. intros i l E. discriminate. Qed.

(** ** Emission *)
Lemma emit_called l : forall a w, exists w' fs r, emit_to call l a w = (w', fs, r) /\ called call (map snd l) a w fs w' r.
Proof.
  induction l as [|[c f] l IH]; intros a w; cbn [emit_to map snd].
  - do 3 eexists. split; [reflexivity|constructor].
  - destruct (call f a w) as [w1 [e|]] eqn:E.
    + do 3 eexists. split; [reflexivity|]. apply call_throws. exact E.
    + destruct (IH a w1) as (w2 & fs & r & E2 & C). rewrite E2. do 3 eexists. split; [reflexivity|]. econstructor; eassumption.
Qed.
Lemma emit_spec dbg i a s fs : callbacks s i = Some fs -> exists s' l r,
  step dbg (m_emit i a) s = Ok (s', r_called l r) /\ called call fs a (world s) l (world s') r /\ forall k, callbacks s' k = callbacks s k.
Proof.
  unfold callbacks. intro C. cbn [SignalCopyModel.step]. unfold get. destruct (signals s i) as [l|]; [|discriminate].
  injection C as <-. cbn [bind]. destruct (emit_called l a (world s)) as (w & fs & r & E & K). rewrite E.
  do 3 eexists. split; [reflexivity|]. split; [exact K|reflexivity].
Qed.

(** ** Copies *)
Lemma copy_step dbg i j s s' x : step dbg (m_copy i j) s = Ok (s', x) \/ (i <> j /\ step dbg (m_assign i j) s = Ok (s', x)) ->
  exists l, signals s j = Some l /\ i <> j /\ signals s' i = Some (combine (seq (fresh s) (length l)) (map snd l)) /\
    fresh s' = fresh s + length l /\ world s' = world s /\ x = r_none.
Proof.
  intros [E|[N E]]; cbn [SignalCopyModel.step] in E; unfold get in E.
  - destruct (signals s i) eqn:Ei; [discriminate|]. destruct (signals s j) as [l|] eqn:Ej; [|discriminate].
    cbn [bind copy_list] in E. injection E as <- <-. exists l. split; [reflexivity|]. split; [congruence|].
    cbn. rewrite Nat.eqb_refl. auto.
  - destruct (signals s i) eqn:Ei; [|discriminate]. cbn [bind] in E. destruct (signals s j) as [l'|] eqn:Ej; [|discriminate].
    cbn [bind copy_list] in E. destruct (Nat.eqb_spec i j); [congruence|]. injection E as <- <-. exists l'. split; [reflexivity|]. split; [exact N|].
    cbn. rewrite Nat.eqb_refl. auto.
Qed.
Lemma copy_spec dbg i j s s' x : step dbg (m_copy i j) s = Ok (s', x) \/ (i <> j /\ step dbg (m_assign i j) s = Ok (s', x)) ->
  callbacks s' i = callbacks s j /\ (forall k, k <> i -> signals s' k = signals s k) /\ world s' = world s.
Proof.
  intro H. destruct (copy_step _ _ _ _ _ _ H) as (l & Ej & N & Ei & _ & Ew & _). split; [|split; [|exact Ew]].
  - unfold callbacks. rewrite Ei, Ej. cbn [option_map]. rewrite copy_snd. reflexivity.
  - intros k Nk. destruct H as [E|[_ E]]; apply (step_other _ _ _ _ _ k E); cbn [target]; congruence.
Qed.

(** No connection known before is one of the copy. *)
Lemma copy_foreign dbg pre w s0 xs0 : run dbg pre (init w) = Ok (s0, xs0) -> forall i j s x,
  step dbg (m_copy i j) s0 = Ok (s, x) \/ (i <> j /\ step dbg (m_assign i j) s0 = Ok (s, x)) ->
  forall c, In (r_connection c) xs0 -> step dbg (m_disconnect i c) s = UB UseAfterFree.
Proof.
  intros R i j s x H c Hc. destruct (copy_step _ _ _ _ _ _ H) as (l & _ & _ & Ei & _).
  destruct (run_below _ _ _ _ _ R (init_below w)) as (_ & _ & K). specialize (K c Hc).
  cbn [SignalCopyModel.step]. unfold get. rewrite Ei. cbn [bind].
  destruct (existsb _ _) eqn:X; [|reflexivity]. exfalso. apply existsb_exists in X. destruct X as ([d f] & Hd & Ed).
  apply Nat.eqb_eq in Ed. cbn [fst] in Ed. subst d. apply (in_map fst) in Hd. apply copy_ids in Hd. cbn in *. lia.
Qed.

(** The copied callbacks stay. *)
Lemma honest_app (l : list (op F A)) : forall pre xs0 known xs, length pre = length xs0 -> honest known (pre ++ l) (xs0 ++ xs) ->
  exists known', honest known' l xs /\ forall c, In c known' -> In c known \/ In (r_connection c) xs0.
Proof.
  induction pre as [|o pre IH]; intros xs0 known xs L H; destruct xs0 as [|x xs0]; try discriminate; cbn [app] in H.
  - exists known. auto.
  - cbn [honest] in H. destruct H as [_ H]. destruct (IH xs0 _ xs ltac:(cbn in L; lia) H) as (k & Hk & S). exists k. split; [exact Hk|].
    intros c Hc. destruct (S c Hc) as [K|K]; [|right; right; exact K].
    destruct x; auto. destruct K as [->|K]; [right; left; reflexivity|auto].
Qed.
Lemma filter_app' {X} (p : X -> bool) l1 l2 : filter p (l1 ++ l2) = filter p l1 ++ filter p l2.
Proof. induction l1 as [|x l1 IH]; [reflexivity|]. cbn. destruct (p x); cbn; rewrite IH; reflexivity. Qed.
Lemma filter_all {X} (p : X -> bool) l : (forall x, In x l -> p x = true) -> filter p l = l.
Proof.
  induction l as [|x l IH]; intro H; [reflexivity|]. cbn. rewrite (H x) by (left; reflexivity). f_equal. apply IH. intros y Hy. apply H. right. exact Hy.
Qed.
Lemma stuck_run dbg i b kept : (forall c, In c (map fst kept) -> b <= c < b + length kept) ->
  forall l s s' xs known, run dbg l s = Ok (s', xs) -> honest known l xs -> forallb (keeps i) l = true ->
  (forall c, In c known -> c < b \/ b + length kept <= c) -> b + length kept <= fresh s ->
  (exists rest, signals s i = Some (kept ++ rest)) -> exists rest, signals s' i = Some (kept ++ rest).
Proof.
  intro K. induction l as [|o l IH]; intros s s' xs known E H Ke Kn Fr (rest & Ei); cbn [SignalCopyModel.run] in E.
  - injection E as <- <-. eauto.
  - destruct (step dbg o s) as [[s1 x]| | | | |] eqn:E1; cbn [bind] in E; try discriminate.
    destruct (run dbg l s1) as [[s2 x2]| | | | |] eqn:E2; cbn [bind] in E; try discriminate. injection E as <- <-.
    cbn [honest] in H. destruct H as [Ho H]. cbn [forallb] in Ke. apply andb_true_iff in Ke. destruct Ke as [Ko Ke].
    destruct (step_fresh _ _ _ _ _ E1) as [F1 C1].
    apply (IH s1 s2 x2 _ E2 H Ke); [|lia|].
    + intros c Hc. destruct x as [|d| |]; auto. destruct Hc as [<-|Hc]; [|auto]. destruct (C1 d eq_refl). lia.
    + destruct (target o) as [t|] eqn:T; [destruct (Nat.eq_dec t i) as [->|N]|].
      2,3: rewrite (step_other _ _ _ _ _ i E1) by congruence; eauto.
      destruct o as [t|t j|t j|t|t f|t d|t a|t]; cbn [target] in T; try discriminate; injection T as ->; cbn [SignalCopyModel.step] in E1; unfold get in E1;
        rewrite Ei in E1; cbn [bind] in E1; cbn [keeps] in Ko; rewrite ?Nat.eqb_refl in Ko; try discriminate.
      * injection E1 as <- <-. cbn. rewrite Nat.eqb_refl, <- app_assoc. eauto.
      * destruct (existsb _ _); [|discriminate]. injection E1 as <- <-. cbn. rewrite Nat.eqb_refl, filter_app'. rewrite (filter_all _ kept); [eauto|].
        intros [c f] Hc. cbn [fst]. apply negb_true_iff, Nat.eqb_neq. intros ->. apply (in_map fst) in Hc. apply K in Hc. specialize (Kn d Ho). cbn in *. lia.
Qed.
Lemma copies_stay dbg pre o l w s xs i j s0 xs0 fs :
  run dbg (pre ++ o :: l) (init w) = Ok (s, xs) -> honest [] (pre ++ o :: l) xs ->
  o = m_copy i j \/ (o = m_assign i j /\ i <> j) -> forallb (keeps i) l = true ->
  run dbg pre (init w) = Ok (s0, xs0) -> callbacks s0 j = Some fs ->
  exists rest, callbacks s i = Some (fs ++ rest).
Proof.
  intros E H Ho Ke E0 Cj. rewrite run_app, E0 in E. cbn [bind] in E.
  destruct (run dbg (o :: l) s0) as [[s2 x2]| | | | |] eqn:E2; cbn [bind] in E; try discriminate. injection E as <- <-.
  cbn [SignalCopyModel.run] in E2. destruct (step dbg o s0) as [[s1 x]| | | | |] eqn:E1; cbn [bind] in E2; try discriminate.
  destruct (run dbg l s1) as [[s3 x3]| | | | |] eqn:E3; cbn [bind] in E2; try discriminate. injection E2 as <- <-.
  assert (St : step dbg (m_copy i j) s0 = Ok (s1, x) \/ (i <> j /\ step dbg (m_assign i j) s0 = Ok (s1, x)))
    by (destruct Ho as [->|[-> N]]; auto).
  destruct (copy_step _ _ _ _ _ _ St) as (lj & Ej & N & Ei & Ef & _ & ->).
  destruct (run_below _ _ _ _ _ E0 (init_below w)) as (_ & _ & K).
  destruct (honest_app (o :: l) pre xs0 [] (r_none :: x3) (eq_sym (run_length _ _ _ _ _ E0)) H) as (known & Hk & Sk).
  cbn [honest] in Hk. destruct Hk as [_ Hk].
  assert (Lc : length (combine (seq (fresh s0) (length lj)) (map snd lj)) = length lj).
  { rewrite combine_length, seq_length, map_length. lia. }
  destruct (stuck_run dbg i (fresh s0) (combine (seq (fresh s0) (length lj)) (map snd lj))
    ltac:(rewrite Lc; intros c Hc; apply copy_ids; exact Hc) l s1 s3 x3 known E3 Hk Ke) as (rest & R).
  - intros c Hc. destruct (Sk c Hc) as [[]|Hx]. specialize (K c Hx). left. lia.
  - rewrite Lc. lia.
  - exists []. rewrite app_nil_r. exact Ei.
  - exists (map snd rest). unfold callbacks in *. rewrite R, Ej in *. injection Cj as <-. cbn [option_map]. rewrite map_app, copy_snd. reflexivity.
Qed.
Lemma destroy_nonempty i s f fs : callbacks s i = Some (f :: fs) -> step true (m_destroy i) s = Abort.
Proof.
  unfold callbacks. intro C. cbn [SignalCopyModel.step]. unfold get. destruct (signals s i) as [[|]|]; try discriminate. reflexivity.
Qed.
End Proofs.

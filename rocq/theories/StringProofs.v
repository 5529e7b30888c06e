From Verif Require Import Base ListLemmas UtilModel UtilProofs StringModel StringSpec.
Local Open Scope N_scope.

Lemma join_ok {A} fuel dbg (d : A) (l : list (list A)) : (length l < fuel)%nat -> join fuel dbg l d = Ok (glue d l).
Proof.
  intro L. unfold join. destruct l as [|x l]; [reflexivity|].
  change 1%Z with (Z.of_nat 1). rewrite skip_front_ok by (cbn [length] in *; lia). cbn [bind skipn]. f_equal. clear L.
  revert x. induction l as [|y l IH]; intro x; [reflexivity|].
  cbn [fold_left]. rewrite IH. change (glue d (x :: y :: l)) with (x ++ d :: glue d (y :: l)).
  destruct l as [|z l]; cbn [glue app]; [reflexivity|]. rewrite <- app_assoc. reflexivity.
Qed.

Section View.
Context {A : Type}.
Variable eqb : A -> A -> bool.
Hypothesis eqb_spec : forall x y, eqb x y = true <-> x = y.
Implicit Types s : list A.

Lemma eqb_false x y : x <> y -> eqb x y = false.
Proof. intro H. destruct (eqb x y) eqn:E; [apply eqb_spec in E; contradiction|reflexivity]. Qed.
Lemma eqb_refl x : eqb x x = true.
Proof. apply eqb_spec. reflexivity. Qed.

Lemma find_char_none c s : forall i pos, ~ In c (skipn (N.to_nat (pos - i)) s) -> find_char_from eqb c i s pos = npos.
Proof.
  induction s as [|x s IH]; intros i pos H; [reflexivity|]. cbn [find_char_from].
  destruct (N.leb_spec pos i) as [L|L].
  - replace (pos - i) with 0 in H by lia. cbn [N.to_nat skipn In] in H.
    rewrite eqb_false by (intro; apply H; left; assumption). cbn [andb]. apply IH.
    replace (pos - (i + 1)) with 0 by lia. cbn [N.to_nat skipn]. tauto.
  - cbn [andb]. apply IH. replace (N.to_nat (pos - i)) with (S (N.to_nat (pos - (i + 1)))) in H by lia. exact H.
Qed.

Lemma find_char_some c w r s : forall i pos, i <= pos -> ~ In c w -> skipn (N.to_nat (pos - i)) s = w ++ c :: r ->
  find_char_from eqb c i s pos = pos + N.of_nat (length w).
Proof.
  intros i pos Hi Hw.
  (* skip up to pos, then over w *)
  assert (G : forall w s i, pos <= i -> ~ In c w -> s = w ++ c :: r -> find_char_from eqb c i s pos = i + N.of_nat (length w)).
  { clear - eqb_spec. intros w. induction w as [|x w IH]; intros s i Hi Hw ->; cbn [app find_char_from length].
    - replace (pos <=? i) with true by lia. rewrite (eqb_refl c). cbn [andb]. lia.
    - replace (pos <=? i) with true by lia. rewrite eqb_false by (intro; apply Hw; left; assumption). cbn [andb].
      rewrite IH; auto; try lia. intro; apply Hw; right; assumption. }
  revert i Hi. induction s as [|x s IH]; intros i Hi E; [rewrite skipn_nil in E; destruct w; discriminate|].
  destruct (N.eq_dec i pos) as [->|NE].
  - rewrite N.sub_diag in E. cbn [N.to_nat skipn] in E. rewrite (G w (x :: s) pos); auto; lia.
  - cbn [find_char_from]. replace (pos <=? i) with false by lia. cbn [andb]. apply IH; [lia|].
    replace (N.to_nat (pos - i)) with (S (N.to_nat (pos - (i + 1)))) in E by lia. exact E.
Qed.

Lemma substr_exact s (a w r : list A) : s = a ++ w ++ r -> substr s (N.of_nat (length a)) (N.of_nat (length w)) = Ok w.
Proof.
  intros ->. unfold substr, size. rewrite !app_length.
  replace (N.of_nat (length a + (length w + length r)) <? N.of_nat (length a)) with false by lia.
  f_equal. rewrite Nat2N.id, skipn_app_exact.
  replace (N.to_nat (N.min (N.of_nat (length w)) (N.of_nat (length a + (length w + length r)) - N.of_nat (length a))))
    with (length w) by lia. apply firstn_app_exact.
Qed.

(** The loop of split on a position [a] of the text [a ++ glue d l]. *)
Lemma split_loop_ok d : forall l a fuel ret, N.of_nat (length (a ++ glue d l)) < 2 ^ 64 - 1 ->
  l <> [] -> Forall (fun w => ~ In d w) l -> (length l <= fuel)%nat ->
  split_loop eqb fuel (a ++ glue d l) d (N.of_nat (length a)) ret = Ok (ret ++ l).
Proof.
  induction l as [|w l IH]; intros a fuel ret Hs NE F L; [contradiction|].
  destruct fuel as [|fuel]; [cbn in L; lia|]. cbn [split_loop].
  pose proof (Forall_inv F) as Fw. pose proof (Forall_inv_tail F) as Fl. cbv beta in Fw.
  destruct l as [|w2 l].
  - cbn [glue] in *. unfold find_char. rewrite find_char_none.
    2:{ rewrite N.sub_0_r, Nat2N.id, skipn_app_exact. exact Fw. }
    rewrite N.eqb_refl. unfold size. rewrite N.mod_small by (unfold npos in *; lia).
    rewrite app_length at 1. replace (N.of_nat (length a + length w) - N.of_nat (length a)) with (N.of_nat (length w)) by lia.
    rewrite (substr_exact (a ++ w) a w []) by (rewrite app_nil_r; reflexivity). reflexivity.
  - change (glue d (w :: w2 :: l)) with (w ++ d :: glue d (w2 :: l)) in *. set (g := glue d (w2 :: l)) in *.
    unfold find_char. rewrite (find_char_some d w g) by (auto; try lia; rewrite N.sub_0_r, Nat2N.id, skipn_app_exact; reflexivity).
    rewrite !app_length in Hs. cbn [length] in Hs.
    destruct (N.eqb_spec (N.of_nat (length a) + N.of_nat (length w)) npos) as [E|E]; [unfold npos in E; lia|].
    rewrite !N.mod_small by lia.
    replace (N.of_nat (length a) + N.of_nat (length w) - N.of_nat (length a)) with (N.of_nat (length w)) by lia.
    rewrite (substr_exact _ a w (d :: g)) by reflexivity. cbn [bind].
    replace (a ++ w ++ d :: g) with ((a ++ w ++ [d]) ++ g) by (rewrite <- !app_assoc; reflexivity).
    replace (N.of_nat (length a) + N.of_nat (length w) + 1) with (N.of_nat (length (a ++ w ++ [d])))
      by (rewrite !app_length; cbn [length]; lia).
    unfold g. rewrite IH; auto.
    + rewrite <- app_assoc. reflexivity.
    + fold g. rewrite !app_length. cbn [length]. lia.
    + discriminate.
    + cbn [length] in *. lia.
Qed.

Lemma glue_length d (l : list (list A)) : (length l <= S (length (glue d l)))%nat.
Proof.
  induction l as [|x l IH]; [cbn; lia|]. destruct l as [|y l]; [cbn; lia|].
  change (glue d (x :: y :: l)) with (x ++ d :: glue d (y :: l)). rewrite app_length.
  cbn [length] in *. lia.
Qed.

Lemma glue_count d (l : list (list A)) : l <> [] -> Forall (fun w => ~ In d w) l ->
  length l = S (count eqb d (glue d l)).
Proof.
  intros NE F. induction F as [|x l Hx F IH]; [contradiction|].
  assert (Z : filter (fun y => eqb y d) x = []).
  { clear - Hx eqb_spec. induction x as [|y x IH]; [reflexivity|]. cbn [filter].
    rewrite eqb_false by (intros ->; apply Hx; left; reflexivity). apply IH. intro; apply Hx; right; assumption. }
  destruct l as [|y l].
  - unfold count. cbn [glue length]. rewrite Z. reflexivity.
  - change (glue d (x :: y :: l)) with (x ++ d :: glue d (y :: l)). unfold count in *.
    rewrite filter_app, Z. cbn [app filter]. rewrite eqb_refl. cbn [length]. rewrite <- IH by discriminate. reflexivity.
Qed.

Lemma glue_exists d s : exists l, l <> [] /\ Forall (fun w => ~ In d w) l /\ glue d l = s.
Proof.
  induction s as [|x s [l [NE [F E]]]].
  - exists [[]]. split; [discriminate|]. split; [repeat constructor; intros []|reflexivity].
  - destruct (eqb x d) eqn:Ex.
    + apply eqb_spec in Ex. subst x. exists ([] :: l). split; [discriminate|]. split; [constructor; [intros []|exact F]|].
      destruct l as [|y l]; [contradiction|]. cbn [app glue]. cbn [glue] in E. rewrite E. reflexivity.
    + destruct l as [|y l]; [contradiction|]. exists ((x :: y) :: l). split; [discriminate|]. split.
      * inversion F; subst. constructor; [|assumption]. intros [->|Hin]; [rewrite eqb_refl in Ex; discriminate|contradiction].
      * subst s. destruct l; reflexivity.
Qed.

(** ** C16, C17 *)
Lemma split_unique fuel s d l : N.of_nat (length s) < 2 ^ 64 - 1 -> (length s < fuel)%nat ->
  (split eqb fuel s d = Ok l <-> l <> [] /\ Forall (fun w => ~ In d w) l /\ glue d l = s).
Proof.
  intros Hs L.
  assert (G : forall l, l <> [] -> Forall (fun w => ~ In d w) l -> glue d l = s -> split eqb fuel s d = Ok l).
  { intros l0 NE F E. unfold split. pose proof (glue_length d l0) as GL.
    rewrite <- E at 1. change (glue d l0) with ([] ++ glue d l0). change 0 with (N.of_nat (length (@nil A))).
    rewrite split_loop_ok; auto; cbn [app]; rewrite E in *; [assumption|lia]. }
  split; [|intros [NE [F E]]; apply G; assumption].
  intro E. destruct (glue_exists d s) as [l0 [NE [F E0]]]. rewrite (G l0 NE F E0) in E. injection E as <-. auto.
Qed.

Lemma split_join fuel dbg s d : N.of_nat (length s) < 2 ^ 64 - 1 -> (length s < fuel)%nat ->
  exists l, split eqb fuel s d = Ok l /\ l <> [] /\ Forall (fun w => ~ In d w) l /\
    length l = S (count eqb d s) /\
    forall fuel', (length l < fuel')%nat -> join fuel' dbg l d = Ok s.
Proof.
  intros Hs L. destruct (glue_exists d s) as [l [NE [F E]]]. exists l.
  split; [apply split_unique; auto|]. split; [exact NE|]. split; [exact F|]. split.
  - rewrite <- E. apply glue_count; assumption.
  - intros fuel' L'. rewrite join_ok by exact L'. f_equal. exact E.
Qed.

Lemma join_split dbg (l : list (list A)) d : l <> [] -> Forall (fun w => ~ In d w) l -> exists s,
  (forall fuel, (length l < fuel)%nat -> join fuel dbg l d = Ok s) /\
  (N.of_nat (length s) < 2 ^ 64 - 1 -> forall fuel, (length s < fuel)%nat -> split eqb fuel s d = Ok l).
Proof.
  intros NE F. exists (glue d l). split; [intros fuel L; apply join_ok, L|].
  intros Hs fuel L. apply split_unique; auto.
Qed.

(** ** starts_with, ends_with *)
Lemma view_eqb_spec (a b : list A) : view_eqb eqb a b = true <-> a = b.
Proof.
  revert b; induction a as [|x a IH]; intros [|y b]; cbn [view_eqb]; try (split; [reflexivity|reflexivity]); try (split; discriminate).
  rewrite andb_true_iff, eqb_spec, IH. split; [intros [-> ->]; reflexivity|intro E; injection E; auto].
Qed.

Lemma is_prefix_spec (v s : list A) : is_prefix eqb v s = true <-> prefix_of v s.
Proof.
  revert s; induction v as [|x v IH]; intro s; cbn [is_prefix].
  - split; [intros _; exists s; reflexivity|reflexivity].
  - destruct s as [|y s]; [split; [discriminate|intros [r E]; discriminate]|].
    rewrite andb_true_iff, eqb_spec, IH. split.
    + intros [-> [r ->]]. exists r. reflexivity.
    + intros [r E]. injection E as -> ->. split; [reflexivity|exists r; reflexivity].
Qed.

Lemma occurs_cons v x s i : occurs_at v (x :: s) (S i) <-> occurs_at v s i.
Proof.
  split; intros [a [b [E L]]].
  - destruct a as [|y a]; [discriminate|]. injection E as -> E. exists a, b. split; [exact E|]. cbn in L. lia.
  - exists (x :: a), b. split; [cbn; rewrite E; reflexivity|]. cbn. lia.
Qed.
Lemma occurs_zero v s : occurs_at v s 0 <-> prefix_of v s.
Proof.
  split; [intros [a [b [E L]]]; destruct a; [exists b; exact E|discriminate]|].
  intros [r E]. exists [], r. auto.
Qed.

Lemma find_view_spec v s : forall i, N.of_nat (length s) + i < npos ->
  (find_view_from eqb v i s = npos /\ (forall k, ~ occurs_at v s k)) \/
  (exists k, find_view_from eqb v i s = i + N.of_nat k /\ (k <= length s)%nat /\ occurs_at v s k /\
     forall k', (k' < k)%nat -> ~ occurs_at v s k').
Proof.
  induction s as [|x s IH]; intros i Hi; cbn [find_view_from].
  - destruct (is_prefix eqb v []) eqn:E.
    + right. exists 0%nat. split; [lia|]. split; [cbn; lia|]. split; [apply occurs_zero, is_prefix_spec, E|lia].
    + left. split; [reflexivity|]. intros [|k] O.
      * apply occurs_zero, is_prefix_spec in O. congruence.
      * destruct O as [a [b [E' L]]]. destruct a; discriminate.
  - destruct (is_prefix eqb v (x :: s)) eqn:E.
    + right. exists 0%nat. split; [lia|]. split; [lia|]. split; [apply occurs_zero, is_prefix_spec, E|lia].
    + assert (NO : ~ occurs_at v (x :: s) 0) by (intro O; apply occurs_zero, is_prefix_spec in O; congruence).
      destruct (IH (i + 1)) as [[H1 H2]|[k [H1 [H2 [H3 H4]]]]]; [cbn [length] in Hi; lia| |].
      * left. split; [exact H1|]. intros [|k]; [exact NO|]. rewrite occurs_cons. apply H2.
      * right. exists (S k). split; [lia|]. split; [cbn; lia|]. split; [apply occurs_cons, H3|].
        intros [|k'] L; [exact NO|]. rewrite occurs_cons. apply H4. lia.
Qed.

Lemma occurs_end v s : occurs_at v s (length s - length v) /\ (length v <= length s)%nat <-> suffix_of v s.
Proof.
  split.
  - intros [[a [b [E L]]] H]. assert (b = []) as ->.
    { apply (f_equal (@length A)) in E. rewrite !app_length in E. destruct b; [reflexivity|cbn in E; lia]. }
    exists a. rewrite app_nil_r in E. exact E.
  - intros [r ->]. rewrite app_length. split; [|lia]. exists r, []. rewrite app_nil_r. split; [reflexivity|lia].
Qed.

Lemma starts_with_spec cpp20 s p : N.of_nat (length s) < npos -> (starts_with eqb cpp20 s p = true <-> prefix_of p s).
Proof.
  intro Hs. unfold starts_with. destruct cpp20.
  - rewrite view_eqb_spec. split.
    + intro E. exists (skipn (length p) s). rewrite <- (firstn_skipn (length p) s) at 1. rewrite E. reflexivity.
    + intros [r ->]. apply firstn_app_exact.
  - unfold find_view. rewrite N.eqb_eq. destruct (find_view_spec p s 0) as [[H1 H2]|[k [H1 [H2 [H3 H4]]]]]; [lia| |].
    + rewrite H1. split; [intro E; discriminate E|]. intro P. exfalso. apply (H2 0%nat), occurs_zero, P.
    + rewrite H1. split.
      * intro E. assert (k = 0%nat) as -> by lia. apply occurs_zero, H3.
      * intro P. destruct k; [reflexivity|]. exfalso. apply (H4 0%nat); [lia|]. apply occurs_zero, P.
Qed.

Lemma ends_with_20 s v : ends_with eqb true s v = true <-> suffix_of v s.
Proof.
  unfold ends_with, size. rewrite andb_true_iff, view_eqb_spec, N.leb_le. split.
  - intros [L E]. exists (firstn (length s - length v) s). rewrite <- E at 2. symmetry. apply firstn_skipn.
  - intros [r ->]. rewrite app_length. split; [lia|].
    replace (length r + length v - length v)%nat with (length r) by lia. apply skipn_app_exact.
Qed.

Lemma ends_with_17 s v : N.of_nat (length s) < npos ->
  (ends_with eqb false s v = true <->
   v = [] \/ (suffix_of v s /\ forall i, occurs_at v s i -> (length s - length v <= i)%nat)).
Proof.
  intro Hs. unfold ends_with, size. destruct v as [|x v]; [cbn; split; auto|].
  set (w := x :: v) in *. assert (Lw : (0 < length w)%nat) by (cbn; lia).
  replace (N.of_nat (length w) =? 0) with false by lia.
  destruct (N.ltb_spec (N.of_nat (length s)) (N.of_nat (length w))) as [L|L].
  - split; [discriminate|]. intros [E|[[r E] _]]; [discriminate|]. apply (f_equal (@length A)) in E. rewrite app_length in E. lia.
  - rewrite N.eqb_eq. unfold find_view. destruct (find_view_spec w s 0) as [[H1 H2]|[k [H1 [H2 [H3 H4]]]]]; [lia| |].
    + rewrite H1. split; [intro E; unfold npos in *; lia|]. intros [E|[S _]]; [discriminate|].
      exfalso. apply occurs_end in S. apply (H2 _ (proj1 S)).
    + rewrite H1. split.
      * intro E. assert (k = (length s - length w)%nat) as -> by lia. right. split; [apply occurs_end; split; [exact H3|lia]|].
        intros i O. destruct (Nat.le_gt_cases (length s - length w) i) as [Hi|Hi]; [exact Hi|]. exfalso. exact (H4 i Hi O).
      * intros [E|[S M]]; [discriminate|]. specialize (M k H3).
        apply occurs_end in S. destruct (Nat.lt_ge_cases (length s - length w) k) as [Hk|Hk]; [|lia].
        exfalso. apply (H4 _ Hk). apply S.
Qed.
End View.

(** ** Words *)
Lemma ws_words_gap {A} (ws : A -> bool) g s l : forallb ws g = true -> ws_words ws s l -> ws_words ws (g ++ s) l.
Proof.
  intros G W. inversion W as [gap E|gap w E N F|gap w c s' l' E N F C W']; subst.
  - constructor. rewrite forallb_app, G, E. reflexivity.
  - rewrite app_assoc. constructor; auto. rewrite forallb_app, G, E. reflexivity.
  - rewrite app_assoc. econstructor; eauto. rewrite forallb_app, G, E. reflexivity.
Qed.

Lemma split_words_loop_ok ws s : forall buf ret, Forall (fun c => (-1 <= c <= 255)%Z) s ->
  forallb (fun c => negb (ws c)) buf = true ->
  exists l, split_words_loop ws s buf ret = Ok (ret ++ l) /\ ws_words ws (buf ++ s) l.
Proof.
  induction s as [|c s IH]; intros buf ret F B; cbn [split_words_loop].
  - rewrite app_nil_r. destruct buf as [|b buf].
    + exists []. cbn. rewrite app_nil_r. split; [reflexivity|]. constructor. reflexivity.
    + exists [b :: buf]. split; [reflexivity|]. apply (wws_last ws []); auto. discriminate.
  - pose proof (Forall_inv F) as Fc. pose proof (Forall_inv_tail F) as Fs. cbv beta in Fc.
    unfold c_isspace. replace ((-1 <=? c) && (c <=? 255))%Z with true by lia. cbn [bind].
    destruct (ws c) eqn:Ec.
    + destruct buf as [|b buf]; cbn [add_str].
      * destruct (IH [] ret Fs eq_refl) as [l [E W]]. exists l. split; [exact E|].
        cbn [app] in *. apply (ws_words_gap ws [c]); [cbn; rewrite Ec; reflexivity|exact W].
      * destruct (IH [] (ret ++ [b :: buf]) Fs eq_refl) as [l [E W]]. exists ((b :: buf) :: l).
        split; [rewrite E, <- app_assoc; reflexivity|]. apply (wws_cons ws [] (b :: buf) c s l); auto. discriminate.
    + destruct (IH (buf ++ [c]) ret Fs) as [l [E W]]; [rewrite forallb_app, B; cbn; rewrite Ec; reflexivity|].
      exists l. split; [exact E|]. rewrite <- app_assoc in W. exact W.
Qed.

Lemma split_words_ok ws s : Forall (fun c => (-1 <= c <= 255)%Z) s ->
  exists l, split_words ws s = Ok l /\ ws_words ws s l.
Proof. intro F. destruct (split_words_loop_ok ws s [] [] F eq_refl) as [l [E W]]. exists l. auto. Qed.

Lemma split_words_ub ws s : Exists (fun c => (c < -1)%Z) s -> Forall (fun c => (c <= 255)%Z) s -> split_words ws s = UB BadArgument.
Proof.
  unfold split_words. generalize (@nil Z) at 1, (@nil (list Z)). induction s as [|c s IH]; intros buf ret E F; [inversion E|].
  cbn [split_words_loop]. unfold c_isspace. destruct (Z.leb_spec (-1) c) as [L|L].
  - inversion E as [? ? X|? ? X]; subst; [lia|]. pose proof (Forall_inv F) as Fc. cbv beta in Fc.
    replace (true && (c <=? 255))%Z with true by lia. cbn [bind]. destruct (ws c).
    + destruct (add_str buf ret) as [b r]. apply IH; [exact X|apply (Forall_inv_tail F)].
    + apply IH; [exact X|apply (Forall_inv_tail F)].
  - reflexivity.
Qed.

(** The words are determined by the text. *)
Lemma ws_words_unique {A} (ws : A -> bool) s l l' : ws_words ws s l -> ws_words ws s l' -> l = l'.
Proof.
  (* executable version *)
  set (f := fix f (cur s : list A) : list (list A) :=
    match s with
    | [] => match cur with [] => [] | _ => [cur] end
    | c :: s => if ws c then match cur with [] => f [] s | _ => cur :: f [] s end else f (cur ++ [c]) s
    end).
  assert (G : forall g s, forallb ws g = true -> f [] (g ++ s) = f [] s).
  { induction g as [|c g IH]; intros s0 Hg; [reflexivity|]. cbn [forallb] in Hg. apply andb_true_iff in Hg. destruct Hg as [Hc Hg].
    cbn [app f]. rewrite Hc. apply IH, Hg. }
  assert (W : forall w cur s, forallb (fun c => negb (ws c)) w = true -> f cur (w ++ s) = f (cur ++ w) s).
  { induction w as [|c w IH]; intros cur s0 Hw; [rewrite app_nil_r; reflexivity|]. cbn [forallb] in Hw.
    apply andb_true_iff in Hw. destruct Hw as [Hc Hw]. apply negb_true_iff in Hc. cbn [app f]. rewrite Hc.
    rewrite IH by exact Hw. rewrite <- app_assoc. reflexivity. }
  assert (E : forall s l, ws_words ws s l -> l = f [] s).
  { induction 1 as [gap Hg|gap w Hg N F|gap w c s' l0 Hg N F C W' IH].
    - rewrite <- (app_nil_r gap), G by exact Hg. reflexivity.
    - rewrite G by exact Hg. rewrite <- (app_nil_r w) at 2. rewrite W by exact F. destruct w; [contradiction|reflexivity].
    - rewrite G by exact Hg. rewrite W by exact F. destruct w as [|y w]; [contradiction|]. cbn [app f]. rewrite C, <- IH. reflexivity. }
  intros W1 W2. rewrite (E _ _ W1), (E _ _ W2). reflexivity.
Qed.

(** ** trim *)
Lemma isspace_spec c : classic_isspace c = true <-> whitespace c.
Proof. unfold classic_isspace, whitespace. cbn [In]. lia. Qed.

Lemma find_if_spec p s : exists a b, s = a ++ b /\ find_if p s = N.of_nat (length a) /\
  Forall (fun c => p c = false) a /\ (b = [] \/ exists c b', b = c :: b' /\ p c = true).
Proof.
  induction s as [|c s [a [b [E [L [F B]]]]]]; [exists [], []; cbn; auto 6|]. cbn [find_if]. destruct (p c) eqn:Ep.
  - exists [], (c :: s). cbn. split; [reflexivity|]. split; [reflexivity|]. split; [constructor|]. right. eauto.
  - exists (c :: a), b. split; [rewrite E; reflexivity|]. split; [rewrite L; cbn [length]; lia|]. split; [constructor; assumption|exact B].
Qed.

Lemma trim_front_ok s : N.of_nat (length s) < npos -> exists t g, trim_front s = Ok t /\ s = g ++ t /\
  Forall whitespace g /\ starts_not whitespace t.
Proof.
  intro Hs. unfold trim_front. destruct (find_if_spec (fun c => negb (classic_isspace c)) s) as [a [b [E [L [F B]]]]].
  exists b, a. rewrite L. split; [|split; [exact E|split]].
  - unfold substr, size. rewrite E, app_length in *.
    replace (N.of_nat (length a + length b) <? N.of_nat (length a)) with false by lia. f_equal.
    rewrite Nat2N.id, skipn_app_exact. apply firstn_all2. unfold npos in *. lia.
  - eapply Forall_impl; [|exact F]. cbv beta. intros c Hc. apply negb_false_iff in Hc. apply isspace_spec, Hc.
  - intros c s' E' W. destruct B as [->|[c' [b' [-> Hc]]]]; [discriminate|]. injection E' as -> _.
    apply negb_true_iff in Hc. apply isspace_spec in W. congruence.
Qed.

Lemma trim_back_ok s : N.of_nat (length s) < npos -> exists t g, trim_back s = Ok t /\ s = t ++ g /\
  Forall whitespace g /\ ends_not whitespace t.
Proof.
  intro Hs. unfold trim_back. destruct (find_if_spec (fun c => negb (classic_isspace c)) (rev s)) as [a [b [E [L [F B]]]]].
  assert (E' : s = rev b ++ rev a) by (rewrite <- rev_app_distr, <- E, rev_involutive; reflexivity).
  exists (rev b), (rev a). rewrite L. split; [|split; [exact E'|split]].
  - unfold substr, size. rewrite E', app_length in *. rewrite !rev_length in *.
    replace (N.of_nat (length b + length a) <? 0) with false by lia. f_equal. cbn [N.to_nat skipn].
    replace (N.to_nat (N.min (N.of_nat (length b + length a) - N.of_nat (length a)) (N.of_nat (length b + length a) - 0)))
      with (length (rev b)) by (rewrite rev_length; lia). apply firstn_app_exact.
  - rewrite Forall_forall in *. intros c Hc. apply in_rev in Hc. specialize (F c Hc). cbv beta in F. apply negb_false_iff in F.
    apply isspace_spec, F.
  - intros c s' Ec W. destruct B as [->|[c' [b' [-> Hc]]]].
    + destruct s'; discriminate.
    + cbn [rev] in Ec. apply app_inj_tail in Ec. destruct Ec as [_ <-].
      apply negb_true_iff in Hc. apply isspace_spec in W. congruence.
Qed.

Lemma trim_ok s : N.of_nat (length s) < npos -> exists t g h, trim s = Ok t /\ s = g ++ t ++ h /\
  Forall whitespace g /\ Forall whitespace h /\ starts_not whitespace t /\ ends_not whitespace t.
Proof.
  intro Hs. destruct (trim_back_ok s Hs) as [t1 [h [E1 [S1 [F1 N1]]]]].
  destruct (trim_front_ok t1) as [t [g [E2 [S2 [F2 N2]]]]]; [rewrite S1, app_length in Hs; lia|].
  exists t, g, h. unfold trim. rewrite E1. cbn [bind]. split; [exact E2|].
  split; [rewrite S1, S2, <- app_assoc; reflexivity|]. split; [exact F2|]. split; [exact F1|]. split; [exact N2|].
  intros c s' Ec. apply (N1 c (g ++ s')). rewrite S2, Ec, app_assoc. reflexivity.
Qed.

(** ** make_indentation *)
Lemma make_indentation_ok depth size : depth < 2 ^ 32 -> size < 2 ^ 32 ->
  N.of_nat (length (make_indentation depth size)) = (if size =? 0 then depth else (depth * size) mod 2 ^ 32) /\
  Forall (fun c => c = if size =? 0 then 9 else 32) (make_indentation depth size).
Proof.
  intros Hd Hz. unfold make_indentation. destruct (size =? 0); rewrite repeat_length, N2Nat.id.
  - split; [reflexivity|]. apply Forall_forall. intros c Hc. apply repeat_spec in Hc. exact Hc.
  - split; [reflexivity|]. apply Forall_forall. intros c Hc. apply repeat_spec in Hc. exact Hc.
Qed.

Lemma make_indentation_exact depth size : depth < 2 ^ 32 -> 0 < size < 2 ^ 32 ->
  (N.of_nat (length (make_indentation depth size)) = depth * size <-> depth * size < 2 ^ 32).
Proof.
  intros Hd Hz. destruct (make_indentation_ok depth size) as [L _]; [assumption|lia|]. rewrite L.
  replace (size =? 0) with false by lia. split.
  - intro E. rewrite <- E. apply N.mod_lt. discriminate.
  - intro H. apply N.mod_small, H.
Qed.

(** Proofs about the end of a program with a singleton. *)
From Verif Require Import Base RaiiModel SingletonEndModel SingletonEndSpec.

Lemma alive_snoc h o x i st : p_alive (h ++ [(o, x)]) i st <->
  (p_alive h i st /\ o <> p_destroy i) \/ (x = p_made i /\ exists fails, o = p_construct st fails).
Proof.
  split.
  - intros (h1 & fails & h2 & E & N). destruct h2 as [|y h2 _] using rev_ind.
    + apply app_inj_tail in E. destruct E as [-> E]. injection E as -> ->. right. eauto.
    + change (h1 ++ ?a :: h2 ++ [y]) with (h1 ++ (a :: h2) ++ [y]) in E. rewrite app_assoc in E.
      apply app_inj_tail in E. destruct E as [-> <-]. left. split.
      * exists h1, fails, h2. split; [reflexivity|]. intros z H. apply (N z). apply in_or_app. auto.
      * intros ->. apply (N x). apply in_or_app. right. left. reflexivity.
  - intros [[(h1 & fails & h2 & -> & N) D]|[-> [fails ->]]].
    + exists h1, fails, (h2 ++ [(o, x)]). split; [rewrite <- app_assoc; reflexivity|].
      intros z H. apply in_app_or in H. destruct H as [H|[H|[]]]; [exact (N z H)|congruence].
    + exists h, fails, []. split; [reflexivity|]. intros z [].
Qed.

Definition reg_of (e : p_op * p_out) : list registered :=
  match e with
  | (p_instance, _) => [r_instance]
  | (p_user u, _) => [r_user u]
  | (p_construct Static _, p_made i) => [r_object i]
  | _ => []
  end.
Definition regs_of (h : history) : list registered := rev (flat_map reg_of h).
Lemma regs_of_app h1 h2 : regs_of (h1 ++ h2) = regs_of h2 ++ regs_of h1.
Proof. unfold regs_of. rewrite flat_map_app, rev_app_distr. reflexivity. Qed.

Record p_inv (h : history) (p : program) : Prop := {
  pi_gone : gone p = false;
  pi_regs : regs p = regs_of h;
  pi_fresh : forall o i, In (o, p_made i) h -> i < sg_fresh (single p);
  pi_object : (instance (single p) = None /\ live p = [] /\ forall i st, ~ p_alive h i st) \/
    (exists i st, instance (single p) = Some i /\ live p = [(i, st)] /\ p_alive h i st /\ forall j st', p_alive h j st' -> j = i /\ st' = st);
  pi_once : forall h1 o i h2, h = h1 ++ (o, p_made i) :: h2 -> forall o', ~ In (o', p_made i) h2;
  pi_static : forall fails i, In (p_construct Static fails, p_made i) h -> p_alive h i Static
}.
Lemma once_snoc (h : history) o x : (forall h1 o i h2, h = h1 ++ (o, p_made i) :: h2 -> forall o', ~ In (o', p_made i) h2) ->
  (forall i o', x = p_made i -> ~ In (o', p_made i) h) ->
  forall h1 o1 i h2, h ++ [(o, x)] = h1 ++ (o1, p_made i) :: h2 -> forall o', ~ In (o', p_made i) h2.
Proof.
  intros O N h1 o1 i h2 E o' H. destruct h2 as [|y h2 _] using rev_ind; [destruct H|].
  change (h1 ++ ?a :: h2 ++ [y]) with (h1 ++ (a :: h2) ++ [y]) in E. rewrite app_assoc in E.
  apply app_inj_tail in E. destruct E as [E <-]. apply in_app_or in H. destruct H as [H|[H|[]]].
  - exact (O _ _ _ _ E o' H).
  - injection H as -> ->. apply (N i o1 eq_refl). rewrite E. apply in_or_app. right. left. reflexivity.
Qed.
Lemma start_inv : p_inv [] p_start.
Proof.
  split; [reflexivity|reflexivity|intros o i []| |intros [|? ?] ? ? ? ?; discriminate|intros f i []]. left. split; [reflexivity|]. split; [reflexivity|].
  intros i st (h1 & f & h2 & E & _). destruct h1; discriminate.
Qed.
Lemma made_alive h i st : p_alive h i st -> exists o, In (o, p_made i) h.
Proof. intros (h1 & f & h2 & -> & _). eexists. apply in_or_app. right. left. reflexivity. Qed.

Lemma step_inv dbg h p o p' x : p_inv h p -> p_allowed h o -> p_step dbg o p = Ok (p', x) -> p_inv (h ++ [(o, x)]) p'.
Proof.
  intros [G R Fr Ob On Stc] Al E.
  assert (Keep : forall o x p', (o = p_instance \/ exists u, o = p_user u) ->
    p' = {| single := single p; live := live p; gone := gone p; regs := reg_of (o, x) ++ regs p |} -> x = p_nothing -> p_inv (h ++ [(o, x)]) p').
  { intros o1 x1 p1 Ho -> ->.
    assert (A : forall i st, p_alive (h ++ [(o1, p_nothing)]) i st <-> p_alive h i st).
    { intros i st. rewrite alive_snoc. split; [intros [[H _]|[H _]]; [exact H|discriminate]|].
      intro H. left. split; [exact H|]. destruct Ho as [->|[u ->]]; discriminate. }
    split; cbn; [exact G| | | |apply once_snoc; [exact On|discriminate]|].
    - rewrite R, regs_of_app. destruct Ho as [->|[u ->]]; reflexivity.
    - intros o2 i H. apply in_app_or in H. destruct H as [H|[H|[]]]; [exact (Fr _ _ H)|discriminate].
    - destruct Ob as [(I & L & N)|(i & st & I & L & Li & U)]; [left|right; exists i, st]; (split; [exact I|]; split; [exact L|]).
      + intros i st. rewrite A. apply N.
      + split; [apply A; exact Li|]. intros j st' H. apply U, A, H.
    - intros f i H. apply A. apply (Stc f). apply in_app_or in H. destruct H as [H|[H|[]]]; [exact H|discriminate]. }
  destruct o as [|u|st fails|i].
  - injection E as <- <-. apply Keep; auto.
  - injection E as <- <-. apply Keep; eauto.
  - cbn [p_step sg_step] in E. unfold base_construct in E. cbn [instance sg_fresh] in E.
    assert (Fail : forall e s, instance s = instance (single p) -> sg_fresh s = S (sg_fresh (single p)) ->
      p_inv (h ++ [(p_construct st fails, p_threw e)]) {| single := s; live := live p; gone := gone p; regs := regs p |}).
    { intros e s Is Fs.
      assert (A : forall i st', p_alive (h ++ [(p_construct st fails, p_threw e)]) i st' <-> p_alive h i st').
      { intros i st'. rewrite alive_snoc. split; [intros [[H _]|[H _]]; [exact H|discriminate]|]. intro H. left. split; [exact H|discriminate]. }
      split; cbn [gone regs single live]; [exact G| | | |apply once_snoc; [exact On|discriminate]|].
      - rewrite regs_of_app, R. destruct st; reflexivity.
      - intros o2 i H. apply in_app_or in H. destruct H as [H|[H|[]]]; [specialize (Fr _ _ H); lia|discriminate].
      - rewrite Is. destruct Ob as [(I & L & N)|(i & st' & I & L & Li & U)]; [left|right; exists i, st']; (split; [exact I|]; split; [exact L|]).
        + intros i st'. rewrite A. apply N.
        + split; [apply A; exact Li|]. intros j st2 H. apply U, A, H.
      - intros f i H. apply A. apply (Stc f). apply in_app_or in H. destruct H as [H|[H|[]]]; [exact H|discriminate]. }
    destruct Ob as [(I & L & N)|(i & st' & I & L & Li & U)]; rewrite I in E; cbn [bind] in E.
    + destruct fails as [e|]; cbn [bind] in E.
      * unfold base_destroy, assert_ in E. cbn [instance] in E. rewrite Nat.eqb_refl in E.
        assert (E' : Ok ({| single := {| instance := None; sg_fresh := S (sg_fresh (single p)) |}; live := live p; gone := gone p; regs := regs p |}, p_threw e) = Ok (p', x)).
        { destruct dbg; exact E. }
        injection E' as <- <-. apply Fail; [rewrite I; reflexivity|reflexivity].
      * injection E as <- <-. set (i := sg_fresh (single p)).
        assert (A : forall j st', p_alive (h ++ [(p_construct st None, p_made i)]) j st' <-> j = i /\ st' = st).
        { intros j st'. rewrite alive_snoc. split.
          - intros [[H _]|[H [f H']]]; [destruct (N j st' H)|]. injection H as <-. injection H' as -> _. auto.
          - intros [-> ->]. right. split; [reflexivity|]. exists None. reflexivity. }
        split; cbn [gone regs single live instance sg_fresh]; [exact G| | | |apply once_snoc; [exact On|intros j o' [= <-] H; specialize (Fr _ _ H); unfold i in Fr; lia]|].
        -- rewrite regs_of_app, R. destruct st; reflexivity.
        -- intros o2 j H. apply in_app_or in H. destruct H as [H|[H|[]]]; [specialize (Fr _ _ H); lia|]. injection H as _ <-. unfold i. lia.
        -- right. exists i, st. rewrite L. split; [reflexivity|]. split; [reflexivity|]. split; [apply A; auto|]. intros j st' H. apply A, H.
        -- intros f j H. apply in_app_or in H. destruct H as [H|[H|[]]]; [destruct (N j Static (Stc f j H))|].
           apply A. injection H as -> _ ->. auto.
    + injection E as <- <-. apply Fail; [rewrite I; reflexivity|reflexivity].
  - cbn [p_step] in E. destruct Al as (st & Li & Ns).
    destruct Ob as [(_ & _ & N)|(j & st' & I & L & Lj & U)]; [destruct (N i st Li)|].
    destruct (U i st Li) as [<- <-]. unfold base_destroy, assert_ in E. rewrite I, Nat.eqb_refl, andb_false_r in E. cbn [bind] in E.
    injection E as <- <-. rewrite L. cbn [filter fst]. rewrite Nat.eqb_refl. cbn [negb].
    assert (A : forall j st', ~ p_alive (h ++ [(p_destroy i, p_nothing)]) j st').
    { intros j st'. rewrite alive_snoc. intros [[H D]|[H _]]; [|discriminate]. apply D. f_equal. symmetry. apply (U j st' H). }
    split; cbn [gone regs single live instance sg_fresh]; [exact G| | | |apply once_snoc; [exact On|discriminate]|].
    + rewrite regs_of_app, R. reflexivity.
    + intros o2 j H. apply in_app_or in H. destruct H as [H|[H|[]]]; [exact (Fr _ _ H)|discriminate].
    + left. auto.
    + intros f j H. exfalso. apply in_app_or in H. destruct H as [H|[H|[]]]; [|discriminate].
      destruct (U j Static (Stc f j H)) as [_ <-]. congruence.
Qed.

Lemma p_run_snoc dbg l o p : p_run dbg (l ++ [o]) p =
  (r <- p_run dbg l p ;; let '(p, h) := r in r <- p_step dbg o p ;; let '(p, x) := r in Ok (p, h ++ [(o, x)])).
Proof.
  revert p. induction l as [|a l IH]; intro p; cbn [app p_run].
  - cbn [bind]. destruct (p_step dbg o p) as [[p1 x]| | | | |]; reflexivity.
  - destruct (p_step dbg a p) as [[p1 x]| | | | |]; cbn [bind]; try reflexivity. rewrite IH.
    destruct (p_run dbg l p1) as [[p2 h]| | | | |]; cbn [bind]; try reflexivity.
    destruct (p_step dbg o p2) as [[p3 y]| | | | |]; reflexivity.
Qed.
Lemma valid_prefix h e : p_valid (h ++ [e]) -> p_valid h.
Proof. intros V h1 o x h2 ->. apply (V h1 o x (h2 ++ [e])). rewrite <- app_assoc. reflexivity. Qed.
Lemma run_inv dbg l : forall p h, p_run dbg l p_start = Ok (p, h) -> p_valid h -> p_inv h p.
Proof.
  induction l as [|o l IH] using rev_ind; intros p h E V.
  - injection E as <- <-. apply start_inv.
  - rewrite p_run_snoc in E. destruct (p_run dbg l p_start) as [[p1 h1]| | | | |]; try discriminate. cbn [bind] in E.
    destruct (p_step dbg o p1) as [[p2 x]| | | | |] eqn:S; try discriminate. cbn [bind] in E. injection E as <- <-.
    eapply step_inv; [apply IH; [reflexivity|eapply valid_prefix; exact V]| |exact S]. apply (V h1 o x []). reflexivity.
Qed.

(** the end *)
Definition user_ok (u : use) (p : program) : bool :=
  match u with use_nothing => true | use_is_created => negb (gone p) | use_inst => negb (gone p) && is_created (single p) end.
Definition users (l : list registered) : Prop := forall r, In r l -> exists u, r = r_user u.
Lemma users_fine dbg clears l k p : users l -> (forall u, In (r_user u) l -> user_ok u p = true) ->
  p_end_loop dbg clears (l ++ k) p = p_end_loop dbg clears k p.
Proof.
  induction l as [|r l IH]; intros U Okk; [reflexivity|]. cbn [app p_end_loop].
  destruct (U r (or_introl eq_refl)) as [u ->]. specialize (Okk u (or_introl eq_refl)) as Hu.
  assert (S : p_end_step dbg clears (r_user u) p = Ok p).
  { destruct u; cbn in *; [destruct (gone p); [discriminate|reflexivity]| |reflexivity].
    destruct (gone p); [discriminate|]. unfold inst, assert_. unfold is_created in *. destruct (instance (single p)); [|discriminate]. rewrite andb_false_r. reflexivity. }
  rewrite S. cbn [bind]. apply IH; [intros r' H; apply U; right; exact H|intros u' H; apply Okk; right; exact H].
Qed.
Lemma users_wrong dbg clears l k p u : users l -> In (r_user u) l -> user_ok u p = false -> is_ok (p_end_loop dbg clears (l ++ k) p) = false.
Proof.
  induction l as [|r l IH]; intros U H B; [destruct H|]. cbn [app p_end_loop].
  destruct (U r (or_introl eq_refl)) as [v ->].
  destruct (user_ok v p) eqn:V.
  - assert (S : p_end_loop dbg clears ([r_user v] ++ l ++ k) p = p_end_loop dbg clears (l ++ k) p).
    { apply users_fine; [intros r [<-|[]]; eauto|]. intros w [E|[]]. injection E as <-. exact V. }
    cbn [app p_end_loop] in S. rewrite S. destruct H as [H|H]; [injection H as ->; congruence|].
    apply IH; auto. intros r' H'. apply U. right. exact H'.
  - destruct v; cbn in V |- *; [|destruct (gone p); [reflexivity|]|discriminate].
    + destruct (gone p); [reflexivity|discriminate].
    + unfold inst, assert_, is_created in *. cbn in V. destruct (instance (single p)); [discriminate|]. destruct dbg; reflexivity.
Qed.
Lemma regs_users h : (forall f i, ~ In (p_construct Static f, p_made i) h) -> (forall x, ~ In (p_instance, x) h) -> users (regs_of h).
Proof.
  intros N M r H. unfold regs_of in H. apply in_rev in H. apply in_flat_map in H. destruct H as ([o x] & H & R).
  destruct o as [|u|st f|i]; cbn in R.
  - destruct (M _ H).
  - destruct R as [<-|[]]. eauto.
  - destruct st; try destruct R. destruct x; try destruct R as [R|[]]; try destruct R. destruct (N _ _ H).
  - destruct R.
Qed.
Lemma regs_user_in h u : In (r_user u) (regs_of h) <-> exists x, In (p_user u, x) h.
Proof.
  unfold regs_of. rewrite <- in_rev, in_flat_map. split.
  - intros ([o x] & H & R). exists x. destruct o as [|v|st f|i]; cbn in R.
    + destruct R as [R|[]]; discriminate.
    + destruct R as [R|[]]. injection R as ->. exact H.
    + destruct st; try destruct R. destruct x; try destruct R; try discriminate. destruct H0.
    + destruct R.
  - intros [x H]. exists (p_user u, x). split; [exact H|left; reflexivity].
Qed.
Lemma use_dec (h : history) : (forall u x, In (p_user u, x) h -> u = use_nothing) \/ exists u x, In (p_user u, x) h /\ u <> use_nothing.
Proof.
  induction h as [|[o x] h [IH|(u & y & H & N)]].
  - left. intros u x [].
  - destruct o as [|u|st f|i]; try (left; intros v y [H|H]; [discriminate|exact (IH v y H)]).
    destruct u; [right; exists use_is_created, x|right; exists use_inst, x|left]; [split; [left; reflexivity|discriminate]..|].
    intros v y [H|H]; [injection H as <- _; reflexivity|exact (IH v y H)].
  - right. exists u, y. split; [right; exact H|exact N].
Qed.
Lemma inst_dec (h : history) : (forall x, ~ In (p_user use_inst, x) h) \/ exists x, In (p_user use_inst, x) h.
Proof.
  induction h as [|[o x] h [IH|(y & H)]].
  - left. intros x [].
  - destruct o as [|[]|st f|i]; try (left; intros y [H|H]; [discriminate|exact (IH y H)]). right. exists x. left. reflexivity.
  - right. exists y. right. exact H.
Qed.

Lemma in_middle {T} (a b : T) (l1 : list T) : forall l2 l3 l4, l3 ++ a :: l1 = l2 ++ b :: l4 -> a <> b -> ~ In b l3 -> In a l2.
Proof.
  intros l2 l3. revert l2. induction l3 as [|c l3 IH]; intros l2 l4 E Ne Nb.
  - destruct l2 as [|d l2]; injection E as -> E; [contradiction|left; reflexivity].
  - destruct l2 as [|d l2]; injection E as -> E; [destruct Nb; left; reflexivity|]. right. eapply IH; [exact E|exact Ne|]. intro H. apply Nb. right. exact H.
Qed.

Section End.
Variables (dbg clears : bool) (before after : history) (x0 : p_out) (p : program).
Notation h := (before ++ (p_instance, x0) :: after).
Hypothesis V : p_valid h.
Hypothesis I : p_inv h p.

Let regs_split : regs p = regs_of after ++ r_instance :: regs_of before.
Proof. rewrite (pi_regs _ _ I), regs_of_app. change ((p_instance, x0) :: after) with ([(p_instance, x0)] ++ after). rewrite regs_of_app, <- app_assoc. reflexivity. Qed.
Let once_before x : ~ In (p_instance, x) before.
Proof. apply (V before p_instance x0 after eq_refl). Qed.
Let once_after x : ~ In (p_instance, x) after.
Proof.
  intro H. apply in_split in H. destruct H as (h1 & h2 & E).
  apply (V (before ++ (p_instance, x0) :: h1) p_instance x h2) with x0; [rewrite E, <- app_assoc; reflexivity|].
  apply in_or_app. right. left. reflexivity.
Qed.

(** from the destruction of [instance] on *)
Lemma rest_ok q : gone q = true -> (forall f i, ~ In (p_construct Static f, p_made i) before) ->
  (forall u x, In (p_user u, x) before -> u = use_nothing) -> p_end_loop dbg clears (regs_of before) q = Ok q.
Proof.
  intros Gq N U. rewrite <- (app_nil_r (regs_of before)). rewrite users_fine; [reflexivity|apply regs_users; auto|].
  intros u H. apply regs_user_in in H. destruct H as [x H]. rewrite (U u x H). reflexivity.
Qed.
Lemma rest_wrong q : gone q = true -> (forall f i, ~ In (p_construct Static f, p_made i) before) ->
  (exists u x, In (p_user u, x) before /\ u <> use_nothing) -> is_ok (p_end_loop dbg clears (regs_of before) q) = false.
Proof.
  intros Gq N (u & x & H & Nu). rewrite <- (app_nil_r (regs_of before)). apply users_wrong with u; [apply regs_users; auto|apply regs_user_in; eauto|].
  destruct u; cbn; rewrite ?Gq; auto. congruence.
Qed.
Lemma instance_null q k : instance (single q) = None ->
  p_end_loop dbg clears (r_instance :: k) q = p_end_loop dbg clears k {| single := single q; live := live q; gone := true; regs := regs q |}.
Proof. intro E. cbn [p_end_loop p_end_step]. rewrite E. reflexivity. Qed.
Lemma instance_delete q k i st : instance (single q) = Some i -> live q = [(i, st)] ->
  p_end_loop dbg clears (r_instance :: k) q =
  if dbg && clears then Abort else
  match st with
  | Heap => p_end_loop dbg clears k {| single := {| instance := None; sg_fresh := sg_fresh (single q) |}; live := []; gone := true; regs := regs q |}
  | _ => UB BadArgument
  end.
Proof.
  intros E L. cbn [p_end_loop p_end_step]. rewrite E. unfold delete_object, base_destroy, assert_.
  destruct clears, dbg; cbn; rewrite ?E; cbn; rewrite ?Nat.eqb_refl; cbn; try reflexivity;
    rewrite L; cbn; rewrite Nat.eqb_refl; destruct st; reflexivity.
Qed.
(** users, while an object is there *)
Lemma users_seen i l k q : users l -> gone q = false -> instance (single q) = Some i -> p_end_loop dbg clears (l ++ k) q = p_end_loop dbg clears k q.
Proof. intros U Gq E. apply users_fine; [exact U|]. intros u _. destruct u; cbn; rewrite ?Gq; auto. unfold is_created. rewrite E. reflexivity. Qed.

Lemma static_in f i : In (p_construct Static f, p_made i) h <-> In (p_construct Static f, p_made i) before \/ In (p_construct Static f, p_made i) after.
Proof. rewrite in_app_iff. cbn. split; [intros [H|[H|H]]; auto; discriminate|tauto]. Qed.
Lemma alive_static i : p_alive h i Static -> exists f, In (p_construct Static f, p_made i) h.
Proof. intros (h1 & f & h2 & -> & _). exists f. apply in_or_app. right. left. reflexivity. Qed.

(** the object at the end decides *)
Lemma end_none : (forall i st, ~ p_alive h i st) ->
  (is_ok (p_end dbg clears p) = true <-> (forall u x, In (p_user u, x) before -> u = use_nothing) /\ forall x, ~ In (p_user use_inst, x) after) /\
  forall p', p_end dbg clears p = Ok p' -> live p' = [] /\ gone p' = true.
Proof.
  intros N. destruct (pi_object _ _ I) as [(In0 & L & _)|(i & st & _ & _ & Li & _)]; [|destruct (N i st Li)].
  assert (Ns : forall f i, ~ In (p_construct Static f, p_made i) h) by (intros f i H; exact (N i Static (pi_static _ _ I f i H))).
  assert (Na : forall f i, ~ In (p_construct Static f, p_made i) after) by (intros f i H; apply (Ns f i), static_in; auto).
  assert (Nb : forall f i, ~ In (p_construct Static f, p_made i) before) by (intros f i H; apply (Ns f i), static_in; auto).
  unfold p_end. rewrite regs_split. destruct (inst_dec after) as [Ni|[x Hx]].
  - rewrite users_fine; [|apply regs_users; auto|].
    2: { intros u H. apply regs_user_in in H. destruct H as [x H]. destruct u; cbn; rewrite ?(pi_gone _ _ I); auto. destruct (Ni x H). }
    rewrite instance_null by exact In0. destruct (use_dec before) as [U|B].
    + rewrite rest_ok by auto. split; [cbn; tauto|]. intros p' [= <-]. auto.
    + assert (W : is_ok (p_end_loop dbg clears (regs_of before) {| single := single p; live := live p; gone := true; regs := regs p |}) = false) by (apply rest_wrong; auto).
      split.
      * rewrite W. split; [discriminate|]. intros [U _]. destruct B as (u & x & H & Nu). destruct (Nu (U u x H)).
      * intros p' E. rewrite E in W. discriminate.
  - assert (W : is_ok (p_end_loop dbg clears (regs_of after ++ r_instance :: regs_of before) p) = false).
    { apply users_wrong with use_inst; [apply regs_users; auto|apply regs_user_in; eauto|]. cbn. unfold is_created. rewrite In0, andb_false_r. reflexivity. }
    split.
    + rewrite W. split; [discriminate|]. intros [_ U]. destruct (U x Hx).
    + intros p' E. rewrite E in W. discriminate.
Qed.
Lemma end_there i st : p_alive h i st -> (st = Static -> static_object before) ->
  p_end dbg clears p = if dbg && clears then Abort else
    match st with
    | Heap => p_end_loop dbg clears (regs_of before) {| single := {| instance := None; sg_fresh := sg_fresh (single p) |}; live := []; gone := true; regs := regs p |}
    | _ => UB BadArgument
    end.
Proof.
  intros Li Sb. destruct (pi_object _ _ I) as [(_ & _ & N)|(i' & st' & In0 & L & _ & U)]; [destruct (N i st Li)|].
  destruct (U i st Li) as [<- <-]. unfold p_end. rewrite regs_split at 1. rewrite (users_seen i).
  - apply instance_delete with i; assumption.
  - apply regs_users; auto. intros f j H.
    assert (Aj : p_alive h j Static) by (apply (pi_static _ _ I f), static_in; auto). destruct (U j Static Aj) as [-> E]. subst st.
    destruct (Sb eq_refl) as (k & f' & Hk).
    assert (Ak : p_alive h k Static) by (apply (pi_static _ _ I f'), static_in; auto). destruct (U k Static Ak) as [-> _].
    (* made twice *)
    apply in_split in Hk. destruct Hk as (h3 & h4 & ->). rewrite <- app_assoc in I. cbn [app] in I.
    apply (pi_once _ _ I h3 _ i _ eq_refl (p_construct Static f)). apply in_or_app. right. right. exact H.
  - apply (pi_gone _ _ I).
  - exact In0.
Qed.
Lemma end_after i f h3 h4 : after = h3 ++ (p_construct Static f, p_made i) :: h4 ->
  (is_ok (p_end dbg clears p) = true <-> (forall u x, In (p_user u, x) before -> u = use_nothing) /\ forall x, ~ In (p_user use_inst, x) h3) /\
  forall p', p_end dbg clears p = Ok p' -> live p' = [] /\ gone p' = true.
Proof.
  intros Ea.
  assert (Hin : In (p_construct Static f, p_made i) h) by (apply static_in; right; rewrite Ea; apply in_or_app; right; left; reflexivity).
  pose proof (pi_static _ _ I f i Hin) as Li.
  destruct (pi_object _ _ I) as [(_ & _ & N)|(i' & st' & In0 & L & _ & U)]; [destruct (N i Static Li)|].
  destruct (U i Static Li) as [<- <-].
  assert (On : forall g1 g2 e, before ++ (p_instance, x0) :: after = g1 ++ e :: g2 -> snd e = p_made i -> forall f' j, ~ In (p_construct Static f', p_made j) g2).
  { intros g1 g2 e E Ee f' j H.
    assert (Hj : In (p_construct Static f', p_made j) h) by (rewrite E; apply in_or_app; right; right; exact H).
    destruct (U j Static (pi_static _ _ I f' j Hj)) as [-> _]. destruct e as [o x]. cbn in Ee. subst x.
    exact (pi_once _ _ I g1 o i g2 E _ H). }
  assert (Nb : forall f' j, ~ In (p_construct Static f', p_made j) before).
  { intros f' j H. apply in_split in H. destruct H as (g1 & g2 & E).
    assert (Hj : In (p_construct Static f', p_made j) h) by (rewrite E, <- app_assoc; apply in_or_app; right; left; reflexivity).
    destruct (U j Static (pi_static _ _ I f' j Hj)) as [-> _].
    apply (On g1 (g2 ++ (p_instance, x0) :: after) (p_construct Static f', p_made i)) with f i; [rewrite E, <- app_assoc; reflexivity|reflexivity|].
    apply in_or_app. right. right. rewrite Ea. apply in_or_app. right. left. reflexivity. }
  assert (N3 : forall f' j, ~ In (p_construct Static f', p_made j) h3).
  { intros f' j H. apply in_split in H. destruct H as (g1 & g2 & E).
    assert (Ehh : h = (before ++ (p_instance, x0) :: g1) ++ (p_construct Static f', p_made j) :: g2 ++ (p_construct Static f, p_made i) :: h4).
    { rewrite Ea, E, <- !app_assoc. reflexivity. }
    assert (Hj : In (p_construct Static f', p_made j) h) by (rewrite Ehh; apply in_or_app; right; left; reflexivity).
    destruct (U j Static (pi_static _ _ I f' j Hj)) as [-> _].
    apply (On _ _ _ Ehh eq_refl f i). apply in_or_app. right. left. reflexivity. }
  assert (N4 : forall f' j, ~ In (p_construct Static f', p_made j) h4).
  { intros f' j. apply (On (before ++ (p_instance, x0) :: h3) h4 (p_construct Static f, p_made i)); [rewrite Ea, <- app_assoc; reflexivity|reflexivity]. }
  assert (M3 : forall x, ~ In (p_instance, x) h3) by (intros x H; apply (once_after x); rewrite Ea; apply in_or_app; auto).
  assert (M4 : forall x, ~ In (p_instance, x) h4) by (intros x H; apply (once_after x); rewrite Ea; apply in_or_app; right; right; exact H).
  assert (Er : regs_of after = regs_of h4 ++ [r_object i] ++ regs_of h3).
  { rewrite Ea. change (?a :: h4) with ([a] ++ h4). rewrite !regs_of_app, <- app_assoc. reflexivity. }
  set (q := {| single := {| instance := None; sg_fresh := sg_fresh (single p) |}; live := []; gone := false; regs := regs p |}).
  assert (Ee : p_end dbg clears p = p_end_loop dbg clears (regs_of h3 ++ r_instance :: regs_of before) q).
  { unfold p_end. rewrite regs_split at 1. rewrite Er, <- !app_assoc.
    rewrite (users_seen i) by (try apply regs_users; auto; apply (pi_gone _ _ I)).
    cbn [app p_end_loop p_end_step]. rewrite (pi_gone _ _ I). unfold base_destroy, assert_. rewrite In0, Nat.eqb_refl, andb_false_r. cbn [bind].
    rewrite L. cbn [filter fst]. rewrite Nat.eqb_refl. reflexivity. }
  rewrite Ee. destruct (inst_dec h3) as [Ni|[x Hx]].
  - rewrite users_fine; [|apply regs_users; auto|].
    2: { intros u H. apply regs_user_in in H. destruct H as [x H]. destruct u; try reflexivity. destruct (Ni x H). }
    rewrite instance_null by reflexivity. destruct (use_dec before) as [Ub|B].
    + rewrite rest_ok by auto. split; [cbn; tauto|]. intros p' [= <-]. auto.
    + match goal with |- context [p_end_loop dbg clears (regs_of before) ?z] => assert (W : is_ok (p_end_loop dbg clears (regs_of before) z) = false) by (apply rest_wrong; auto) end.
      split.
      * rewrite W. split; [discriminate|]. intros [U' _]. destruct B as (u & x & H & Nu). destruct (Nu (U' u x H)).
      * intros p' E. rewrite E in W. discriminate.
  - assert (W : is_ok (p_end_loop dbg clears (regs_of h3 ++ r_instance :: regs_of before) q) = false).
    { apply users_wrong with use_inst; [apply regs_users; auto|apply regs_user_in; eauto|reflexivity]. }
    split.
    + rewrite W. split; [discriminate|]. intros [_ U']. destruct (U' x Hx).
    + intros p' E. rewrite E in W. discriminate.
Qed.

Lemma alive_one i st j st' : p_alive h i st -> p_alive h j st' -> i = j /\ st = st'.
Proof.
  intros Hi Hj. destruct (pi_object _ _ I) as [(_ & _ & N)|(k & st0 & _ & _ & _ & U)]; [destruct (N _ _ Hi)|].
  destruct (U _ _ Hi), (U _ _ Hj). subst. auto.
Qed.
Lemma end_exactly : (is_ok (p_end dbg clears p) = true <-> ends_well dbg clears before after h) /\
  forall p', p_end dbg clears p = Ok p' -> live p' = [] /\ gone p' = true.
Proof.
  destruct (pi_object _ _ I) as [(In0 & L & N)|(i & st & In0 & L & Li & U)].
  - destruct (end_none N) as [E F]. split; [|exact F]. rewrite E. unfold ends_well. split.
    + intros [Ub Ni]. split; [exact Ub|]. split; [intros (i & f & H); apply (N i Static), (pi_static _ _ I f), static_in; auto|].
      split; [intros i; apply N|]. split; [intros [i H]; destruct (N _ _ H)|].
      intros h3 x h4 Ea. destruct (Ni x). rewrite Ea. apply in_or_app. right. left. reflexivity.
    + intros (Ub & Sb & _ & _ & Ui). split; [exact Ub|]. intros x H. apply in_split in H. destruct H as (h3 & h4 & Ea).
      destruct (Ui h3 x h4 Ea) as [[i H]|(i & f & H)]; [exact (N _ _ H)|]. apply (N i Static), (pi_static _ _ I f), static_in. right.
      rewrite Ea. apply in_or_app. auto.
  - destruct st.
    + rewrite (end_there i Automatic Li) by discriminate. split.
      * split; [destruct (dbg && clears); discriminate|]. intros (_ & _ & A & _). destruct (A i Li).
      * intros p' E. destruct (dbg && clears); discriminate.
    + destruct (alive_static i Li) as [f Hf]. apply static_in in Hf. destruct Hf as [Hf|Hf].
      * rewrite (end_there i Static Li) by (intros _; exists i, f; exact Hf). split.
        -- split; [destruct (dbg && clears); discriminate|]. intros (_ & Sb & _). destruct Sb. exists i, f. exact Hf.
        -- intros p' E. destruct (dbg && clears); discriminate.
      * apply in_split in Hf. destruct Hf as (g3 & g4 & Ea). destruct (end_after i f g3 g4 Ea) as [E F]. split; [|exact F]. rewrite E. unfold ends_well.
        assert (On : forall f' j, In (p_construct Static f', p_made j) h -> j = i) by (intros f' j H; apply (U j Static), (pi_static _ _ I f' j H)).
        split.
        -- intros [Ub Ni]. split; [exact Ub|]. split.
           { intros (j & f' & H). assert (Hj : j = i) by (apply (On f'), static_in; auto). subst j. apply in_split in H. destruct H as (g1 & g2 & Eb).
             apply (pi_once _ _ I g1 (p_construct Static f') i (g2 ++ (p_instance, x0) :: after)) with (p_construct Static f); [rewrite Eb, <- app_assoc; reflexivity|].
             apply in_or_app. right. right. rewrite Ea. apply in_or_app. right. left. reflexivity. }
           split; [intros j H; destruct (alive_one _ _ _ _ Li H); discriminate|]. split; [intros [j H]; destruct (alive_one _ _ _ _ Li H); discriminate|].
           intros h3 x h4 Eu. right. exists i, f. rewrite Ea in Eu.
           apply (in_middle _ (p_user use_inst, x) g4 h3 g3 h4); [exact Eu|discriminate|apply Ni].
        -- intros (Ub & _ & _ & _ & Ui). split; [exact Ub|]. intros x H. apply in_split in H. destruct H as (g1 & g2 & E3). subst g3.
           destruct (Ui g1 x (g2 ++ (p_construct Static f, p_made i) :: g4)) as [[j Hj]|(j & f' & H)].
           ++ rewrite Ea, <- app_assoc. reflexivity.
           ++ destruct (alive_one _ _ _ _ Li Hj). discriminate.
           ++ assert (Hj : j = i). { apply (On f'), static_in. right. rewrite Ea. apply in_or_app. left. apply in_or_app. auto. } subst j.
              apply in_split in H. destruct H as (k1 & k2 & E1).
              apply (pi_once _ _ I (before ++ (p_instance, x0) :: k1) (p_construct Static f') i (k2 ++ (p_user use_inst, x) :: g2 ++ (p_construct Static f, p_made i) :: g4)) with (p_construct Static f).
              ** rewrite Ea, E1. repeat (rewrite <- app_assoc; cbn [app]). reflexivity.
              ** apply in_or_app. right. right. apply in_or_app. right. left. reflexivity.
    + rewrite (end_there i Heap Li) by discriminate.
      assert (Ns : forall f j, ~ In (p_construct Static f, p_made j) h).
      { intros f j H. destruct (alive_one _ _ _ _ Li (pi_static _ _ I f j H)). discriminate. }
      assert (Nb : forall f j, ~ In (p_construct Static f, p_made j) before) by (intros f j H; apply (Ns f j), static_in; auto).
      assert (W : ends_well dbg clears before after h <-> (forall u x, In (p_user u, x) before -> u = use_nothing) /\ dbg && clears = false).
      { unfold ends_well. split; [intros (Ub & _ & _ & D & _); split; [exact Ub|apply D; eauto]|]. intros [Ub D]. split; [exact Ub|].
        split; [intros (j & f & H); exact (Nb f j H)|]. split; [intros j H; destruct (alive_one _ _ _ _ Li H); discriminate|]. split; [auto|]. intros h3 x h4 _. left. eauto. }
      rewrite W. destruct (dbg && clears).
      * split; [split; [discriminate|intros [_ D]; discriminate]|discriminate].
      * destruct (use_dec before) as [Ub|B].
        -- rewrite rest_ok by auto. split; [cbn; tauto|]. intros p' [= <-]. auto.
        -- match goal with |- context [p_end_loop dbg clears (regs_of before) ?z] => assert (Wr : is_ok (p_end_loop dbg clears (regs_of before) z) = false) by (apply rest_wrong; auto) end.
           split.
           ++ rewrite Wr. split; [discriminate|]. intros [U' _]. destruct B as (u & x & H & Nu). destruct (Nu (U' u x H)).
           ++ intros p' E. rewrite E in Wr. discriminate.
Qed.
End End.

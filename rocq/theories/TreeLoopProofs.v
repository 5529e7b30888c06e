(** Proofs about loops that erase nodes. *)
From Verif Require Import Base ListLemmas TreeModel TreeSpec TreeProofs TreeEditProofs TreeMoreModel TreeMoreSpec TreeMoreProofs
  TreeMemModel TreeMemSpec TreeMemProofs TreeLoopModel TreeLoopSpec.

Section Proofs.
Context {V W : Type}.
Notation tree := (tree V).
Notation mem := (mem V).
Variable decide : tree -> W -> W * outcome action.

Lemma each_ext (f g : tree -> W -> list tree * W * outcome bool) l : (forall t w, f t w = g t w) -> forall w, each f l w = each g l w.
Proof. intro E. induction l as [|t l IH]; intro w; [reflexivity|]. cbn [each]. rewrite E. destruct (g t w) as [[t' w'] [[]| | | | |]]; try rewrite IH; reflexivity. Qed.

(** The rest of the walk, by depths *)
Definition visit (stale : bool) (d : nat) : tree -> W -> list tree * W * outcome bool :=
  if stale && Nat.eqb d 0 then walk_root decide else walk decide.
Fixpoint rest_walk (stale : bool) (R : list (nat * tree)) (w : W) : list (nat * V) * W * outcome bool :=
  match R with
  | [] => ([], w, Ok true)
  | (d, t) :: R =>
      let '(t', w, r) := visit stale d t w in
      match r with
      | Ok true => let '(o, w, r) := rest_walk stale R w in (outline d t' ++ o, w, r)
      | r => (outline d t' ++ flat R, w, r)
      end
  end.

Lemma outline_two d (a b : list tree) : outline d (a ++ b) = outline d a ++ outline d b.
Proof. apply outline_app. Qed.

Lemma rest_walk_app stale d ch R : stale && Nat.eqb d 0 = false -> forall w, rest_walk stale (map (pair d) ch ++ R) w =
  let '(ch', w, r) := each (walk decide) ch w in
  match r with
  | Ok true => let '(o, w, r) := rest_walk stale R w in (outline d ch' ++ o, w, r)
  | r => (outline d ch' ++ flat R, w, r)
  end.
Proof.
  intro D. induction ch as [|t ch IH]; intro w.
  - cbn [map app each outline flat_map]. destruct (rest_walk stale R w) as [[o w'] r]. reflexivity.
  - cbn [map app each rest_walk]. unfold visit at 1. rewrite D. destruct (walk decide t w) as [[t' w1] r1].
    destruct r1 as [[]| | | | |]; try (rewrite outline_two, flat_app, flat_same, <- app_assoc; reflexivity).
    rewrite IH. destruct (each (walk decide) ch w1) as [[ch' w2] r2].
    destruct r2 as [[]| | | | |]; try (rewrite outline_two, <- app_assoc; reflexivity).
    destruct (rest_walk stale R w2) as [[o w3] r3]. rewrite outline_two, <- app_assoc. reflexivity.
Qed.
Lemma rest_walk_same stale l : forall w, rest_walk stale (map (pair 0) l) w =
  let '(l', w, r) := each (if stale then walk_root decide else walk decide) l w in (outline 0 l', w, r).
Proof.
  induction l as [|t l IH]; intro w; [reflexivity|]. cbn [map rest_walk each]. unfold visit at 1.
  change (Nat.eqb 0 0) with true. rewrite andb_true_r.
  destruct ((if stale then walk_root decide else walk decide) t w) as [[t' w1] r1].
  destruct r1 as [[]| | | | |]; try (rewrite outline_two, flat_same; reflexivity).
  rewrite IH. destruct (each _ l w1) as [[l' w2] r2]. rewrite outline_two. reflexivity.
Qed.

(** A root is erased: the iterator has one level; the end of a vector is gone. *)
Lemma erase_root dbg kd (m : mem) i s it m' it' : sound m -> stands m [i] it -> node_at (forest m) [i] = Some s ->
  mem_erase dbg kd m it = Ok (m', it') ->
  match kd with
  | List => mem_end m' = mem_end m
  | Vector => ~ In (fst (top m)) (addresses m') /\ exists b, m_iters it' = [b]
  end.
Proof.
  intros Sm St Nd E. change [i] with ([] ++ [i]) in St. destruct (stands_last _ _ _ _ St) as [o [k [a [ls [is [H [Ha [El Ei]]]]]]]].
  cbn [sub] in H. injection H as <- <-.
  assert (Hi : i < length (snd (top m))).
  { cbn [node_at] in Nd. unfold forest in Nd. assert (Z : nth_error (map strip (snd (top m))) i <> None) by congruence.
    apply nth_error_Some in Z. rewrite map_length in Z. exact Z. }
  assert (L : ls = [] /\ is = []).
  { cbn [app] in St. unfold stands in St. cbn [trail] in St. fold (pointers (top m)) in St. rewrite Ha, El, Ei in St. injection St as E1 E2.
    split; [destruct ls as [|? []]|destruct is as [|? []]]; try discriminate; reflexivity. }
  destruct L as [-> ->].
  destruct (m_erase_path m kd [] None (top m) i a Sm eq_refl Ha Hi) as [b [Hb Eb]]. cbv zeta in Hb, Eb.
  unfold mem_erase in E. rewrite El, Ei in E. cbn [app] in E. change (back [None]) with (Ok (@None nat)) in E. change (back [a]) with (Ok a) in E.
  cbn [bind] in E. rewrite Eb in E. cbn [bind fst snd] in E. change (set_back [a] b) with (Ok [b]) in E. cbn [bind length mem_pop] in E.
  change (negb (Nat.eqb 1 1)) with false in E. cbn [m_iters length Nat.eqb negb bind] in E. injection E as Em Et.
  destruct kd.
  - split; [|exists b; rewrite <- Et; reflexivity]. rewrite <- Em.
    destruct (sub_sound m [] None (top m) Sm eq_refl) as [Nk Fk].
    eapply (edited_gone m [] None (top m)); [exact Sm|reflexivity|left; reflexivity|].
    apply (erase_stale Vector (next m) (top m) i Nk Fk Hi (length (snd (top m)))); [reflexivity|lia|apply nth_pointers_end].
  - unfold mem_end. rewrite <- Em. reflexivity.
Qed.
Lemma erase_deep dbg kd (m : mem) c i s it m' it' : sound m -> c <> [] -> stands m (c ++ [i]) it -> node_at (forest m) (c ++ [i]) = Some s ->
  mem_erase dbg kd m it = Ok (m', it') -> mem_end m' = mem_end m.
Proof.
  intros Sm C St Nd E. destruct (node_at_inv _ _ _ Nd) as [c0 [i0 [l [Ec [Cn Nt]]]]]. apply app_inj_tail in Ec. destruct Ec as [<- <-].
  assert (P : exists n, nth_error (preorder (forest m)) n = Some (c ++ [i])).
  { eexists. eapply rank_nth. exact Nd. }
  destruct P as [n P]. destruct (erase_ok dbg (forest m) n _ s P Nd) as [b [a [f' [q [Er _]]]]].
  destruct (erase_run m dbg kd c i it s f' q Sm St Nd Er) as [o [k [it2 [H [Hi R]]]]]. cbv zeta in R. destruct R as [R1 _].
  rewrite R1 in E. injection E as <- _. unfold mem_end, edited. cbn [top]. rewrite upd_top by exact C. reflexivity.
Qed.

Definition stale (kd : kind) (cached : option m_iterator) : bool := match kd, cached with Vector, Some _ => true | _, _ => false end.
Lemma end_stands (m : mem) : stands m [length (forest m)] (mem_end m).
Proof. unfold stands, forest. cbn [trail mem_end m_lists m_iters]. rewrite map_length. fold (pointers (top m)). rewrite nth_pointers_end. reflexivity. Qed.
Lemma begin_stands (m : mem) : stands m [0] (mem_begin m).
Proof.
  unfold stands. cbn [trail mem_begin m_lists m_iters]. fold (pointers (top m)). destruct (nth_error (pointers (top m)) 0) as [a|] eqn:E.
  - rewrite (nth_error_nth _ _ 0 E). reflexivity.
  - apply nth_error_None in E. rewrite pointers_len in E. lia.
Qed.

Lemma loop_ok dbg kd cached : forall fuel (m : mem) n q it R w, sound m ->
  nth_error (positions (forest m)) n = Some q -> stands m q it -> skipn n (outline 0 (forest m)) = flat R -> descending R -> total R < fuel ->
  cached = None \/ cached = Some (mem_end m) ->
  let '(o, w', r) := rest_walk (stale kd cached) R w in
  exists m', mem_loop decide dbg kd cached fuel m it w = (m', w', r) /\ sound m' /\
    outline 0 (forest m') = firstn n (outline 0 (forest m)) ++ o.
Proof.
  induction fuel as [|fuel IH]; intros m n q it R w Sm Hq St ER D Hf Hc; [lia|].
  cbn [mem_loop]. assert (El : match cached with Some e => e | None => mem_end m end = mem_end m) by (destruct Hc as [->| ->]; reflexivity).
  rewrite El. clear El.
  rewrite (eq_ok m n (size (forest m)) q [length (forest m)] it (mem_end m) Sm Hq (positions_end _) St (end_stands m)).
  set (f := forest m) in *.
  assert (Ln : n < length (positions f)) by (apply nth_error_Some; congruence). rewrite positions_len in Ln.
  destruct (Nat.eqb_spec n (size f)) as [->|NE].
  { assert (R = []) as ->.
    { rewrite skipn_all2 in ER by (rewrite outline_len; lia). destruct R as [|[d [v ch]] R]; [reflexivity|].
      rewrite flat_cons in ER. discriminate. }
    cbn [rest_walk]. exists m. split; [reflexivity|]. split; [exact Sm|]. fold f. rewrite app_nil_r, firstn_all2 by (rewrite outline_len; lia). reflexivity. }
  destruct (positions_node f n ltac:(lia)) as [q' [t [Hq' [Hpre [Ht N]]]]].
  rewrite Hq in Hq'. injection Hq' as <-.
  rewrite (stands_deref m q it t Sm St N).
  destruct R as [|[d [v ch]] R].
  { exfalso. assert (length (skipn n (outline 0 f)) = 0) by (rewrite ER; reflexivity).
    rewrite skipn_length, outline_len in H. lia. }
  assert (DR : descending R /\ Forall (fun y => fst y <= d) R) by (inversion D; subst; auto).
  assert (t = Node v ch) as ->.
  { rewrite nodes_parse in Ht.
    assert (P : skipn n (map snd (parse (outline 0 f))) = Node v ch :: map snd (entries (S d) ch ++ parse (flat R))).
    { rewrite skipn_map, <- parse_skipn, ER, flat_cons.
      change ((d, v) :: outline (S d) ch ++ flat R) with (((d, v) :: outline (S d) ch) ++ flat R).
      replace ((d, v) :: outline (S d) ch) with (outline d [Node v ch]) by (rewrite outline_cons; cbn [outline flat_map]; rewrite app_nil_r; reflexivity).
      rewrite parse_outline by (apply flat_low, (proj2 DR)). rewrite entries_cons. cbn [entries flat_map]. rewrite app_nil_r. reflexivity. }
    rewrite (skipn_nth _ _ _ Ht) in P. injection P as -> _. reflexivity. }
  assert (Hf' : total R + S (size ch) < S fuel).
  { unfold total in *. cbn [map snd] in Hf. rewrite size_cons in Hf. lia. }
  assert (Keep : forall r : outcome bool, exists m', (m, fst (decide (Node v ch) w), r) = (m', fst (decide (Node v ch) w), r) /\ sound m' /\
    outline 0 (forest m') = firstn n (outline 0 f) ++ outline d [Node v ch] ++ flat R).
  { intro r. exists m. split; [reflexivity|]. split; [exact Sm|]. fold f. rewrite <- (firstn_skipn n (outline 0 f)) at 1. rewrite ER, flat_cons, outline_cons.
    cbn [outline flat_map app]. rewrite app_nil_r. reflexivity. }
  cbn [rest_walk]. assert (Ev : visit (stale kd cached) d (Node v ch) w =
    match walk decide (Node v ch) w with ([], w', Ok true) => ([], w', if stale kd cached && Nat.eqb d 0 then UB UseAfterFree else Ok true) | r => r end).
  { unfold visit. destruct (stale kd cached && Nat.eqb d 0); [reflexivity|]. destruct (walk decide (Node v ch) w) as [[[|] w'] [[]| | | | |]]; reflexivity. }
  rewrite Ev. clear Ev. cbn [walk].
  destruct (decide (Node v ch) w) as [w1 r] eqn:Ed. cbn [fst] in Keep.
  destruct r as [[| |]|e|u| | |]; try (apply Keep).
  - (* Next *)
    assert (exists q1, nth_error (positions f) (S n) = Some q1) as [q1 Hq1].
    { destruct (nth_error (positions f) (S n)) as [q1|] eqn:E; [eauto|]. apply nth_error_None in E. rewrite positions_len in E. lia. }
    destruct (moves_ok dbg m n q q1 it Sm Hq Hq1 St) as [it1 [E1 [St1 _]]]. rewrite E1.
    rewrite flat_cons in ER. destruct (skipn_cons_next n _ _ _ ER) as [G1 G2].
    assert (A1 : skipn (S n) (outline 0 f) = flat (map (pair (S d)) ch ++ R)) by (rewrite G2, flat_app, flat_same; reflexivity).
    assert (A2 : total (map (pair (S d)) ch ++ R) < fuel) by (unfold total in *; rewrite map_app, map_map, size_app; cbn [snd]; rewrite map_id; lia).
    specialize (IH m (S n) q1 it1 (map (pair (S d)) ch ++ R) w1 Sm Hq1 St1 A1 (desc_children _ _ _ _ D) A2 Hc). fold f in IH.
    rewrite rest_walk_app in IH by (cbn; apply andb_false_r).
    destruct (each (walk decide) ch w1) as [[ch' w2] r2].
    assert (G : forall o, firstn (S n) (outline 0 f) ++ outline (S d) ch' ++ o = firstn n (outline 0 f) ++ outline d [Node v ch'] ++ o).
    { intro o. rewrite G1, outline_cons. cbn [outline flat_map]. rewrite app_nil_r, <- !app_assoc. reflexivity. }
    destruct r2 as [[]|e|u| | |]; try (rewrite G in IH; exact IH).
    destruct (rest_walk (stale kd cached) R w2) as [[o w3] r3]. rewrite G in IH. exact IH.
  - (* Erase *)
    destruct (mem_erase_ok dbg kd m n q (Node v ch) it Sm Hpre N St) as [before [after [m1 [it1 [q1 [E1 [Sm1 [E2 [E3 [E4 [E5 E6]]]]]]]]]]].
    fold f in E2. rewrite E1.
    assert (Ea : after = flat R /\ pred (length q) = d).
    { rewrite E2 in ER. rewrite <- E3, skipn_app, skipn_all, Nat.sub_diag in ER. cbn [app skipn] in ER.
      rewrite flat_cons, outline_cons in ER. cbn [app] in ER. injection ER as Edd ER. split; [|exact Edd]. rewrite Edd in ER.
      cbn [outline flat_map] in ER. rewrite app_nil_r in ER. apply app_inv_head in ER. exact ER. }
    destruct Ea as [Ea Edd].
    destruct (stale kd cached && Nat.eqb d 0) eqn:Es.
    + apply andb_true_iff in Es. destruct Es as [Es Ed0]. apply Nat.eqb_eq in Ed0. subst d.
      unfold stale in Es. destruct kd; [|discriminate]. destruct cached as [e|]; [|discriminate]. destruct Hc as [Hc|Hc]; [discriminate|]. injection Hc as ->.
      destruct (stands_snoc m q it St) as [c [i ->]]. { destruct q; [discriminate N|discriminate]. }
      assert (c = []) as ->. { destruct c; [reflexivity|]. rewrite app_length in Ed0. cbn in Ed0. lia. }
      destruct (erase_root dbg Vector m i _ it m1 it1 Sm St N E1) as [Gone [b Eb]].
      destruct fuel as [|fuel]; [lia|]. cbn [mem_loop]. unfold mem_eq. rewrite Eb. cbn [mem_end m_iters length Nat.eqb m_all_eq].
      unfold m_eq. assert (Pb : exists x, m_place m1 b = Ok x).
      { destruct (stands_snoc m1 q1 it1 E6) as [c1 [i1 ->]]. { intros ->. unfold stands in E6. cbn in E6. injection E6 as _ E6. rewrite Eb in E6. discriminate. }
        destruct (stands_last _ _ _ _ E6) as [o [k [a [ls [is [H [Ha [El Ei]]]]]]]]. rewrite Eb in Ei. destruct is as [|? []]; try discriminate.
        injection Ei as <-. eexists. apply (m_place_path m1 Sm1 _ _ _ _ _ H Ha). }
      destruct Pb as [x ->]. cbn [bind]. rewrite (m_place_gone m1 _ Gone). cbn [bind failed].
      exists m1. split; [reflexivity|]. split; [exact Sm1|]. rewrite E4, E2, <- E3, firstn_app_exact, Ea. reflexivity.
    + cbn [app outline flat_map].
      assert (Hc1 : stale kd cached && Nat.eqb d 0 = false -> cached = None \/ cached = Some (mem_end m1)).
      { intros _. destruct Hc as [->| ->]; [left; reflexivity|right]. f_equal. symmetry.
        destruct (stands_snoc m q it St) as [c [i ->]]. { destruct q; [discriminate N|discriminate]. }
        destruct c as [|j c].
        - assert (kd = List) as ->. { destruct kd; [|reflexivity]. rewrite <- Edd in Es. cbn in Es. discriminate. }
          exact (erase_root dbg List m i _ it m1 it1 Sm St N E1).
        - eapply erase_deep; [exact Sm| |exact St|exact N|exact E1]. discriminate. }
      specialize (IH m1 n q1 it1 R w1 Sm1 E5 E6). rewrite E4 in IH at 1. rewrite <- E3, skipn_app, skipn_all, Nat.sub_diag in IH. cbn [app skipn] in IH.
      specialize (IH Ea (proj1 DR) ltac:(lia) (Hc1 Es)).
      destruct (rest_walk (stale kd cached) R w1) as [[o w2] r2]. destruct IH as [m2 [F1 [F2 F3]]]. exists m2. split; [exact F1|]. split; [exact F2|].
      rewrite F3, E4, E2, <- E3, !firstn_app_exact. reflexivity.
Qed.

Theorem erase_where_mem dbg kd (cached : bool) (m : mem) w : sound m ->
  let '(f, w', r) := each (match kd, cached with Vector, true => walk_root decide | _, _ => walk decide end) (forest m) w in
  exists m', mem_erase_where decide dbg kd cached m w = (m', w', r) /\ sound m' /\ forest m' = f.
Proof.
  intro Sm. unfold mem_erase_where. set (c := if cached then Some (mem_end m) else None).
  pose proof (loop_ok dbg kd c (S (size (forest m))) m 0 [0] (mem_begin m) (map (pair 0) (forest m)) w Sm (positions_head _) (begin_stands m)) as H.
  rewrite rest_walk_same in H.
  replace (if stale kd c then walk_root decide else walk decide) with (match kd, cached with Vector, true => walk_root decide | _, _ => walk decide end) in H
    by (subst c; destruct kd, cached; reflexivity).
  destruct (each _ (forest m) w) as [[f w'] r]. destruct H as [m' [E [S' O]]].
  - rewrite flat_same. reflexivity.
  - rewrite <- (app_nil_r (map _ _)). apply desc_same; constructor.
  - unfold total. rewrite map_map. cbn [snd]. rewrite map_id. lia.
  - subst c. destruct cached; auto.
  - exists m'. split; [exact E|]. split; [exact S'|]. cbn [firstn app] in O. exact (outline_inj _ _ _ O).
Qed.

Lemma walk_erased t w w' : walk decide t w = ([], w', Ok true) -> decide t w = (w', Ok Erase).
Proof.
  destruct t as [v ch]. cbn [walk]. destruct (decide (Node v ch) w) as [w1 [[]| | | | |]]; try discriminate.
  - destruct (each (walk decide) ch w1) as [[ch' w2] r]. discriminate.
  - intro H. injection H as ->. reflexivity.
Qed.
Theorem each_root l : forall w, each (walk_root decide) l w = each (walk decide) l w \/
  exists l1 t l2 l1' w1 w2, l = l1 ++ t :: l2 /\ each (walk decide) l1 w = (l1', w1, Ok true) /\ decide t w1 = (w2, Ok Erase) /\
    each (walk_root decide) l w = (l1' ++ l2, w2, UB UseAfterFree).
Proof.
  induction l as [|t l IH]; intro w; [left; reflexivity|]. cbn [each]. unfold walk_root at 1 3.
  destruct (walk decide t w) as [[t' w'] r] eqn:E. destruct t' as [|x t'].
  - destruct r as [[]| | | | |]; try (left; reflexivity). right. exists [], t, l, [], w, w'.
    split; [reflexivity|]. split; [reflexivity|]. split; [exact (walk_erased _ _ _ E)|reflexivity].
  - destruct r as [[]| | | | |]; try (left; reflexivity).
    destruct (IH w') as [H|(l1 & s & l2 & l1' & w1 & w2 & El & E1 & Ed & E2)].
    + left. rewrite H. reflexivity.
    + right. exists (t :: l1), s, l2, ((x :: t') ++ l1'), w1, w2. split; [rewrite El; reflexivity|]. cbn [each]. rewrite E, E1.
      split; [reflexivity|]. split; [exact Ed|]. rewrite E2, <- app_assoc. reflexivity.
Qed.
End Proofs.

(** A pure predicate: the loop of C74. *)
Theorem walk_pure {V : Type} (pred : tree V -> bool) (f : list (tree V)) log :
  each (walk (fun t log => (log ++ [t], Ok (if pred t then Erase else Next)))) f log = (prune pred f, log ++ flat_map (exposed pred) f, Ok true).
Proof.
  revert log. remember (size f) as n eqn:Hn. revert f Hn. induction n as [n IH] using lt_wf_ind. intros f -> log.
  destruct f as [|[v ch] f]; [cbn; rewrite app_nil_r; reflexivity|]. rewrite size_cons in IH. cbn [each walk]. unfold prune. cbn [flat_map pruned exposed].
  destruct (pred (Node v ch)).
  - rewrite (IH (size f) ltac:(lia) f eq_refl). cbn [app]. rewrite <- app_assoc. reflexivity.
  - rewrite (IH (size ch) ltac:(lia) ch eq_refl). rewrite (IH (size f) ltac:(lia) f eq_refl). cbn [app]. rewrite <- !app_assoc. reflexivity.
Qed.

Section Own.
Context {V : Type}.
Theorem insert_own_ok kd re (m : mem V) n p it p' s jt : sound m -> nth_error (positions (forest m)) n = Some p -> stands m p it ->
  node_at (forest m) p' = Some s -> stands m p' jt ->
  exists before after m' it',
    mem_insert_own kd re m it jt = Ok (m', it') /\ sound m' /\ stands m' p it' /\
    outline 0 (forest m) = before ++ after /\ length before = n /\
    outline 0 (forest m') = before ++ outline (pred (length p)) [s] ++ after /\
    mem_deref m' it' = Ok s.
Proof.
  intros Sm Hp St Nd St'. unfold mem_insert_own. rewrite (stands_deref m p' jt s Sm St' Nd). cbn [bind]. exact (mem_insert_ok kd re m n p it s Sm Hp St).
Qed.
Theorem insert_after_own_ok kd re (m : mem V) n c i s it p' s' jt : sound m -> nth_error (preorder (forest m)) n = Some (c ++ [i]) ->
  node_at (forest m) (c ++ [i]) = Some s -> stands m (c ++ [i]) it -> node_at (forest m) p' = Some s' -> stands m p' jt ->
  exists before after m' it',
    mem_insert_after_own kd re m it jt = Ok (m', it') /\ sound m' /\ stands m' (c ++ [S i]) it' /\
    outline 0 (forest m) = before ++ outline (length c) [s] ++ after /\ length before = n /\
    outline 0 (forest m') = before ++ outline (length c) [s] ++ outline (length c) [s'] ++ after /\
    mem_deref m' it' = Ok s'.
Proof.
  intros Sm Hp N St Nd St'. unfold mem_insert_after_own. rewrite (stands_deref m p' jt s' Sm St' Nd). cbn [bind].
  exact (mem_insert_after_ok kd re m n c i s it s' Sm Hp N St).
Qed.
End Own.

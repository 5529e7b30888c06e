(** Consequences of [word_wrap_run]. *)
From Verif Require Import Base ListLemmas WrapModel WrapSpec WrapProofs.
Local Open Scope N_scope.

(** ** Width and newlines *)
Lemma afinish_lines n a : ainv a -> (length (text a) <= n)%nat ->
  Forall (fun l => (length l <= n)%nat /\ flat l) (afinish a).
Proof.
  intros I L. pose proof (text_flat a I) as F.
  destruct a as [|sp w|sp|x sp|x w]; cbn [afinish]; try (constructor; [|constructor]); auto.
  cbn [text] in L. rewrite app_length in L. cbn [ainv] in I. split; [lia|tauto].
Qed.

Lemma astep_lines n a c : (0 < n)%nat -> ainv a -> (length (text a) <= n)%nat ->
  Forall (fun l => (length l <= n)%nat /\ flat l) (fst (astep n a c)) /\
  ainv (snd (astep n a c)) /\ (length (text (snd (astep n a c))) <= n)%nat.
Proof.
  intros Hn I L. unfold astep.
  assert (W : Forall (fun l => (length l <= n)%nat /\ flat l) (fst (awrap n a c)) /\ ainv (snd (awrap n a c)) /\
              (length (text (snd (awrap n a c))) <= n)%nat /\
              (c <> 10 -> (length (text (snd (awrap n a c))) < n)%nat)).
  { pose proof (text_flat a I) as F.
    split; [|split; [apply awrap_inv, I|]]; unfold awrap;
      destruct (N.eqb_spec c 10) as [->|Nc]; cbn [negb andb fst snd]; try (constructor; fail); try (split; [exact L|congruence]);
      destruct (Nat.eqb_spec (length (text a)) n) as [E|E]; cbn [fst snd]; try (constructor; fail); try (split; [exact L|intros _; lia]);
      destruct a as [|sp w|sp|x sp|x w]; cbn [awrap1 fst snd text ainv length app] in *; try (constructor; fail);
      try (constructor; [|constructor]).
    - split; [lia|exact F].
    - rewrite app_length in E. split; [lia|tauto].
    - rewrite app_length in E. split; [lia|tauto].
    - lia.
    - lia.
    - lia.
    - destruct I as [_ [I1 [_ I2]]]. destruct sp as [|y sp]; [contradiction|]. rewrite app_length in E. cbn [length tl] in *.
      destruct x; [contradiction|]. cbn [length] in E. lia.
    - rewrite app_length in E. cbn [length] in E. lia. }
  destruct (awrap n a c) as [e1 a1]. cbn [fst snd] in W. destruct W as [W1 [W2 [W3 W4]]].
  pose proof (achar_inv a1 c W2) as I2. pose proof (text_flat a1 W2) as F1.
  destruct (achar a1 c) as [e2 a2] eqn:Ec. cbn [fst snd] in *. unfold achar in Ec.
  destruct (N.eqb_spec c 32) as [->|N1]; [|destruct (N.eqb_spec c 10) as [->|N2]]; injection Ec as <- <-.
  - rewrite app_nil_r. split; [exact W1|]. split; [exact I2|]. specialize (W4 ltac:(discriminate)).
    destruct a1; cbn [text] in *; rewrite ?app_length in *; cbn [length] in *; rewrite ?app_length in *; cbn [length] in *; lia.
  - split; [|split; [exact I2|cbn; lia]]. apply Forall_app. split; [exact W1|]. constructor; [|constructor]. auto.
  - rewrite app_nil_r. split; [exact W1|]. split; [exact I2|]. specialize (W4 N2).
    destruct a1 as [|sp w|sp|x sp|x w]; cbn [text] in *; rewrite ?app_length in *; cbn [length] in *; rewrite ?app_length in *; cbn [length] in *; try lia.
    destruct W2 as [_ [_ [Hs Hne]]]. apply (spaces_snoc sp Hs) in Hne. rewrite Hne, app_length in W4. cbn [length] in W4. lia.
Qed.

Lemma arun_lines n s : (0 < n)%nat -> forall a, ainv a -> (length (text a) <= n)%nat ->
  Forall (fun l => (length l <= n)%nat /\ flat l) (arun n a s).
Proof.
  intro Hn. induction s as [|c s IH]; intros a I L; cbn [arun]; [apply afinish_lines; assumption|].
  destruct (astep_lines n a c Hn I L) as [H1 [H2 H3]].
  destruct (astep n a c) as [e a']. cbn [fst snd] in *. apply Forall_app. auto.
Qed.

(** ** Nothing else is lost *)
Lemma cov_gap g t ls : forallb is_blank g = true -> covers t ls -> covers (g ++ t) ls.
Proof.
  intros G C. destruct C as [gap H|gap line rest lines H C].
  - constructor. rewrite forallb_app, G, H. reflexivity.
  - rewrite app_assoc. constructor; [rewrite forallb_app, G, H; reflexivity|exact C].
Qed.
Lemma cov_one l t ls : covers t ls -> covers (l ++ t) (l :: ls).
Proof. intro C. apply (cov_line [] l t ls eq_refl C). Qed.
Lemma spaces_blank l : spaces l -> forallb is_blank l = true.
Proof. intro H. apply forallb_forall. unfold spaces in H. rewrite Forall_forall in H. intros x Hx. rewrite (H x Hx). reflexivity. Qed.

Lemma awrap_covers n a c t ls : ainv a -> covers (text (snd (awrap n a c)) ++ t) ls ->
  covers (text a ++ t) (fst (awrap n a c) ++ ls).
Proof.
  intros I. unfold awrap. destruct (_ && _); [|cbn; auto].
  destruct a as [|sp w|sp|x sp|x w]; cbn [awrap1 fst snd text ainv app] in *; intro C.
  - exact C.
  - apply cov_one, C.
  - apply cov_gap; [apply spaces_blank, I|exact C].
  - destruct I as [_ [_ [Hs Hne]]]. destruct sp as [|y sp]; [contradiction|].
    pose proof (Forall_inv Hs) as Hy. cbv beta in Hy. subst y. cbn [tl] in C.
    rewrite <- app_assoc. apply cov_one. change ((32 :: sp) ++ t) with ([32] ++ sp ++ t). apply cov_gap; [reflexivity|exact C].
  - rewrite <- app_assoc. apply cov_one. change ((32 :: w) ++ t) with ([32] ++ w ++ t). apply cov_gap; [reflexivity|exact C].
Qed.

Lemma achar_covers a c t ls : ainv a -> covers (text (snd (achar a c)) ++ t) ls ->
  covers (text a ++ c :: t) (fst (achar a c) ++ ls).
Proof.
  intros I. unfold achar.
  destruct (N.eqb_spec c 32) as [->|N1]; [|destruct (N.eqb_spec c 10) as [->|N2]]; cbn [fst snd app].
  - destruct a as [|sp w|sp|x sp|x w]; cbn [text app] in *; rewrite <- ?app_assoc; cbn [app]; rewrite <- ?app_assoc; auto.
  - intro C. cbn [text app] in C. apply cov_one. apply (cov_gap [10]); [reflexivity|exact C].
  - destruct a as [|sp w|sp|x sp|x w]; cbn [text app ainv] in *; rewrite <- ?app_assoc; cbn [app]; rewrite <- ?app_assoc; auto.
    destruct I as [_ [_ [Hs Hne]]]. rewrite (spaces_snoc sp Hs Hne) at 2. rewrite <- app_assoc. auto.
Qed.

Lemma arun_covers n s : forall a, ainv a -> covers (text a ++ s) (arun n a s).
Proof.
  induction s as [|c s IH]; intros a I; cbn [arun].
  - rewrite app_nil_r. destruct a as [|sp w|sp|x sp|x w]; cbn [afinish text ainv] in *.
    + apply (cov_line [] [] [] []); [reflexivity|]. constructor. reflexivity.
    + rewrite <- (app_nil_r (sp ++ w)) at 1. apply cov_one. constructor. reflexivity.
    + constructor. apply spaces_blank, I.
    + apply cov_one. constructor. apply spaces_blank. tauto.
    + rewrite <- (app_nil_r (x ++ 32 :: w)) at 1. apply cov_one. constructor. reflexivity.
  - unfold astep. pose proof (awrap_covers n a c (c :: s)) as W. pose proof (awrap_inv n a c I) as I1.
    destruct (awrap n a c) as [e1 a1]. cbn [fst snd] in *.
    pose proof (achar_covers a1 c s) as Ch. pose proof (achar_inv a1 c I1) as I2.
    destruct (achar a1 c) as [e2 a2]. cbn [fst snd] in *. rewrite <- app_assoc. auto.
Qed.

(** [covers] in terms of the sequence of other characters. *)
Lemma filter_blank g : forallb is_blank g = true -> filter (fun c => negb (is_blank c)) g = [].
Proof.
  induction g as [|x g IH]; [reflexivity|]. cbn [forallb filter]. intro H. apply andb_true_iff in H. destruct H as [H1 H2].
  rewrite H1. cbn. auto.
Qed.
Lemma covers_filter t ls : covers t ls ->
  filter (fun c => negb (is_blank c)) t = filter (fun c => negb (is_blank c)) (concat ls).
Proof.
  induction 1 as [gap H|gap line rest lines H C IH]; [apply filter_blank, H|].
  cbn [concat]. rewrite !filter_app, (filter_blank _ H), IH. reflexivity.
Qed.

(** ** Chunks *)
Lemma chunks_fuel_enough n : (0 < n)%nat -> forall k k' w, (length w <= k)%nat -> (length w <= k')%nat -> w <> [] ->
  chunks_fuel k n w = chunks_fuel k' n w.
Proof.
  intro Hn. induction k as [|k IH]; intros [|k'] w H H' NE; try (destruct w; [contradiction|cbn in *; lia]).
  cbn [chunks_fuel]. destruct (Nat.leb_spec (length w) n) as [L|L]; [reflexivity|]. f_equal.
  apply IH.
  - rewrite skipn_length. lia.
  - rewrite skipn_length. lia.
  - intro E. assert (length (skipn n w) = 0)%nat by (rewrite E; reflexivity). rewrite skipn_length in *. lia.
Qed.

Lemma chunks_short n w : w <> [] -> (length w <= n)%nat -> chunks n w = [w].
Proof.
  intros NE L. unfold chunks. destruct w as [|x w]; [contradiction|]. cbn [length chunks_fuel].
  apply Nat.leb_le in L. cbn [length] in L. rewrite L. reflexivity.
Qed.

Lemma chunks_cons n u w : (0 < n)%nat -> length u = n -> w <> [] -> chunks n (u ++ w) = u :: chunks n w.
Proof.
  intros Hn L NE. unfold chunks. rewrite app_length.
  destruct (length u + length w)%nat as [|k] eqn:E; [lia|]. cbn [chunks_fuel].
  assert (0 < length w)%nat by (destruct w; [contradiction|cbn; lia]).
  rewrite app_length. destruct (Nat.leb_spec (length u + length w) n) as [H1|H1]; [lia|].
  subst n. rewrite firstn_app_exact, skipn_app_exact. f_equal. apply chunks_fuel_enough; auto; lia.
Qed.

Lemma chunks_ne n w : w <> [] -> chunks n w <> [].
Proof. intro H. destruct w as [|x w]; [contradiction|]. unfold chunks. cbn [length chunks_fuel]. destruct (Nat.leb _ _); discriminate. Qed.

Lemma chunks_last n : (0 < n)%nat -> forall m w, (length w <= m)%nat -> w <> [] ->
  (0 < length (last (chunks n w) []) <= n)%nat /\
  ((length w mod n <> 0)%nat -> (length (last (chunks n w) []) < n)%nat) /\
  concat (chunks n w) = w.
Proof.
  intro Hn. induction m as [|m IH]; intros w L NE; [destruct w; [contradiction|cbn in L; lia]|].
  destruct (Nat.le_gt_cases (length w) n) as [S|S].
  - rewrite chunks_short by assumption. cbn [last concat]. rewrite app_nil_r.
    assert (0 < length w)%nat by (destruct w; [contradiction|cbn; lia]).
    split; [lia|]. split; [|reflexivity]. intro M. assert (length w <> n); [|lia]. intro E. apply M. rewrite E. apply Nat.mod_same. lia.
  - rewrite <- (firstn_skipn n w).
    assert (Lf : length (firstn n w) = n) by (apply firstn_length_le; lia).
    assert (Ls : length (skipn n w) = (length w - n)%nat) by apply skipn_length.
    assert (NE' : skipn n w <> []) by (intro E; rewrite E in Ls; cbn in Ls; lia).
    rewrite chunks_cons by assumption.
    pose proof (chunks_ne n _ NE') as NC. destruct (IH (skipn n w)) as [H1 [H2 H3]]; [lia|assumption|].
    replace (last (firstn n w :: chunks n (skipn n w)) []) with (last (chunks n (skipn n w)) [])
      by (destruct (chunks n (skipn n w)); [contradiction|reflexivity]).
    split; [exact H1|]. split.
    + intro M. apply H2. rewrite app_length, Lf in M. intro Z. apply M.
      replace (n + length (skipn n w))%nat with (length (skipn n w) + 1 * n)%nat by lia. rewrite Nat.mod_add by lia. exact Z.
    + cbn [concat]. rewrite H3. reflexivity.
Qed.

(** ** Greedy filling *)
Lemma astep_other n a c : (length (text a) < n)%nat -> astep n a c = achar a c.
Proof.
  intro L. unfold astep, awrap. replace (Nat.eqb (length (text a)) n) with false by (symmetry; apply Nat.eqb_neq; lia).
  rewrite andb_false_r. destruct (achar a c); reflexivity.
Qed.
Lemma achar_word a c : c <> 32 -> c <> 10 -> achar a c =
  ([], match a with
       | AFresh => AWord [] [c] | AWord sp w => AWord sp (w ++ [c]) | ASpaces sp => AWord sp [c]
       | AAfter x sp => AMid (x ++ removelast sp) [c] | AMid x w => AMid x (w ++ [c])
       end).
Proof.
  intros H1 H2. unfold achar.
  replace (c =? 32) with false by (symmetry; apply N.eqb_neq; exact H1).
  replace (c =? 10) with false by (symmetry; apply N.eqb_neq; exact H2). reflexivity.
Qed.

Lemma chop n : (0 < n)%nat -> forall w u t, u <> [] -> (length u <= n)%nat -> Forall (fun c => c <> 32 /\ c <> 10) w ->
  arun n (AWord [] u) (w ++ t) =
  removelast (chunks n (u ++ w)) ++ arun n (AWord [] (last (chunks n (u ++ w)) [])) t.
Proof.
  intro Hn. induction w as [|c w IH]; intros u t NE L F.
  - rewrite app_nil_r, chunks_short by assumption. reflexivity.
  - pose proof (Forall_inv F) as [F1 F2]. pose proof (Forall_inv_tail F) as Ft.
    cbn [app arun]. destruct (Nat.eq_dec (length u) n) as [E|E].
    + unfold astep, awrap. cbn [text app]. replace (Nat.eqb (length u) n) with true by (symmetry; apply Nat.eqb_eq; exact E).
      replace (c =? 10) with false by (symmetry; apply N.eqb_neq; exact F2). cbn [negb andb awrap1 app].
      rewrite achar_word by assumption. cbn [app]. rewrite IH; auto; [|discriminate].
      cbn [app]. rewrite (chunks_cons n u (c :: w)) by (auto; discriminate).
      pose proof (chunks_ne n (c :: w) ltac:(discriminate)) as NC.
      cbn [removelast last]. destruct (chunks n (c :: w)) as [|y ys]; [contradiction|]. reflexivity.
    + rewrite astep_other by (cbn [text app]; lia). rewrite achar_word by assumption. cbn [app].
      rewrite IH; auto using snoc_ne; [|rewrite app_length; cbn; lia].
      rewrite <- !app_assoc. reflexivity.
Qed.

Lemma chop_fresh n w t : (0 < n)%nat -> wordy w -> arun n AFresh (w ++ t) =
  removelast (chunks n w) ++ arun n (AWord [] (last (chunks n w) [])) t.
Proof.
  intros Hn [NE F]. destruct w as [|c w]; [contradiction|].
  pose proof (Forall_inv F) as [F1 F2]. pose proof (Forall_inv_tail F) as Ft.
  cbn [app arun]. rewrite astep_other by exact Hn. rewrite achar_word by assumption. cbn [app].
  rewrite chop; auto; discriminate.
Qed.

Lemma mid n cur : (0 < n)%nat -> forall w u t, u <> [] -> (length cur + 1 + length u <= n)%nat ->
  Forall (fun c => c <> 32 /\ c <> 10) w ->
  arun n (AMid cur u) (w ++ t) =
  if Nat.leb (length cur + 1 + length (u ++ w)) n then arun n (AMid cur (u ++ w)) t
  else cur :: removelast (chunks n (u ++ w)) ++ arun n (AWord [] (last (chunks n (u ++ w)) [])) t.
Proof.
  intro Hn. induction w as [|c w IH]; intros u t NE L F.
  - rewrite app_nil_r. apply Nat.leb_le in L. rewrite L. reflexivity.
  - pose proof (Forall_inv F) as [F1 F2]. pose proof (Forall_inv_tail F) as Ft.
    cbn [app arun]. destruct (Nat.eq_dec (length cur + 1 + length u) n) as [E|E].
    + rewrite (app_length u). cbn [length].
      destruct (Nat.leb_spec (length cur + 1 + (length u + S (length w))) n) as [H|H]; [lia|].
      assert (C : arun n (AWord [] u) ((c :: w) ++ t) =
        removelast (chunks n (u ++ c :: w)) ++ arun n (AWord [] (last (chunks n (u ++ c :: w)) [])) t)
        by (apply chop; auto; lia).
      rewrite <- C. cbn [app arun].
      rewrite (astep_other n (AWord [] u)) by (cbn [text app]; lia).
      unfold astep, awrap. cbn [text].
      replace (Nat.eqb (length (cur ++ 32 :: u)) n) with true
        by (symmetry; apply Nat.eqb_eq; rewrite app_length; cbn [length]; lia).
      replace (c =? 10) with false by (symmetry; apply N.eqb_neq; exact F2). cbn [negb andb awrap1].
      rewrite achar_word by assumption. reflexivity.
    + rewrite astep_other by (cbn [text]; rewrite app_length; cbn [length]; lia).
      rewrite achar_word by assumption. cbn [app].
      rewrite IH; auto using snoc_ne; [|rewrite app_length; cbn [length]; lia].
      rewrite <- !app_assoc. reflexivity.
Qed.

(** What follows a paragraph. *)
Definition follows (t : list N) : Prop := t = [] \/ exists r, t = 10 :: r.
Definition cont n (t : list N) : list (list N) := match t with [] => [] | _ :: r => arun n AFresh r end.
Definition active (a : astate) : Prop := match a with AWord _ _ | AMid _ _ | AFresh => True | _ => False end.

Lemma paragraph_end n a t : active a -> follows t -> arun n a t = text a :: cont n t.
Proof.
  intros A [->|[r ->]]; [destruct a; try contradiction; reflexivity|].
  cbn [arun cont]. unfold astep, awrap, achar. cbn [N.eqb Pos.eqb negb andb app]. reflexivity.
Qed.

Lemma fill_ok n : (0 < n)%nat -> forall ws a t, active a -> ainv a -> follows t ->
  (length (text a) <= n)%nat -> (ws <> [] -> text a <> [] /\ (length (text a) < n)%nat) ->
  Forall wordy ws -> Forall (fun w => (length w mod n <> 0)%nat) (removelast ws) ->
  arun n a (concat (map (cons 32) ws) ++ t) = fill n (text a) ws ++ cont n t.
Proof.
  intro Hn. induction ws as [|w ws IH]; intros a t A I Ft L L' F M.
  - cbn [map concat app fill]. apply paragraph_end; assumption.
  - destruct (L' ltac:(discriminate)) as [NEa La].
    pose proof (Forall_inv F) as [W1 W2]. pose proof (Forall_inv_tail F) as Fw.
    assert (Mw : ws <> [] -> (length w mod n <> 0)%nat).
    { intro NE. destruct ws as [|w' ws]; [contradiction|]. cbn [removelast] in M. apply (Forall_inv M). }
    assert (Mt : Forall (fun w => (length w mod n <> 0)%nat) (removelast ws)).
    { destruct ws as [|w' ws]; [constructor|]. cbn [removelast] in M. apply (Forall_inv_tail M). }
    cbn [map concat app]. rewrite <- app_assoc. cbn [arun]. rewrite astep_other by assumption.
    set (cur := text a) in *.
    assert (E1 : achar a 32 = ([], AAfter cur [32])).
    { unfold achar. cbn [N.eqb Pos.eqb]. unfold cur in *. destruct a; try contradiction; reflexivity. }
    rewrite E1. cbn [app].
    destruct w as [|c w]; [contradiction|].
    pose proof (Forall_inv W2) as [F1 F2]. pose proof (Forall_inv_tail W2) as W2t.
    destruct (chunks_last n Hn (length (c :: w)) (c :: w) (le_n _) W1) as [CL1 [CL2 CL3]].
    (* the state after the word, when it goes to a new line *)
    assert (New : forall tt, arun n (AWord [] [c]) (w ++ tt) =
       removelast (chunks n (c :: w)) ++ arun n (AWord [] (last (chunks n (c :: w)) [])) tt).
    { intro tt. apply (chop n Hn w [c]); auto; discriminate. }
    assert (Next : forall tt, tt = concat (map (cons 32) ws) ++ t ->
       arun n (AWord [] (last (chunks n (c :: w)) [])) tt = fill n (last (chunks n (c :: w)) []) ws ++ cont n t).
    { intros tt ->. apply (IH (AWord [] (last (chunks n (c :: w)) [])) t); auto.
      - cbn [active]. constructor.
      - cbn [ainv]. split; [constructor|]. split.
        + intro E. rewrite E in CL1. cbn in CL1. lia.
        + assert (In_l : In (last (chunks n (c :: w)) []) (chunks n (c :: w))).
          { pose proof (chunks_ne n (c :: w) W1) as NC. rewrite (app_removelast_last [] NC) at 2. apply in_or_app. right. left. reflexivity. }
          assert (Forall (fun x => x <> 32 /\ x <> 10) (concat (chunks n (c :: w)))) as FC by (rewrite CL3; exact W2).
          rewrite Forall_forall in *. intros x Hx. apply FC. apply in_concat. eauto.
      - cbn [text app]. lia.
      - intro NE. cbn [text app]. split; [intro E; rewrite E in CL1; cbn in CL1; lia|]. apply CL2, Mw, NE. }
    set (tl' := concat (map (cons 32) ws) ++ t) in *.
    cbn [arun fill].
    replace ((c :: w) ++ tl') with (c :: w ++ tl') by reflexivity. cbn [arun].
    assert (Place : place n (c :: w) = (removelast (chunks n (c :: w)), last (chunks n (c :: w)) [])) by reflexivity.
    rewrite Place.
    destruct (Nat.eq_dec (length cur + 1) n) as [E|E].
    + (* no room for the first character *)
      assert (S1 : astep n (AAfter cur [32]) c = ([cur], AWord [] [c])).
      { unfold astep, awrap. cbn [text]. rewrite app_length. cbn [length].
        replace (Nat.eqb (length cur + 1) n) with true by (symmetry; apply Nat.eqb_eq; exact E).
        replace (c =? 10) with false by (symmetry; apply N.eqb_neq; exact F2). cbn [negb andb awrap1 tl].
        rewrite achar_word by assumption. reflexivity. }
      rewrite S1. cbn [app length].
      destruct (Nat.leb_spec (length cur + 1 + S (length w) + match ws with [] => 0 | _ => 1 end) n) as [H|H]; [lia|].
      rewrite New, (Next tl' eq_refl). cbn [app]. rewrite <- app_assoc. reflexivity.
    + assert (S1 : astep n (AAfter cur [32]) c = ([], AMid cur [c])).
      { rewrite astep_other by (cbn [text]; rewrite app_length; cbn [length]; lia).
        rewrite achar_word by assumption. cbn [removelast]. rewrite app_nil_r. reflexivity. }
      rewrite S1. cbn [app]. rewrite mid; auto; [|discriminate|cbn [length]; lia].
      cbn [app length].
      destruct (Nat.leb_spec (length cur + 1 + S (length w)) n) as [H|H].
      2:{ destruct (Nat.leb_spec (length cur + 1 + S (length w) + match ws with [] => 0 | _ => 1 end) n) as [H'|H']; [lia|].
          rewrite (Next tl' eq_refl). cbn [app]. rewrite <- app_assoc. reflexivity. }
      destruct (Nat.leb_spec (length cur + 1 + S (length w) + match ws with [] => 0 | _ => 1 end) n) as [H'|H'].
      * (* the word stays in the line *)
        change (cur ++ 32 :: c :: w) with (text (AMid cur (c :: w))). apply IH; auto.
        -- constructor.
        -- cbn [ainv]. split; [apply text_flat; exact I|]. split; assumption.
        -- cbn [text]. rewrite app_length. cbn [length]. lia.
        -- intro NE. cbn [text]. rewrite app_length. cbn [length].
           split; [destruct cur; discriminate|]. destruct ws; [contradiction|]. lia.
      * (* it fits exactly but a space follows *)
        destruct ws as [|w2 ws]; [lia|].
        assert (Sh : chunks n (c :: w) = [c :: w]) by (apply chunks_short; [assumption|cbn [length]; lia]).
        rewrite Sh in *. cbn [removelast last app] in *.
        rewrite <- (Next tl' eq_refl). unfold tl'. cbn [map concat app].
        cbn [arun]. rewrite (astep_other n (AWord [] (c :: w))) by (cbn [text app length]; lia).
        unfold astep, awrap. cbn [text].
        replace (Nat.eqb (length (cur ++ 32 :: c :: w)) n) with true
          by (symmetry; apply Nat.eqb_eq; rewrite app_length; cbn [length]; lia).
        cbn [N.eqb Pos.eqb negb andb awrap1]. reflexivity.
Qed.

Lemma join_space ws w : join 32 (w :: ws) = w ++ concat (map (cons 32) ws).
Proof.
  revert w; induction ws as [|w' ws IH]; intro w; [cbn; rewrite app_nil_r; reflexivity|].
  change (join 32 (w :: w' :: ws)) with (w ++ 32 :: join 32 (w' :: ws)). rewrite IH. reflexivity.
Qed.

Lemma word_ok_wordy w : word_ok w -> wordy w.
Proof.
  intros [NE H]. split; [exact NE|]. rewrite forallb_forall in H. apply Forall_forall. intros x Hx.
  specialize (H x Hx). unfold is_blank in H. apply negb_true_iff, orb_false_iff in H. destruct H as [H1 H2].
  split; intros ->; discriminate.
Qed.

Lemma greedy_ok n ws t : (0 < n)%nat -> paragraph_ok n ws -> follows t ->
  arun n AFresh (join 32 ws ++ t) = greedy n ws ++ cont n t.
Proof.
  intros Hn [F M] Ft. destruct ws as [|w ws].
  - cbn [join app greedy]. rewrite (paragraph_end n AFresh t I Ft). reflexivity.
  - assert (F' : Forall wordy (w :: ws)) by (eapply Forall_impl; [apply word_ok_wordy|exact F]).
    pose proof (Forall_inv F') as [W1 W2]. pose proof (Forall_inv_tail F') as Fw.
    rewrite join_space, <- app_assoc. rewrite chop_fresh by (auto; split; assumption).
    destruct (chunks_last n Hn (length w) w (le_n _) W1) as [CL1 [CL2 CL3]].
    assert (Mw : ws <> [] -> (length w mod n <> 0)%nat).
    { intro NE. destruct ws as [|w' ws]; [contradiction|]. cbn [removelast] in M. apply (Forall_inv M). }
    assert (Mt : Forall (fun w => (length w mod n <> 0)%nat) (removelast ws)).
    { destruct ws as [|w' ws]; [constructor|]. cbn [removelast] in M. apply (Forall_inv_tail M). }
    cbn [greedy]. change (place n w) with (removelast (chunks n w), last (chunks n w) []). cbv beta iota zeta.
    rewrite <- app_assoc. f_equal.
    apply (fill_ok n Hn ws (AWord [] (last (chunks n w) [])) t); auto.
    + exact I.
    + cbn [ainv]. split; [constructor|]. split.
      * intro E. rewrite E in CL1. cbn in CL1. lia.
      * assert (In_l : In (last (chunks n w) []) (chunks n w)).
        { pose proof (chunks_ne n w W1) as NC. rewrite (app_removelast_last [] NC) at 2. apply in_or_app. right. left. reflexivity. }
        assert (Forall (fun x => x <> 32 /\ x <> 10) (concat (chunks n w))) as FC by (rewrite CL3; exact W2).
        rewrite Forall_forall in *. intros x Hx. apply FC. apply in_concat. eauto.
    + cbn [text app]. lia.
    + intro NE. cbn [text app]. split; [intro E; rewrite E in CL1; cbn in CL1; lia|]. apply CL2, Mw, NE.
Qed.

Lemma paragraphs n ps : (0 < n)%nat -> ps <> [] -> Forall (paragraph_ok n) ps ->
  arun n AFresh (join 10 (map (join 32) ps)) = flat_map (greedy n) ps.
Proof.
  intros Hn. induction ps as [|p ps IH]; intros NE F; [contradiction|].
  pose proof (Forall_inv F) as Fp. pose proof (Forall_inv_tail F) as Fps.
  destruct ps as [|q ps].
  - cbn [map join flat_map]. rewrite <- (app_nil_r (join 32 p)). rewrite greedy_ok by (auto; left; reflexivity). reflexivity.
  - change (join 10 (map (join 32) (p :: q :: ps))) with (join 32 p ++ 10 :: join 10 (map (join 32) (q :: ps))).
    rewrite greedy_ok by (auto; right; eauto). cbn [cont]. rewrite IH by (auto; discriminate). reflexivity.
Qed.

(** ** Words of the lines *)
Lemma words_from_word w : Forall (fun c => c <> 32 /\ c <> 10) w -> forall cur t,
  words_from cur (w ++ t) = words_from (cur ++ w) t.
Proof.
  induction 1 as [|c w [H1 H2] F IH]; intros cur t; [rewrite app_nil_r; reflexivity|].
  cbn [app words_from]. unfold is_blank.
  replace (c =? 32) with false by (symmetry; apply N.eqb_neq; exact H1).
  replace (c =? 10) with false by (symmetry; apply N.eqb_neq; exact H2). cbn [orb].
  rewrite IH, <- app_assoc. reflexivity.
Qed.

Lemma words_from_app a t : forall cur, words_from cur (a ++ 32 :: t) = words_from cur a ++ words t.
Proof.
  induction a as [|c a IH]; intro cur; cbn [app words_from].
  - change (is_blank 32) with true. cbn iota. destruct cur; reflexivity.
  - destruct (is_blank c); [|apply IH]. destruct cur; [apply IH|]. cbn [app]. rewrite IH. reflexivity.
Qed.

Lemma words_one w : wordy w -> words w = [w].
Proof.
  intros [NE F]. unfold words. rewrite <- (app_nil_r w) at 1. rewrite words_from_word by assumption.
  destruct w; [contradiction|reflexivity].
Qed.

Lemma chunks_wordy n w : (0 < n)%nat -> wordy w -> Forall wordy (chunks n w).
Proof.
  intros Hn [NE F]. remember (length w) as m eqn:Em.
  assert (L : (length w <= m)%nat) by lia. clear Em. revert w NE F L.
  induction m as [|m IH]; intros w NE F L; [destruct w; [contradiction|cbn in L; lia]|].
  destruct (Nat.le_gt_cases (length w) n) as [S|S].
  - rewrite chunks_short by assumption. constructor; [split; assumption|constructor].
  - rewrite <- (firstn_skipn n w).
    assert (Lf : length (firstn n w) = n) by (apply firstn_length_le; lia).
    assert (Ls : length (skipn n w) = (length w - n)%nat) by apply skipn_length.
    assert (NE' : skipn n w <> []) by (intro E; rewrite E in Ls; cbn in Ls; lia).
    rewrite <- (firstn_skipn n w) in F. apply Forall_app in F. destruct F as [Fa Fb].
    rewrite chunks_cons by assumption. constructor; [split; [intro E; rewrite E in Lf; cbn in Lf; lia|exact Fa]|].
    apply IH; auto. lia.
Qed.

Lemma words_chunks l : Forall wordy l -> flat_map words l = l.
Proof. induction 1 as [|w l H F IH]; [reflexivity|]. cbn [flat_map]. rewrite (words_one w H), IH. reflexivity. Qed.

Lemma fill_words n : (0 < n)%nat -> forall ws cur, Forall wordy ws ->
  flat_map words (fill n cur ws) = words cur ++ flat_map (chunks n) ws.
Proof.
  intro Hn. induction ws as [|w ws IH]; intros cur F; [cbn; rewrite !app_nil_r; reflexivity|].
  pose proof (Forall_inv F) as W. pose proof (Forall_inv_tail F) as Fw.
  cbn [fill flat_map].
  destruct (Nat.leb_spec (length cur + 1 + length w + match ws with [] => 0 | _ => 1 end) n) as [H|H].
  - rewrite IH by assumption. unfold words at 1. rewrite words_from_app. fold (words cur).
    rewrite (words_one w W). rewrite chunks_short; [|apply W|lia]. rewrite <- app_assoc. reflexivity.
  - change (place n w) with (removelast (chunks n w), last (chunks n w) []). cbv beta iota zeta.
    cbn [flat_map]. rewrite flat_map_app, IH by assumption. f_equal.
    rewrite app_assoc. f_equal.
    pose proof (chunks_ne n w (proj1 W)) as NC. pose proof (chunks_wordy n w Hn W) as CW.
    assert (E : flat_map words (removelast (chunks n w) ++ [last (chunks n w) []]) = chunks n w).
    { rewrite <- (app_removelast_last [] NC). apply words_chunks, CW. }
    rewrite flat_map_app in E. cbn [flat_map] in E. rewrite app_nil_r in E. exact E.
Qed.

Lemma greedy_words n ws : (0 < n)%nat -> Forall wordy ws -> flat_map words (greedy n ws) = flat_map (chunks n) ws.
Proof.
  intros Hn F. destruct ws as [|w ws]; [reflexivity|].
  pose proof (Forall_inv F) as W. pose proof (Forall_inv_tail F) as Fw. cbn [greedy].
  change (place n w) with (removelast (chunks n w), last (chunks n w) []). cbv beta iota zeta.
  rewrite flat_map_app, fill_words by assumption. cbn [flat_map]. rewrite app_assoc. f_equal.
  pose proof (chunks_ne n w (proj1 W)) as NC. pose proof (chunks_wordy n w Hn W) as CW.
  assert (E : flat_map words (removelast (chunks n w) ++ [last (chunks n w) []]) = chunks n w).
  { rewrite <- (app_removelast_last [] NC). apply words_chunks, CW. }
  rewrite flat_map_app in E. cbn [flat_map] in E. rewrite app_nil_r in E. exact E.
Qed.

Lemma paragraphs_words n ps : (0 < n)%nat -> Forall (paragraph_ok n) ps ->
  flat_map words (flat_map (greedy n) ps) = flat_map (chunks n) (concat ps).
Proof.
  intros Hn. induction 1 as [|p ps [Hp _] F IH]; [reflexivity|]. cbn [flat_map concat].
  rewrite !flat_map_app, IH. f_equal. apply greedy_words; [exact Hn|].
  eapply Forall_impl; [apply word_ok_wordy|exact Hp].
Qed.

(** ** Final forms *)
Section Final.
Variable dbg cpp20 : bool.
Variable s : list N.
Variable width : N.
Hypothesis Hs : N.of_nat (length s) < 2 ^ 63.
Hypothesis Hw : width < 2 ^ 32.

Theorem wrap_ok : exists ls, word_wrap dbg cpp20 s width = Ok ls.
Proof.
  destruct (N.eq_dec width 0) as [->|NE]; [eexists; reflexivity|].
  eexists. apply word_wrap_run; [exact Hs|lia].
Qed.

Theorem wrap_width : 0 < width -> exists ls, word_wrap dbg cpp20 s width = Ok ls /\
  Forall (fun l => N.of_nat (length l) <= width /\ ~ In 10 l) ls.
Proof.
  intro H. eexists. split; [apply word_wrap_run; [exact Hs|lia]|].
  eapply Forall_impl; [|apply arun_lines; [lia|exact I|cbn; lia]].
  cbv beta. intros l [L F]. split; [lia|]. intro HI. unfold flat in F. rewrite Forall_forall in F. exact (F 10 HI eq_refl).
Qed.

Theorem wrap_covers : exists ls, word_wrap dbg cpp20 s width = Ok ls /\ covers s ls /\
  filter (fun c => negb (is_blank c)) (concat ls) = filter (fun c => negb (is_blank c)) s.
Proof.
  destruct (N.eq_dec width 0) as [->|NE].
  - exists [s]. split; [reflexivity|]. assert (C : covers s [s]).
    { rewrite <- (app_nil_r s) at 1. apply cov_one. constructor. reflexivity. }
    split; [exact C|]. symmetry. apply covers_filter, C.
  - assert (C : covers s (arun (N.to_nat width) AFresh s)) by (apply (arun_covers (N.to_nat width) s AFresh I)).
    exists (arun (N.to_nat width) AFresh s). split; [apply word_wrap_run; [exact Hs|lia]|].
    split; [exact C|]. symmetry. apply covers_filter, C.
Qed.

Theorem wrap_greedy ps : 0 < width -> ps <> [] -> s = join 10 (map (join 32) ps) ->
  Forall (paragraph_ok (N.to_nat width)) ps ->
  word_wrap dbg cpp20 s width = Ok (flat_map (greedy (N.to_nat width)) ps).
Proof.
  intros H NE E F. rewrite word_wrap_run by (try exact Hs; lia). rewrite E, paragraphs by (auto; lia). reflexivity.
Qed.

Theorem wrap_words ps : 0 < width -> ps <> [] -> s = join 10 (map (join 32) ps) ->
  Forall (paragraph_ok (N.to_nat width)) ps ->
  exists ls, word_wrap dbg cpp20 s width = Ok ls /\
    flat_map words ls = flat_map (chunks (N.to_nat width)) (concat ps).
Proof.
  intros H NE E F. exists (flat_map (greedy (N.to_nat width)) ps). split; [apply wrap_greedy; assumption|].
  apply paragraphs_words; [lia|exact F].
Qed.

Theorem wrap_unbroken ps : 0 < width -> ps <> [] -> s = join 10 (map (join 32) ps) ->
  Forall (Forall word_ok) ps ->
  Forall (fun p => Forall (fun w => N.of_nat (length w) <= width) p /\
                   Forall (fun w => N.of_nat (length w) < width) (removelast p)) ps ->
  exists ls, word_wrap dbg cpp20 s width = Ok ls /\ flat_map words ls = concat ps.
Proof.
  intros H NE E F S.
  assert (P : Forall (paragraph_ok (N.to_nat width)) ps).
  { rewrite Forall_forall in *. intros p Hp. split; [apply F, Hp|].
    specialize (F p Hp). destruct (S p Hp) as [_ S2]. rewrite Forall_forall in *.
    intros w Hw'. assert (Hin : In w p).
    { destruct p as [|a p]; [contradiction|]. rewrite (app_removelast_last [] (l := a :: p)) by discriminate. apply in_or_app. left. exact Hw'. }
    specialize (S2 w Hw'). destruct (F w Hin) as [NEw _]. rewrite Nat.mod_small by lia.
    destruct w; [contradiction|discriminate]. }
  destruct (wrap_words ps H NE E P) as [ls [E1 E2]]. exists ls. split; [exact E1|]. rewrite E2. clear E1 E2 P.
  assert (G : Forall (fun w => w <> [] /\ (length w <= N.to_nat width)%nat) (concat ps)).
  { rewrite Forall_forall. intros w Hin. apply in_concat in Hin. destruct Hin as [p [Hp Hin]].
    rewrite Forall_forall in *. specialize (F p Hp). destruct (S p Hp) as [S1 _]. rewrite Forall_forall in *.
    split; [apply F, Hin|]. specialize (S1 w Hin). lia. }
  induction G as [|w l [G1 G2] G IH]; [reflexivity|]. cbn [flat_map]. rewrite chunks_short by assumption. cbn [app]. f_equal.
  exact IH.
Qed.
End Final.

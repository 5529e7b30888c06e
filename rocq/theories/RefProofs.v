(** Proofs about shared_ref and unique_ref. *)
From Verif Require Import Base ListLemmas RefModel RefSpec.

(** ** Stores *)
Section Store.
Context {B : Type}.
Implicit Types (l : store B).
Lemma lookup_add l v b x : lookup (add l v b) x = if Nat.eqb v x then Some b else lookup l x.
Proof. reflexivity. Qed.
Lemma lookup_set l v b x : lookup (set l v b) x = if Nat.eqb v x then match lookup l v with Some _ => Some b | None => None end else lookup l x.
Proof.
  induction l as [|[y c] l IH]; cbn [set lookup]; [destruct (Nat.eqb v x); reflexivity|].
  destruct (Nat.eqb_spec y v) as [->|N]; cbn [lookup].
  - destruct (Nat.eqb_spec v x) as [->|N2]; [rewrite ?Nat.eqb_refl; reflexivity|]. reflexivity.
  - rewrite IH. destruct (Nat.eqb_spec y x) as [->|N2]; [|reflexivity]. destruct (Nat.eqb_spec v x) as [->|]; [congruence|reflexivity].
Qed.
Lemma lookup_notin l v : lookup l v = None <-> ~ In v (map fst l).
Proof.
  induction l as [|[y c] l IH]; cbn; [split; auto|]. destruct (Nat.eqb_spec y v) as [->|N].
  - split; [discriminate|]. intro H. exfalso. auto.
  - rewrite IH. split; [intros H [J|J]; auto|intros H J; auto].
Qed.
Lemma lookup_in l v b : lookup l v = Some b -> In (v, b) l.
Proof.
  induction l as [|[y c] l IH]; cbn; [discriminate|]. destruct (Nat.eqb_spec y v) as [->|N]; intro H; [left; congruence|right; auto].
Qed.
Lemma in_lookup l v b : NoDup (map fst l) -> In (v, b) l -> lookup l v = Some b.
Proof.
  induction l as [|[y c] l IH]; cbn; intros N [].
  - injection H as -> ->. rewrite Nat.eqb_refl. reflexivity.
  - inversion N as [|? ? N1 N2]; subst. destruct (Nat.eqb_spec y v) as [->|Ne]; [|apply IH; assumption].
    exfalso. apply N1. apply (in_map fst) in H. exact H.
Qed.
Lemma lookup_remove l v x : NoDup (map fst l) -> lookup (remove l v) x = if Nat.eqb v x then None else lookup l x.
Proof.
  induction l as [|[y c] l IH]; cbn [remove lookup map fst]; intro N; [destruct (Nat.eqb v x); reflexivity|].
  inversion N as [|? ? N1 N2]; subst. destruct (Nat.eqb_spec y v) as [->|Ne].
  - destruct (Nat.eqb_spec v x) as [->|]; [|reflexivity]. apply lookup_notin. exact N1.
  - cbn [lookup]. rewrite IH by exact N2. destruct (Nat.eqb_spec y x) as [->|]; [|reflexivity].
    destruct (Nat.eqb_spec v x) as [->|]; [congruence|reflexivity].
Qed.
Lemma set_keys l v b : map fst (set l v b) = map fst l.
Proof. induction l as [|[y c] l IH]; cbn; [reflexivity|]. destruct (Nat.eqb y v); cbn; [reflexivity|]. rewrite IH. reflexivity. Qed.
Lemma remove_keys l v x : In x (map fst (remove l v)) -> In x (map fst l).
Proof.
  induction l as [|[y c] l IH]; cbn; [auto|]. destruct (Nat.eqb y v); cbn; [auto|]. intros [H|H]; auto.
Qed.
Lemma remove_nodup l v : NoDup (map fst l) -> NoDup (map fst (remove l v)).
Proof.
  induction l as [|[y c] l IH]; cbn; intro N; [exact N|]. inversion N as [|? ? N1 N2]; subst. destruct (Nat.eqb y v); [exact N2|].
  cbn. constructor; [|auto]. intro H. apply N1. eapply remove_keys. exact H.
Qed.
Lemma add_nodup l v b : NoDup (map fst l) -> lookup l v = None -> NoDup (map fst (add l v b)).
Proof. intros N H. cbn. constructor; [|exact N]. apply lookup_notin. exact H. Qed.
End Store.

(** ** Counting references *)
Definition hit (x : kind * ptr) (o : nat) : nat := match snd x with Some p => if Nat.eqb p o then 1 else 0 | None => 0 end.
Fixpoint rc (l : store (kind * ptr)) (o : nat) : nat := match l with [] => 0 | (_, x) :: l => hit x o + rc l o end.

Lemma rc_set l v x y o : lookup l v = Some x -> rc (set l v y) o + hit x o = rc l o + hit y o.
Proof.
  induction l as [|[z c] l IH]; cbn; [discriminate|]. destruct (Nat.eqb z v); cbn; intro H.
  - injection H as ->. lia.
  - specialize (IH H). lia.
Qed.
Lemma rc_remove l v x o : lookup l v = Some x -> rc (remove l v) o + hit x o = rc l o.
Proof.
  induction l as [|[z c] l IH]; cbn; [discriminate|]. destruct (Nat.eqb z v); cbn; intro H.
  - injection H as ->. lia.
  - specialize (IH H). lia.
Qed.
Lemma rc_pos l o : rc l o <> 0 <-> exists v k, In (v, (k, Some o)) l.
Proof.
  induction l as [|[z [k p]] l IH]; cbn [rc].
  - split; [congruence|]. intros (v & k & []).
  - unfold hit. cbn [snd]. destruct p as [p|].
    + destruct (Nat.eqb_spec p o) as [->|N].
      * split; [intros _; exists z, k; left; reflexivity|lia].
      * rewrite Nat.add_0_l, IH. split; intros (v & k' & H); exists v, k'; [right; exact H|]. destruct H as [H|H]; [congruence|exact H].
    + rewrite Nat.add_0_l, IH. split; intros (v & k' & H); exists v, k'; [right; exact H|]. destruct H as [H|H]; [congruence|exact H].
Qed.
Lemma rc_lookup l o : NoDup (map fst l) -> (rc l o <> 0 <-> exists v k, lookup l v = Some (k, Some o)).
Proof.
  intro N. rewrite rc_pos. split; intros (v & k & H); exists v, k; [apply in_lookup; assumption|apply lookup_in; exact H].
Qed.

(** [counts s f]: the counts are [f], and destroyed is what has no reference *)
Record counts (s : state) (f : nat -> nat) : Prop := {
  c_count : forall o, count s o = f o;
  c_nodup : NoDup (dead s);
  c_dead : forall o, In o (dead s) <-> o < length (classes s) /\ f o = 0
}.
Definition hp (p : ptr) (o : nat) : nat := hit (Ref, p) o.
Lemma hp_some o x : hp (Some o) x = if Nat.eqb o x then 1 else 0. Proof. reflexivity. Qed.
Lemma nodup_snoc {A} (l : list A) x : NoDup l -> ~ In x l -> NoDup (l ++ [x]).
Proof.
  induction l as [|y l IH]; intros N H; cbn; [constructor; [auto|constructor]|]. inversion N as [|? ? N1 N2]; subst.
  constructor; [|apply IH; [exact N2|]; intro J; apply H; right; exact J]. intro J. apply in_app_or in J. destruct J as [J|[->|[]]]; [auto|]. apply H. left. reflexivity.
Qed.

Lemma counts_ext s f g : counts s f -> (forall o, f o = g o) -> counts s g.
Proof. intros [C N D] E. constructor; [intro o; rewrite C; apply E|exact N|]. intro o. rewrite D, E. reflexivity. Qed.
Lemma counts_vars s l f : counts s f -> counts (with_vars s l) f.
Proof. intros [C N D]. constructor; assumption. Qed.
Lemma inc_counts s p f : counts s f -> (forall o, p = Some o -> f o <> 0) -> counts (inc p s) (fun o => f o + hp p o).
Proof.
  intros [C N D] P. destruct p as [q|]; cbn [inc].
  - specialize (P q eq_refl). constructor; cbn [count dead classes].
    + intro o. unfold upd. rewrite hp_some. rewrite (Nat.eqb_sym q o). destruct (Nat.eqb_spec o q) as [->|]; rewrite C; lia.
    + exact N.
    + intro o. rewrite D, hp_some. destruct (Nat.eqb_spec q o) as [->|]; [|rewrite Nat.add_0_r; reflexivity]. split; intros []; lia.
  - refine (counts_ext _ _ _ (Build_counts _ _ C N D) _). intro o. cbn. lia.
Qed.
Lemma dec_counts s p f : counts s (fun o => f o + hp p o) -> (forall o, p = Some o -> o < length (classes s)) -> counts (dec p s) f.
Proof.
  intros [C N D] P. destruct p as [q|]; cbn [dec].
  - specialize (P q eq_refl). assert (Q : pred (count s q) = f q) by (rewrite C, hp_some, Nat.eqb_refl; lia).
    assert (Nq : ~ In q (dead s)). { rewrite D, hp_some, Nat.eqb_refl. lia. }
    constructor; cbn [count dead classes].
    + intro o. unfold upd. destruct (Nat.eqb_spec o q) as [->|Ne]; [exact Q|]. rewrite C, hp_some. destruct (Nat.eqb_spec q o) as [->|]; [congruence|lia].
    + rewrite Q. destruct (Nat.eqb (f q) 0); [apply nodup_snoc; assumption|exact N].
    + intro o. rewrite Q. destruct (Nat.eqb_spec (f q) 0) as [Z|Z].
      * rewrite in_app_iff, D, hp_some. cbn [In]. destruct (Nat.eqb_spec q o) as [->|Ne].
        -- split; [intros _; auto|auto].
        -- rewrite Nat.add_0_r. split; [intros [H|[H|[]]]; [exact H|congruence]|auto].
      * rewrite D, hp_some. destruct (Nat.eqb_spec q o) as [->|Ne]; [split; intros []; lia|rewrite Nat.add_0_r; reflexivity].
  - refine (counts_ext _ _ _ (Build_counts _ _ C N D) _). intro o. cbn. lia.
Qed.
Lemma inc_fields p s : vars (inc p s) = vars s /\ weaks (inc p s) = weaks s /\ classes (inc p s) = classes s.
Proof. destruct p; auto. Qed.
Lemma dec_fields p s : vars (dec p s) = vars s /\ weaks (dec p s) = weaks s /\ classes (dec p s) = classes s.
Proof. destruct p; auto. Qed.

(** ** The relation between the model and the specification *)
Record related (s : state) (S : sspec) : Prop := {
  r_vars : forall v, lookup (vars s) v = refs S v;
  r_keys : NoDup (map fst (vars s));
  r_weaks : forall w, lookup (weaks s) w = wrefs S w;
  r_wkeys : NoDup (map fst (weaks s));
  r_classes : classes s = types S;
  r_counts : counts s (rc (vars s));
  r_known : forall v k o, refs S v = Some (k, Some o) -> o < length (types S)
}.
Lemma referred_rc s S o : related s S -> (referred S o <-> rc (vars s) o <> 0).
Proof.
  intro R. rewrite (rc_lookup _ _ (r_keys _ _ R)). unfold referred. split; intros (v & k & H); exists v, k; [rewrite (r_vars _ _ R)|rewrite <- (r_vars _ _ R)]; exact H.
Qed.
Lemma put_get {B} (E : env B) v b x : put E v b x = if Nat.eqb v x then b else E x.
Proof. unfold put. rewrite Nat.eqb_sym. reflexivity. Qed.

Lemma copy_related s S v k (p : ptr) : related s S -> refs S v = None -> (forall o, p = Some o -> referred S o /\ o < length (types S)) ->
  related (sp_copy k v p s) (with_refs S (put (refs S) v (Some (k, p)))).
Proof.
  intros R Nv P. unfold sp_copy. destruct (inc_fields p (with_vars s (add (vars s) v (k, p)))) as (F1 & F2 & F3).
  assert (Rv : lookup (vars s) v = None) by (rewrite (r_vars _ _ R); exact Nv).
  constructor; rewrite ?F1, ?F2, ?F3; cbn [with_vars with_refs vars weaks classes refs wrefs types].
  - intro x. rewrite lookup_add, put_get, (r_vars _ _ R). reflexivity.
  - apply add_nodup; [apply (r_keys _ _ R)|exact Rv].
  - apply (r_weaks _ _ R).
  - apply (r_wkeys _ _ R).
  - apply (r_classes _ _ R).
  - eapply counts_ext; [apply inc_counts; [apply counts_vars; apply (r_counts _ _ R)|]|].
    + intros o E. apply (proj1 (referred_rc s S o R)). apply P. exact E.
    + intro o. cbn [add rc]. unfold hp, hit. cbn. lia.
  - intros x k' o H. rewrite put_get in H. destruct (Nat.eqb v x); [|eapply (r_known _ _ R); exact H].
    injection H as _ ->. apply P. reflexivity.
Qed.
Lemma move_related s S v u k k' (p : ptr) : related s S -> refs S v = None -> refs S u = Some (k', p) ->
  related (sp_move k k' v u p s) (with_refs S (put (put (refs S) u (Some (k', None))) v (Some (k, p)))).
Proof.
  intros R Nv Hu. unfold sp_move.
  assert (Rv : lookup (vars s) v = None) by (rewrite (r_vars _ _ R); exact Nv).
  assert (Ru : lookup (vars s) u = Some (k', p)) by (rewrite (r_vars _ _ R); exact Hu).
  constructor; cbn [with_vars with_refs vars weaks classes refs wrefs types].
  - intro x. rewrite lookup_add, lookup_set, !put_get, Ru, (r_vars _ _ R). reflexivity.
  - apply add_nodup; [rewrite set_keys; apply (r_keys _ _ R)|]. rewrite lookup_set, Ru. destruct (Nat.eqb_spec u v); [congruence|exact Rv].
  - apply (r_weaks _ _ R).
  - apply (r_wkeys _ _ R).
  - apply (r_classes _ _ R).
  - eapply counts_ext; [apply counts_vars; apply (r_counts _ _ R)|]. intro o. cbn [add rc].
    pose proof (rc_set _ _ _ (k', None) o Ru). unfold hit in *. cbn [snd] in *. lia.
  - intros x k1 o H. rewrite !put_get in H. destruct (Nat.eqb v x); [injection H as _ ->; eapply (r_known _ _ R); exact Hu|].
    destruct (Nat.eqb u x); [discriminate|]. eapply (r_known _ _ R); exact H.
Qed.
Lemma copy_assign_related s S v u k (old p : ptr) : related s S -> refs S v = Some (k, old) -> refs S u = Some (k, p) ->
  related (sp_copy_assign k v old p s) (with_refs S (put (refs S) v (Some (k, p)))).
Proof.
  intros R Hv Hu. unfold sp_copy_assign.
  assert (Rv : lookup (vars s) v = Some (k, old)) by (rewrite (r_vars _ _ R); exact Hv).
  destruct (inc_fields p s) as (F1 & F2 & F3).
  destruct (dec_fields old (with_vars (inc p s) (set (vars s) v (k, p)))) as (G1 & G2 & G3).
  constructor; rewrite ?G1, ?G2, ?G3; cbn [with_vars with_refs vars weaks classes refs wrefs types]; rewrite ?F2, ?F3.
  - intro x. rewrite lookup_set, put_get, Rv, (r_vars _ _ R). reflexivity.
  - rewrite set_keys. apply (r_keys _ _ R).
  - apply (r_weaks _ _ R).
  - apply (r_wkeys _ _ R).
  - apply (r_classes _ _ R).
  - apply dec_counts.
    + apply counts_vars. eapply counts_ext; [apply inc_counts; [apply (r_counts _ _ R)|]|].
      * intros o ->. apply (proj1 (referred_rc s S o R)). exists u, k. exact Hu.
      * intro o. cbn beta. pose proof (rc_set _ _ _ (k, p) o Rv). unfold hp, hit in *. cbn [snd] in *. lia.
    + intros o ->. cbn [with_vars classes]. rewrite F3, (r_classes _ _ R). eapply (r_known _ _ R). exact Hv.
  - intros x k1 o H. rewrite put_get in H. destruct (Nat.eqb v x); [injection H as _ ->; eapply (r_known _ _ R); exact Hu|].
    eapply (r_known _ _ R); exact H.
Qed.
Lemma move_assign_related s S v u k (old p : ptr) : related s S -> refs S v = Some (k, old) -> refs S u = Some (k, p) ->
  related (sp_move_assign k v u p s) (with_refs S (put (put (refs S) u (Some (k, None))) v (Some (k, p)))).
Proof.
  intros R Hv Hu. unfold sp_move_assign.
  assert (Rv : lookup (vars s) v = Some (k, old)) by (rewrite (r_vars _ _ R); exact Hv).
  assert (Ru : lookup (vars s) u = Some (k, p)) by (rewrite (r_vars _ _ R); exact Hu).
  assert (Lv : exists old', lookup (set (vars s) u (k, None)) v = Some (k, old') /\ (old' = old /\ u <> v \/ old' = None /\ u = v)).
  { rewrite lookup_set, Ru. destruct (Nat.eqb_spec u v) as [->|N]; [exists None; auto|exists old; auto]. }
  destruct Lv as (old' & Lv & Ho). rewrite Lv.
  destruct (dec_fields old' (with_vars s (set (set (vars s) u (k, None)) v (k, p)))) as (G1 & G2 & G3).
  constructor; rewrite ?G1, ?G2, ?G3; cbn [with_vars with_refs vars weaks classes refs wrefs types].
  - intro x. rewrite lookup_set, Lv, lookup_set, !put_get, Ru, (r_vars _ _ R). reflexivity.
  - rewrite !set_keys. apply (r_keys _ _ R).
  - apply (r_weaks _ _ R).
  - apply (r_wkeys _ _ R).
  - apply (r_classes _ _ R).
  - apply dec_counts.
    + apply counts_vars. eapply counts_ext; [apply (r_counts _ _ R)|]. intro o.
      pose proof (rc_set _ _ _ (k, p) o Lv). pose proof (rc_set _ _ _ (k, None) o Ru). unfold hp, hit in *. cbn [snd] in *. lia.
    + intros o ->. cbn [with_vars classes]. rewrite (r_classes _ _ R). destruct Ho as [[<- _]|[H _]]; [|discriminate]. eapply (r_known _ _ R). exact Hv.
  - intros x k1 o H. rewrite !put_get in H. destruct (Nat.eqb v x); [injection H as _ ->; eapply (r_known _ _ R); exact Hu|].
    destruct (Nat.eqb u x); [discriminate|]. eapply (r_known _ _ R); exact H.
Qed.
Lemma destroy_related s S v k (p : ptr) : related s S -> refs S v = Some (k, p) ->
  related (sp_destroy v p s) (with_refs S (put (refs S) v None)).
Proof.
  intros R Hv. unfold sp_destroy.
  assert (Rv : lookup (vars s) v = Some (k, p)) by (rewrite (r_vars _ _ R); exact Hv).
  destruct (dec_fields p (with_vars s (remove (vars s) v))) as (G1 & G2 & G3).
  constructor; rewrite ?G1, ?G2, ?G3; cbn [with_vars with_refs vars weaks classes refs wrefs types].
  - intro x. rewrite lookup_remove, put_get, (r_vars _ _ R) by apply (r_keys _ _ R). reflexivity.
  - apply remove_nodup, (r_keys _ _ R).
  - apply (r_weaks _ _ R).
  - apply (r_wkeys _ _ R).
  - apply (r_classes _ _ R).
  - apply dec_counts.
    + apply counts_vars. eapply counts_ext; [apply (r_counts _ _ R)|]. intro o. pose proof (rc_remove _ _ _ o Rv). unfold hp, hit in *. cbn [snd] in *. lia.
    + intros o ->. cbn [with_vars classes]. rewrite (r_classes _ _ R). eapply (r_known _ _ R). exact Hv.
  - intros x k1 o H. rewrite put_get in H. destruct (Nat.eqb v x); [discriminate|]. eapply (r_known _ _ R); exact H.
Qed.

Lemma init_related : related init sinit.
Proof.
  constructor; cbn; auto; try (constructor; fail); try discriminate. constructor; cbn; [reflexivity|constructor|]. intro o. split; [intros []|intros [H _]; lia].
Qed.

Section Shared.
Variable derives : nat -> nat -> bool.
Variable dbg : bool.

Lemma with_var_eq {A} s S u k p (f : kind -> ptr -> outcome A) : related s S -> refs S u = Some (k, p) -> with_var u s f = f k p.
Proof. intros R H. unfold with_var. rewrite (r_vars _ _ R), H. reflexivity. Qed.
Lemma fresh_var_eq {A} s S v (f : outcome A) : related s S -> refs S v = None -> fresh_var v s f = f.
Proof. intros R H. unfold fresh_var. rewrite (r_vars _ _ R), H. reflexivity. Qed.
Lemma assert_true (b : bool) : assert_ b true = Ok tt.
Proof. destruct b; reflexivity. Qed.
Lemma class_eq s S o d : related s S -> nth_error (types S) o = Some d -> class_of s o = d.
Proof. intros R H. unfold class_of. rewrite (r_classes _ _ R). apply nth_error_nth. exact H. Qed.

Lemma related_ext s S S' : related s S -> (forall v, refs S v = refs S' v) -> (forall w, wrefs S w = wrefs S' w) -> types S = types S' -> related s S'.
Proof.
  intros R E1 E2 E3. constructor; try apply R.
  - intro v. rewrite (r_vars _ _ R). apply E1.
  - intro w. rewrite (r_weaks _ _ R). apply E2.
  - rewrite (r_classes _ _ R). exact E3.
  - intros v k o H. rewrite <- E1 in H. rewrite <- E3. eapply (r_known _ _ R). exact H.
Qed.

Lemma step_ok s S a S' x : related s S -> sstep derives S a S' x -> exists s', step derives dbg a s = Ok (s', x) /\ related s' S'.
Proof.
  intros R St.
  assert (Ob : forall u k o, refs S u = Some (k, Some o) -> forall o', Some o = Some o' -> referred S o' /\ o' < length (types S)).
  { intros u k o H o' E. injection E as <-. split; [exists u, k; exact H|eapply (r_known _ _ R); exact H]. }
  assert (Op : forall u k p, refs S u = Some (k, p) -> forall o', p = Some o' -> referred S o' /\ o' < length (types S)).
  { intros u k p H o' ->. split; [exists u, k; exact H|eapply (r_known _ _ R); exact H]. }
  destruct St; cbn [step].
  - (* make *)
    rewrite (fresh_var_eq s S v _ R H). eexists. split; [reflexivity|].
    assert (Rv : lookup (vars s) v = None) by (rewrite (r_vars _ _ R); exact H).
    pose proof (r_classes _ _ R) as Cl.
    assert (Z : rc (vars s) (length (types S)) = 0).
    { destruct (Nat.eq_dec (rc (vars s) (length (types S))) 0) as [|N]; [assumption|]. apply (referred_rc s S _ R) in N. destruct N as (y & k & N).
      apply (r_known _ _ R) in N. lia. }
    constructor; cbn [vars weaks classes refs wrefs types count dead].
    + intro y. rewrite lookup_add, put_get, (r_vars _ _ R), Cl. reflexivity.
    + apply add_nodup; [apply (r_keys _ _ R)|exact Rv].
    + apply (r_weaks _ _ R).
    + apply (r_wkeys _ _ R).
    + rewrite Cl. reflexivity.
    + destruct (r_counts _ _ R) as [C N D]. constructor; cbn [count dead classes add rc].
      * intro o. unfold upd, hit. cbn [snd]. rewrite C, Cl, (Nat.eqb_sym (length (types S)) o). destruct (Nat.eqb_spec o (length (types S))) as [->|Ne]; [rewrite Z|]; lia.
      * exact N.
      * intro o. rewrite D, app_length. unfold hit. cbn [snd length]. rewrite Cl. destruct (Nat.eqb_spec (length (types S)) o) as [<-|Ne]; lia.
    + intros y k o Hy. rewrite app_length. cbn. rewrite put_get in Hy. destruct (Nat.eqb v y); [injection Hy as _ <-; lia|].
      apply (r_known _ _ R) in Hy. lia.
  - rewrite (fresh_var_eq s S v _ R H). eexists. split; [reflexivity|exact R].
  - rewrite (fresh_var_eq s S v _ R H). eexists. split; [reflexivity|]. apply copy_related; [exact R|exact H|discriminate].
  - destruct x as [k p]. rewrite (fresh_var_eq s S v _ R H), (with_var_eq s S u k p _ R H0). eexists. split; [reflexivity|]. apply copy_related; eauto.
  - rewrite (fresh_var_eq s S v _ R H), (with_var_eq s S u k p _ R H0). eexists. split; [reflexivity|]. apply move_related; eauto.
  - rewrite (with_var_eq s S v k old _ R H), (with_var_eq s S u k p _ R H0). eexists. split; [reflexivity|]. eapply copy_assign_related; eauto.
  - rewrite (with_var_eq s S v k old _ R H), (with_var_eq s S u k p _ R H0). eexists. split; [reflexivity|]. eapply move_assign_related; eauto.
  - rewrite (fresh_var_eq s S v _ R H), (with_var_eq s S u _ _ _ R H0). cbn [is_null negb]. rewrite assert_true. cbn [bind]. eexists. split; [reflexivity|]. apply copy_related; eauto.
  - rewrite (fresh_var_eq s S v _ R H), (with_var_eq s S u _ _ _ R H0). eexists. split; [reflexivity|]. apply copy_related; eauto.
  - rewrite (fresh_var_eq s S v _ R H), (with_var_eq s S u _ _ _ R H0). cbn [is_null negb]. rewrite assert_true. cbn [bind]. eexists. split; [reflexivity|]. apply copy_related; eauto.
  - destruct x as [k p]. rewrite (with_var_eq s S v k p _ R H). eexists. split; [reflexivity|]. eapply destroy_related; eauto.
  - rewrite (with_var_eq s S v _ _ _ R H). unfold ref_get. cbn [is_null negb]. rewrite assert_true. cbn [bind]. eexists. split; [reflexivity|exact R].
  - rewrite (fresh_var_eq s S v _ R H), (with_var_eq s S u _ _ _ R H0). unfold dyn_ref_cast, dynamic_pointer_cast. rewrite (class_eq s S o d R H1), H2.
    cbn [is_null negb bind]. rewrite assert_true. cbn [bind]. eexists. split; [reflexivity|]. apply copy_related; eauto.
  - rewrite (fresh_var_eq s S v _ R H), (with_var_eq s S u _ _ _ R H0). unfold dyn_ref_cast, dynamic_pointer_cast. rewrite (class_eq s S o d R H1), H2.
    cbn [is_null]. unfold ref_get. cbn [is_null negb bind]. rewrite assert_true. cbn [bind]. rewrite (class_eq s S o d R H1), H2. cbn [bind].
    eexists. split; [reflexivity|exact R].
  - destruct x as [k p]. rewrite (with_var_eq s S v k p _ R H0). rewrite (r_weaks _ _ R), H. eexists. split; [reflexivity|].
    constructor; cbn [vars weaks classes refs wrefs types count dead]; try apply R.
    + intro y. rewrite lookup_add, put_get, (r_weaks _ _ R). reflexivity.
    + apply add_nodup; [apply (r_wkeys _ _ R)|]. rewrite (r_weaks _ _ R). exact H.
    + destruct (r_counts _ _ R) as [C N D]. constructor; assumption.
  - rewrite (fresh_var_eq s S v _ R H). rewrite (r_weaks _ _ R), H0.
    assert (Nz : count s o <> 0). { rewrite (c_count _ _ (r_counts _ _ R)). apply (proj1 (referred_rc s S o R) H1). }
    rewrite (proj2 (Nat.eqb_neq _ _) Nz). eexists. split; [reflexivity|]. apply copy_related; eauto.
    destruct H1 as (u & k & Hu). eauto.
  - rewrite (fresh_var_eq s S v _ R H). rewrite (r_weaks _ _ R), H0.
    assert (Q : match p with Some o => if Nat.eqb (count s o) 0 then None else Some o | None => None end = None).
    { destruct p as [o|]; [|reflexivity]. destruct (Nat.eqb_spec (count s o) 0) as [|N]; [reflexivity|]. exfalso. apply (H1 o eq_refl).
      apply (referred_rc s S o R). rewrite <- (c_count _ _ (r_counts _ _ R)). exact N. }
    rewrite Q. eexists. split; [reflexivity|]. apply copy_related; [exact R|exact H|discriminate].
  - rewrite (r_weaks _ _ R), H. eexists. split; [reflexivity|].
    constructor; cbn [vars weaks classes refs wrefs types count dead]; try apply R.
    + intro y. rewrite lookup_remove, put_get, (r_weaks _ _ R) by apply (r_wkeys _ _ R). reflexivity.
    + apply remove_nodup, (r_wkeys _ _ R).
    + destruct (r_counts _ _ R) as [C N D]. constructor; assumption.
  - rewrite (fresh_var_eq s S v _ R H).
    assert (Nz : count s o <> 0). { rewrite (c_count _ _ (r_counts _ _ R)). apply (proj1 (referred_rc s S o R) H0). }
    rewrite (proj2 (Nat.eqb_neq _ _) Nz). unfold dynamic_pointer_cast. rewrite (class_eq s S o d R H1), H2. cbn [is_null negb]. rewrite assert_true. cbn [bind].
    eexists. split; [reflexivity|]. apply copy_related; [exact R|exact H|]. destruct H0 as (u & k & Hu). eauto.
Qed.

Lemma run_ok h : forall s S S' xs, related s S -> srun derives S h S' xs -> exists s', run derives dbg h s = Ok (s', xs) /\ related s' S'.
Proof.
  induction h as [|a h IH]; intros s S S' xs R H; inversion H; subst; cbn [run].
  - exists s. auto.
  - destruct (step_ok _ _ _ _ _ R H3) as (s1 & E & R1). rewrite E. cbn [bind]. destruct (IH _ _ _ _ R1 H6) as (s2 & E2 & R2). rewrite E2. cbn [bind].
    exists s2. auto.
Qed.

(** Null only after a move *)
Lemma srun_snoc h : forall S a S' xs, srun derives S (h ++ [a]) S' xs -> exists S1 ys x, srun derives S h S1 ys /\ sstep derives S1 a S' x /\ xs = ys ++ [x].
Proof.
  induction h as [|b h IH]; intros S a S' xs H; cbn [app] in H; inversion H; subst.
  - inversion H6; subst. exists S, [], x. split; [constructor|]. auto.
  - destruct (IH _ _ _ _ H6) as (S2 & ys & y & H1 & H2 & ->). exists S2, (x :: ys), y. split; [econstructor; eassumption|]. auto.
Qed.
Lemma put_eq {B} (E : env B) v b x y : put E v b x = y -> (v = x /\ b = y) \/ (v <> x /\ E x = y).
Proof. rewrite put_get. destruct (Nat.eqb_spec v x); auto. Qed.

Lemma null_after_move h : forall S xs, srun derives sinit h S xs -> forall v, refs S v = Some (Ref, None) ->
  exists h1 a h2, h = h1 ++ a :: h2 /\ moves_from a v /\ forall b, In b h2 -> ~ gives b v.
Proof.
  induction h as [|a h IH] using rev_ind; intros S xs H v E.
  - inversion H; subst. discriminate.
  - destruct (srun_snoc _ _ _ _ _ H) as (S1 & ys & x & H1 & St & _).
    assert (Old : refs S1 v = Some (Ref, None) -> ~ gives a v -> exists h1 a0 h2, h ++ [a] = h1 ++ a0 :: h2 /\ moves_from a0 v /\ forall b, In b h2 -> ~ gives b v).
    { intros E1 N. destruct (IH _ _ H1 v E1) as (h1 & a0 & h2 & -> & M & G). exists h1, a0, (h2 ++ [a]). rewrite <- app_assoc. split; [reflexivity|]. split; [exact M|].
      intros b J. apply in_app_or in J. destruct J as [J|[<-|[]]]; auto. }
    assert (New : moves_from a v -> exists h1 a0 h2, h ++ [a] = h1 ++ a0 :: h2 /\ moves_from a0 v /\ forall b, In b h2 -> ~ gives b v).
    { intro M. exists h, a, []. split; [reflexivity|]. split; [exact M|]. intros b []. }
    assert (Ng : (forall y, (a <> copy_assign v y /\ a <> move_assign v y) /\ a <> destroy v) -> ~ gives a v) by (intros N [[y [J|J]]|J]; [apply (N y) in J|apply (N y) in J|apply (N 0) in J]; exact J).
    inversion St; subst; cbn [with_refs refs] in E; try (apply Old; [exact E|apply Ng; repeat split; discriminate]).
    all: try (apply put_eq in E; destruct E as [[-> E]|[Nv E]]; [try discriminate; try (injection E as -> ->; cbn in *; contradiction)|
              try (apply Old; [exact E|apply Ng; intro y; repeat split; intro J; congruence])]).
    + (* copy *) injection E as ->. cbn in *. contradiction.
    + (* move *) apply put_eq in E. destruct E as [[-> E]|[Nu E]]; [apply New; exists v0; auto|apply Old; [exact E|apply Ng; repeat split; discriminate]].
    + (* move_assign *) apply put_eq in E. destruct E as [[-> E]|[Nu E]]; [apply New; exists v0; auto|apply Old; [exact E|apply Ng; intro y; repeat split; intro J; congruence]].
Qed.
End Shared.

(** ** unique_ref *)
Record urelated (s : ustate) (S : uspec) : Prop := {
  u_vars : forall v, lookup (uvars s) v = owns S v;
  u_keys : NoDup (map fst (uvars s));
  u_made : made s = objects S;
  u_single : forall v w k k' o, owns S v = Some (k, Some o) -> owns S w = Some (k', Some o) -> v = w;
  u_known : forall v k o, owns S v = Some (k, Some o) -> o < objects S;
  u_nodup : NoDup (udead s);
  u_dead : forall o, In o (udead s) <-> o < objects S /\ ~ owned S o
}.
Lemma uwith_var_eq {A} s S u k p (f : kind -> ptr -> outcome A) : urelated s S -> owns S u = Some (k, p) -> uwith_var u s f = f k p.
Proof. intros R H. unfold uwith_var. rewrite (u_vars _ _ R), H. reflexivity. Qed.
Lemma ufresh_var_eq {A} s S v (f : outcome A) : urelated s S -> owns S v = None -> ufresh_var v s f = f.
Proof. intros R H. unfold ufresh_var. rewrite (u_vars _ _ R), H. reflexivity. Qed.

Lemma umove_related s S v u k k' (p : ptr) : urelated s S -> owns S v = None -> owns S u = Some (k', p) ->
  urelated (up_move k k' v u p s) {| owns := put (put (owns S) u (Some (k', None))) v (Some (k, p)); objects := objects S |}.
Proof.
  intros R Nv Hu. unfold up_move.
  assert (Rv : lookup (uvars s) v = None) by (rewrite (u_vars _ _ R); exact Nv).
  assert (Ru : lookup (uvars s) u = Some (k', p)) by (rewrite (u_vars _ _ R); exact Hu).
  assert (Back : forall x k1 o, put (put (owns S) u (Some (k', None))) v (Some (k, p)) x = Some (k1, Some o) ->
            exists y k2, owns S y = Some (k2, Some o) /\ ((x = v /\ y = u) \/ (x <> v /\ y <> u /\ x = y))).
  { intros x k1 o H. rewrite !put_get in H. destruct (Nat.eqb_spec v x) as [<-|N1]; [injection H as -> ->; exists u, k'; auto|].
    destruct (Nat.eqb_spec u x) as [<-|N2]; [discriminate|]. exists x, k1. split; [exact H|]. right. auto. }
  constructor; cbn [uvars made udead owns objects]; try apply R.
  - intro x. rewrite lookup_add, lookup_set, !put_get, Ru, (u_vars _ _ R). reflexivity.
  - apply add_nodup; [rewrite set_keys; apply (u_keys _ _ R)|]. rewrite lookup_set, Ru. destruct (Nat.eqb_spec u v); [congruence|exact Rv].
  - intros x y k1 k2 o H1 H2. apply Back in H1. apply Back in H2. destruct H1 as (x' & k3 & H1 & C1), H2 as (y' & k4 & H2 & C2).
    pose proof (u_single _ _ R _ _ _ _ _ H1 H2). intuition congruence.
  - intros x k1 o H. apply Back in H. destruct H as (y & k2 & H & _). eapply (u_known _ _ R). exact H.
  - intro o. rewrite (u_dead _ _ R). apply and_iff_compat_l. apply not_iff_compat. unfold owned. cbn [owns]. split.
    + intros (x & k1 & H). destruct (Nat.eq_dec x u) as [->|N].
      * exists v, k. rewrite put_get, Nat.eqb_refl. rewrite Hu in H. injection H as -> ->. reflexivity.
      * exists x, k1. rewrite !put_get. destruct (Nat.eqb_spec v x) as [->|]; [congruence|]. destruct (Nat.eqb_spec u x); [congruence|exact H].
    + intros (x & k1 & H). apply Back in H. destruct H as (y & k2 & H & _). eauto.
Qed.
Lemma kill_in p d o : In o (kill p d) <-> In o d \/ p = Some o.
Proof. destruct p as [q|]; cbn; [rewrite in_app_iff; cbn|]; intuition congruence. Qed.
Lemma kill_nodup p d : NoDup d -> (forall o, p = Some o -> ~ In o d) -> NoDup (kill p d).
Proof. intros N H. destruct p; cbn; [apply nodup_snoc; auto|exact N]. Qed.

Lemma uassign_related s S v u k (old p : ptr) : urelated s S -> owns S v = Some (k, old) -> owns S u = Some (k, p) ->
  urelated (up_assign k v u p s) {| owns := put (put (owns S) u (Some (k, None))) v (Some (k, p)); objects := objects S |}.
Proof.
  intros R Hv Hu. unfold up_assign.
  assert (Rv : lookup (uvars s) v = Some (k, old)) by (rewrite (u_vars _ _ R); exact Hv).
  assert (Ru : lookup (uvars s) u = Some (k, p)) by (rewrite (u_vars _ _ R); exact Hu).
  assert (Lv : exists old' : ptr, lookup (set (uvars s) u (k, None)) v = Some (k, old') /\ (old' = old /\ u <> v \/ old' = None /\ u = v)).
  { rewrite lookup_set, Ru. destruct (Nat.eqb_spec u v) as [->|N]; [exists None; auto|exists old; auto]. }
  destruct Lv as (old' & Lv & Ho). rewrite Lv.
  assert (Back : forall x k1 o, put (put (owns S) u (Some (k, None))) v (Some (k, p)) x = Some (k1, Some o) ->
            exists y k2, owns S y = Some (k2, Some o) /\ ((x = v /\ y = u) \/ (x <> v /\ y <> u /\ x = y))).
  { intros x k1 o H. rewrite !put_get in H. destruct (Nat.eqb_spec v x) as [<-|N1]; [injection H as -> ->; exists u, k1; auto|].
    destruct (Nat.eqb_spec u x) as [<-|N2]; [discriminate|]. exists x, k1. split; [exact H|]. right. auto. }
  assert (Od : forall o, old' = Some o -> owns S v = Some (k, Some o) /\ u <> v).
  { intros o E. destruct Ho as [[-> N]|[-> _]]; [subst old; auto|discriminate]. }
  constructor; cbn [uvars made udead owns objects]; try apply R.
  - intro x. rewrite lookup_set, Lv, lookup_set, !put_get, Ru, (u_vars _ _ R). reflexivity.
  - rewrite !set_keys. apply (u_keys _ _ R).
  - intros x y k1 k2 o H1 H2. apply Back in H1. apply Back in H2. destruct H1 as (x' & k3 & H1 & C1), H2 as (y' & k4 & H2 & C2).
    pose proof (u_single _ _ R _ _ _ _ _ H1 H2). intuition congruence.
  - intros x k1 o H. apply Back in H. destruct H as (y & k2 & H & _). eapply (u_known _ _ R). exact H.
  - apply kill_nodup; [apply (u_nodup _ _ R)|]. intros o E J. apply (u_dead _ _ R) in J. apply J. exists v, k. apply Od. exact E.
  - intro o. rewrite kill_in, (u_dead _ _ R). unfold owned. cbn [owns]. split.
    + intros [[L N]|E].
      * split; [exact L|]. intros (x & k1 & H). apply Back in H. destruct H as (y & k2 & H & _). apply N. eauto.
      * destruct (Od o E) as [Hv' N]. split; [eapply (u_known _ _ R); exact Hv'|]. intros (x & k1 & H). apply Back in H.
        destruct H as (y & k2 & H & C). pose proof (u_single _ _ R _ _ _ _ _ H Hv'). intuition congruence.
    + intros [L N]. destruct Ho as [[-> Nuv]|[-> <-]].
      * destruct old as [q|]; [destruct (Nat.eq_dec q o) as [->|Nq]; [right; reflexivity|]|]; left; (split; [exact L|]); intros (x & k1 & H); apply N;
          (destruct (Nat.eq_dec x u) as [->|Nx]; [exists v, k; rewrite put_get, Nat.eqb_refl; rewrite Hu in H; injection H as <- ->; reflexivity|]);
          exists x, k1; rewrite !put_get; (destruct (Nat.eqb_spec v x) as [->|]; [congruence|]); (destruct (Nat.eqb_spec u x); [congruence|exact H]).
      * left. split; [exact L|]. intros (x & k1 & H). apply N. destruct (Nat.eq_dec x u) as [->|Nx]; [exists u, k; rewrite put_get, Nat.eqb_refl; rewrite Hu in H; injection H as <- ->; reflexivity|].
        exists x, k1. rewrite !put_get. destruct (Nat.eqb_spec u x); [congruence|exact H].
Qed.
Lemma ustep_ok dbg s S a S' x : urelated s S -> usstep S a S' x -> exists s', ustep dbg a s = Ok (s', x) /\ urelated s' S'.
Proof.
  intros R St. destruct St; cbn [ustep].
  - rewrite (ufresh_var_eq s S v _ R H). eexists. split; [reflexivity|].
    assert (Rv : lookup (uvars s) v = None) by (rewrite (u_vars _ _ R); exact H). pose proof (u_made _ _ R) as M.
    assert (Back : forall y k o, put (owns S) v (Some (Ref, Some (objects S))) y = Some (k, Some o) -> (v = y /\ o = objects S) \/ (v <> y /\ owns S y = Some (k, Some o))).
    { intros y k o E. apply put_eq in E. destruct E as [[-> E]|E]; [left; split; congruence|auto]. }
    constructor; cbn [uvars made udead owns objects].
    + intro y. rewrite lookup_add, put_get, (u_vars _ _ R), M. reflexivity.
    + apply add_nodup; [apply (u_keys _ _ R)|exact Rv].
    + rewrite M. reflexivity.
    + intros y z k k' o H1 H2. apply Back in H1. apply Back in H2. destruct H1 as [[<- ->]|[N1 H1]], H2 as [[<- E]|[N2 H2]]; try reflexivity.
      * apply (u_known _ _ R) in H2. lia.
      * subst o. apply (u_known _ _ R) in H1. lia.
      * eapply (u_single _ _ R); eassumption.
    + intros y k o E. apply Back in E. destruct E as [[_ ->]|[_ E]]; [lia|]. apply (u_known _ _ R) in E. lia.
    + apply (u_nodup _ _ R).
    + intro o. rewrite (u_dead _ _ R). split; intros [L N].
      * split; [lia|]. intros (y & k & E). cbn [owns] in E. apply Back in E. destruct E as [[_ ->]|[_ E]]; [lia|]. apply N. exists y, k. exact E.
      * destruct (Nat.eq_dec o (objects S)) as [->|Ne]; [exfalso; apply N; exists v, Ref; cbn [owns]; rewrite put_get, Nat.eqb_refl; reflexivity|].
        split; [lia|]. intros (y & k & E). apply N. exists y, k. cbn [owns]. rewrite put_get. destruct (Nat.eqb_spec v y) as [->|]; [congruence|exact E].
  - rewrite (ufresh_var_eq s S v _ R H). eexists. split; [reflexivity|exact R].
  - rewrite (ufresh_var_eq s S v _ R H), (uwith_var_eq s S u k p _ R H0). eexists. split; [reflexivity|]. apply umove_related; assumption.
  - rewrite (uwith_var_eq s S v k old _ R H), (uwith_var_eq s S u k p _ R H0). eexists. split; [reflexivity|]. eapply uassign_related; eassumption.
  - rewrite (ufresh_var_eq s S v _ R H), (uwith_var_eq s S u _ _ _ R H0). cbn [is_null negb]. rewrite assert_true. cbn [bind]. eexists. split; [reflexivity|]. apply umove_related; assumption.
  - rewrite (ufresh_var_eq s S v _ R H), (uwith_var_eq s S u _ _ _ R H0). eexists. split; [reflexivity|]. apply umove_related; assumption.
  - rewrite (ufresh_var_eq s S v _ R H), (uwith_var_eq s S u _ _ _ R H0). cbn [is_null negb]. rewrite assert_true. cbn [bind]. eexists. split; [reflexivity|]. apply umove_related; assumption.
  - destruct x as [k p]. rewrite (uwith_var_eq s S v k p _ R H). eexists. split; [reflexivity|].
    constructor; cbn [uvars made udead owns objects].
    + intro y. rewrite lookup_remove, put_get, (u_vars _ _ R) by apply (u_keys _ _ R). reflexivity.
    + apply remove_nodup, (u_keys _ _ R).
    + apply (u_made _ _ R).
    + intros y z k1 k2 o H1 H2. apply put_eq in H1. apply put_eq in H2. destruct H1 as [[_ H1]|[_ H1]]; [discriminate|]. destruct H2 as [[_ H2]|[_ H2]]; [discriminate|].
      eapply (u_single _ _ R); eassumption.
    + intros y k1 o E. apply put_eq in E. destruct E as [[_ E]|[_ E]]; [discriminate|]. eapply (u_known _ _ R). exact E.
    + apply kill_nodup; [apply (u_nodup _ _ R)|]. intros o -> J. apply (u_dead _ _ R) in J. apply J. exists v, k. exact H.
    + intro o. rewrite kill_in, (u_dead _ _ R). split.
      * intros [[L N]|E].
        -- split; [exact L|]. intros (y & k1 & E). cbn [owns] in E. apply put_eq in E. destruct E as [[_ E]|[_ E]]; [discriminate|]. apply N. exists y, k1. exact E.
        -- subst p. split; [eapply (u_known _ _ R); exact H|]. intros (y & k1 & E). cbn [owns] in E. apply put_eq in E. destruct E as [[_ E]|[Ne E]]; [discriminate|].
           apply Ne. eapply (u_single _ _ R); eassumption.
      * intros [L N]. destruct p as [q|]; [destruct (Nat.eq_dec q o) as [->|Nq]; [right; reflexivity|]|]; left; (split; [exact L|]); intros (y & k1 & E); apply N;
          exists y, k1; cbn [owns]; rewrite put_get; (destruct (Nat.eqb_spec v y) as [->|]; [congruence|exact E]).
  - rewrite (uwith_var_eq s S v _ _ _ R H). unfold ref_get. cbn [is_null negb]. rewrite assert_true. cbn [bind]. eexists. split; [reflexivity|exact R].
Qed.
Lemma urun_ok dbg h : forall s S S' xs, urelated s S -> usrun S h S' xs -> exists s', urun dbg h s = Ok (s', xs) /\ urelated s' S'.
Proof.
  induction h as [|a h IH]; intros s S S' xs R H; inversion H; subst; cbn [urun].
  - exists s. auto.
  - destruct (ustep_ok dbg _ _ _ _ _ R H3) as (s1 & E & R1). rewrite E. cbn [bind]. destruct (IH _ _ _ _ R1 H6) as (s2 & E2 & R2). rewrite E2. cbn [bind].
    exists s2. auto.
Qed.
Lemma uinit_related : urelated uinit usinit.
Proof.
  constructor; cbn; auto; try (constructor; fail); try discriminate. intro o. split; [intros []|intros [H _]; lia].
Qed.
Lemma usrun_snoc h : forall S a S' xs, usrun S (h ++ [a]) S' xs -> exists S1 ys x, usrun S h S1 ys /\ usstep S1 a S' x /\ xs = ys ++ [x].
Proof.
  induction h as [|b h IH]; intros S a S' xs H; cbn [app] in H; inversion H; subst.
  - inversion H6; subst. exists S, [], x. split; [constructor|]. auto.
  - destruct (IH _ _ _ _ H6) as (S2 & ys & y & H1 & H2 & ->). exists S2, (x :: ys), y. split; [econstructor; eassumption|]. auto.
Qed.
Lemma unull_after_move h : forall S xs, usrun usinit h S xs -> forall v, owns S v = Some (Ref, None) ->
  exists h1 a h2, h = h1 ++ a :: h2 /\ umoves_from a v /\ forall b, In b h2 -> ~ ugives b v.
Proof.
  induction h as [|a h IH] using rev_ind; intros S xs H v E.
  - inversion H; subst. discriminate.
  - destruct (usrun_snoc _ _ _ _ _ H) as (S1 & ys & x & H1 & St & _).
    assert (Old : owns S1 v = Some (Ref, None) -> ~ ugives a v -> exists h1 a0 h2, h ++ [a] = h1 ++ a0 :: h2 /\ umoves_from a0 v /\ forall b, In b h2 -> ~ ugives b v).
    { intros E1 N. destruct (IH _ _ H1 v E1) as (h1 & a0 & h2 & -> & M & G). exists h1, a0, (h2 ++ [a]). rewrite <- app_assoc. split; [reflexivity|]. split; [exact M|].
      intros b J. apply in_app_or in J. destruct J as [J|[<-|[]]]; auto. }
    assert (New : umoves_from a v -> exists h1 a0 h2, h ++ [a] = h1 ++ a0 :: h2 /\ umoves_from a0 v /\ forall b, In b h2 -> ~ ugives b v).
    { intro M. exists h, a, []. split; [reflexivity|]. split; [exact M|]. intros b []. }
    assert (Ng : (forall y, a <> uassign v y /\ a <> udestroy v) -> ~ ugives a v) by (intros N [[y J]|J]; [apply (N y) in J|apply (N 0) in J]; exact J).
    inversion St; subst; cbn [owns] in E; try (apply Old; [exact E|apply Ng; split; discriminate]).
    all: apply put_eq in E; destruct E as [[-> E]|[Nv E]]; try discriminate; try (injection E as -> ->; cbn in *; contradiction).
    + apply Old; [exact E|apply Ng; split; discriminate].
    + apply put_eq in E. destruct E as [[-> E]|[Nu E]]; [apply New; exists v0; auto|apply Old; [exact E|apply Ng; split; discriminate]].
    + apply put_eq in E. destruct E as [[-> E]|[Nu E]]; [apply New; exists v0; auto|apply Old; [exact E|apply Ng; intro y; split; intro J; congruence]].
    + apply put_eq in E. destruct E as [[-> E]|[Nu E]]; [apply New; exists v0; auto|apply Old; [exact E|apply Ng; split; discriminate]].
    + apply put_eq in E. destruct E as [[-> E]|[Nu E]]; [apply New; exists v0; auto 10|apply Old; [exact E|apply Ng; split; discriminate]].
    + apply put_eq in E. destruct E as [[-> E]|[Nu E]]; [discriminate|apply Old; [exact E|apply Ng; split; discriminate]].
    + apply Old; [exact E|apply Ng; intro y; split; intro J; congruence].
Qed.

(** ** Statements used by the properties *)
Section Theorems.
Variable derives : nat -> nat -> bool.
Variable dbg : bool.
Theorem shared_history h S xs : srun derives sinit h S xs ->
  exists s, run derives dbg h init = Ok (s, xs) /\ (forall v, lookup (vars s) v = refs S v) /\
    NoDup (dead s) /\ forall o, In o (dead s) <-> o < length (types S) /\ ~ referred S o.
Proof.
  intro H. destruct (run_ok derives dbg _ _ _ _ _ init_related H) as (s & E & R). exists s. split; [exact E|]. split; [apply (r_vars _ _ R)|].
  destruct (r_counts _ _ R) as [C N D]. split; [exact N|]. intro o. rewrite D, (referred_rc s S o R), (r_classes _ _ R).
  split; intros [L Z]; (split; [exact L|]); [intro J; apply J; exact Z|]. destruct (Nat.eq_dec (rc (vars s) o) 0) as [J|J]; [exact J|contradiction].
Qed.
Lemma shared_state h S xs s ys : srun derives sinit h S xs -> run derives dbg h init = Ok (s, ys) -> related s S /\ ys = xs.
Proof.
  intros H E. destruct (run_ok derives dbg _ _ _ _ _ init_related H) as (s' & E' & R). rewrite E in E'. injection E' as <- <-. auto.
Qed.
Theorem shared_alive h S xs s ys v : srun derives sinit h S xs -> run derives dbg h init = Ok (s, ys) ->
  (forall k o, lookup (vars s) v = Some (k, Some o) -> ~ In o (dead s) /\ o < length (classes s)) /\
  (lookup (vars s) v = Some (Ref, None) -> exists h1 a h2, h = h1 ++ a :: h2 /\ moves_from a v /\ forall b, In b h2 -> ~ gives b v).
Proof.
  intros H E. destruct (shared_state _ _ _ _ _ H E) as [R ->]. split.
  - intros k o L. rewrite (r_vars _ _ R) in L. rewrite (r_classes _ _ R). pose proof (r_known _ _ R _ _ _ L) as K. split; [|exact K].
    rewrite (c_dead _ _ (r_counts _ _ R)). intros [_ Z]. apply (proj1 (referred_rc s S o R)); [|exact Z]. exists v, k. exact L.
  - intro L. rewrite (r_vars _ _ R) in L. eapply null_after_move; eassumption.
Qed.
Theorem shared_null s u v : lookup (vars s) u = Some (Ref, None) -> lookup (vars s) v = None ->
  step derives dbg (get u) s = (if dbg then Abort else UB NullDeref) /\
  (forall t, step derives dbg (cast v u t) s = if dbg then Abort else UB NullDeref) /\
  (dbg = true -> step derives dbg (convert v u) s = Abort) /\
  (exists s', step derives dbg (copy v u) s = Ok (s', o_none) /\ lookup (vars s') v = Some (Ref, None)).
Proof.
  intros L F. unfold step, with_var, fresh_var. rewrite L, F. unfold ref_get, dyn_ref_cast, dynamic_pointer_cast, ref_get. cbn [is_null negb].
  split; [|split; [|split]].
  - destruct dbg; reflexivity.
  - intro t. destruct dbg; reflexivity.
  - intros ->. reflexivity.
  - eexists. split; [reflexivity|]. cbn. rewrite Nat.eqb_refl. reflexivity.
Qed.
Theorem shared_cast h S xs s ys u v o t d : srun derives sinit h S xs -> run derives dbg h init = Ok (s, ys) ->
  refs S v = None -> refs S u = Some (Ref, Some o) -> nth_error (types S) o = Some d ->
  if derives d t
  then exists s', step derives dbg (cast v u t) s = Ok (s', o_none) /\
         (forall x, lookup (vars s') x = if Nat.eqb x v then Some (Ref, Some o) else lookup (vars s) x) /\
         (forall x, In x (dead s') <-> In x (dead s))
  else step derives dbg (cast v u t) s = Ok (s, o_threw BadCast).
Proof.
  intros H E Hv Hu Hd. destruct (shared_state _ _ _ _ _ H E) as [R ->]. destruct (derives d t) eqn:Dt.
  - destruct (step_ok derives dbg _ _ _ _ _ R (st_cast derives S v u t o d Hv Hu Hd Dt)) as (s' & E' & R'). exists s'. split; [exact E'|]. split.
    + intro x. rewrite (r_vars _ _ R'), (r_vars _ _ R). reflexivity.
    + intro x. rewrite (c_dead _ _ (r_counts _ _ R)), (c_dead _ _ (r_counts _ _ R')), (r_classes _ _ R), (r_classes _ _ R').
      cbn [with_refs types]. apply and_iff_compat_l.
      assert (Q : referred (with_refs S (put (refs S) v (Some (Ref, Some o)))) x <-> referred S x).
      { unfold referred. cbn [with_refs refs]. split; intros (y & k & J).
        - apply put_eq in J. destruct J as [[_ J]|[_ J]]; [injection J as <- <-; exists u, Ref; exact Hu|exists y, k; exact J].
        - exists y, k. rewrite put_get. destruct (Nat.eqb_spec v y) as [->|]; [congruence|exact J]. }
      rewrite (referred_rc s S x R), (referred_rc s' _ x R') in Q. lia.
  - unfold step. rewrite (fresh_var_eq s S v _ R Hv), (with_var_eq s S u _ _ _ R Hu). unfold dyn_ref_cast, dynamic_pointer_cast. rewrite (class_eq s S o d R Hd), Dt.
    cbn [is_null]. unfold ref_get. cbn [is_null negb bind]. rewrite assert_true. cbn [bind]. rewrite (class_eq s S o d R Hd), Dt. reflexivity.
Qed.
End Theorems.
Section UniqueTheorems.
Variable dbg : bool.
Theorem unique_history h S xs : usrun usinit h S xs ->
  exists s, urun dbg h uinit = Ok (s, xs) /\ (forall v, lookup (uvars s) v = owns S v) /\
    NoDup (udead s) /\ (forall o, In o (udead s) <-> o < objects S /\ ~ owned S o).
Proof.
  intro H. destruct (urun_ok dbg _ _ _ _ _ uinit_related H) as (s & E & R). exists s. split; [exact E|]. split; [apply (u_vars _ _ R)|].
  split; [apply (u_nodup _ _ R)|]. apply (u_dead _ _ R).
Qed.
Theorem unique_owner h S xs s ys : usrun usinit h S xs -> urun dbg h uinit = Ok (s, ys) ->
  (forall v w k k' o, lookup (uvars s) v = Some (k, Some o) -> lookup (uvars s) w = Some (k', Some o) -> v = w) /\
  (forall v k o, lookup (uvars s) v = Some (k, Some o) -> ~ In o (udead s) /\ o < made s) /\
  (forall v, lookup (uvars s) v = Some (Ref, None) -> exists h1 a h2, h = h1 ++ a :: h2 /\ umoves_from a v /\ forall b, In b h2 -> ~ ugives b v).
Proof.
  intros H E. destruct (urun_ok dbg _ _ _ _ _ uinit_related H) as (s' & E' & R). rewrite E in E'. injection E' as <- <-. split; [|split].
  - intros v w k k' o. rewrite !(u_vars _ _ R). apply (u_single _ _ R).
  - intros v k o. rewrite (u_vars _ _ R), (u_made _ _ R). intro L. split; [|eapply (u_known _ _ R); exact L]. rewrite (u_dead _ _ R). intros [_ N]. apply N. exists v, k. exact L.
  - intros v. rewrite (u_vars _ _ R). apply (unull_after_move _ _ _ H).
Qed.
(** An object is destroyed by an operation exactly when that ends its ownership. *)
Theorem unique_when S s a S' x s' o : urelated s S -> usstep S a S' x -> ustep dbg a s = Ok (s', x) ->
  (In o (udead s') /\ ~ In o (udead s) <-> owned S o /\ ~ owned S' o).
Proof.
  intros R St E. destruct (ustep_ok dbg _ _ _ _ _ R St) as (s2 & E2 & R'). rewrite E in E2. injection E2 as <-.
  assert (Ob : objects S' = objects S \/ (exists v, a = umake v None /\ owns S v = None /\ objects S' = Datatypes.S (objects S) /\ owns S' = put (owns S) v (Some (Ref, Some (objects S))))).
  { destruct St; cbn; auto. right. exists v. auto. }
  rewrite (u_dead _ _ R), (u_dead _ _ R').
  assert (Kn : owned S o -> o < objects S) by (intros (v & k & L); eapply (u_known _ _ R); exact L).
  assert (Dec : owned S o \/ ~ owned S o).
  { assert (Q : (exists v k, In (v, (k, Some o)) (uvars s)) \/ ~ exists v k, In (v, (k, Some o)) (uvars s)).
    { rewrite <- rc_pos. lia. }
    assert (Q2 : (exists v k, In (v, (k, Some o)) (uvars s)) <-> owned S o).
    { unfold owned. split; intros (v & k & J); exists v, k; [rewrite <- (u_vars _ _ R); apply in_lookup; [apply (u_keys _ _ R)|exact J]|].
      apply lookup_in. rewrite (u_vars _ _ R). exact J. }
    tauto. }
  destruct Ob as [->|(v & -> & Nv & Ob & Ow)].
  - tauto.
  - rewrite Ob. split.
    + intros [[L N] J]. destruct (Nat.eq_dec o (objects S)) as [->|Ne].
      * exfalso. apply N. exists v, Ref. rewrite Ow, put_get, Nat.eqb_refl. reflexivity.
      * split; [destruct Dec as [|Nd]; [assumption|]|exact N]. exfalso. apply J. split; [lia|exact Nd].
    + intros [O N]. pose proof (Kn O). split; [split; [lia|exact N]|]. intros [_ J]. contradiction.
Qed.
Theorem unique_null s u v : lookup (uvars s) u = Some (Ref, None) -> lookup (uvars s) v = None ->
  ustep dbg (uget u) s = (if dbg then Abort else UB NullDeref) /\ (dbg = true -> ustep dbg (uconvert v u) s = Abort).
Proof.
  intros L F. unfold ustep, uwith_var, ufresh_var. rewrite L, F. unfold ref_get. cbn [is_null negb]. split; [destruct dbg; reflexivity|]. intros ->. reflexivity.
Qed.
End UniqueTheorems.
Section WeakTheorems.
Variable derives : nat -> nat -> bool.
Variable dbg : bool.
Theorem shared_lock h S xs s ys v w p : srun derives sinit h S xs -> run derives dbg h init = Ok (s, ys) ->
  refs S v = None -> wrefs S w = Some p ->
  exists s' q, step derives dbg (lock v w) s = Ok (s', o_none) /\ lookup (vars s') v = Some (Ptr, q) /\
    (forall o, q = Some o <-> p = Some o /\ referred S o) /\ (forall x, In x (dead s') <-> In x (dead s)).
Proof.
  intros H E Hv Hw. destruct (shared_state _ _ _ _ _ _ _ H E) as [R ->]. unfold step. rewrite (fresh_var_eq s S v _ R Hv), (r_weaks _ _ R), Hw.
  eexists. eexists. split; [reflexivity|]. split; [|split].
  - cbn [sp_copy]. unfold sp_copy. match goal with |- lookup (vars (inc ?p ?t)) _ = _ => destruct (inc_fields p t) as (-> & _ & _) end.
    cbn. rewrite Nat.eqb_refl. reflexivity.
  - intro o. destruct p as [o'|]; [|split; [discriminate|intros [J _]; discriminate]].
    pose proof (referred_rc s S o' R) as Q. rewrite <- (c_count _ _ (r_counts _ _ R)) in Q. destruct (Nat.eqb_spec (count s o') 0) as [Z|Z].
    + split; [discriminate|]. intros [J1 J2]. injection J1 as ->. tauto.
    + split; [intro J; injection J as <-; tauto|intros [J _]; exact J].
  - intro x. unfold sp_copy. destruct p as [o'|]; [destruct (Nat.eqb (count s o') 0)|]; reflexivity.
Qed.
Theorem shared_from_this h S xs s ys v o t d : srun derives sinit h S xs -> run derives dbg h init = Ok (s, ys) ->
  refs S v = None -> referred S o -> nth_error (types S) o = Some d -> derives d t = true ->
  exists s', step derives dbg (from_this v o t) s = Ok (s', o_none) /\
    (forall x, lookup (vars s') x = if Nat.eqb x v then Some (Ref, Some o) else lookup (vars s) x).
Proof.
  intros H E Hv Ho Hd Dt. destruct (shared_state _ _ _ _ _ _ _ H E) as [R ->].
  destruct (step_ok derives dbg _ _ _ _ _ R (st_from_this derives S v o t d Hv Ho Hd Dt)) as (s' & E' & R'). exists s'. split; [exact E'|].
  intro x. rewrite (r_vars _ _ R'), (r_vars _ _ R). reflexivity.
Qed.
End WeakTheorems.
Lemma run_snoc derives dbg h : forall s a s1 xs s2 x, run derives dbg h s = Ok (s1, xs) -> step derives dbg a s1 = Ok (s2, x) ->
  run derives dbg (h ++ [a]) s = Ok (s2, xs ++ [x]).
Proof.
  induction h as [|b h IH]; intros s a s1 xs s2 x H E; cbn [run app] in *.
  - injection H as <- <-. rewrite E. reflexivity.
  - destruct (step derives dbg b s) as [[s3 y]| | | | |]; cbn [bind] in *; try discriminate.
    destruct (run derives dbg h s3) as [[s4 ys]| | | | |] eqn:E4; cbn [bind] in *; try discriminate. injection H as <- <-.
    rewrite (IH _ _ _ _ _ _ E4 E). reflexivity.
Qed.
Lemma urun_snoc dbg h : forall s a s1 xs s2 x, urun dbg h s = Ok (s1, xs) -> ustep dbg a s1 = Ok (s2, x) ->
  urun dbg (h ++ [a]) s = Ok (s2, xs ++ [x]).
Proof.
  induction h as [|b h IH]; intros s a s1 xs s2 x H E; cbn [urun app] in *.
  - injection H as <- <-. rewrite E. reflexivity.
  - destruct (ustep dbg b s) as [[s3 y]| | | | |]; cbn [bind] in *; try discriminate.
    destruct (urun dbg h s3) as [[s4 ys]| | | | |] eqn:E4; cbn [bind] in *; try discriminate. injection H as <- <-.
    rewrite (IH _ _ _ _ _ _ E4 E). reflexivity.
Qed.
Theorem shared_when derives dbg h S xs a S' x : srun derives sinit h S xs -> sstep derives S a S' x ->
  exists s s', run derives dbg h init = Ok (s, xs) /\ run derives dbg (h ++ [a]) init = Ok (s', xs ++ [x]) /\
    forall o, In o (dead s') /\ ~ In o (dead s) <-> referred S o /\ ~ referred S' o.
Proof.
  intros H St. destruct (run_ok derives dbg _ _ _ _ _ init_related H) as (s & E & R).
  destruct (step_ok derives dbg _ _ _ _ _ R St) as (s' & E' & R'). exists s, s'. split; [exact E|]. split; [eapply run_snoc; eassumption|]. intro o.
  rewrite (referred_rc s S o R), (referred_rc s' S' o R'), (c_dead _ _ (r_counts _ _ R)), (c_dead _ _ (r_counts _ _ R')), (r_classes _ _ R), (r_classes _ _ R').
  assert (Kn : rc (vars s) o <> 0 -> o < length (types S)).
  { intro J. apply (referred_rc s S o R) in J. destruct J as (v & k & J). eapply (r_known _ _ R). exact J. }
  assert (Ob : types S' = types S \/ (length (types S') = Datatypes.S (length (types S)) /\ rc (vars s') (length (types S)) <> 0)).
  { destruct St; cbn [types with_refs]; auto. right. split; [rewrite app_length; cbn; lia|].
    apply (proj1 (referred_rc s' _ (length (types S)) R')). exists v, Ref. cbn [refs]. rewrite put_get, Nat.eqb_refl. reflexivity. }
  destruct Ob as [->|[-> Nz]]; [lia|]. destruct (Nat.eq_dec o (length (types S))) as [->|]; lia.
Qed.
Theorem unique_when' dbg h S xs a S' x : usrun usinit h S xs -> usstep S a S' x ->
  exists s s', urun dbg h uinit = Ok (s, xs) /\ urun dbg (h ++ [a]) uinit = Ok (s', xs ++ [x]) /\
    forall o, In o (udead s') /\ ~ In o (udead s) <-> owned S o /\ ~ owned S' o.
Proof.
  intros H St. destruct (urun_ok dbg _ _ _ _ _ uinit_related H) as (s & E & R).
  destruct (ustep_ok dbg _ _ _ _ _ R St) as (s' & E' & R'). exists s, s'. split; [exact E|]. split; [eapply urun_snoc; eassumption|]. intro o.
  exact (unique_when dbg S s a S' x s' o R St E').
Qed.

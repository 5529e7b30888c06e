From Verif Require Import Base MetaModel.

Section IndexOf.
Context {T : Type}.
Variable same_type : T -> T -> bool.
Hypothesis same_ok : forall a b, same_type a b = true <-> a = b.

Lemma viable_in t items : forall k i, In i (viable same_type t k items) <-> k <= i /\ nth_error items (i - k) = Some t.
Proof.
  induction items as [|x items IH]; intros k i; cbn [viable].
  - split; [contradiction|]. intros [_ H]. destruct (i - k); discriminate.
  - destruct (same_type t x) eqn:E; cbn [In]; rewrite IH.
    + apply same_ok in E. subst x. split.
      * intros [->|[L H]]; [rewrite Nat.sub_diag; split; [lia|reflexivity]|].
        split; [lia|]. replace (i - k) with (S (i - S k)) by lia. exact H.
      * intros [L H]. destruct (Nat.eq_dec k i) as [->|NE]; [left; reflexivity|right].
        split; [lia|]. replace (i - k) with (S (i - S k)) in H by lia. exact H.
    + split.
      * intros [L H]. split; [lia|]. replace (i - k) with (S (i - S k)) by lia. exact H.
      * intros [L H]. destruct (Nat.eq_dec k i) as [->|NE].
        -- rewrite Nat.sub_diag in H. injection H as ->. rewrite (proj2 (same_ok t t) eq_refl) in E. discriminate.
        -- split; [lia|]. replace (i - k) with (S (i - S k)) in H by lia. exact H.
Qed.

Lemma viable_nodup t items : forall k, NoDup (viable same_type t k items).
Proof.
  induction items as [|x items IH]; intros k; cbn [viable]; [constructor|].
  destruct (same_type t x); [|apply IH]. constructor; [|apply IH]. rewrite viable_in. lia.
Qed.

Lemma index_of_ok t items i : index_of same_type t items = Some i <->
  nth_error items i = Some t /\ (forall j, nth_error items j = Some t -> j = i).
Proof.
  unfold index_of. pose proof (viable_in t items 0) as V. pose proof (viable_nodup t items 0) as D.
  assert (V' : forall j, In j (viable same_type t 0 items) <-> nth_error items j = Some t).
  { intro j. rewrite V, Nat.sub_0_r. split; [tauto|]. split; [lia|assumption]. }
  clear V. destruct (viable same_type t 0 items) as [|a [|b l]].
  - split; [discriminate|]. intros [H _]. apply V' in H. contradiction.
  - split.
    + intro E. injection E as ->. split; [apply V'; left; reflexivity|].
      intros j Hj. apply V' in Hj. destruct Hj as [->|[]]; reflexivity.
    + intros [H _]. apply V' in H. destruct H as [->|[]]; reflexivity.
  - split; [discriminate|]. intros [_ H].
    assert (a = i) by (apply H, V'; left; reflexivity).
    assert (b = i) by (apply H, V'; right; left; reflexivity). subst. inversion D as [|? ? N]; subst. exfalso. apply N. left. reflexivity.
Qed.
End IndexOf.

Lemma offset_ok offset l i x : nth_error l i = Some x -> (x + offset < 2 ^ 64)%N ->
  nth_error (offset_sequence offset l) i = Some (x + offset)%N.
Proof. intros E L. unfold offset_sequence. rewrite nth_error_map, E. cbn [option_map]. rewrite N.mod_small by exact L. reflexivity. Qed.

Lemma offset_len offset l : length (offset_sequence offset l) = length l.
Proof. apply map_length. Qed.

Lemma remove_const_reference_ok t :
  remove_const_reference t = remove_cvref t <->
  (forall c v o, remove_reference t = Obj (Q c v o) -> v = false).
Proof.
  unfold remove_const_reference, remove_cvref.
  destruct t as [[c v o]|[c v o]|[c v o]]; cbn [remove_reference remove_const remove_cv]; split;
    try (intros H c' v' o' E; injection E as -> -> ->; injection H as ->; reflexivity);
    intro H; rewrite (H c v o eq_refl); reflexivity.
Qed.

Lemma remove_const_pointer_ok c v c' v' o :
  remove_const_pointer (Obj (Q c v (Pointer (Q c' v' o)))) = Obj (Q false v' o).
Proof. reflexivity. Qed.

Lemma is_specialization_ok template t :
  is_specialization_of template t = true <-> exists args, t = Obj (Q false false (Special template args)).
Proof.
  split.
  - destruct t as [[c v o]| |]; cbn; try discriminate. destruct c, v, o; cbn; try discriminate.
    intro H. apply Nat.eqb_eq in H. subst. eauto.
  - intros [args ->]. cbn. apply Nat.eqb_refl.
Qed.

Lemma is_scoped_ok t : is_scoped_enum t = true <-> exists c v n, t = Obj (Q c v (Enum n true)).
Proof.
  split.
  - destruct t as [[c v o]| |]; cbn; try discriminate. destruct o; cbn; try discriminate. destruct scoped; cbn; try discriminate. eauto.
  - intros [c [v [n ->]]]. reflexivity.
Qed.

Lemma type_defined_ok m void :
  (is_type_defined m = true <-> exists t, m = Accessible t) /\
  (forall t, m = Accessible t -> type_or_void void m = t) /\
  (is_type_defined m = false -> type_or_void void m = void).
Proof.
  destruct m as [|t|t]; cbn; repeat split; try discriminate; try (intros [? ?]; discriminate); eauto; congruence.
Qed.

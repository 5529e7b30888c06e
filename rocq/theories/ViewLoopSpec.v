(** Specification of loops over views: the body is run for one reference after the other. *)
From Verif Require Import Base ViewLoopModel.

Section Spec.
Context {S R : Type}.
Variable body : R -> S -> S * outcome bool.
Fixpoint each (l : list R) (s : S) : S * outcome bool :=
  match l with
  | [] => (s, Ok true)
  | r :: l => let '(s, o) := body r s in match o with Ok true => each l s | o => (s, o) end
  end.
End Spec.

Section Keep.
Context {S : Type}.
Variable colls : S -> nat -> coll.
Definition sound (c : coll) : Prop := NoDup (places c).
(** What comes after place a in the collection, and a itself, are as before; what comes before may have changed. *)
Definition same_from (a : nat) (c c' : coll) : Prop :=
  forall l1 l2, places c = l1 ++ a :: l2 -> exists l1', places c' = l1' ++ a :: l2.
(** What comes before place a, a itself and the next place are as before. *)
Definition same_upto (a : nat) (c c' : coll) : Prop :=
  forall l1 b l2, places c = l1 ++ a :: b :: l2 -> exists l2', places c' = l1 ++ a :: b :: l2'.

(** When the body goes on, the collection it looks at is still sound and ... *)
Definition keeps (same : nat -> coll -> coll -> Prop) (body : nat -> S -> S * outcome bool) (k a : nat) : Prop :=
  forall s s', sound (colls s k) -> body a s = (s', Ok true) -> sound (colls s' k) /\ same a (colls s k) (colls s' k).
Definition keeps_all (body : list nat -> S -> S * outcome bool) (ks l : list nat) : Prop :=
  forall s s', (forall k, In k ks -> sound (colls s k)) -> body l s = (s', Ok true) ->
    Forall2 (fun k a => sound (colls s' k) /\ same_from a (colls s k) (colls s' k)) ks l.

(** The references of zip: the i-th elements of all collections *)
Definition row (ks : list nat) (s : S) (i : nat) : list nat := map (fun k => nth i (ids (colls s k)) 0) ks.
Definition rows (n : nat) (ks : list nat) (s : S) : list (list nat) := map (row ks s) (seq 0 n).
(** n is the smallest size *)
Definition smallest (n : nat) (ks : list nat) (s : S) : Prop :=
  (forall k, In k ks -> n <= length (ids (colls s k))) /\ exists k, In k ks /\ n = length (ids (colls s k)).
End Keep.

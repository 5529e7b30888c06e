(** Property C107. *)
From Verif Require Import Base SortSpec UtilModel UtilSpec LinqModel LinqSpec LinqEffModel LinqEffSpec LinqEffProofs.

(** [W] is the state of everything but the collection. Functions and copies of elements may change it and throw. [l'] is the
    collection of the aggregator afterwards. *)
Theorem C107_select : forall W A copy (moved : A -> A) B p (func : W -> A -> W * outcome B) w a w' l' o,
  select_eff copy moved p func w a = (w', l', o) ->
  traverses (select_step copy p func (held a)) (give moved p (held a)) (fun x => give moved p (held a) x tt)
    (fun rs y => y = linq_rvalue rs) w (elements a) w' l' o.
Proof. exact @select_eff_run. Qed.
Print Assumptions C107_select.
(** The index counts the elements from 0. *)
Theorem C107_select_index : forall W A B copy (moved : A -> A) p (func : N -> W -> A -> W * outcome B) w a w' l' o,
  (N.of_nat (length (elements a)) < 2 ^ 64)%N -> select_index_eff copy moved p func w a = (w', l', o) ->
  exists l2, l' = map snd l2 /\
  traverses (select_step (fun w x => copy w (snd x)) p (fun w x => func (fst x) w (snd x)) (held a))
    (give (fun x => (fst x, moved (snd x))) p (held a)) (fun x => give (fun x => (fst x, moved (snd x))) p (held a) x tt)
    (fun rs y => y = linq_rvalue rs) w (indexed 0 (elements a)) w' l2 o.
Proof. exact @select_index_eff_run. Qed.
Print Assumptions C107_select_index.
(** For sequences, and for any collection into which elements are inserted one by one *)
Theorem C107_where : forall W A copy (moved : A -> A) p (func : W -> A -> W * outcome bool) w a w' l' o,
  where_eff copy moved push_end p func w a = (w', l', o) ->
  traverses (where_step copy p func (held a)) (where_left moved p (held a)) (fun x => give moved p (held a) x tt)
    (fun bs y => y = linq_rvalue (map (fun x => give moved p (held a) x tt) (chosen (elements a) bs))) w (elements a) w' l' o.
Proof. exact @where_seq_run. Qed.
Print Assumptions C107_where.
Theorem C107_where_any : forall W A copy (moved : A -> A) insert p (func : W -> A -> W * outcome bool) w a w' l' o,
  where_eff copy moved insert p func w a = (w', l', o) ->
  traverses (where_step copy p func (held a)) (where_left moved p (held a)) (fun x => give moved p (held a) x tt)
    (fun bs y => y = linq_rvalue (fold_left (fun r x => insert x r) (map (fun x => give moved p (held a) x tt) (chosen (elements a) bs)) []))
    w (elements a) w' l' o.
Proof. exact @where_eff_run. Qed.
Print Assumptions C107_where_any.
(** The elements are grouped by the keys that the calls gave. *)
Theorem C107_group_by : forall W A K copy (moved : A -> A) p (lt : K -> K -> bool) (func : W -> A -> W * outcome K) w a w' l' o,
  strict_weak_order lt -> group_by_eff copy moved p lt func w a = (w', l', o) ->
  traverses (group_step copy p func (held a)) (group_left moved (held a)) (fun x => x)
    (fun ks y => exists g, groups lt fst (combine ks (elements a)) g /\ y = linq_rvalue (map (fun kg => (fst kg, map snd (snd kg))) g))
    w (elements a) w' l' o.
Proof. exact @group_by_eff_run. Qed.
Print Assumptions C107_group_by.
(** A function that gives a part of its argument if it does not throw: the result is sorted by it, or the outcome is that of a call
    of the function or of copying an element. *)
Theorem C107_order_by : forall W A K copy (lt : K -> K -> bool) (func : W -> A -> W * outcome K) std_sort (key : A -> K) w a w' l' o,
  sorts_eff std_sort -> strict_weak_order lt -> (forall w x w' k, func w x = (w', Ok k) -> k = key x) ->
  order_by_eff copy std_sort lt func w a = (w', l', o) ->
  (held a = Borrowed -> l' = elements a) /\
  ((exists y, o = Ok (linq_rvalue y) /\ Permutation y (elements a) /\ sorted (fun x y => lt (key x) (key y)) y) \/
   (exists w1 x r, func w1 x = (w', r) /\ same_failure r o) \/
   (held a = Borrowed /\ exists done x rest us w1 r, elements a = done ++ x :: rest /\ visits copy w done w1 us /\ copy w1 x = (w', r) /\ same_failure r o)).
Proof. exact @order_by_eff_run. Qed.
Print Assumptions C107_order_by.

(** Whatever happens, a collection of the caller is as it was. *)
Theorem C107_borrowed : forall W A copy (moved : A -> A) (w : W) a, held a = Borrowed ->
  (forall B p (f : W -> A -> W * outcome B), snd (fst (select_eff copy moved p f w a)) = elements a) /\
  (forall B p (f : N -> W -> A -> W * outcome B), snd (fst (select_index_eff copy moved p f w a)) = elements a) /\
  (forall insert p f, snd (fst (where_eff copy moved insert p f w a)) = elements a) /\
  (forall K p (lt : K -> K -> bool) f, snd (fst (group_by_eff copy moved p lt f w a)) = elements a) /\
  (forall K std_sort (lt : K -> K -> bool) f, snd (fst (order_by_eff copy std_sort lt f w a)) = elements a).
Proof. exact @borrowed_unchanged. Qed.
Print Assumptions C107_borrowed.
(** Elements of an owned collection are never copied, so copying does not have to be possible; except that the function of group_by
    must not take them by value. *)
Theorem C107_owned : forall W A copy copy' (moved : A -> A) (w : W) a, held a = Owned ->
  (forall B p (f : W -> A -> W * outcome B), select_eff copy moved p f w a = select_eff copy' moved p f w a) /\
  (forall B p (f : N -> W -> A -> W * outcome B), select_index_eff copy moved p f w a = select_index_eff copy' moved p f w a) /\
  (forall insert p f, where_eff copy moved insert p f w a = where_eff copy' moved insert p f w a) /\
  (forall K (lt : K -> K -> bool) f, group_by_eff copy moved ByConstRef lt f w a = group_by_eff copy' moved ByConstRef lt f w a) /\
  (forall K std_sort (lt : K -> K -> bool) f, order_by_eff copy std_sort lt f w a = order_by_eff copy' std_sort lt f w a).
Proof. exact @owned_uncopied. Qed.
Print Assumptions C107_owned.
(** Functions without effects: as in C59 *)
Theorem C107_pure : forall W A (moved : A -> A) (w : W) a,
  let nocopy := fun (w : W) (_ : A) => (w, Ok tt) in
  (forall B p (f : A -> B), select_eff nocopy moved p (fun w x => (w, Ok (f x))) w a = (w, snd (select moved p f a), Ok (fst (select moved p f a)))) /\
  (forall B p (f : A -> N -> B), select_index_eff nocopy moved p (fun i w x => (w, Ok (f x i))) w a =
     (w, snd (select_index moved p f a), Ok (fst (select_index moved p f a)))) /\
  (forall insert p f, where_eff nocopy moved insert p (fun w x => (w, Ok (f x))) w a =
     (w, snd (where_ moved insert p f a), Ok (fst (where_ moved insert p f a)))) /\
  (forall K p (lt : K -> K -> bool) f, group_by_eff nocopy moved p lt (fun w x => (w, Ok (f x))) w a =
     (w, snd (group_by moved lt f a), Ok (fst (group_by moved lt f a)))).
Proof.
  intros. repeat split; intros; [apply select_pure|apply select_index_pure|apply where_pure|apply group_by_pure].
Qed.
Print Assumptions C107_pure.

(** The world is a log of what was done to which element: 0 for a copy, 1 for a call. The function throws for 13, 0 is what is left. *)
Definition log_copy (w : list (nat * nat)) (x : nat) : list (nat * nat) * outcome unit := (w ++ [(0, x)], Ok tt).
Definition log_copy_17 (w : list (nat * nat)) (x : nat) : list (nat * nat) * outcome unit :=
  (w ++ [(0, x)], if Nat.eqb x 17 then Throw BadAlloc else Ok tt).
Definition log_call {B} (f : nat -> B) (w : list (nat * nat)) (x : nat) : list (nat * nat) * outcome B :=
  (w ++ [(1, x)], if Nat.eqb x 13 then Throw LogicError else Ok (f x)).
Definition zero (_ : nat) : nat := 0.
Example C107_case :
  select_eff log_copy zero ByValue (log_call S) [] (linq_rvalue [3; 4; 13; 5]) = ([(1, 3); (1, 4); (1, 13)], [0; 0; 0; 5], Throw LogicError) /\
  select_eff log_copy zero ByValue (log_call S) [] (linq_lvalue [3; 4]) = ([(0, 3); (1, 3); (0, 4); (1, 4)], [3; 4], Ok (linq_rvalue [4; 5])) /\
  select_index_eff log_copy zero ByConstRef (fun i => log_call (fun x => (x, i))) [] (linq_lvalue [3; 4]) =
    ([(1, 3); (1, 4)], [3; 4], Ok (linq_rvalue [(3, 0%N); (4, 1%N)])) /\
  where_eff log_copy zero push_end ByConstRef (log_call (Nat.ltb 3)) [] (linq_rvalue [3; 4; 5]) =
    ([(1, 3); (1, 4); (1, 5)], [3; 0; 0], Ok (linq_rvalue [4; 5])) /\
  where_eff log_copy_17 zero push_end ByConstRef (log_call (Nat.ltb 3)) [] (linq_lvalue [3; 4; 17; 5]) =
    ([(1, 3); (1, 4); (0, 4); (1, 17); (0, 17)], [3; 4; 17; 5], Throw BadAlloc) /\
  group_by_eff log_copy zero ByConstRef Nat.ltb (log_call (Nat.modulo 12)) [] (linq_lvalue [5; 3; 4]) =
    ([(1, 5); (0, 5); (1, 3); (0, 3); (1, 4); (0, 4)], [5; 3; 4], Ok (linq_rvalue [(0, [3; 4]); (2, [5])])) /\
  group_by_eff log_copy zero ByConstRef Nat.ltb (log_call (Nat.modulo 12)) [] (linq_rvalue [5; 13; 4]) = ([(1, 5); (1, 13)], [0; 13; 4], Throw LogicError).
Proof. vm_compute. repeat split. Qed.

(** A std::sort as required exists: insertion sort. *)
Fixpoint ins_eff {W A} (cmp : W -> A -> A -> W * outcome bool) (w : W) (x : A) (l : list A) : W * outcome (list A) :=
  match l with
  | [] => (w, Ok [x])
  | y :: r => after (cmp w x y) (fun w b => if b : bool then (w, Ok (x :: l)) else after (ins_eff cmp w x r) (fun w r => (w, Ok (y :: r))))
  end.
Fixpoint isort_eff {W A} (cmp : W -> A -> A -> W * outcome bool) (w : W) (l : list A) : W * outcome (list A) :=
  match l with
  | [] => (w, Ok [])
  | x :: l => after (isort_eff cmp w l) (fun w r => ins_eff cmp w x r)
  end.
Definition sort_eff {W A} (cmp : W -> A -> A -> W * outcome bool) (w : W) (l : list A) : W * list A * outcome unit :=
  let '(w, r) := isort_eff cmp w l in (w, match r with Ok l' => l' | _ => l end, r ;;; Ok tt).
Example C107_case_sort :
  order_by_eff log_copy sort_eff Nat.ltb (log_call (fun x => x)) [] (linq_lvalue [5; 3]) =
    ([(0, 5); (0, 3); (1, 5); (1, 3)], [5; 3], Ok (linq_rvalue [3; 5])) /\
  order_by_eff log_copy sort_eff Nat.ltb (log_call (fun x => x)) [] (linq_lvalue [5; 13]) =
    ([(0, 5); (0, 13); (1, 5); (1, 13)], [5; 13], Throw LogicError) /\
  order_by_eff log_copy_17 sort_eff Nat.ltb (log_call (fun x => x)) [] (linq_lvalue [17; 5]) = ([(0, 17)], [17; 5], Throw BadAlloc) /\
  order_by_eff log_copy_17 sort_eff Nat.ltb (log_call (fun x => x)) [] (linq_rvalue [17; 5]) = ([(1, 17); (1, 5)], [], Ok (linq_rvalue [5; 17])).
Proof. vm_compute. repeat split. Qed.
From Verif Require LinqProps.
Section Witness.
Context {W A : Type}.
Variables (cmp : W -> A -> A -> W * outcome bool) (lt : A -> A -> bool).
Hypothesis Agree : forall w x y w' b, cmp w x y = (w', Ok b) -> b = lt x y.
Lemma ins_eff_ok x : forall l w w' r, ins_eff cmp w x l = (w', r) ->
  r = Ok (LinqProps.ins lt x l) \/ exists w1 y z r', cmp w1 y z = (w', r') /\ same_failure r' r.
Proof.
  induction l as [|y l IH]; intros w w' r; cbn [ins_eff LinqProps.ins].
  - intros [= <- <-]. left. reflexivity.
  - destruct (cmp w x y) as [w1 [b|?|?| | |]] eqn:E; cbn [after];
      try (intros [= <- <-]; right; do 4 eexists; split; [exact E|constructor]).
    rewrite <- (Agree _ _ _ _ _ E). destruct b; [intros [= <- <-]; left; reflexivity|].
    destruct (ins_eff cmp w1 x l) as [w2 r2] eqn:Q. destruct (IH _ _ _ Q) as [->|(w3 & y' & z & r' & C & S)].
    + cbn [after]. intros [= <- <-]. left. reflexivity.
    + intro D. right. exists w3, y', z, r'. destruct S; cbn [after] in D; injection D as <- <-; (split; [exact C|constructor]).
Qed.
Lemma isort_eff_ok : forall l w w' r, isort_eff cmp w l = (w', r) ->
  r = Ok (LinqProps.isort lt l) \/ exists w1 y z r', cmp w1 y z = (w', r') /\ same_failure r' r.
Proof.
  induction l as [|x l IH]; intros w w' r; cbn [isort_eff].
  - intros [= <- <-]. left. reflexivity.
  - destruct (isort_eff cmp w l) as [w2 r2] eqn:Q. destruct (IH _ _ _ Q) as [->|(w3 & y' & z & r' & C & S)].
    + cbn [after]. apply ins_eff_ok.
    + intro D. right. exists w3, y', z, r'. destruct S; cbn [after] in D; injection D as <- <-; (split; [exact C|constructor]).
Qed.
End Witness.
Example C107_case_sorts : forall W A, sorts_eff (@sort_eff W A).
Proof.
  intros W A cmp lt SW Agree w l w' l' o. unfold sort_eff. destruct (isort_eff cmp w l) as [w1 r] eqn:E. intros [= <- <- <-].
  destruct (isort_eff_ok cmp lt Agree _ _ _ _ E) as [->|(w3 & y & z & r' & C & S)]; [left|right].
  - split; [reflexivity|]. apply (LinqProps.C59_case_sorts A lt l SW).
  - exists w3, y, z, r'. split; [exact C|]. destruct S; constructor.
Qed.

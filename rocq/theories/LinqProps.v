(** Property C59. *)
From Verif Require Import Base SortSpec UtilModel UtilSpec UtilProofs LinqModel LinqSpec LinqProofs.

(** The first component of an operation is its result, the second the collection of the aggregator afterwards;
    [held a = Borrowed] says that this is an lvalue of the caller. [moved] is whatever moving leaves. *)
Theorem C59_select : forall A (moved : A -> A) B p (func : A -> B) a,
  elements (fst (select moved p func a)) = map func (elements a) /\ (held a = Borrowed -> snd (select moved p func a) = elements a).
Proof. exact @select_ok. Qed.
Print Assumptions C59_select.
Theorem C59_select_index : forall A (moved : A -> A) B p (func : A -> N -> B) a, (N.of_nat (length (elements a)) < 2 ^ 64)%N ->
  length (elements (fst (select_index moved p func a))) = length (elements a) /\
  (forall j x, nth_error (elements a) j = Some x -> nth_error (elements (fst (select_index moved p func a))) j = Some (func x (N.of_nat j))) /\
  (held a = Borrowed -> snd (select_index moved p func a) = elements a).
Proof. exact @select_index_ok. Qed.
Print Assumptions C59_select_index.
(** For sequences, and for maps *)
Theorem C59_where : forall A (moved : A -> A) p func a, p = ByConstRef \/ held a = Borrowed ->
  elements (fst (where_ moved push_end p func a)) = filter func (elements a) /\ (held a = Borrowed -> snd (where_ moved push_end p func a) = elements a).
Proof. exact @where_ok. Qed.
Print Assumptions C59_where.
Theorem C59_where_map : forall K V (lt : K -> K -> bool) moved p func (a : aggregator (K * V)),
  strict_weak_order lt -> is_map lt (elements a) -> p = ByConstRef \/ held a = Borrowed ->
  elements (fst (where_ moved (map_insert_pair lt) p func a)) = filter func (elements a) /\
  (held a = Borrowed -> snd (where_ moved (map_insert_pair lt) p func a) = elements a).
Proof. exact @where_map_ok. Qed.
Print Assumptions C59_where_map.
(** A predicate with a by-value parameter of the element type passes the static assertion of where; on an owned
    sequence it takes the elements over, and moved-from elements are kept. *)
Theorem C59_where_by_value : forall A (moved : A -> A) func a, held a = Owned ->
  elements (fst (where_ moved push_end ByValue func a)) = map moved (filter func (elements a)).
Proof. exact @where_by_value. Qed.
Print Assumptions C59_where_by_value.
Theorem C59_group_by : forall A K (lt : K -> K -> bool), strict_weak_order lt -> forall (key : A -> K) (moved : A -> A) a,
  groups lt key (elements a) (elements (fst (group_by moved lt key a))) /\
  Permutation (concat (map snd (elements (fst (group_by moved lt key a))))) (elements a) /\
  (held a = Borrowed -> snd (group_by moved lt key a) = elements a).
Proof. exact @group_ok. Qed.
Print Assumptions C59_group_by.
Theorem C59_order_by : forall A K std_sort (lt : K -> K -> bool) (func : A -> K) a, sorts std_sort -> strict_weak_order lt ->
  Permutation (elements (fst (order_by std_sort lt func a))) (elements a) /\
  sorted (fun x y => lt (func x) (func y)) (elements (fst (order_by std_sort lt func a))) /\
  (held a = Borrowed -> snd (order_by std_sort lt func a) = elements a).
Proof. exact @order_ok. Qed.
Print Assumptions C59_order_by.

(** An aggregator that owns its collection can be used again. What it then holds: the elements that were given away have been
    moved from, exactly once unless the predicate of where took them over before. *)
Theorem C59_left : forall A (moved : A -> A) a, held a = Owned ->
  (forall B (func : A -> B), snd (select moved ByConstRef func a) = elements a /\ snd (select moved ByValue func a) = map moved (elements a)) /\
  (forall B (func : A -> N -> B), snd (select_index moved ByConstRef func a) = elements a /\
     snd (select_index moved ByValue func a) = map moved (elements a)) /\
  (forall insert func, snd (where_ moved insert ByConstRef func a) = map (fun x => if func x then moved x else x) (elements a) /\
     snd (where_ moved insert ByValue func a) = map (fun x => if func x then moved (moved x) else moved x) (elements a)) /\
  (forall K (lt : K -> K -> bool) key, snd (group_by moved lt key a) = map moved (elements a)).
Proof.
  intros A moved a H. repeat split; intros; rewrite ?select_left, ?select_index_left, ?where_left, ?group_left, H; cbn [pass take]; try reflexivity;
    apply map_id.
Qed.
Print Assumptions C59_left.

(** Strings are lists here, a moved-from one is empty; keys are lengths. *)
Definition words : list (list nat) := [[3]; [1; 2]; [4]; []; [7; 7]; [5]].
Definition gone (_ : list nat) : list nat := [].
Definition longer (w : list nat) : bool := Nat.ltb 1 (length w).
Example C59_case :
  elements (fst (group_by gone Nat.ltb (@length nat) (linq_lvalue words))) = [(0, [[]]); (1, [[3]; [4]; [5]]); (2, [[1; 2]; [7; 7]])] /\
  elements (fst (where_ gone push_end ByConstRef longer (linq_rvalue words))) = [[1; 2]; [7; 7]] /\
  elements (fst (where_ gone push_end ByValue longer (linq_rvalue words))) = [[]; []] /\
  elements (fst (where_ gone push_end ByValue longer (linq_lvalue words))) = [[1; 2]; [7; 7]] /\
  snd (select gone ByValue (@length nat) (linq_lvalue words)) = words /\
  elements (fst (select gone ByValue (@length nat) (linq_rvalue words))) = [1; 2; 1; 0; 2; 1] /\
  elements (fst (select_index gone ByValue (fun w i => (length w, i)) (linq_rvalue [[3]; [1; 2]]))) = [(1, 0%N); (2, 1%N)] /\
  snd (where_ gone push_end ByConstRef longer (linq_rvalue words)) = [[3]; []; [4]; []; []; [5]].
Proof. vm_compute. repeat split. Qed.
(** A chain: the words of length 1 or 2, grouped by length, the greater groups only. *)
Example C59_case_chain :
  let a := fst (where_ gone push_end ByConstRef (fun w => Nat.ltb 0 (length w)) (linq_lvalue words)) in
  let b := fst (group_by gone Nat.ltb (@length nat) a) in
  elements (fst (where_ (fun g => (fst g, [])) (map_insert_pair Nat.ltb) ByConstRef (fun g => Nat.ltb 2 (length (snd g))) b)) = [(1, [[3]; [4]; [5]])].
Proof. vm_compute. reflexivity. Qed.
(** Sorting functions as required exist, e.g. insertion sort. *)
Fixpoint ins {A} (cmp : A -> A -> bool) (x : A) (l : list A) : list A :=
  match l with [] => [x] | y :: r => if cmp x y then x :: l else y :: ins cmp x r end.
Definition isort {A} (cmp : A -> A -> bool) (l : list A) : list A := fold_right (ins cmp) [] l.
Example C59_case_sort : elements (fst (order_by isort Nat.ltb (@length nat) (linq_lvalue words))) = [[]; [5]; [4]; [3]; [7; 7]; [1; 2]].
Proof. vm_compute. reflexivity. Qed.
Lemma sorted_cons {A} (cmp : A -> A -> bool) x l : sorted cmp (x :: l) <-> (forall y, In y l -> cmp y x = false) /\ sorted cmp l.
Proof.
  split.
  - intro S. split; [|intros i j a b L Ha Hb; exact (S (Datatypes.S i) (Datatypes.S j) a b ltac:(lia) Ha Hb)].
    intros y J. apply In_nth_error in J. destruct J as [j J]. exact (S 0 (Datatypes.S j) x y ltac:(lia) eq_refl J).
  - intros [F S] [|i] [|j] a b L Ha Hb; try lia; cbn in *.
    + injection Ha as <-. apply F. eapply nth_error_In. exact Hb.
    + apply (S i j a b ltac:(lia) Ha Hb).
Qed.
Lemma ins_perm {A} (cmp : A -> A -> bool) x l : Permutation (ins cmp x l) (x :: l).
Proof. induction l as [|y l IH]; cbn; [apply Permutation_refl|]. destruct (cmp x y); [apply Permutation_refl|]. rewrite IH. apply perm_swap. Qed.
Example C59_case_sorts : forall A, sorts (@isort A).
Proof.
  intros A cmp l (Irr & Tr & _). induction l as [|x l [P S]]; cbn [isort fold_right].
  - split; [constructor|]. intros i j a b _ Ha. destruct i; discriminate.
  - fold (isort cmp l). split; [rewrite ins_perm; constructor; exact P|]. clear P. revert S. generalize (isort cmp l) as r. induction r as [|y r IH]; intro S; cbn [ins].
    + apply sorted_cons. split; [intros z []|exact S].
    + destruct (cmp x y) eqn:E.
      * apply sorted_cons. split; [|exact S]. apply sorted_cons in S. destruct S as [F _]. intros z J. destruct (cmp z x) eqn:Q; [|reflexivity].
        pose proof (Tr _ _ _ Q E) as T. destruct J as [<-|J]; [rewrite Irr in T|rewrite (F z J) in T]; discriminate.
      * apply sorted_cons in S. destruct S as [F S]. apply sorted_cons. split; [|apply IH; exact S]. intros z J.
        apply (Permutation_in _ (ins_perm cmp x r)) in J. destruct J as [<-|J]; auto.
Qed.

(** Properties C40, C41: sort. *)
From Verif Require Import Base SortModel SortSpec SortProofs.

(** C40. The recursion depth is at most the length of the range; with [first = 0] and
    [last = length m] every access outside of the range would be [UB]. *)
Theorem C40_sort : forall (A : Type) (cmp : A -> A -> bool) m first last,
  strict_weak_order cmp -> first <= last -> last <= length m ->
  exists m', (forall fuel, last - first < fuel -> quick_sort fuel cmp m first last = Ok m') /\
    length m' = length m /\
    firstn first m' = firstn first m /\ skipn last m' = skipn last m /\
    Permutation (firstn (last - first) (skipn first m)) (firstn (last - first) (skipn first m')) /\
    sorted cmp (firstn (last - first) (skipn first m')).
Proof. exact @sort_swo. Qed.
Print Assumptions C40_sort.

(** Elements outside of the range are not even read: they do not influence the result. *)
Theorem C40_frame : forall (A : Type) (cmp : A -> A -> bool) seg, strict_weak_order cmp ->
  exists seg', Permutation seg seg' /\ sorted cmp seg' /\
    forall pre post fuel, length seg < fuel ->
      quick_sort fuel cmp (pre ++ seg ++ post) (length pre) (length pre + length seg) = Ok (pre ++ seg' ++ post).
Proof. exact @sort_frame. Qed.
Print Assumptions C40_frame.

(** Termination and the permutation need only irreflexivity. *)
Theorem C40_irreflexive : forall (A : Type) (cmp : A -> A -> bool) m first last,
  (forall x, cmp x x = false) -> first <= last -> last <= length m ->
  exists m', (forall fuel, last - first < fuel -> quick_sort fuel cmp m first last = Ok m') /\
    length m' = length m /\
    firstn first m' = firstn first m /\ skipn last m' = skipn last m /\
    Permutation (firstn (last - first) (skipn first m)) (firstn (last - first) (skipn first m')).
Proof. exact @sort_irr. Qed.
Print Assumptions C40_irreflexive.

(** The order of the natural numbers by their tens: elements may be equivalent but not equal. *)
Example C40_case :
  strict_weak_order (fun x y => Nat.ltb (x / 10) (y / 10)) /\
  quick_sort 8 (fun x y => Nat.ltb (x / 10) (y / 10)) [9; 31; 12; 5; 11; 30; 2; 0] 1 7 = Ok [9; 5; 2; 11; 12; 30; 31; 0].
Proof.
  split; [|vm_compute; reflexivity]. split; [|split].
  - intro x. apply Nat.ltb_irrefl.
  - intros x y z H1 H2. apply Nat.ltb_lt in H1, H2. apply Nat.ltb_lt. lia.
  - intros x y z H1 H2 H3 H4. apply Nat.ltb_ge in H1, H2, H3, H4. split; apply Nat.ltb_ge; lia.
Qed.

(** C41 *)
Theorem C41_reflexive_diverges : forall (A : Type) (cmp : A -> A -> bool) m first last,
  first + 2 <= last -> last <= length m ->
  (forall x y, In x (firstn (last - first) (skipn first m)) -> In y (firstn (last - first) (skipn first m)) ->
     cmp x y = true) ->
  forall fuel, quick_sort fuel cmp m first last = Diverge.
Proof. exact @sort_reflexive_equal. Qed.
Print Assumptions C41_reflexive_diverges.

(** More generally it is enough that the middle element compares true with all elements, e.g. that it
    is the greatest one and the comparator is <=. *)
Theorem C41_middle_diverges : forall (A : Type) (cmp : A -> A -> bool) m first last pv,
  first + 2 <= last -> last <= length m ->
  nth_error m (first + (last - first) / 2) = Some pv ->
  (forall i x, first <= i < last -> nth_error m i = Some x -> cmp x pv = true) ->
  forall fuel, quick_sort fuel cmp m first last = Diverge.
Proof. exact @sort_diverges. Qed.
Print Assumptions C41_middle_diverges.

Example C41_case : quick_sort 100 Nat.leb [7; 3; 3; 1] 1 3 = Diverge /\ quick_sort 100 Nat.leb [1; 2] 0 2 = Diverge /\
  quick_sort 100 Nat.leb [2; 1] 0 2 = Ok [1; 2].
Proof. repeat split. Qed.

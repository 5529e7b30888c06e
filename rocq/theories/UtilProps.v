(** Properties C58, C60, C61, C62: views, flip_map, next/prev, contains. *)
From Verif Require Import Base SortSpec UtilModel UtilSpec UtilProofs.

(** C58. The bound of 2^64 is the range of size_t; a fuel greater than the number of elements is enough. *)
Theorem C58_skip_front : forall A fuel dbg n (c : list A), n <= length c -> (Z.of_nat n < 2 ^ 64)%Z -> length c - n < fuel ->
  skip_front_iterate fuel dbg (Z.of_nat n) c = Ok (skipn n c).
Proof. exact @skip_front_ok. Qed.
Print Assumptions C58_skip_front.

Theorem C58_skip_front_short : forall A fuel dbg n (c : list A), length c < n -> (Z.of_nat n < 2 ^ 64)%Z ->
  skip_front_iterate fuel dbg (Z.of_nat n) c = if dbg then Abort else UB BadPointer.
Proof. exact @skip_front_bad. Qed.
Print Assumptions C58_skip_front_short.

Theorem C58_reverse : forall A fuel (c : list A), length c < fuel -> reverse_iterate fuel c = Ok (rev c).
Proof. exact @reverse_ok. Qed.
Print Assumptions C58_reverse.

(** A zip_view of [cs0], iterated when the collections have become [cs] (the same if they were not
    changed since): every element is a tuple of elements with a common index below the smallest size
    at construction, all such tuples are visited in order, unless a collection got shorter. *)
Theorem C58_zip_size : forall A (cs : list (list A)), cs <> [] -> exists m, zip_min_size cs = Z.of_nat m /\
  Forall (fun c => m <= length c) cs /\ Exists (fun c => m = length c) cs.
Proof. exact @zip_min_spec. Qed.
Print Assumptions C58_zip_size.

Theorem C58_zip : forall A fuel m (cs : list (list A)), cs <> [] -> (Z.of_nat m < 2 ^ 64)%Z ->
  Forall (fun c => m <= length c) cs -> m < fuel ->
  exists ts, zip_iterate fuel (Z.of_nat m) cs = Ok ts /\ length ts = m /\
    forall i t, nth_error ts i = Some t -> row cs i t.
Proof. exact @zip_iterate_ok. Qed.
Print Assumptions C58_zip.

Theorem C58_zip_shrunk : forall A fuel m (cs : list (list A)), (Z.of_nat m < 2 ^ 64)%Z ->
  Exists (fun c => length c < m) cs -> zip_iterate fuel (Z.of_nat m) cs = UB BadPointer.
Proof. exact @zip_iterate_bad. Qed.
Print Assumptions C58_zip_shrunk.

Example C58_case :
  let cs := [[1; 2; 3]; [4; 5]; [6; 7; 8; 9]] in
  zip_iterate 9 (zip_min_size cs) cs = Ok [[1; 4; 6]; [2; 5; 7]] /\
  skip_front_iterate 9 true 2 [1; 2; 3] = Ok [3] /\ reverse_iterate 9 [1; 2; 3] = Ok [3; 2; 1] /\
  deref [1; 2; 3] 3 = UB OutOfBounds.
Proof. vm_compute. auto. Qed.

(** C60. *)
Theorem C60_flip : forall K V (lt : V -> V -> bool), strict_weak_order lt -> forall m : list (K * V),
  is_map lt (flip_map lt m) /\ forall v k, In (v, k) (flip_map lt m) <-> first_with lt m k v.
Proof. exact @flip_spec. Qed.
Print Assumptions C60_flip.

Theorem C60_twice : forall K V (lt1 : K -> K -> bool) (lt2 : V -> V -> bool) (m : list (K * V)),
  strict_weak_order lt1 -> strict_weak_order lt2 -> is_map lt1 m -> distinct_values lt2 m ->
  flip_map lt1 (flip_map lt2 m) = m.
Proof. exact @flip_twice. Qed.
Print Assumptions C60_twice.

Example C60_case :
  flip_map Nat.ltb [(1, 30); (2, 10); (3, 30); (4, 20)] = [(10, 2); (20, 4); (30, 1)] /\
  flip_map Nat.ltb (flip_map Nat.ltb [(1, 30); (2, 10); (4, 20)]) = [(1, 30); (2, 10); (4, 20)] /\
  strict_weak_order Nat.ltb /\ is_map Nat.ltb [(1, 30); (2, 10); (4, 20)] /\
  distinct_values Nat.ltb [(1, 30); (2, 10); (4, 20)].
Proof.
  split; [vm_compute; reflexivity|]. split; [vm_compute; reflexivity|]. split; [|split].
  - split; [apply Nat.ltb_irrefl|]. split; intros x y z; rewrite ?Nat.ltb_lt, ?Nat.ltb_ge; lia.
  - repeat constructor.
  - repeat (constructor; [|constructor || idtac]); repeat constructor; intros [H1 H2]; vm_compute in *; discriminate.
Qed.

(** C61. [maxd] is the greatest value of difference_type, [len] the size of the sequence. A position
    outside of the sequence is undefined behaviour and so would be a difference above [maxd]. *)
Theorem C61_next : forall maxd len, (0 < maxd)%Z -> forall fuel iter n,
  (0 <= iter <= len)%Z -> (0 <= n < 2 ^ 64)%Z -> (n / maxd < Z.of_nat fuel)%Z ->
  next fuel maxd len iter n = if (iter + n <=? len)%Z then Ok (iter + n)%Z else UB BadPointer.
Proof. exact next_exact. Qed.
Print Assumptions C61_next.

Theorem C61_prev : forall maxd len, (0 < maxd)%Z -> forall fuel iter n,
  (0 <= iter <= len)%Z -> (0 <= n < 2 ^ 64)%Z -> (n / maxd < Z.of_nat fuel)%Z ->
  prev fuel maxd len iter n = if (n <=? iter)%Z then Ok (iter - n)%Z else UB BadPointer.
Proof. exact prev_exact. Qed.
Print Assumptions C61_prev.

Theorem C61_inverse : forall maxd len fuel iter n j, (0 < maxd)%Z -> (0 <= iter <= len)%Z -> (0 <= n < 2 ^ 64)%Z ->
  (n / maxd < Z.of_nat fuel)%Z -> next fuel maxd len iter n = Ok j -> prev fuel maxd len j n = Ok iter.
Proof. exact prev_next. Qed.
Print Assumptions C61_inverse.

(** A difference_type of 8 bits, and ptrdiff_t with the greatest size_t. *)
Example C61_case : next 8 127 1000 10 900 = Ok 910%Z /\ prev 8 127 1000 910 900 = Ok 10%Z /\
  next 3 ptrdiff_max (2 ^ 64) 1 (2 ^ 64 - 1) = Ok (2 ^ 64)%Z /\ next 3 127 1000 10 900 = Diverge.
Proof. vm_compute. auto. Qed.

(** C62. [eqb] is operator== of the elements. *)
Theorem C62_contains : forall A eqb (c : list A) v, contains eqb c v = true <-> exists x, In x c /\ eqb x v = true.
Proof. exact @contains_spec. Qed.
Print Assumptions C62_contains.

Theorem C62_contains_map : forall K V (lt : K -> K -> bool) (m : list (K * V)) k, strict_weak_order lt -> is_map lt m ->
  (contains_map lt m k = true <-> exists p, In p m /\ same lt k (fst p)).
Proof. exact @contains_map_spec. Qed.
Print Assumptions C62_contains_map.

Example C62_case : contains Nat.eqb [3; 1; 2] 2 = true /\ contains Nat.eqb [3; 1; 2] 4 = false /\
  contains_map Nat.ltb [(1, 5); (4, 1)] 4 = true /\ contains_map Nat.ltb [(1, 5); (4, 1)] 5 = false.
Proof. vm_compute. auto. Qed.

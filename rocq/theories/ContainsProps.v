(** contains with comparisons that have effects, search trees and hash tables *)
From Verif Require Import Base SortSpec UtilSpec ContainsModel ContainsSpec ContainsProofs.
Local Open Scope nat_scope.

(** C121: the elements of a sequence are compared with == from the first one on, until an answer is true or a comparison fails;
    the failure is that of contains, and nothing is compared after it. *)
Theorem C121_sequence : forall S A B (eq : A -> B -> run S bool) v c s, let (r, s') := contains_sequence eq c v s in
  (r = Ok true /\ exists a x b s1, c = a ++ x :: b /\ passed eq v a s s1 /\ eq x v s1 = (Ok true, s')) \/
  (r = Ok false /\ passed eq v c s s') \/
  (fails r /\ exists a x b s1, c = a ++ x :: b /\ passed eq v a s s1 /\ eq x v s1 = (r, s')).
Proof. exact sequence_cases. Qed.
Print Assumptions C121_sequence.
(** C121: for a std::map the answer is whether there is an equivalent key, whatever the shape of its tree and the effects of the comparison. *)
Theorem C121_map : forall S K V (less : K -> K -> run S bool) (lt : K -> K -> bool), (forall a b s, fst (less a b s) = Ok (lt a b)) -> strict_weak_order lt ->
  forall (t : tree (K * V)) k s, is_map lt (in_order t) ->
  exists b, fst (contains_map less t k s) = Ok b /\ (b = true <-> exists p, In p (in_order t) /\ same lt k (fst p)).
Proof. intros S K V less lt L (_ & T & _) t k s H. exact (map_result S K V less lt L T t k s H). Qed.
Print Assumptions C121_map.
(** C121: a failure is that of a comparison of the key with one in the map, and nothing happens after it. *)
Theorem C121_map_failure : forall S K V (less : K -> K -> run S bool) (t : tree (K * V)) k s r s', contains_map less t k s = (r, s') -> fails r ->
  exists q s1, (less (fst q) k s1 = (r, s') \/ less k (fst q) s1 = (r, s')) /\ In q (in_order t).
Proof. exact map_failure. Qed.
Print Assumptions C121_map_failure.
(** C121: there is at most one comparison more than the tree is high. *)
Theorem C121_map_comparisons : forall K V (lt : K -> K -> bool) (t : tree (K * V)) k,
  snd (contains_map (fun a b n => (Ok (lt a b), Datatypes.S n)) t k 0) <= height t + 1.
Proof. exact map_comparisons. Qed.
Print Assumptions C121_map_comparisons.
(** C121: for a std::unordered_map, after any insertions, erasures and rehashes, it is whether an equal key has been inserted and not
    erased since, if equal keys have equal hashes. *)
Theorem C121_table : forall K V (hash : K -> Z) eq, equivalence eq -> (forall a b, eq a b = true -> hash a = hash b) ->
  forall (ops : list (op K V)) k, contains_table K V hash eq (table_of K V hash eq ops) k = present eq (rev ops) k.
Proof. exact table_result. Qed.
Print Assumptions C121_table.
(** C121: a key is in the table once. *)
Theorem C121_unique : forall K V (hash : K -> Z) eq, equivalence eq -> (forall a b, eq a b = true -> hash a = hash b) ->
  forall ops : list (op K V), let m := table_of K V hash eq ops in
  ForallOrdPairs (fun p q => eq (fst p) (fst q) = false) (flat_map (bucket m) (seq 0 (count m))).
Proof. exact table_unique. Qed.
Print Assumptions C121_unique.
(** C121: the condition on the hashes is needed. *)
Theorem C121_hash_refuted : ~ forall K V (hash : K -> Z) eq, equivalence eq ->
  forall (ops : list (op K V)) k, contains_table K V hash eq (table_of K V hash eq ops) k = present eq (rev ops) k.
Proof.
  intros H. specialize (H nat nat Z.of_nat (fun a b => Nat.eqb (a mod 10) (b mod 10))).
  assert (E : equivalence (fun a b => Nat.eqb (a mod 10) (b mod 10))).
  { repeat split; intros *; rewrite ?Nat.eqb_eq; congruence. }
  specialize (H E [Insert 1 0] 11). discriminate H.
Qed.
Print Assumptions C121_hash_refuted.
(** C121: other ordered containers (std::set, std::multimap) are searched with ==, not with their order. *)
Theorem C121_order_refuted : ~ forall A (lt eq : A -> A -> bool) (c : list A) v, strict_weak_order lt -> StronglySorted (fun x y => lt x y = true) c -> equivalence eq ->
  (fst (contains_sequence (fun x y (s : unit) => (Ok (eq x y), s)) c v tt) = Ok true <-> exists x, In x c /\ same lt v x).
Proof.
  intros H. specialize (H nat (fun a b => Nat.ltb (a mod 10) (b mod 10)) Nat.eqb [1; 2] 11).
  destruct H as (_ & H).
  - repeat split; intros *; rewrite ?Nat.ltb_lt, ?Nat.ltb_ge; lia.
  - repeat constructor.
  - repeat split; intros *; rewrite ?Nat.eqb_eq; congruence.
  - assert (X : exists x, In x [1; 2] /\ same (fun a b => Nat.ltb (a mod 10) (b mod 10)) 11 x) by (exists 1; split; [left; reflexivity|split; reflexivity]).
    specialize (H X). discriminate H.
Qed.
Print Assumptions C121_order_refuted.

(** A comparison that records its arguments, and throws for 7 *)
Definition noting (a b : nat) : run (list nat) bool := fun s => (if Nat.eqb a 7 then Throw LogicError else Ok (Nat.eqb a b), s ++ [a]).
Example C121_case_sequence : contains_sequence noting [3; 5; 1] 5 [] = (Ok true, [3; 5]) /\ contains_sequence noting [3; 5; 1] 2 [] = (Ok false, [3; 5; 1]) /\
  contains_sequence noting [3; 7; 5] 5 [] = (Throw LogicError, [3; 7]) /\ contains_sequence noting [5; 7] 5 [] = (Ok true, [5]).
Proof. repeat split. Qed.
Definition three : tree (nat * nat) := Node (Node Leaf (1, 0) Leaf) (4, 0) (Node Leaf (7, 0) Leaf).
Definition before (a b : nat) : run (list (nat * nat)) bool := fun s => (Ok (Nat.ltb a b), s ++ [(a, b)]).
Example C121_case_map : is_map Nat.ltb (in_order three) /\ contains_map before three 4 [] = (Ok true, [(4, 4); (1, 4); (4, 4)]) /\
  contains_map before three 5 [] = (Ok false, [(4, 5); (7, 5); (5, 7)]) /\ contains_map before three 8 [] = (Ok false, [(4, 8); (7, 8)]) /\
  contains_map (fun a b s => if Nat.eqb a 7 then (Throw LogicError, s ++ [(a, b)]) else before a b s) three 5 [] = (Throw LogicError, [(4, 5); (7, 5)]).
Proof. split; [repeat constructor|repeat split]. Qed.
Example C121_case_table : let c ops k := contains_table nat nat Z.of_nat Nat.eqb (table_of nat nat Z.of_nat Nat.eqb ops) k in
  c [Insert 1 0; Rehash 2; Insert 3 0] 3 = true /\ c [Insert 1 0; Rehash 2; Insert 3 0; Erase 3; Rehash 0] 3 = false /\
  c [Insert 1 0; Rehash 2; Insert 3 0; Erase 3; Rehash 0] 1 = true.
Proof. repeat split. Qed.

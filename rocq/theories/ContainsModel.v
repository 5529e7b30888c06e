(** Model of utki::contains, src/utki/utility.hpp:193-214, with the functions of the containers it calls (libstdc++): std::find, std::map::find
    and std::unordered_map::find. Comparisons of users may have effects on a state [S], throw or fail otherwise. The value has been converted
    to the type of the keys for the maps (their comparisons are not transparent). For contains with comparisons that are functions see UtilModel. *)
From Verif Require Import Base.
Local Open Scope Z_scope.

Definition run (S A : Type) := S -> outcome A * S.
Definition done {S A} (a : A) : run S A := fun s => (Ok a, s).
Definition next_ {S A B} (m : run S A) (k : A -> run S B) : run S B := fun s =>
  match m s with
  | (Ok a, s) => k a s
  | (Throw e, s) => (Throw e, s)
  | (UB r, s) => (UB r, s)
  | (Abort, s) => (Abort, s)
  | (Terminate, s) => (Terminate, s)
  | (Diverge, s) => (Diverge, s)
  end.
Notation "x <~ m ;; k" := (next_ m (fun x => k)) (at level 61, m at next level, right associativity).

(** ** All containers but the two maps: utility.hpp:203-212. [eq x v] is x == v; the result of std::find is the number of elements before it. *)
Fixpoint find_from {S A B} (eq : A -> B -> run S bool) (c : list A) (v : B) (i : nat) : run S nat :=
  match c with
  | [] => done i
  | x :: c => b <~ eq x v ;; if b then done i else find_from eq c v (i + 1)
  end.
Definition contains_sequence {S A B} (eq : A -> B -> run S bool) (c : list A) (v : B) : run S bool :=
  i <~ find_from eq c v 0 ;; done (negb (Nat.eqb i (List.length c))).

(** ** std::map: utility.hpp:197-202. A search tree; std::map::find looks for the first key that is not less than [k]. *)
Inductive tree (P : Type) := Leaf | Node (l : tree P) (p : P) (r : tree P).
Arguments Leaf {P}. Arguments Node {P} _ _ _.
Fixpoint lower_bound {S K V} (less : K -> K -> run S bool) (x : tree (K * V)) (k : K) (y : option (K * V)) : run S (option (K * V)) :=
  match x with
  | Leaf => done y
  | Node l p r => b <~ less (fst p) k ;; if b then lower_bound less r k y else lower_bound less l k (Some p)
  end.
Definition map_find {S K V} (less : K -> K -> run S bool) (t : tree (K * V)) (k : K) : run S (option (K * V)) :=
  j <~ lower_bound less t k None ;;
  match j with
  | None => done None
  | Some p => b <~ less k (fst p) ;; done (if b then None else Some p)
  end.
Definition contains_map {S K V} (less : K -> K -> run S bool) (t : tree (K * V)) (k : K) : run S bool :=
  p <~ map_find less t k ;; done (match p with None => false | Some _ => true end).

(** ** std::unordered_map: utility.hpp:197-202. [count] buckets; [hash] is of type size_t. *)
Record table (K V : Type) := { count : nat; bucket : nat -> list (K * V) }.
Arguments count {K V} _. Arguments bucket {K V} _ _.
Section Table.
Variables (K V : Type) (hash : K -> Z) (eq : K -> K -> bool).
Definition place (n : nat) (k : K) : nat := Z.to_nat (hash k mod Z.of_nat n).
(** A node fits if its hash is that of the key, and its key is equal. *)
Definition fits (k : K) (p : K * V) : bool := (hash k =? hash (fst p)) && eq k (fst p).
Definition table_find (m : table K V) (k : K) : option (K * V) := find (fits k) (bucket m (place (count m) k)).
Definition contains_table (m : table K V) (k : K) : bool := match table_find m k with None => false | Some _ => true end.
(** How tables come about: insert, erase(key) and rehash *)
Inductive op := Insert (k : K) (v : V) | Erase (k : K) | Rehash (n : nat).
Definition set_bucket (m : table K V) (i : nat) (b : list (K * V)) : table K V :=
  {| count := count m; bucket := fun j => if Nat.eqb j i then b else bucket m j |}.
Definition apply_op (m : table K V) (o : op) : table K V :=
  match o with
  | Insert k v => match table_find m k with
                  | Some _ => m
                  | None => let i := place (count m) k in set_bucket m i ((k, v) :: bucket m i)
                  end
  | Erase k => let i := place (count m) k in set_bucket m i (filter (fun p => negb (fits k p)) (bucket m i))
  | Rehash n => let n := Nat.max 1 n in
                let all := flat_map (bucket m) (seq 0 (count m)) in
                {| count := n; bucket := fun i => filter (fun p => Nat.eqb (place n (fst p)) i) all |}
  end.
Definition new_table : table K V := {| count := 1; bucket := fun _ => [] |}.
Definition table_of (ops : list op) : table K V := fold_left apply_op ops new_table.
End Table.
Arguments Insert {K V} _ _. Arguments Erase {K V} _. Arguments Rehash {K V} _.

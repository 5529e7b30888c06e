(** Tests, not theorems: what the project's own unit tests expect of trees and traversals (tests/unit/src/tree.cpp),
    computed with the models. The numbers are lines of that file. *)
From Verif Require Import Base TreeModel TreeMoreModel.
Local Open Scope Z_scope.

Definition leaf (v : Z) : tree Z := Node v [].
Definition node (v : Z) (l : list Z) : tree Z := Node v (map leaf l).
(** the forest of all the tests of traversals, e.g. 411-421 *)
Definition roots : list (tree Z) :=
  [node 1 [34; 45]; Node 2 [node 3 [78; 89; 96]; node 4 [32; 64; 128]; node 42 [98; 99; 100]]].
Definition values (m : outcome (list (tree Z))) : outcome (list Z) := l <- m ;; Ok (map value l).
Definition value_of (m : outcome (tree Z)) : outcome Z := t <- m ;; Ok (value t).
(** the value an iterator refers to *)
Definition at_ (f : list (tree Z)) (m : outcome iterator) : outcome Z := i <- m ;; value_of (deref f i).
Definition last_ (f : list (tree Z)) (m : outcome iterator) : outcome bool := i <- m ;; is_last_child f i.
Definition cmp (o : iterator -> iterator -> outcome bool) (a b : list nat) : outcome bool :=
  x <- make_iterator roots a ;; y <- make_iterator roots b ;; o x y.
Notation ix := (fun l => map Z.to_nat l).

(** 408-635: forward traversals *)
Example test_forward dbg :
  values (forward dbg roots) = Ok [1; 34; 45; 2; 3; 78; 89; 96; 4; 32; 64; 128; 42; 98; 99; 100].
Proof. destruct dbg; vm_compute; reflexivity. Qed.
(** 636-887: reverse traversals *)
Example test_backward dbg :
  values (backward dbg roots) = Ok [100; 99; 98; 42; 128; 64; 32; 4; 96; 89; 78; 3; 2; 45; 34; 1].
Proof. destruct dbg; vm_compute; reflexivity. Qed.
(** 888-1081: six steps lead to the index {1, 0, 1}; the iterator made from it is the same *)
Example test_index dbg :
  (b <- it_begin roots ;;
   i <- incr_n dbg roots 6 b ;;
   index dbg roots i) = Ok (ix [1; 0; 1]) /\
  (b <- it_begin roots ;;
   i <- incr_n dbg roots 6 b ;;
   j <- make_iterator roots (ix [1; 0; 1]) ;;
   it_eq i j) = Ok true.
Proof. destruct dbg; vm_compute; auto. Qed.
(** 1082-1113 *)
Example test_is_valid :
  map (fun l => is_valid roots (ix l))
    [[]; [0]; [0; 0]; [0; 1]; [0; 1; 0]; [0; 2]; [1]; [1; 0]; [1; 0; 0]; [1; 1; 0]; [1; 1; 0; 2]; [3; 1]] =
  map Ok [false; true; true; true; false; false; true; true; true; true; false; false].
Proof. vm_compute; reflexivity. Qed.
(** 1114-1141 *)
Example test_square_brackets dbg :
  map (fun l => value_of (at_index dbg roots (ix l)))
    [[0]; [0; 0]; [0; 1]; [1]; [1; 0]; [1; 0; 0]; [1; 1; 0]; [1; 1; 2]] = map Ok [1; 34; 45; 2; 3; 78; 32; 128].
Proof. destruct dbg; vm_compute; reflexivity. Qed.
(** 1142-1171 *)
Example test_comparison :
  let a := ix [0; 1] in let b := ix [1; 1; 2] in
  [cmp it_lt a b; cmp it_gt b a; cmp it_le a b; cmp it_ge b a; cmp it_ne a b; cmp it_eq b b; cmp it_ge b b;
   cmp it_le b b] = repeat (Ok true) 8.
Proof. vm_compute; reflexivity. Qed.
(** 1172-1199 *)
Example test_insertion dbg :
  last_ roots (make_iterator roots (ix [1; 1])) = Ok false /\
  (i <- make_iterator roots (ix [1; 1]) ;;
   r <- insert roots i (leaf 45) ;;
   let '(f, j) := r in
   t <- deref f j ;;
   let k := make_iterator f (ix [1; 1]) in
   v <- at_ f k ;;
   w <- at_ f (k <- k ;; incr dbg f k) ;;
   Ok (value t, length (children t), v, w)) = Ok (45, O, 45, 4).
Proof. destruct dbg; vm_compute; auto. Qed.
(** 1200-1231 *)
Example test_insert_after dbg :
  last_ roots (make_iterator roots (ix [1; 2])) = Ok true /\
  (i <- make_iterator roots (ix [1; 2]) ;;
   r <- insert_after roots i (node 45 [46; 47]) ;;
   let '(f, j) := r in
   b <- is_last_child f j ;;
   v <- at_ f (Ok j) ;;
   w <- at_ f (incr dbg f j) ;;
   Ok (b, v, w)) = Ok (true, 45, 46).
Proof. destruct dbg; vm_compute; auto. Qed.
(** 1232-1281 *)
Definition erase_at (dbg : bool) (l : list Z) : outcome (bool * (Z * bool)) :=
  i <- make_iterator roots (ix l) ;;
  b <- is_last_child roots i ;;
  r <- erase dbg roots i ;;
  let '(f, j) := r in
  v <- at_ f (Ok j) ;;
  c <- is_last_child f j ;;
  Ok (b, (v, c)).
Example test_erase dbg :
  erase_at dbg [1; 1] = Ok (false, (42, true)) /\ erase_at dbg [1; 0; 2] = Ok (true, (4, false)).
Proof. destruct dbg; vm_compute; auto. Qed.
(** 1282-1308 *)
Example test_erase_very_last dbg :
  (i <- make_iterator roots (ix [1; 2; 2]) ;;
   b <- is_last_child roots i ;;
   r <- erase dbg roots i ;;
   let '(f, j) := r in
   c <- is_last_child f j ;;
   e <- it_end f ;;
   d <- it_eq j e ;;
   Ok (b, c, d)) = Ok (true, false, true).
Proof. destruct dbg; vm_compute; auto. Qed.
(** 1310-1371 *)
Example test_depth :
  map (fun l => i <- make_iterator roots (ix l) ;; Ok (depth i)) [[]; [1; 2; 2]; [1; 2]] = [Ok 0%nat; Ok 3%nat; Ok 2%nat].
Proof. vm_compute; reflexivity. Qed.
Example test_at_level :
  let level l d := value_of (i <- make_iterator roots (ix l) ;; at_level roots i d) in
  [level [1; 2; 2] 0%nat; level [1; 2; 2] 1%nat; level [1; 2; 2] 2%nat; level [0; 1] 0%nat; level [0; 1] 1%nat] =
  map Ok [2; 42; 100; 1; 45].
Proof. vm_compute; reflexivity. Qed.
(** 117-221: comparisons *)
Example test_tree_comparison :
  let eq a b := Ok (a =? b) in
  let t v w := Node v [node w [34; 45]; Node 11 [node 14 [78; 89; 96]; node 15 [32; 64; 128]; node 42 [98; 99; 100]]] in
  eq_value eq (node 42 [98; 99; 100]) 42 = Ok true /\
  map (fun p : tree Z * tree Z => tree_eq eq (fst p) (snd p))
    [(t 10 13, t 10 13); (t 10 17, t 10 13); (t 10 17, t 10 17); (t 20 13, t 10 13); (t 20 13, t 20 13)] =
  map Ok [true; false; true; false; true].
Proof. vm_compute; auto. Qed.

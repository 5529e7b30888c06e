(** Property C114: iterators kept while a tree changes. *)
From Verif Require Import Base TreeModel TreeSpec TreeMemModel TreeMemSpec TreeMemProofs.

(** Every forest can be put into memory; every position has its iterator. *)
Theorem C114_load : forall (V : Type) (f : list (tree V)), sound (load f) /\ forest (load f) = f.
Proof. exact @load_sound. Qed.
Print Assumptions C114_load.
Theorem C114_stands : forall (V : Type) (m : mem V) n p, nth_error (positions (forest m)) n = Some p -> exists it, stands m p it.
Proof. exact @stands_exists. Qed.
Print Assumptions C114_stands.

(** The iterator that stands at a position moves to the next one and back, gives the node there, and compares as its position. *)
Theorem C114_moves : forall (V : Type) dbg (m : mem V) n p q it, sound m ->
  nth_error (positions (forest m)) n = Some p -> nth_error (positions (forest m)) (S n) = Some q -> stands m p it ->
  exists it', mem_incr dbg m it = Ok it' /\ stands m q it' /\ mem_decr dbg m it' = Ok it /\
    mem_deref m it = match node_at (forest m) p with Some s => Ok s | None => UB OutOfBounds end.
Proof. exact @moves_ok. Qed.
Print Assumptions C114_moves.
Theorem C114_eq : forall (V : Type) (m : mem V) n n' p p' it it', sound m ->
  nth_error (positions (forest m)) n = Some p -> nth_error (positions (forest m)) n' = Some p' ->
  stands m p it -> stands m p' it' -> mem_eq m it it' = Ok (Nat.eqb n n').
Proof. exact @eq_ok. Qed.
Print Assumptions C114_eq.

(** The iterators that insert, insert_after and erase return are valid in the changed tree, although parts of the iterator were
    obtained before the change. *)
Theorem C114_insert : forall (V : Type) kd re (m : mem V) n p it t, sound m -> nth_error (positions (forest m)) n = Some p -> stands m p it ->
  exists before after m' it',
    mem_insert kd re m it t = Ok (m', it') /\ sound m' /\ stands m' p it' /\
    outline 0 (forest m) = before ++ after /\ length before = n /\
    outline 0 (forest m') = before ++ outline (pred (length p)) [t] ++ after /\
    mem_deref m' it' = Ok t.
Proof. exact @mem_insert_ok. Qed.
Print Assumptions C114_insert.
Theorem C114_insert_after : forall (V : Type) kd re (m : mem V) n c i s it t, sound m -> nth_error (preorder (forest m)) n = Some (c ++ [i]) ->
  node_at (forest m) (c ++ [i]) = Some s -> stands m (c ++ [i]) it ->
  exists before after m' it',
    mem_insert_after kd re m it t = Ok (m', it') /\ sound m' /\ stands m' (c ++ [S i]) it' /\
    outline 0 (forest m) = before ++ outline (length c) [s] ++ after /\ length before = n /\
    outline 0 (forest m') = before ++ outline (length c) [s] ++ outline (length c) [t] ++ after /\
    mem_deref m' it' = Ok t.
Proof. exact @mem_insert_after_ok. Qed.
Print Assumptions C114_insert_after.
Theorem C114_erase : forall (V : Type) dbg kd (m : mem V) n p s it, sound m -> nth_error (preorder (forest m)) n = Some p ->
  node_at (forest m) p = Some s -> stands m p it ->
  exists before after m' it' q,
    mem_erase dbg kd m it = Ok (m', it') /\ sound m' /\
    outline 0 (forest m) = before ++ outline (pred (length p)) [s] ++ after /\ length before = n /\
    outline 0 (forest m') = before ++ after /\
    nth_error (positions (forest m')) n = Some q /\ stands m' q it'.
Proof. exact @mem_erase_ok. Qed.
Print Assumptions C114_erase.

(** Any other iterator [jt], standing at [p] before the insertion at position [i] of the container at [q].
    std::vector: it stays valid exactly if its path does not go through the elements that moved; otherwise it stands nowhere.
    std::list: it stays valid, at its path with the shift. In both cases a node deeper than the container can still be
    reached through it. *)
Theorem C114_insert_keeps : forall (V : Type) kd re (m : mem V) q i it t m' it' p jt, sound m -> stands m (q ++ [i]) it ->
  mem_insert kd re m it t = Ok (m', it') -> stands m p jt ->
  match kd with
  | Vector =>
      (~ through q (fun j => re = true \/ i <= j) p -> stands m' p jt) /\
      (through q (fun j => re = true \/ i <= j) p ->
        (exists a, nth_error (m_iters jt) (length q) = Some a /\ ~ In a (addresses m')) /\ forall p', ~ stands m' p' jt)
  | List =>
      (~ through q (fun j => i <= j) p -> stands m' p jt) /\
      (forall j r, p = q ++ j :: r -> i <= j -> stands m' (q ++ S j :: r) jt)
  end /\
  (forall j r s, p = q ++ j :: r -> r <> [] -> node_at (forest m) p = Some s -> mem_deref m' jt = Ok s).
Proof. exact @insert_keeps. Qed.
Print Assumptions C114_insert_keeps.
Theorem C114_erase_keeps : forall (V : Type) dbg kd (m : mem V) q i s0 it m' it' p jt, sound m -> stands m (q ++ [i]) it ->
  node_at (forest m) (q ++ [i]) = Some s0 -> mem_erase dbg kd m it = Ok (m', it') -> stands m p jt ->
  (~ through q (fun j => i <= j) p -> stands m' p jt) /\
  match kd with
  | Vector =>
      through q (fun j => i <= j) p ->
        (exists a, nth_error (m_iters jt) (length q) = Some a /\ ~ In a (addresses m')) /\ forall p', ~ stands m' p' jt
  | List => forall j r, p = q ++ S j :: r -> i <= j -> stands m' (q ++ j :: r) jt
  end /\
  (forall j r s, p = q ++ j :: r -> j <> i -> r <> [] -> node_at (forest m) p = Some s -> mem_deref m' jt = Ok s) /\
  (forall r, p = q ++ i :: r -> mem_deref m' jt = UB UseAfterFree /\ forall p', ~ stands m' p' jt).
Proof. exact @erase_keeps. Qed.
Print Assumptions C114_erase_keeps.

(** Every use of an iterator to an element that moved or was erased is undefined. *)
Theorem C114_insert_stale : forall (V : Type) re (m : mem V) q i it t m' it' j jt, sound m -> stands m (q ++ [i]) it ->
  mem_insert Vector re m it t = Ok (m', it') -> stands m (q ++ [j]) jt -> re = true \/ i <= j ->
  mem_deref m' jt = UB UseAfterFree /\ (forall dbg, mem_incr dbg m' jt = UB UseAfterFree) /\ (forall dbg, mem_decr dbg m' jt = UB UseAfterFree) /\
  forall kd re t, mem_insert kd re m' jt t = UB UseAfterFree.
Proof. exact @insert_stale_use. Qed.
Print Assumptions C114_insert_stale.
Theorem C114_erase_stale : forall (V : Type) dbg kd (m : mem V) q i s0 it m' it' j jt, sound m -> stands m (q ++ [i]) it ->
  node_at (forest m) (q ++ [i]) = Some s0 -> mem_erase dbg kd m it = Ok (m', it') -> stands m (q ++ [j]) jt -> j = i \/ kd = Vector /\ i <= j ->
  mem_deref m' jt = UB UseAfterFree /\ (forall dbg, mem_incr dbg m' jt = UB UseAfterFree) /\ (forall dbg, mem_decr dbg m' jt = UB UseAfterFree) /\
  forall kd re t, mem_insert kd re m' jt t = UB UseAfterFree.
Proof. exact @erase_stale_use. Qed.
Print Assumptions C114_erase_stale.

(** 1(2 3(4)) 5 6(7); the iterators at the paths given *)
Definition sample_mem : mem nat := load [Node 1 [Node 2 []; Node 3 [Node 4 []]]; Node 5 []; Node 6 [Node 7 []]].
Definition iter_at (m : mem nat) (p : path) : m_iterator :=
  match trail None (top m) p with Some (ls, is) => MIterator ls is | None => MIterator [] [] end.
Definition after {A} (r : outcome (mem nat * A)) : mem nat := match r with Ok (m, _) => m | _ => sample_mem end.
(** 8 before 3: the iterator at 4 becomes unusable for --, that at 2 does not, that at 7 neither *)
Example C114_case :
  stands sample_mem [0; 1; 0] (MIterator [None; Some 1; Some 5] [1; 5; 7]) /\
  let m := after (mem_insert Vector false sample_mem (iter_at sample_mem [0; 1]) (Node 8 [])) in
  let l := after (mem_insert List false sample_mem (iter_at sample_mem [0; 1]) (Node 8 [])) in
  forest m = [Node 1 [Node 2 []; Node 8 []; Node 3 [Node 4 []]]; Node 5 []; Node 6 [Node 7 []]] /\ forest l = forest m /\
  mem_deref m (iter_at sample_mem [0; 1; 0]) = Ok (Node 4 []) /\
  mem_decr true m (iter_at sample_mem [0; 1; 0]) = UB UseAfterFree /\
  mem_deref m (iter_at sample_mem [0; 1]) = UB UseAfterFree /\
  iter_at m [0; 0] = iter_at sample_mem [0; 0] /\ iter_at m [2; 0] = iter_at sample_mem [2; 0] /\
  mem_incr true m (iter_at sample_mem [0; 0]) = Ok (iter_at m [0; 1]) /\
  iter_at l [0; 2; 0] = iter_at sample_mem [0; 1; 0] /\ mem_decr true l (iter_at sample_mem [0; 1; 0]) = Ok (iter_at sample_mem [0; 1]).
Proof. vm_compute. repeat split. Qed.
Example C114_erase_case :
  let m := after (mem_erase true Vector sample_mem (iter_at sample_mem [0; 1; 0])) in
  mem_erase true Vector sample_mem (iter_at sample_mem [0; 1; 0]) = Ok (m, iter_at m [1]) /\
  forest m = [Node 1 [Node 2 []; Node 3 []]; Node 5 []; Node 6 [Node 7 []]] /\
  mem_deref m (iter_at sample_mem [0; 1; 0]) = UB UseAfterFree /\ mem_deref m (iter_at sample_mem [0; 1]) = Ok (Node 3 []).
Proof. vm_compute. repeat split. Qed.

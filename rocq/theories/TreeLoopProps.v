(** Property C117: loops that erase nodes while they walk over a tree. *)
From Verif Require Import Base TreeModel TreeSpec TreeMoreSpec TreeMemModel TreeMemSpec TreeMemProps TreeLoopModel TreeLoopSpec TreeLoopProofs.

(** end() evaluated in every step: for vectors and lists the loop is the recursive walk, with the same effects in the same order,
    and no invalid iterator is used. Whatever ends the loop, the nodes not yet reached are still there. *)
Theorem C117_loop : forall (V W : Type) (decide : tree V -> W -> W * outcome action) dbg kd (m : mem V) w, sound m ->
  let '(f, w', r) := each (walk decide) (forest m) w in
  exists m', mem_erase_where decide dbg kd false m w = (m', w', r) /\ sound m' /\ forest m' = f.
Proof. intros V W decide dbg kd m w S. pose proof (erase_where_mem decide dbg kd false m w S) as H. destruct kd; exact H. Qed.
Print Assumptions C117_loop.

(** end() evaluated once: the same for std::list. *)
Theorem C117_cached_list : forall (V W : Type) (decide : tree V -> W -> W * outcome action) dbg (m : mem V) w, sound m ->
  let '(f, w', r) := each (walk decide) (forest m) w in
  exists m', mem_erase_where decide dbg List true m w = (m', w', r) /\ sound m' /\ forest m' = f.
Proof. intros V W decide dbg m w S. exact (erase_where_mem decide dbg List true m w S). Qed.
Print Assumptions C117_cached_list.
(** For std::vector it is right as long as no root is erased; the first erasure of a root makes the loop undefined. *)
Theorem C117_cached_vector : forall (V W : Type) (decide : tree V -> W -> W * outcome action) dbg (m : mem V) w, sound m ->
  (let '(f, w', r) := each (walk decide) (forest m) w in
   exists m', mem_erase_where decide dbg Vector true m w = (m', w', r) /\ sound m' /\ forest m' = f) \/
  exists l1 t l2 l1' w1 w2 m', forest m = l1 ++ t :: l2 /\ each (walk decide) l1 w = (l1', w1, Ok true) /\ decide t w1 = (w2, Ok Erase) /\
    mem_erase_where decide dbg Vector true m w = (m', w2, UB UseAfterFree) /\ forest m' = l1' ++ l2.
Proof.
  intros V W decide dbg m w S. pose proof (erase_where_mem decide dbg Vector true m w S) as H. cbv iota in H.
  destruct (each_root decide (forest m) w) as [E|(l1 & t & l2 & l1' & w1 & w2 & E1 & E2 & E3 & E4)].
  - left. rewrite E in H. exact H.
  - right. rewrite E4 in H. destruct H as [m' [H1 [_ H2]]]. exists l1, t, l2, l1', w1, w2, m'. auto.
Qed.
Print Assumptions C117_cached_vector.
(** The first case is the one without erased roots. *)
Theorem C117_roots_kept : forall (V W : Type) (decide : tree V -> W -> W * outcome action) dbg (m : mem V) w, sound m ->
  (forall t w, In t (forest m) -> snd (decide t w) <> Ok Erase) ->
  let '(f, w', r) := each (walk decide) (forest m) w in
  exists m', mem_erase_where decide dbg Vector true m w = (m', w', r) /\ sound m' /\ forest m' = f.
Proof.
  intros V W decide dbg m w S K. destruct (C117_cached_vector V W decide dbg m w S) as [H|(l1 & t & l2 & l1' & w1 & w2 & m' & E1 & E2 & E3 & _)]; [exact H|].
  exfalso. apply (K t w1); [rewrite E1; apply in_or_app; right; left; reflexivity|]. rewrite E3. reflexivity.
Qed.
Print Assumptions C117_roots_kept.

(** With a predicate without effects this is C74. *)
Theorem C117_pure : forall (V : Type) (pred : tree V -> bool) (f : list (tree V)) log,
  each (walk (fun t log => (log ++ [t], Ok (if pred t then Erase else Next)))) f log = (prune pred f, log ++ flat_map (exposed pred) f, Ok true).
Proof. exact @walk_pure. Qed.
Print Assumptions C117_pure.

(** Inserting a node of the tree itself, also into its own subtree, inserts a copy of what it was before. *)
Theorem C117_insert_own : forall (V : Type) kd re (m : mem V) n p it p' s jt, sound m -> nth_error (positions (forest m)) n = Some p -> stands m p it ->
  node_at (forest m) p' = Some s -> stands m p' jt ->
  exists before after m' it',
    mem_insert_own kd re m it jt = Ok (m', it') /\ sound m' /\ stands m' p it' /\
    outline 0 (forest m) = before ++ after /\ length before = n /\
    outline 0 (forest m') = before ++ outline (pred (length p)) [s] ++ after /\
    mem_deref m' it' = Ok s.
Proof. exact @insert_own_ok. Qed.
Print Assumptions C117_insert_own.
Theorem C117_insert_after_own : forall (V : Type) kd re (m : mem V) n c i s it p' s' jt, sound m -> nth_error (preorder (forest m)) n = Some (c ++ [i]) ->
  node_at (forest m) (c ++ [i]) = Some s -> stands m (c ++ [i]) it -> node_at (forest m) p' = Some s' -> stands m p' jt ->
  exists before after m' it',
    mem_insert_after_own kd re m it jt = Ok (m', it') /\ sound m' /\ stands m' (c ++ [S i]) it' /\
    outline 0 (forest m) = before ++ outline (length c) [s] ++ after /\ length before = n /\
    outline 0 (forest m') = before ++ outline (length c) [s] ++ outline (length c) [s'] ++ after /\
    mem_deref m' it' = Ok s'.
Proof. exact @insert_after_own_ok. Qed.
Print Assumptions C117_insert_after_own.

(** On the sample 1(2 3(4)) 5 6(7), even values are erased; the state counts the calls, and the fifth call throws in the last case. *)
Definition even_count (limit : nat) (t : tree nat) (n : nat) : nat * outcome action :=
  (S n, if Nat.eqb n limit then Throw RuntimeError else Ok (if Nat.even (value t) then Erase else Next)).
Definition left {A B} (r : mem nat * A * B) : list (tree nat) * A * B := let '(m, a, b) := r in (forest m, a, b).
Example C117_case :
  left (mem_erase_where (even_count 100) true Vector false sample_mem 0) = ([Node 1 [Node 3 []]; Node 5 []], 6, Ok true) /\
  left (mem_erase_where (even_count 100) true List true sample_mem 0) = ([Node 1 [Node 3 []]; Node 5 []], 6, Ok true) /\
  left (mem_erase_where (even_count 100) true Vector true sample_mem 0) = ([Node 1 [Node 3 []]; Node 5 []], 6, UB UseAfterFree) /\
  left (mem_erase_where (even_count 4) true Vector true sample_mem 0) = ([Node 1 [Node 3 []]; Node 5 []; Node 6 [Node 7 []]], 5, Throw RuntimeError) /\
  left (mem_erase_where (fun t w => (w, Ok (if Nat.eqb (value t) 5 then Stop else Erase))) true List true sample_mem 0) =
    ([Node 5 []; Node 6 [Node 7 []]], 0, Ok false).
Proof. vm_compute. repeat split. Qed.
Example C117_own_case :
  forest (after (mem_insert_own Vector false sample_mem (iter_at sample_mem [0; 1]) (iter_at sample_mem [0]))) =
    [Node 1 [Node 2 []; Node 1 [Node 2 []; Node 3 [Node 4 []]]; Node 3 [Node 4 []]]; Node 5 []; Node 6 [Node 7 []]].
Proof. reflexivity. Qed.

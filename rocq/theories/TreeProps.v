(** Properties C33 to C39: tree and traversal. *)
From Verif Require Import Base TreeModel TreeSpec TreeProofs TreeEditProofs.

(** Sample forest: 1(2 3(4)) 5 6(7). *)
Definition sample : list (tree nat) :=
  [Node 1 [Node 2 []; Node 3 [Node 4 []]]; Node 5 []; Node 6 [Node 7 []]].
Example sample_positions : positions sample = [[0]; [0; 0]; [0; 1]; [0; 1; 0]; [1]; [2]; [2; 0]; [3]].
Proof. reflexivity. Qed.
Example sample_outline : outline 0 sample = [(0, 1); (1, 2); (1, 3); (2, 4); (0, 5); (0, 6); (1, 7)].
Proof. reflexivity. Qed.

(** ** C33 *)
Theorem C33_forward : forall (V : Type) dbg (f : list (tree V)), forward dbg f = Ok (nodes f).
Proof. exact @forward_ok. Qed.
Print Assumptions C33_forward.

(** The iterator after [n] increments stands at the [n]-th position; the positions are distinct and
    the last one is end(). *)
Theorem C33_steps : forall (V : Type) dbg (f : list (tree V)) n p, nth_error (positions f) n = Some p ->
  exists b, it_begin f = Ok b /\ incr_n dbg f n b = Ok (at_path p).
Proof. exact @steps_ok. Qed.
Print Assumptions C33_steps.

Theorem C33_distinct : forall (V : Type) (f : list (tree V)),
  NoDup (positions f) /\ map (node_at f) (preorder f) = map Some (nodes f) /\
  it_end f = Ok (at_path [length f]) /\ length (preorder f) = length (nodes f).
Proof. exact @positions_facts. Qed.
Print Assumptions C33_distinct.

(** Every node of the forest is among the visited positions. *)
Theorem C33_complete : forall (V : Type) (f : list (tree V)) p,
  (exists t, node_at f p = Some t) <-> In p (preorder f).
Proof. exact @preorder_complete. Qed.
Print Assumptions C33_complete.

Example C33_case : match forward true sample with Ok l => map value l | _ => [] end = [1; 2; 3; 4; 5; 6; 7].
Proof. reflexivity. Qed.

(** ** C34 *)
Theorem C34_backward : forall (V : Type) dbg (f : list (tree V)), backward dbg f = Ok (rev (nodes f)).
Proof. exact @backward_ok. Qed.
Print Assumptions C34_backward.

Theorem C34_inverse : forall (V : Type) dbg (f : list (tree V)) n p q,
  nth_error (positions f) n = Some p -> nth_error (positions f) (S n) = Some q ->
  incr dbg f (at_path p) = Ok (at_path q) /\ decr dbg f (at_path q) = Ok (at_path p).
Proof. exact @incr_decr. Qed.
Print Assumptions C34_inverse.

Example C34_case : match backward true sample with Ok l => map value l | _ => [] end = [7; 6; 5; 4; 3; 2; 1] /\
  incr true sample (at_path [0; 1; 0]) = Ok (at_path [1]) /\ decr true sample (at_path [1]) = Ok (at_path [0; 1; 0]).
Proof. repeat split. Qed.

(** ** C35 *)
Theorem C35_is_valid : forall (V : Type) (f : list (tree V)) ix,
  is_valid f ix = Ok (match node_at f ix with Some _ => true | None => false end).
Proof. exact @is_valid_ok. Qed.
Print Assumptions C35_is_valid.

Theorem C35_make_iterator : forall (V : Type) (f : list (tree V)) ix, ix <> [] ->
  make_iterator f ix = match node_at f ix with Some _ => Ok (at_path ix) | None => Throw OutOfRange end.
Proof. exact @make_iterator_node. Qed.
Print Assumptions C35_make_iterator.

(** The empty index is accepted by make_iterator, but the iterator cannot be used. *)
Theorem C35_make_empty : forall (V : Type) (f : list (tree V)),
  make_iterator f [] = Ok (Iterator [] []) /\ deref f (Iterator [] []) = UB OutOfBounds /\
  is_valid f [] = Ok false.
Proof. exact @make_iterator_empty. Qed.
Print Assumptions C35_make_empty.

Theorem C35_index : forall (V : Type) dbg (f : list (tree V)) ix t, node_at f ix = Some t ->
  exists it, make_iterator f ix = Ok it /\ index dbg f it = Ok ix /\ deref f it = Ok t /\
    at_index dbg f ix = Ok t.
Proof. exact @index_roundtrip. Qed.
Print Assumptions C35_index.

(** The index of every position, end() included. *)
Theorem C35_index_of : forall (V : Type) dbg (f : list (tree V)) p, In p (positions f) ->
  index dbg f (at_path p) = Ok p /\
  deref f (at_path p) = match node_at f p with Some t => Ok t | None => UB OutOfBounds end.
Proof. exact @index_position. Qed.
Print Assumptions C35_index_of.

Theorem C35_subscript_invalid : forall (V : Type) (f : list (tree V)) ix, node_at f ix = None ->
  at_index true f ix = Abort /\
  at_index false f ix = (if match ix with [] => true | _ => false end then UB OutOfBounds else Throw OutOfRange).
Proof. exact @at_index_bad. Qed.
Print Assumptions C35_subscript_invalid.

Example C35_case :
  make_iterator sample [0; 1; 0] = Ok (at_path [0; 1; 0]) /\ make_iterator sample [0; 2] = Throw OutOfRange /\
  make_iterator sample [1; 0] = Throw OutOfRange /\ is_valid sample [2; 0] = Ok true /\
  is_valid sample [2; 1] = Ok false /\ at_index false sample [0; 1] = Ok (Node 3 [Node 4 []]).
Proof. repeat split. Qed.

(** ** C36 *)
Theorem C36_comparisons : forall (V : Type) (f : list (tree V)) m n p q,
  nth_error (positions f) m = Some p -> nth_error (positions f) n = Some q ->
  it_eq (at_path p) (at_path q) = Ok (Nat.eqb m n) /\ it_ne (at_path p) (at_path q) = Ok (negb (Nat.eqb m n)) /\
  it_lt (at_path p) (at_path q) = Ok (Nat.ltb m n) /\ it_gt (at_path p) (at_path q) = Ok (Nat.ltb n m) /\
  it_le (at_path p) (at_path q) = Ok (Nat.leb m n) /\ it_ge (at_path p) (at_path q) = Ok (Nat.leb n m).
Proof. exact @comparisons. Qed.
Print Assumptions C36_comparisons.

Example C36_case : it_lt (at_path [0; 1; 0]) (at_path [1]) = Ok true /\ it_gt (at_path [2]) (at_path [2; 0]) = Ok false /\
  it_le (at_path [2; 0]) (at_path [3]) = Ok true /\ it_eq (at_path [0; 1]) (at_path [0]) = Ok false.
Proof. repeat split. Qed.

(** ** C37 *)
(** [outline d f] lists the nodes in traversal order with their depths, roots having depth [d]. *)
Theorem C37_insert : forall (V : Type) (f : list (tree V)) n p t, nth_error (positions f) n = Some p ->
  exists before after f',
    insert f (at_path p) t = Ok (f', at_path p) /\
    outline 0 f = before ++ after /\ length before = n /\
    outline 0 f' = before ++ outline (pred (length p)) [t] ++ after /\
    node_at f' p = Some t.
Proof. exact @insert_ok. Qed.
Print Assumptions C37_insert.

Theorem C37_insert_after : forall (V : Type) (f : list (tree V)) n c i s t,
  nth_error (preorder f) n = Some (c ++ [i]) -> node_at f (c ++ [i]) = Some s ->
  exists before after f',
    insert_after f (at_path (c ++ [i])) t = Ok (f', at_path (c ++ [S i])) /\
    outline 0 f = before ++ outline (length c) [s] ++ after /\ length before = n /\
    outline 0 f' = before ++ outline (length c) [s] ++ outline (length c) [t] ++ after /\
    node_at f' (c ++ [S i]) = Some t.
Proof. exact @insert_after_ok. Qed.
Print Assumptions C37_insert_after.

(** insert_after(end()) moves past the end of a container. *)
Theorem C37_insert_after_end : forall (V : Type) (f : list (tree V)) t e, it_end f = Ok e ->
  insert_after f e t = UB OutOfBounds.
Proof. exact @insert_after_end. Qed.
Print Assumptions C37_insert_after_end.

(** The outline determines the forest, so the equations above fix the result completely. *)
Theorem C37_outline_determines : forall (V : Type) (f : list (tree V)) d f', outline d f = outline d f' -> f = f'.
Proof. exact @outline_inj. Qed.
Print Assumptions C37_outline_determines.

Example C37_case :
  insert sample (at_path [0; 1]) (Node 8 [Node 9 []]) =
    Ok ([Node 1 [Node 2 []; Node 8 [Node 9 []]; Node 3 [Node 4 []]]; Node 5 []; Node 6 [Node 7 []]], at_path [0; 1]) /\
  insert sample (at_path [3]) (Node 8 []) = Ok (sample ++ [Node 8 []], at_path [3]) /\
  insert_after sample (at_path [0; 1]) (Node 8 []) =
    Ok ([Node 1 [Node 2 []; Node 3 [Node 4 []]; Node 8 []]; Node 5 []; Node 6 [Node 7 []]], at_path [0; 2]).
Proof. repeat split. Qed.

(** ** C38 *)
Theorem C38_erase : forall (V : Type) dbg (f : list (tree V)) n p s,
  nth_error (preorder f) n = Some p -> node_at f p = Some s ->
  exists before after f' q,
    erase dbg f (at_path p) = Ok (f', at_path q) /\
    outline 0 f = before ++ outline (pred (length p)) [s] ++ after /\ length before = n /\
    outline 0 f' = before ++ after /\
    nth_error (positions f') n = Some q.
Proof. exact @erase_ok. Qed.
Print Assumptions C38_erase.

Theorem C38_erase_end : forall (V : Type) dbg (f : list (tree V)) e, it_end f = Ok e ->
  erase dbg f e = UB OutOfBounds.
Proof. exact @erase_end. Qed.
Print Assumptions C38_erase_end.

Example C38_case :
  erase true sample (at_path [0; 1; 0]) = Ok ([Node 1 [Node 2 []; Node 3 []]; Node 5 []; Node 6 [Node 7 []]], at_path [1]) /\
  erase true sample (at_path [0]) = Ok ([Node 5 []; Node 6 [Node 7 []]], at_path [0]) /\
  erase true sample (at_path [2; 0]) = Ok ([Node 1 [Node 2 []; Node 3 [Node 4 []]]; Node 5 []; Node 6 []], at_path [3]).
Proof. repeat split. Qed.

(** ** C39 *)
Theorem C39_at_level : forall (V : Type) (f : list (tree V)) p t d, node_at f p = Some t ->
  if Nat.ltb d (depth (at_path p))
  then exists a, node_at f (firstn (S d) p) = Some a /\ at_level f (at_path p) d = Ok a
  else at_level f (at_path p) d = Terminate.
Proof. exact @at_level_depth. Qed.
Print Assumptions C39_at_level.

Example C39_case : at_level sample (at_path [0; 1; 0]) 1 = Ok (Node 3 [Node 4 []]) /\
  at_level sample (at_path [0; 1; 0]) 3 = Terminate.
Proof. repeat split. Qed.

(** ** C71 *)
(** [p = c ++ [i]] is the [i]-th of the [length l] nodes of its container. *)
Theorem C71_depth_last_child : forall (V : Type) (f : list (tree V)) c i l,
  container f c = Some l -> i <= length l ->
  depth (at_path (c ++ [i])) = S (length c) /\
  is_last_child f (at_path (c ++ [i])) = Ok (Nat.eqb (S i) (length l)).
Proof. exact @depth_last_child. Qed.
Print Assumptions C71_depth_last_child.

Example C71_case : is_last_child sample (at_path [0; 1]) = Ok true /\ is_last_child sample (at_path [0; 0]) = Ok false /\
  is_last_child sample (at_path [2]) = Ok true /\ is_last_child sample (at_path [3]) = Ok false /\
  depth (at_path [0; 1; 0]) = 3.
Proof. repeat split. Qed.

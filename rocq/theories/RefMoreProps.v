(** Properties of make_shared_from and make_weak_from over the life of an object, and of comparisons: C108, C109. *)
From Verif Require Import Base SortSpec RefModel RefMoreModel RefMoreSpec RefMoreProofs.

(** C108. [derives c t]: an object of class [c] can be seen as a [t]. An object that exists is being constructed, complete or
    being destroyed. *)
Theorem C108_owned : forall derives dbg s v o b c t, reachable derives dbg s -> exists_as s o b c -> owned s o -> derives c t = true ->
  lookup (owners s) v = None ->
  exists s', step derives dbg (make_shared_from v o t) s = Ok (s', done) /\ only_owner_added s s' v (Some o).
Proof. exact from_owned. Qed.
Print Assumptions C108_owned.
Theorem C108_unowned : forall derives dbg s v o b c t, reachable derives dbg s -> exists_as s o b c -> ~ owned s o -> lookup (owners s) v = None ->
  step derives dbg (make_shared_from v o t) s = Ok (s, bad_weak_ptr).
Proof. exact from_unowned. Qed.
Print Assumptions C108_unowned.
(** make_weak_from throws too for classes derived from utki::shared, ... *)
Theorem C108_weak_shared : forall derives dbg s w o c t, reachable derives dbg s -> exists_as s o UtkiShared c -> lookup (watchers s) w = None ->
  (owned s o -> derives c t = true -> exists s', step derives dbg (make_weak_from w o t) s = Ok (s', done) /\ only_watcher_added s s' w (Some o)) /\
  (~ owned s o -> step derives dbg (make_weak_from w o t) s = Ok (s, bad_weak_ptr)).
Proof. intros. split; [intros; eapply weak_shared_owned; eassumption|intro; eapply weak_shared_unowned; eassumption]. Qed.
Print Assumptions C108_weak_shared.
(** ... but for others it gives a pointer that never leads to an object, also later. *)
Theorem C108_weak_std : forall derives dbg s w o c t, reachable derives dbg s -> exists_as s o StdEnable c -> lookup (watchers s) w = None ->
  exists s' p, step derives dbg (make_weak_from w o t) s = Ok (s', done) /\ only_watcher_added s s' w p /\ (owned s o -> p = Some o) /\
    (~ owned s o -> forall h s2 xs, run derives dbg h s' = Ok (s2, xs) -> forall o', p = Some o' -> ~ owned s2 o').
Proof. exact weak_std. Qed.
Print Assumptions C108_weak_std.
(** A weak pointer gives the object exactly while it is owned; if not, then never again. *)
Theorem C108_lock : forall derives dbg s v w p, reachable derives dbg s -> lookup (watchers s) w = Some p -> lookup (owners s) v = None ->
  exists s' q, step derives dbg (lock v w) s = Ok (s', done) /\ only_owner_added s s' v q /\ forall o, q = Some o <-> p = Some o /\ owned s o.
Proof. exact lock_now. Qed.
Print Assumptions C108_lock.
Theorem C108_expired : forall derives dbg s w p h s2 xs, reachable derives dbg s -> lookup (watchers s) w = Some p ->
  run derives dbg h s = Ok (s2, xs) -> ~ In (drop_watcher w) h ->
  lookup (watchers s2) w = Some p /\ forall o, p = Some o -> ~ owned s o -> ~ owned s2 o.
Proof. exact watcher_stays. Qed.
Print Assumptions C108_expired.
(** Owned objects are complete; the destructor is entered when the last owner goes. *)
Theorem C108_life : forall derives dbg s, reachable derives dbg s ->
  (forall o, owned s o -> in_phase s o Complete) /\
  forall v o, lookup (owners s) v = Some (Some o) ->
  exists s', step derives dbg (drop_owner v) s = Ok (s', done) /\
    (forall x, lookup (owners s') x = if Nat.eqb x v then None else lookup (owners s) x) /\
    (owned s' o -> in_phase s' o Complete) /\ (~ owned s' o -> in_phase s' o Destructing) /\
    forall o', o' <> o -> nth_error (objs s') o' = nth_error (objs s) o'.
Proof. intros derives dbg s R. split; [intros o; apply (owned_complete derives dbg s o R)|intros v o; apply (drop_phase derives dbg s v o R)]. Qed.
Print Assumptions C108_life.
(** A copy is another object, which nobody owns. *)
Theorem C108_copy : forall derives dbg s o b c, reachable derives dbg s -> exists_as s o b c ->
  exists s', step derives dbg (begin_copy o) s = Ok (s', done) /\ owners s' = owners s /\ watchers s' = watchers s /\
    (forall o' x, nth_error (objs s) o' = Some x -> nth_error (objs s') o' = Some x) /\
    exists_as s' (length (objs s)) b c /\ in_phase s' (length (objs s)) Constructing /\ ~ owned s' (length (objs s)).
Proof. exact copy_unowned. Qed.
Print Assumptions C108_copy.

Definition any_class (d t : nat) : bool := Nat.eqb d t || Nat.eqb t 0.
(** In the constructor, then owned, a copy of it, in the destructor *)
Definition life (b : base) : list op :=
  [begin_object b 1; make_shared_from 0 0 0; make_weak_from 0 0 1; complete_make 1 0; make_shared_from 2 0 0; make_weak_from 1 0 1;
   begin_copy 0; complete 1; make_shared_from 3 1 1; assign_object 1 0; make_shared_from 3 1 1; drop_owner 1; drop_owner 2;
   make_shared_from 4 0 1; make_weak_from 2 0 1; lock 5 1; finish_end 0; lock 6 1; begin_end 1; finish_end 1].
Example C108_case :
  match run any_class true (life UtkiShared) start with
  | Ok (s, xs) => xs = [done; bad_weak_ptr; bad_weak_ptr; done; done; done; done; done; bad_weak_ptr; done; bad_weak_ptr; done; done;
                        bad_weak_ptr; bad_weak_ptr; done; done; done; done; done] /\
      owners s = [(6, None); (5, None)] /\ watchers s = [(1, Some 0)]
  | _ => False
  end /\
  match run any_class true (life StdEnable) start with
  | Ok (s, xs) => xs = [done; bad_weak_ptr; done; done; done; done; done; done; bad_weak_ptr; done; bad_weak_ptr; done; done;
                        bad_weak_ptr; done; done; done; done; done; done] /\
      owners s = [(6, None); (5, None)] /\ watchers s = [(2, Some 0); (1, Some 0); (0, None)]
  | _ => False
  end.
Proof. vm_compute. repeat split. Qed.
(** A reachable state with an owned object of each kind, and one being constructed *)
Example C108_case_state : exists s, reachable any_class true s /\ owned s 0 /\ exists_as s 0 UtkiShared 1 /\ owned s 1 /\ exists_as s 1 StdEnable 2 /\
  exists_as s 2 UtkiShared 1 /\ in_phase s 2 Constructing /\ ~ owned s 2 /\ lookup (watchers s) 0 = Some (Some 0).
Proof.
  eexists. split; [exists [begin_object UtkiShared 1; complete_make 0 0; begin_object StdEnable 2; complete_make 1 1; begin_copy 0; make_weak_from 0 0 1]; eexists; reflexivity|].
  split; [exists 0; reflexivity|]. split; [eexists; repeat split; discriminate|]. split; [exists 1; reflexivity|]. split; [eexists; repeat split; discriminate|].
  split; [eexists; repeat split; discriminate|]. split; [eexists; repeat split|]. split; [|reflexivity].
  intros [v V]. cbn in V. destruct v as [|[|v]]; discriminate.
Qed.

(** C109: references are compared as their objects are, whatever the addresses. A comparison that throws ends the program. *)
Theorem C109_compare : forall T dbg (objects : nat -> T) less equal o o' x,
  ref_less dbg objects less (Some o) x = without_exception (less (objects o) x) /\
  ref_equals dbg objects equal (Some o) x = without_exception (equal (objects o) x) /\
  refs_equal dbg objects equal (Some o) (Some o') = without_exception (equal (objects o) (objects o')) /\
  refs_less dbg objects less (Some o) (Some o') = without_exception (less (objects o) (objects o')).
Proof. exact @compare_ok. Qed.
Print Assumptions C109_compare.
Theorem C109_moved_from : forall T dbg (objects : nat -> T) less equal p x,
  ref_less dbg objects less None x = (if dbg then Abort else UB NullDeref) /\
  ref_equals dbg objects equal None x = (if dbg then Abort else UB NullDeref) /\
  refs_equal dbg objects equal None p = (if dbg then Abort else UB NullDeref) /\ refs_equal dbg objects equal p None = (if dbg then Abort else UB NullDeref) /\
  refs_less dbg objects less None p = (if dbg then Abort else UB NullDeref) /\ refs_less dbg objects less p None = (if dbg then Abort else UB NullDeref).
Proof. exact @compare_null. Qed.
Print Assumptions C109_moved_from.
(** So references can be kept in ordered containers if their objects can. *)
Theorem C109_order : forall T dbg (objects : nat -> T) less (lt : T -> T -> bool), strict_weak_order lt -> (forall x y, less x y = Ok (lt x y)) ->
  exists before : nat -> nat -> bool, strict_weak_order before /\ forall o o', refs_less dbg objects less (Some o) (Some o') = Ok (before o o').
Proof. intros T dbg objects less. exact (compare_order dbg objects less less). Qed.
Print Assumptions C109_order.
Example C109_case :
  let objects := fun o => nth o [7; 5; 7] 0 in
  let less := fun x y => Ok (Nat.ltb x y) in
  let equal := fun x y => if Nat.eqb y 9 then Throw LogicError else Ok (Nat.eqb x y) in
  refs_equal true objects equal (Some 0) (Some 2) = Ok true /\ refs_equal true objects equal (Some 0) (Some 1) = Ok false /\
  ref_equals true objects equal (Some 0) 9 = Terminate /\ refs_less false objects less (Some 1) (Some 0) = Ok true /\
  ref_less false objects less None 1 = UB NullDeref.
Proof. vm_compute. repeat split. Qed.

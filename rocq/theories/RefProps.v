(** Properties of shared_ref, dynamic_reference_cast, unique_ref and weak pointers to shared objects: C52, C53, C54, C73. *)
From Verif Require Import Base RefModel RefSpec RefProofs.

(** C52: every history runs, its variables refer to what the specification says, and exactly the objects no
    variable refers to have been destroyed, once each. *)
Theorem C52_history : forall derives dbg h S xs, srun derives sinit h S xs ->
  exists s, run derives dbg h init = Ok (s, xs) /\ (forall v, lookup (vars s) v = refs S v) /\
    NoDup (dead s) /\ forall o, In o (dead s) <-> o < length (types S) /\ ~ referred S o.
Proof. exact shared_history. Qed.
Print Assumptions C52_history.
(** What a variable refers to is alive; a shared_ref that is null was moved from, and not assigned since. *)
Theorem C52_not_null : forall derives dbg h S xs s ys v, srun derives sinit h S xs -> run derives dbg h init = Ok (s, ys) ->
  (forall k o, lookup (vars s) v = Some (k, Some o) -> ~ In o (dead s) /\ o < length (classes s)) /\
  (lookup (vars s) v = Some (Ref, None) -> exists h1 a h2, h = h1 ++ a :: h2 /\ moves_from a v /\ forall b, In b h2 -> ~ gives b v).
Proof. exact shared_alive. Qed.
Print Assumptions C52_not_null.
(** An operation destroys exactly those objects whose last reference it ends. *)
Theorem C52_when : forall derives dbg h S xs a S' x, srun derives sinit h S xs -> sstep derives S a S' x ->
  exists s s', run derives dbg h init = Ok (s, xs) /\ run derives dbg (h ++ [a]) init = Ok (s', xs ++ [x]) /\
    forall o, In o (dead s') /\ ~ In o (dead s) <-> referred S o /\ ~ referred S' o.
Proof. exact shared_when. Qed.
Print Assumptions C52_when.
(** Use of a moved-from shared_ref; copying one is not caught, it makes another null one. *)
Theorem C52_moved_from : forall derives dbg s u v, lookup (vars s) u = Some (Ref, None) -> lookup (vars s) v = None ->
  step derives dbg (get u) s = (if dbg then Abort else UB NullDeref) /\
  (forall t, step derives dbg (cast v u t) s = if dbg then Abort else UB NullDeref) /\
  (dbg = true -> step derives dbg (convert v u) s = Abort) /\
  (exists s', step derives dbg (copy v u) s = Ok (s', o_none) /\ lookup (vars s') v = Some (Ref, None)).
Proof. exact shared_null. Qed.
Print Assumptions C52_moved_from.

(** Class 1 derives from class 0, class 2 does not. *)
Definition ex_derives (d t : nat) : bool := Nat.eqb d t || (Nat.eqb d 1 && Nat.eqb t 0).
Definition ex_hist : list op :=
  [make 0 1 None; copy 1 0; make 2 2 None; move_assign 1 2; move 3 0; get 3; to_ptr 4 1; destroy 3; destroy 1; make 5 0 (Some RuntimeError);
   from_ptr 6 4; destroy 4; copy_assign 6 6; get 6].
Example C52_case :
  match run ex_derives true ex_hist init with
  | Ok (s, xs) => vars s = [(6, (Ref, Some 1)); (2, (Ref, None)); (0, (Ref, None))] /\ dead s = [0] /\
      xs = [o_none; o_none; o_none; o_none; o_none; o_obj 0; o_none; o_none; o_none; o_threw RuntimeError; o_none; o_none; o_none; o_obj 1]
  | _ => False
  end.
Proof. vm_compute. auto. Qed.
(** That history is one of the specification's. *)
Example C52_case_history : exists S xs, srun ex_derives sinit ex_hist S xs /\ refs S 6 = Some (Ref, Some 1).
Proof.
  eexists. eexists. split.
  - repeat (eapply sr_cons; [first
      [eapply st_make; reflexivity | eapply st_make_fails; reflexivity | eapply st_copy; [reflexivity|reflexivity|exact I] | eapply st_move; [reflexivity|reflexivity|exact I]
      |eapply st_copy_assign; [reflexivity|reflexivity|exact I] | eapply st_move_assign; [reflexivity|reflexivity|exact I] | eapply st_get; reflexivity
      |eapply st_to_ptr; reflexivity | eapply st_from_ptr; reflexivity | eapply st_destroy; reflexivity]|]).
    apply sr_nil.
  - reflexivity.
Qed.
Example C52_case_null :
  run ex_derives true [make 0 1 None; move 1 0; get 0] init = Abort /\
  run ex_derives false [make 0 1 None; move 1 0; get 0] init = UB NullDeref /\
  run ex_derives true [make 0 1 None; move 1 0; copy 2 0; get 2] init = Abort /\
  run ex_derives true [null_ptr 0; from_ptr 1 0] init = Abort.
Proof. vm_compute. auto. Qed.

(** C53 *)
Theorem C53_cast : forall derives dbg h S xs s ys u v o t d, srun derives sinit h S xs -> run derives dbg h init = Ok (s, ys) ->
  refs S v = None -> refs S u = Some (Ref, Some o) -> nth_error (types S) o = Some d ->
  if derives d t
  then exists s', step derives dbg (cast v u t) s = Ok (s', o_none) /\
         (forall x, lookup (vars s') x = if Nat.eqb x v then Some (Ref, Some o) else lookup (vars s) x) /\
         (forall x, In x (dead s') <-> In x (dead s))
  else step derives dbg (cast v u t) s = Ok (s, o_threw BadCast).
Proof. exact shared_cast. Qed.
Print Assumptions C53_cast.
(** The result of a cast keeps the object alive after the source is gone. *)
Example C53_case :
  match run ex_derives true [make 0 1 None; cast 1 0 0; cast 2 0 2; destroy 0; get 1] init with
  | Ok (s, xs) => vars s = [(1, (Ref, Some 0))] /\ dead s = [] /\ xs = [o_none; o_none; o_threw BadCast; o_none; o_obj 0]
  | _ => False
  end.
Proof. vm_compute. auto. Qed.

(** C54 *)
Theorem C54_history : forall dbg h S xs, usrun usinit h S xs ->
  exists s, urun dbg h uinit = Ok (s, xs) /\ (forall v, lookup (uvars s) v = owns S v) /\
    NoDup (udead s) /\ (forall o, In o (udead s) <-> o < objects S /\ ~ owned S o).
Proof. exact unique_history. Qed.
Print Assumptions C54_history.
Theorem C54_single_owner : forall dbg h S xs s ys, usrun usinit h S xs -> urun dbg h uinit = Ok (s, ys) ->
  (forall v w k k' o, lookup (uvars s) v = Some (k, Some o) -> lookup (uvars s) w = Some (k', Some o) -> v = w) /\
  (forall v k o, lookup (uvars s) v = Some (k, Some o) -> ~ In o (udead s) /\ o < made s) /\
  (forall v, lookup (uvars s) v = Some (Ref, None) -> exists h1 a h2, h = h1 ++ a :: h2 /\ umoves_from a v /\ forall b, In b h2 -> ~ ugives b v).
Proof. exact unique_owner. Qed.
Print Assumptions C54_single_owner.
Theorem C54_when : forall dbg h S xs a S' x, usrun usinit h S xs -> usstep S a S' x ->
  exists s s', urun dbg h uinit = Ok (s, xs) /\ urun dbg (h ++ [a]) uinit = Ok (s', xs ++ [x]) /\
    forall o, In o (udead s') /\ ~ In o (udead s) <-> owned S o /\ ~ owned S' o.
Proof. exact unique_when'. Qed.
Print Assumptions C54_when.
Theorem C54_moved_from : forall dbg s u v, lookup (uvars s) u = Some (Ref, None) -> lookup (uvars s) v = None ->
  ustep dbg (uget u) s = (if dbg then Abort else UB NullDeref) /\ (dbg = true -> ustep dbg (uconvert v u) s = Abort).
Proof. exact unique_null. Qed.
Print Assumptions C54_moved_from.
Definition ex_uhist : list uop :=
  [umake 0 None; umake 1 None; uassign 0 1; umove 2 0; uto_ptr 3 2; ufrom_ptr 4 3; uassign 4 4; uget 4; umake 5 (Some LogicError); uconvert 6 4; udestroy 4; udestroy 6].
Example C54_case :
  match urun true ex_uhist uinit with
  | Ok (s, xs) => uvars s = [(3, (Ptr, None)); (2, (Ref, None)); (1, (Ref, None)); (0, (Ref, None))] /\ udead s = [0; 1] /\ nth 7 xs o_none = o_obj 1
  | _ => False
  end.
Proof. vm_compute. auto. Qed.
Example C54_case_history : exists S xs, usrun usinit ex_uhist S xs /\ owns S 6 = None.
Proof.
  eexists. eexists. split.
  - repeat (eapply ur_cons; [first
      [eapply ut_make; reflexivity | eapply ut_make_fails; reflexivity | eapply ut_move; [reflexivity|reflexivity|exact I]
      |eapply ut_assign; [reflexivity|reflexivity|exact I] | eapply ut_get; reflexivity | eapply ut_convert; reflexivity
      |eapply ut_to_ptr; reflexivity | eapply ut_from_ptr; reflexivity | eapply ut_destroy; reflexivity]|]).
    apply ur_nil.
  - reflexivity.
Qed.
Example C54_case_null :
  urun true [umake 0 None; umove 1 0; uget 0] uinit = Abort /\ urun false [umake 0 None; umove 1 0; uget 0] uinit = UB NullDeref.
Proof. vm_compute. auto. Qed.

(** C73: a weak pointer gives the object exactly while something refers to it; weak pointers keep nothing
    alive (C52_history and C52_when hold for histories with them). *)
Theorem C73_lock : forall derives dbg h S xs s ys v w p, srun derives sinit h S xs -> run derives dbg h init = Ok (s, ys) ->
  refs S v = None -> wrefs S w = Some p ->
  exists s' q, step derives dbg (lock v w) s = Ok (s', o_none) /\ lookup (vars s') v = Some (Ptr, q) /\
    (forall o, q = Some o <-> p = Some o /\ referred S o) /\ (forall x, In x (dead s') <-> In x (dead s)).
Proof. exact shared_lock. Qed.
Print Assumptions C73_lock.
Theorem C73_make_shared_from : forall derives dbg h S xs s ys v o t d, srun derives sinit h S xs -> run derives dbg h init = Ok (s, ys) ->
  refs S v = None -> referred S o -> nth_error (types S) o = Some d -> derives d t = true ->
  exists s', step derives dbg (from_this v o t) s = Ok (s', o_none) /\
    (forall x, lookup (vars s') x = if Nat.eqb x v then Some (Ref, Some o) else lookup (vars s) x).
Proof. exact shared_from_this. Qed.
Print Assumptions C73_make_shared_from.
Example C73_case :
  match run ex_derives true [make 0 1 None; make_weak 0 0; lock 1 0; from_this 2 0 0; destroy 0; destroy 1; get 2; destroy 2; lock 3 0; drop_weak 0] init with
  | Ok (s, xs) => vars s = [(3, (Ptr, None))] /\ dead s = [0] /\ nth 6 xs o_none = o_obj 0 /\ weaks s = []
  | _ => False
  end.
Proof. vm_compute. auto. Qed.

(** Property C101: copies of signals. *)
From Verif Require Import Base SignalCopyModel SignalCopySpec SignalCopyProofs.

(** C101: constructing or assigning a signal from another one, which moving does as well, gives it the
    callbacks of the other in the same order, changes no other signal and calls nothing. *)
Theorem C101_copy : forall F A W (call : F -> A -> W -> W * option exn) dbg i j s s' x,
  step call dbg (m_copy i j) s = Ok (s', x) \/ (i <> j /\ step call dbg (m_assign i j) s = Ok (s', x)) ->
  callbacks s' i = callbacks s j /\ callbacks s' j = callbacks s j /\ (forall k, k <> i -> callbacks s' k = callbacks s k) /\ world s' = world s.
Proof.
  intros F A W call dbg i j s s' x H. destruct (copy_spec call dbg i j s s' x H) as (C & O & E).
  destruct (copy_step call dbg i j s s' x H) as (_ & _ & N & _).
  split; [exact C|]. split; [unfold callbacks; rewrite O by congruence; reflexivity|]. split; [|exact E].
  intros k Nk. unfold callbacks. rewrite O by exact Nk. reflexivity.
Qed.
Print Assumptions C101_copy.
Theorem C101_defined : forall F A W (call : F -> A -> W -> W * option exn) dbg i j (s : state F W) fs, callbacks s j = Some fs ->
  (callbacks s i = None -> exists s', step call dbg (m_copy i j) s = Ok (s', r_none)) /\
  (forall fs0, callbacks s i = Some fs0 -> exists s', step call dbg (m_assign i j) s = Ok (s', r_none)) /\
  step call dbg (m_assign j j) s = Ok (s, r_none).
Proof.
  intros F A W call dbg i j s fs. unfold callbacks. cbn [step]. unfold get.
  destruct (signals s j) as [l|]; [|discriminate]. intros _. cbn [bind]. rewrite Nat.eqb_refl. split; [|split; [|reflexivity]].
  - destruct (signals s i); [discriminate|]. intros _. eexists. reflexivity.
  - intros fs0. destruct (signals s i); [|discriminate]. intros _. cbn [bind]. destruct (Nat.eqb i j); eexists; reflexivity.
Qed.
Print Assumptions C101_defined.
(** C101: what is done with a signal later does not reach its copies. *)
Theorem C101_independent : forall F A W (call : F -> A -> W -> W * option exn) dbg o s s' x k,
  step call dbg o s = Ok (s', x) -> target o <> Some k -> callbacks s' k = callbacks s k.
Proof. intros F A W call dbg o s s' x k E T. unfold callbacks. rewrite (step_other call dbg o s s' x k E T). reflexivity. Qed.
Print Assumptions C101_independent.
(** C101: a copy calls the callbacks it has. *)
Theorem C101_emission : forall F A W (call : F -> A -> W -> W * option exn) dbg i a s fs, callbacks s i = Some fs -> exists s' l r,
  step call dbg (m_emit i a) s = Ok (s', r_called l r) /\ called call fs a (world s) l (world s') r /\ forall k, callbacks s' k = callbacks s k.
Proof. intros. eapply emit_spec; eassumption. Qed.
Print Assumptions C101_emission.
(** C101: no connection made before can be disconnected from the copy. *)
Theorem C101_connections : forall F A W (call : F -> A -> W -> W * option exn) dbg pre w s0 xs0,
  run call dbg pre (init w) = Ok (s0, xs0) -> forall i j s x,
  step call dbg (m_copy i j) s0 = Ok (s, x) \/ (i <> j /\ step call dbg (m_assign i j) s0 = Ok (s, x)) ->
  forall c, In (r_connection c) xs0 -> step call dbg (m_disconnect i c) s = UB UseAfterFree.
Proof. exact @copy_foreign. Qed.
Print Assumptions C101_connections.
(** C101, finding: the callbacks of the copy can never be disconnected. Whatever a program does that has no
    other connections than those given to it, as long as the copy is neither destroyed nor assigned to it
    has these callbacks, and destroying it then aborts a debug build. *)
Theorem C101_stuck : forall F A W (call : F -> A -> W -> W * option exn) dbg pre o l w s xs i j s0 xs0 fs,
  run call dbg (pre ++ o :: l) (init w) = Ok (s, xs) -> honest [] (pre ++ o :: l) xs ->
  o = m_copy i j \/ (o = m_assign i j /\ i <> j) -> forallb (keeps i) l = true ->
  run call dbg pre (init w) = Ok (s0, xs0) -> callbacks s0 j = Some fs ->
  (exists rest, callbacks s i = Some (fs ++ rest)) /\ (fs <> [] -> step call true (m_destroy i) s = Abort).
Proof.
  intros F A W call dbg pre o l w s xs i j s0 xs0 fs R H Ho K R0 C.
  destruct (copies_stay call dbg pre o l w s xs i j s0 xs0 fs R H Ho K R0 C) as (rest & E). split; [eauto|].
  intro N. destruct fs as [|f fs]; [congruence|]. eapply destroy_nonempty. exact E.
Qed.
Print Assumptions C101_stuck.

(** callbacks that note themselves; 9 throws *)
Definition note (f a : nat) (w : list (nat * nat)) : list (nat * nat) * option exn :=
  (w ++ [(f, a)], if Nat.eqb f 9 then Some RuntimeError else None).
Definition busy : list (op nat nat) :=
  [m_new 0; m_connect 0 5; m_connect 0 6; m_copy 1 0; m_connect 1 7; m_disconnect 0 0; m_emit 0 1; m_emit 1 2;
   m_disconnect 1 4; m_emit 1 3; m_disconnect 0 1; m_destroy 0; m_size 1].
Definition shown (r : outcome (state nat (list (nat * nat)) * list (out nat))) : outcome (list (out nat) * list (nat * nat) * list (option (list nat))) :=
  r <- r ;; let '(s, xs) := r in Ok (xs, world s, map (callbacks s) [0; 1; 2]).
Example C101_case :
  shown (run note true busy (init [])) = Ok (
    [r_none; r_connection 0; r_connection 1; r_none; r_connection 4; r_none; r_called [6] None; r_called [5; 6; 7] None;
     r_none; r_called [5; 6] None; r_none; r_none; r_size 2],
    [(6, 1); (5, 2); (6, 2); (7, 2); (5, 3); (6, 3)], [None; Some [5; 6]; None]) /\
  shown (run note true (busy ++ [m_destroy 1]) (init [])) = Abort /\
  is_ok (run note false (busy ++ [m_destroy 1]) (init [])) = true /\
  is_ok (run note true (busy ++ [m_new 2; m_assign 1 2; m_destroy 1]) (init [])) = true /\
  shown (run note true [m_new 0; m_connect 0 5; m_copy 1 0; m_disconnect 1 0] (init [])) = UB UseAfterFree.
Proof. vm_compute. repeat split. Qed.
Example C101_case_honest : honest [] busy
    [r_none; r_connection 0; r_connection 1; r_none; r_connection 4; r_none; r_called [6] None; r_called [5; 6; 7] None;
     r_none; r_called [5; 6] None; r_none; r_none; r_size 2] /\ forallb (keeps 1) (skipn 4 busy) = true.
Proof. split; [|reflexivity]. repeat split; cbn [In]; auto 8. Qed.
Example C101_case_throw : shown (run note true [m_new 0; m_connect 0 5; m_connect 0 9; m_connect 0 6; m_new 1; m_assign 1 0; m_emit 1 3] (init []))
  = Ok ([r_none; r_connection 0; r_connection 1; r_connection 2; r_none; r_none; r_called [5; 9] (Some RuntimeError)],
        [(5, 3); (9, 3)], [Some [5; 9; 6]; Some [5; 9; 6]; None]).
Proof. vm_compute. reflexivity. Qed.

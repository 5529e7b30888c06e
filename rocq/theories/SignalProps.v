(** Properties C42, C43, C44. *)
From Verif Require Import Base SignalModel SignalSpec SignalProofs.
From Coq Require Import Sorted.

(** C42. Connections are numbered in the order in which they are made; so the list [l] is in the order of
    connection. The callbacks do not change the signal but may look at its size, throw and have any effects
    elsewhere. *)
Theorem C42_emission : forall F A W prog pass (h : list (op F A)),
  (forall n f a (w : W), exists w' r, quiet n w (prog f a w) w' r) -> valid h -> forall fuel w, connects h <= fuel ->
  exists s l, perform_all prog pass fuel h (new_signal w) = (s, Ok tt) /\
    StronglySorted lt (map fst l) /\ (forall c f, In (c, f) l <-> is_connected h c f) /\
    size s = length l /\ (empty s = true <-> l = []) /\
    (forall dbg, destroy dbg s = if dbg && negb (Nat.eqb (length l) 0) then Abort else Ok tt) /\
    forall a, exists s' o evs w' r, emit prog pass fuel a s = (s', o) /\
      delivery prog pass (length l) l a (world s) evs w' r /\
      trace s' = trace s ++ evs /\ world s' = w' /\ size s' = length l /\
      match r with None => o = Ok tt /\ calls evs = l | Some e => o = Throw e /\ exists l', l = calls evs ++ l' /\ calls evs <> [] end.
Proof. intros F A W prog pass h Q. exact (history prog pass h Q). Qed.
Print Assumptions C42_emission.

(** callbacks that note the number of callbacks; 9 throws *)
Definition note_prog (f a : nat) (w : list nat) : script nat nat (list nat) :=
  if Nat.eqb f 9 then s_throw w RuntimeError else s_size (fun n => s_set (w ++ [0]) (s_get (fun w' => s_done (removelast w' ++ [n])))).
Example C42_case :
  let h := [op_connect 1; op_connect 2; op_connect 3; op_emit 0; op_disconnect 1; op_connect 4; op_emit 0; op_connect 9; op_connect 5; op_emit 0] in
  (let '(s, o) := perform_all note_prog by_reference 9 h (new_signal []) in
    (calls (trace s), world s, o) =
    ([(0, 1); (1, 2); (2, 3); (0, 1); (2, 3); (3, 4); (0, 1); (2, 3); (3, 4)] ++ [(4, 9)], [3; 3; 3; 3; 3; 3; 5; 5; 5], Ok tt)) /\
  valid h /\ (forall n f a w, exists w' r, quiet n w (note_prog f a w) w' r).
Proof.
  split; [vm_compute; reflexivity|]. split.
  - intros h1 c h2 E. exists 2.
    do 4 (destruct h1 as [|? h1]; [discriminate|injection E as <- E]). destruct h1 as [|? h1].
    + injection E as <- <-. exists [op_connect 1], [op_connect 3; op_emit 0]. split; [reflexivity|]. split; [reflexivity|].
      cbn. intuition discriminate.
    + injection E as <- E. do 5 (destruct h1 as [|? h1]; [discriminate|injection E as <- E]). destruct h1; discriminate.
  - intros n f a w. unfold note_prog. destruct (Nat.eqb f 9); eexists _, _; repeat constructor.
Qed.

(** C43. A reference parameter *)
Theorem C43_reference : forall F A W (prog : F -> A -> W -> script F A W) n l a w evs w',
  delivery prog by_reference n l a w evs w' None -> forall k, k < length l -> nth_error (received evs) k = Some a.
Proof. intros F A W prog n l a w evs w' D k L. rewrite (delivery_args _ _ _ _ _ _ _ _ D k L), iter_by_reference. reflexivity. Qed.
Print Assumptions C43_reference.

(** A parameter by value: the first callback receives the emitted value, the k-th what k moves left of it. *)
Theorem C43_value : forall F A W (prog : F -> A -> W -> script F A W) moved n l a w evs w',
  delivery prog (by_value moved) n l a w evs w' None -> forall k, k < length l ->
  nth_error (received evs) k = Some (Nat.iter k moved a).
Proof. intros F A W prog moved n l a w evs w' D k L. exact (delivery_args _ _ _ _ _ _ _ _ D k L). Qed.
Print Assumptions C43_value.

(** std::string: moving empties the source. Emitted through the whole model. *)
Example C43_case :
  let prog := fun (f : nat) (a : list nat) (w : unit) => s_done w : script nat (list nat) unit in
  let run pass := received (trace (fst (perform_all prog pass 9 [op_connect 1; op_connect 2; op_connect 3; op_emit [7; 8]] (new_signal tt)))) in
  run (by_value (fun _ => [])) = [[7; 8]; []; []] /\ run by_reference = [[7; 8]; [7; 8]; [7; 8]] /\ run (by_value (fun x => x)) = [[7; 8]; [7; 8]; [7; 8]].
Proof. vm_compute. auto. Qed.

(** C44. For any callbacks, whatever they do with the signal, and however it ends: what is invoked has been
    connected and not been disconnected before; the connections are those made and not removed. *)
Theorem C44_connected_only : forall F A W prog pass (s : state F A W), reachable prog pass s ->
  (forall t1 c f a t2, trace s = t1 ++ Called c f a :: t2 -> In (Connected c f) t1 /\ ~ In (Disconnected c) t1) /\
  (forall c f, In (c, f) (nodes s) <-> In (Connected c f) (trace s) /\ ~ In (Disconnected c) (trace s)).
Proof. intros F A W prog pass s R. pose proof (reachable_inv prog pass s R) as I. split; apply I. Qed.
Print Assumptions C44_connected_only.

(** Callbacks that connect, disconnect and throw: every callback is invoked at most once in an emission, in the
    order of connection, and those connected at the end have been invoked if the emission ends normally. *)
Theorem C44_each_once : forall F A W prog pass (s : state F A W), reachable prog pass s -> (forall f a w, flat (prog f a w)) ->
  forall fuel a s' o, emit prog pass fuel a s = (s', o) -> exists evs, trace s' = trace s ++ evs /\
  StronglySorted lt (map fst (calls evs)) /\ (o = Ok tt -> forall c, In c (map fst (nodes s')) -> In c (map fst (calls evs))).
Proof. intros F A W prog pass s R Fl fuel a s' o E. exact (flat_emit prog pass Fl fuel a s s' o (reachable_inv prog pass s R) E). Qed.
Print Assumptions C44_each_once.

(** Callbacks that connect others: these are invoked too, after all others. *)
Theorem C44_connected_during : forall F A W prog pass (s : state F A W), reachable prog pass s -> (forall f a w, connecting (prog f a w)) ->
  forall fuel a s', emit prog pass fuel a s = (s', Ok tt) -> exists evs, trace s' = trace s ++ evs /\
  calls evs = nodes s ++ added evs /\ nodes s' = nodes s ++ added evs.
Proof.
  intros F A W prog pass s R Co fuel a s' E.
  destruct (connecting_emit prog pass Co fuel a s s' (reachable_inv prog pass s R) E) as (evs & T & Nd & Cl).
  exists evs. rewrite Cl. auto.
Qed.
Print Assumptions C44_connected_during.

(** A callback that is no longer connected when it returns, as when it disconnects itself: undefined behaviour
    whatever else it does. Here it is the first; the emission is an arbitrary one, possibly nested. *)
Theorem C44_removed_while_running : forall F A W (prog : F -> A -> W -> script F A W) pass fuel c f a x rest (s s1 : state F A W) l,
  nodes s = (c, f) :: l -> pass a = (x, rest) ->
  run_script (fun a s => emit prog pass fuel a s) (prog f x (world s)) (log (Called c f x) s) = (s1, Ok tt) ->
  ~ In c (map fst (nodes s1)) -> emit prog pass (S fuel) a s = (s1, UB UseAfterFree).
Proof.
  intros F A W prog pass fuel c f a x rest s s1 l E P R N. unfold emit. rewrite E. cbn [first_node].
  eapply removed_while_running; eauto. rewrite E. cbn [find_node]. rewrite Nat.eqb_refl. reflexivity.
Qed.
Print Assumptions C44_removed_while_running.

(** When every callback connects one, an emission with a callback connected never ends. *)
Theorem C44_endless : forall F A W prog pass (s : state F A W), reachable prog pass s -> (forall f a w, connects_one (prog f a w)) ->
  size s <> 0 -> forall fuel a, exists s', emit prog pass fuel a s = (s', Diverge).
Proof.
  intros F A W prog pass s R Co Sz fuel a. apply (endless_emit prog pass Co fuel a s (reachable_inv prog pass s R)).
  intro E. apply Sz. unfold size. rewrite E. reflexivity.
Qed.
Print Assumptions C44_endless.

(** 1 does nothing; 2 connects 1; 3 disconnects connection 3; 4 disconnects connection 0; 5 connects 5 *)
Definition busy_prog (f a w : nat) : script nat nat nat :=
  match f with
  | 2 => s_connect 1 (fun _ => s_done w)
  | 3 => s_disconnect 3 (s_done w)
  | 4 => s_disconnect 0 (s_done w)
  | 5 => s_connect 5 (fun _ => s_done w)
  | 6 => s_emit a (then_ (s_done w))
  | _ => s_done w
  end.
Example C44_case :
  let run h := let '(s, o) := perform_all busy_prog by_reference 20 h (new_signal 0) in (calls (trace s), o) in
  run [op_connect 1; op_connect 2; op_connect 1; op_emit 0] = ([(0, 1); (1, 2); (2, 1); (3, 1)], Ok tt) /\
  run [op_connect 1; op_connect 3; op_connect 1; op_connect 1; op_connect 1; op_emit 0] = ([(0, 1); (1, 3); (2, 1); (4, 1)], Ok tt) /\
  run [op_connect 1; op_connect 4; op_connect 1; op_emit 0] = ([(0, 1); (1, 4); (2, 1)], Ok tt) /\
  run [op_connect 4; op_connect 1; op_emit 0] = ([(0, 4)], UB UseAfterFree) /\
  snd (run [op_connect 1; op_connect 5; op_emit 0]) = Diverge /\ snd (run [op_connect 6; op_emit 0]) = Diverge.
Proof. vm_compute. repeat split. Qed.

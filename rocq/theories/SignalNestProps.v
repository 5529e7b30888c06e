(** Property C112. *)
From Verif Require Import Base SignalModel SignalSpec SignalNestSpec SignalNestProofs.
From Coq Require Import Sorted.

(** C112. For any callbacks, whatever they do with the signal, and however it ends: in this emission and in every emission by a
    callback during it, and by callbacks during these, callbacks are invoked in the order of connection, none of them twice, only
    connected ones, and all of those connected at its end if it ends normally; it ends otherwise if and only if a callback does
    so, or is no longer connected when it returns. *)
Theorem C112_nested : forall F A W prog pass (s : state F A W), reachable prog pass s ->
  forall fuel a s' o, emit prog pass fuel a s = (s', o) -> exists evs, trace s' = trace s ++ evs /\ emitted pass (trace s) a evs o.
Proof. intros F A W prog pass s R fuel a s' o. exact (emit_emitted prog pass fuel a s s' o R). Qed.
Print Assumptions C112_nested.

(** An emission that ends does so in one way, however long one is prepared to wait. *)
Theorem C112_fuel : forall F A W prog pass (s : state F A W) fuel more a s' o,
  emit prog pass fuel a s = (s', o) -> o <> Diverge -> fuel <= more -> emit prog pass more a s = (s', o).
Proof. intros F A W prog pass s fuel more a s' o E N L. exact (emit_settled prog pass fuel more a s s' o L E N). Qed.
Print Assumptions C112_fuel.

(** When every callback emits the signal first, an emission with a callback connected never ends, even if
    the callbacks catch exceptions. *)
Theorem C112_endless : forall F A W prog pass (s : state F A W), (forall f a w, emits_first (prog f a w)) -> size s <> 0 ->
  forall fuel a, snd (emit prog pass fuel a s) = Diverge.
Proof.
  intros F A W prog pass s Ef Sz fuel a. apply (endless_nesting prog pass Ef). intro E. apply Sz. unfold size. rewrite E. reflexivity.
Qed.
Print Assumptions C112_endless.

(** 1 emits with one less, down to 0; 2 does nothing; 3 throws when called with 1; 4 emits with 1 when called with 2, and counts the
    exceptions that come out of it; 5 emits unless it is being emitted by itself, as told by the rest of the program; 6 emits
    always. *)
Definition nest_prog (f a w : nat) : script nat nat nat :=
  match f with
  | 1 => match a with 0 => s_done w | S a => s_emit a (then_ (s_get (fun w => s_done w))) end
  | 3 => if Nat.eqb a 1 then s_throw w RuntimeError else s_done w
  | 4 => if Nat.eqb a 2 then s_emit 1 (fun e => s_get (fun w => s_done (match e with Some _ => S w | None => w end))) else s_done w
  | 5 => s_get (fun w => if Nat.eqb w 0 then s_set 1 (s_emit 9 (then_ (s_done 0))) else s_done w)
  | 6 => s_size (fun n => s_emit n (fun _ => s_done w))
  | _ => s_done w
  end.
Example C112_case :
  let run h := let '(s, o) := perform_all nest_prog by_reference 30 h (new_signal 0) in (combine (map snd (calls (trace s))) (received (trace s)), world s, o) in
  run [op_connect 1; op_connect 2; op_emit 2] = ([(1, 2); (1, 1); (1, 0); (2, 0); (2, 1); (2, 2)], 0, Ok tt) /\
  run [op_connect 1; op_connect 1; op_emit 1] = ([(1, 1); (1, 0); (1, 0); (1, 1); (1, 0); (1, 0)], 0, Ok tt) /\
  run [op_connect 4; op_connect 3; op_connect 2; op_emit 2] = ([(4, 2); (4, 1); (3, 1); (3, 2); (2, 2)], 1, Ok tt) /\
  run [op_connect 2; op_connect 5; op_connect 2; op_emit 7] = ([(2, 7); (5, 7); (2, 9); (5, 9); (2, 9); (2, 7)], 0, Ok tt) /\
  snd (run [op_connect 6; op_emit 0]) = Diverge /\ (forall a w, emits_first (nest_prog 6 a w)).
Proof. vm_compute. repeat split. intros a w. repeat constructor. Qed.

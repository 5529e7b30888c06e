(** Properties C50, C51. *)
From Verif Require Import Base RaiiModel RaiiSpec RaiiProofs.

(** C50. [xs] is what the operations of the history [h] show, one by one. All functions, all histories, and
    whatever moving from a std::function leaves behind. *)
Theorem C50_scope_exit : forall F W (call : F -> W -> W * option exn) moved h w, se_valid h ->
  exists s xs, se_run call moved h (se_init w) = Ok (s, xs) /\ length xs = length h /\
    (forall k o, nth_error h k = Some o -> exists x, nth_error xs k = Some x /\ se_expected (firstn k h) o x) /\
    se_world s = effects call xs w.
Proof.
  intros F W call moved h w V. destruct (se_run_ok call moved h [] (se_init w) (se_init_inv w) V) as (s & xs & E & _ & L & X & Wd).
  exists s, xs. auto.
Qed.
Print Assumptions C50_scope_exit.

(** Three objects; the first function throws when run, the second is released twice, the third is null. *)
Example C50_case :
  let call := fun (f : nat) (w : list nat) => (w ++ [f], if Nat.eqb f 1 then Some RuntimeError else None) in
  let h := [se_construct (Some 1); se_construct (Some 2); se_construct None; se_release 1; se_release 1; se_destroy 2; se_destroy 1; se_destroy 0] in
  (match se_run call (fun f => f) h (se_init []) with
   | Ok (s, xs) => se_world s = [1] /\ xs = [se_nothing; se_nothing; se_nothing; se_returned (Some 2); se_returned None; se_ran None; se_ran None; se_ran (Some 1)]
   | _ => False
   end) /\ se_valid h.
Proof.
  split; [vm_compute; auto|]. intros h1 o h2 i E A.
  do 8 (destruct h1 as [|? h1]; [injection E as <- _; destruct A as [A|A]; try discriminate A; injection A as <-; cbn; intuition (discriminate || lia)|injection E as <- E]).
  destruct h1; discriminate.
Qed.

(** C51. As long as only objects that are alive are destroyed, and inst is called only while one is: at most one is
    alive, and every operation does what it should; *)
Theorem C51_singleton : forall dbg l s h, sg_run dbg l sg_init = Ok (s, h) -> (forall h1 o x h2, h = h1 ++ (o, x) :: h2 -> sg_allowed h1 o) ->
  (forall i j, sg_alive h i -> sg_alive h j -> i = j) /\ forall h1 o x h2, h = h1 ++ (o, x) :: h2 -> sg_expected h1 o x.
Proof.
  intros dbg l s h E V. destruct (sg_run_inv dbg l s h E V) as [I X]. split; [exact (alive_unique h s I)|exact X].
Qed.
Print Assumptions C51_singleton.
(** and every such operation can be done next. *)
Theorem C51_progress : forall dbg l s h, sg_run dbg l sg_init = Ok (s, h) -> (forall h1 o x h2, h = h1 ++ (o, x) :: h2 -> sg_allowed h1 o) ->
  forall o, sg_allowed h o -> exists s' x, sg_run dbg (l ++ [o]) sg_init = Ok (s', h ++ [(o, x)]).
Proof.
  intros dbg l s h E V o A. destruct (sg_run_inv dbg l s h E V) as [I _]. destruct (sg_step_ok dbg h s o I A) as (s' & x & E' & _).
  exists s', x. rewrite sg_run_snoc, E. cbn [bind]. rewrite E'. reflexivity.
Qed.
Print Assumptions C51_progress.
(** inst without an object *)
Theorem C51_inst_without : forall dbg l s h, sg_run dbg l sg_init = Ok (s, h) -> (forall h1 o x h2, h = h1 ++ (o, x) :: h2 -> sg_allowed h1 o) ->
  (forall i, ~ sg_alive h i) -> sg_run dbg (l ++ [sg_inst]) sg_init = if dbg then Abort else UB NullDeref.
Proof.
  intros dbg l s h E V N. destruct (sg_run_inv dbg l s h E V) as [[_ Al] _]. rewrite sg_run_snoc, E. cbn [bind sg_step]. unfold inst, is_created, assert_.
  destruct (instance s) as [i|] eqn:Ei; [destruct (N i); apply Al; reflexivity|]. destruct dbg; reflexivity.
Qed.
Print Assumptions C51_inst_without.

Example C51_case : exists s h, sg_run true [sg_is_created; sg_construct None; sg_construct None; sg_inst; sg_destroy 0; sg_construct (Some RuntimeError);
    sg_is_created; sg_construct None; sg_inst] sg_init = Ok (s, h) /\
  map snd h = [sg_bool false; sg_made 0; sg_threw LogicError; sg_obj 0; sg_nothing; sg_threw RuntimeError; sg_bool false; sg_made 3; sg_obj 3] /\
  sg_alive h 3 /\ ~ sg_alive h 0.
Proof.
  eexists _, _. split; [vm_compute; reflexivity|]. split; [reflexivity|]. split.
  - eexists [_; _; _; _; _; _; _], _, [_]. split; [reflexivity|]. intros x [H|[]]. discriminate.
  - intros (h1 & o & h2 & E & N).
    destruct h1 as [|? h1]; [discriminate|injection E as <- E]. destruct h1 as [|? h1].
    + injection E as _ <-. apply (N sg_nothing). right. right. left. reflexivity.
    + injection E as <- E. do 7 (destruct h1 as [|? h1]; [discriminate|injection E as <- E]). destruct h1; discriminate.
Qed.

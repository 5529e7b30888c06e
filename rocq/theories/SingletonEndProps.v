(** Property C113. *)
From Verif Require Import Base SingletonEndModel SingletonEndSpec SingletonEndProofs.

(** C113. Exactly when a program with a singleton ends well, and that all objects have been destroyed then. *)
Theorem C113_end : forall dbg clears l p before x after, p_run dbg l p_start = Ok (p, before ++ (p_instance, x) :: after) ->
  p_valid (before ++ (p_instance, x) :: after) ->
  (is_ok (p_end dbg clears p) = true <-> ends_well dbg clears before after (before ++ (p_instance, x) :: after)) /\
  forall p', p_end dbg clears p = Ok p' -> live p' = [] /\ gone p' = true.
Proof. intros dbg clears l p before x after R V. exact (end_exactly dbg clears before after x p V (run_inv dbg l p _ R V)). Qed.
Print Assumptions C113_end.

(** The use that the documentation shows: an automatic object that is destroyed before main returns. No order of
    initialization matters. *)
Theorem C113_scoped : forall dbg clears l p h, p_run dbg l p_start = Ok (p, h) -> p_valid h -> (exists x, In (p_instance, x) h) ->
  (forall i st, ~ p_alive h i st) -> (forall u x, In (p_user u, x) h -> u = use_nothing) -> is_ok (p_end dbg clears p) = true.
Proof.
  intros dbg clears l p h R V [x H] N U. apply in_split in H. destruct H as (before & after & E). subst h.
  apply (C113_end dbg clears l p before x after R V).
  split; [intros u y H; apply (U u y); apply in_or_app; auto|].
  split. { intros (i & f & H). apply (N i Static). apply (pi_static _ _ (run_inv dbg l p _ R V) f). apply in_or_app. auto. }
  split; [intros i; apply N|]. split; [intros [i H]; destruct (N _ _ H)|].
  intros h3 y h4 ->. specialize (U use_inst y). discriminate U. apply in_or_app. right. right. apply in_or_app. right. left. reflexivity.
Qed.
Print Assumptions C113_scoped.

(** std::exit while an automatic object is there deletes that object, which is not on the heap. *)
Theorem C113_exit : forall dbg clears l p before x after i, p_run dbg l p_start = Ok (p, before ++ (p_instance, x) :: after) ->
  p_valid (before ++ (p_instance, x) :: after) -> p_alive (before ++ (p_instance, x) :: after) i Automatic ->
  p_end dbg clears p = if dbg && clears then Abort else UB BadArgument.
Proof.
  intros dbg clears l p before x after i R V A. apply (end_there dbg clears before after x p V (run_inv dbg l p _ R V) i Automatic A). discriminate.
Qed.
Print Assumptions C113_exit.

(** So does the end of a program with a static object that is initialized before [instance]. *)
Theorem C113_static_before : forall dbg clears l p before x after, p_run dbg l p_start = Ok (p, before ++ (p_instance, x) :: after) ->
  p_valid (before ++ (p_instance, x) :: after) -> static_object before ->
  p_end dbg clears p = if dbg && clears then Abort else UB BadArgument.
Proof.
  intros dbg clears l p before x after R V Sb. pose proof (run_inv dbg l p _ R V) as I. destruct Sb as (i & f & H) eqn:E.
  apply (end_there dbg clears before after x p V I i Static); [|intros _; exists i, f; exact H].
  apply (pi_static _ _ I f). apply in_or_app. auto.
Qed.
Print Assumptions C113_static_before.

(** An object that is left on the heap is deleted, though the comment says otherwise; with assertions and a library that clears the
    pointer first the program is aborted. *)
Theorem C113_heap : forall dbg clears l p before x after i, p_run dbg l p_start = Ok (p, before ++ (p_instance, x) :: after) ->
  p_valid (before ++ (p_instance, x) :: after) -> p_alive (before ++ (p_instance, x) :: after) i Heap ->
  (forall u y, In (p_user u, y) before -> u = use_nothing) ->
  if dbg && clears then p_end dbg clears p = Abort else exists p', p_end dbg clears p = Ok p' /\ live p' = [].
Proof.
  intros dbg clears l p before x after i R V A U. pose proof (run_inv dbg l p _ R V) as I.
  rewrite (end_there dbg clears before after x p V I i Heap A) by discriminate. destruct (dbg && clears); [reflexivity|].
  eexists. split; [apply (rest_ok dbg clears before after x V); [reflexivity| |exact U]|reflexivity].
  intros f j H. destruct (alive_one before after x p I i Heap j Static A) as [_ D]; [|discriminate].
  apply (pi_static _ _ I f). apply in_or_app. auto.
Qed.
Print Assumptions C113_heap.

Example C113_case :
  let run l := match p_run false l p_start with Ok (p, h) => Some (p, h) | _ => None end in
  let over l := match run l with Some (p, _) => Some (p_end false false p) | None => None end in
  let ok l := match over l with Some o => is_ok o | None => false end in
  let auto_ := p_construct Automatic None in let heap := p_construct Heap None in let stat := p_construct Static None in
  (* main with an automatic object *)
  ok [p_instance; auto_; p_destroy 0] = true /\
  (* exit from main *)
  over [p_instance; auto_] = Some (UB BadArgument) /\
  (* left on the heap *)
  ok [p_instance; heap] = true /\
  (* static objects, one after the other: the second throws *)
  ok [p_instance; stat; stat; p_user use_inst] = true /\ over [stat; p_instance] = Some (UB BadArgument) /\
  (* users *)
  over [p_instance; p_user use_inst; stat] = Some (UB NullDeref) /\ over [p_user use_is_created; p_instance] = Some (UB UseAfterFree) /\
  ok [p_user use_nothing; p_instance; p_user use_is_created; heap; p_destroy 0; heap; p_user use_inst] = true.
Proof. vm_compute. repeat split. Qed.
(** the hypotheses hold for these *)
Example C113_case_valid : exists p h1 x h2, p_run true [p_user use_nothing; p_instance; p_construct Automatic None] p_start = Ok (p, h1 ++ (p_instance, x) :: h2) /\
  p_valid (h1 ++ (p_instance, x) :: h2) /\ p_alive (h1 ++ (p_instance, x) :: h2) 0 Automatic /\ p_end true true p = Abort.
Proof.
  eexists _, [_], _, [_]. split; [vm_compute; reflexivity|]. split; [|split].
  - intros h1 o x h2 E. destruct h1 as [|? [|? [|? h1]]]; injection E; intros; subst; cbn; auto.
    + intros y [H|[]]. discriminate.
    + destruct h1; discriminate.
  - exists [(p_user use_nothing, p_nothing); (p_instance, p_nothing)], None, []. split; [reflexivity|]. intros y [].
  - reflexivity.
Qed.

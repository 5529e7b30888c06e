(** Specification of scope_exit and singleton. *)
From Verif Require Import Base RaiiModel.

Section ScopeExit.
Context {F W : Type}.
(** The functions given to the scope_exits constructed, in order *)
Fixpoint constructed (h : list (se_op F)) : list (option F) :=
  match h with [] => [] | se_construct f :: h => f :: constructed h | _ :: h => constructed h end.
Definition about (o : se_op F) (i : nat) : Prop := o = se_release i \/ o = se_destroy i.
(** Objects are used between construction and destruction only. *)
Definition se_valid (h : list (se_op F)) : Prop :=
  forall h1 o h2 i, h = h1 ++ o :: h2 -> about o i -> i < length (constructed h1) /\ ~ In (se_destroy i) h1.
(** What an operation has to show after the history [h1]: the function is there until the first release. *)
Definition se_expected (h1 : list (se_op F)) (o : se_op F) (x : se_out F) : Prop :=
  match o with
  | se_construct _ => x = se_nothing
  | se_release i => exists f, nth_error (constructed h1) i = Some f /\
      ((In (se_release i) h1 /\ x = se_returned None) \/ (~ In (se_release i) h1 /\ x = se_returned f))
  | se_destroy i => exists f, nth_error (constructed h1) i = Some f /\
      ((In (se_release i) h1 /\ x = se_ran None) \/ (~ In (se_release i) h1 /\ x = se_ran f))
  end.
(** the effect of the functions run, whether they throw or not *)
Variable call : F -> W -> W * option exn.
Definition effects (xs : list (se_out F)) (w : W) : W :=
  fold_left (fun w x => match x with se_ran (Some f) => fst (call f w) | _ => w end) xs w.
End ScopeExit.

(** Singleton objects alive, by what has been observed *)
Definition sg_alive (h : list (sg_op * sg_out)) (i : nat) : Prop :=
  exists h1 o h2, h = h1 ++ (o, sg_made i) :: h2 /\ forall x, ~ In (sg_destroy i, x) h2.
(** Only objects that are alive are destroyed; inst is called only when there is one. *)
Definition sg_allowed (h : list (sg_op * sg_out)) (o : sg_op) : Prop :=
  match o with
  | sg_destroy i => sg_alive h i
  | sg_inst => exists i, sg_alive h i
  | _ => True
  end.
Definition sg_expected (h : list (sg_op * sg_out)) (o : sg_op) (x : sg_out) : Prop :=
  match o with
  | sg_construct fails =>
      ((exists i, sg_alive h i) /\ x = sg_threw LogicError) \/
      ((forall i, ~ sg_alive h i) /\ match fails with Some e => x = sg_threw e | None => exists i, x = sg_made i /\ forall o, ~ In (o, sg_made i) h end)
  | sg_destroy _ => x = sg_nothing
  | sg_is_created => ((exists i, sg_alive h i) /\ x = sg_bool true) \/ ((forall i, ~ sg_alive h i) /\ x = sg_bool false)
  | sg_inst => exists i, sg_alive h i /\ x = sg_obj i
  end.

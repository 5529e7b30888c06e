(** Specification of the end of a program with a singleton. A history lists what was done, with results, until main returned or
    std::exit was called. *)
From Verif Require Import Base SingletonEndModel.

Notation history := (list (p_op * p_out)).
(** The object i, with this storage duration, has been made and not been destroyed. *)
Definition p_alive (h : history) (i : nat) (st : storage) : Prop :=
  exists h1 fails h2, h = h1 ++ (p_construct st fails, p_made i) :: h2 /\ forall x, ~ In (p_destroy i, x) h2.
(** Only objects that are alive are destroyed, those with static storage duration not before the end; [instance] is initialized
    once. *)
Definition p_allowed (h : history) (o : p_op) : Prop :=
  match o with
  | p_instance => forall x, ~ In (p_instance, x) h
  | p_destroy i => exists st, p_alive h i st /\ st <> Static
  | _ => True
  end.
Definition p_valid (h : history) : Prop := forall h1 o x h2, h = h1 ++ (o, x) :: h2 -> p_allowed h1 o.
(** a singleton object with static storage duration was initialized *)
Definition static_object (h : history) : Prop := exists i fails, In (p_construct Static fails, p_made i) h.

(** The program ends well: the static objects initialized before [instance] and destroyed after it do not use it and are no
    singletons, no automatic singleton object is left (by std::exit), an object left on the heap is not met by the assertion, and
    destructors of static objects that call inst run before the object is destroyed. *)
Definition ends_well (dbg clears : bool) (before after : history) (h : history) : Prop :=
  (forall u x, In (p_user u, x) before -> u = use_nothing) /\ ~ static_object before /\
  (forall i, ~ p_alive h i Automatic) /\ ((exists i, p_alive h i Heap) -> dbg && clears = false) /\
  forall h3 x h4, after = h3 ++ (p_user use_inst, x) :: h4 -> (exists i, p_alive h i Heap) \/ static_object h3.

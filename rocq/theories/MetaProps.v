(** Properties of the compile-time helpers. *)
From Verif Require Import Base MetaModel MetaProofs.

(** ** C80 *)
(** index_of is the position of the type among the alternatives if it is there exactly once; otherwise the program
    does not compile. *)
Theorem C80_index_of : forall (T : Type) same_type (t : T) items i, (forall a b, same_type a b = true <-> a = b) ->
  (index_of same_type t items = Some i <->
   nth_error items i = Some t /\ (forall j, nth_error items j = Some t -> j = i)).
Proof. intros T same_type t items i H. exact (index_of_ok same_type H t items i). Qed.
Print Assumptions C80_index_of.

(** offset_sequence keeps the number of indices and adds the offset to each. *)
Theorem C80_offset_sequence : forall offset l,
  length (offset_sequence offset l) = length l /\
  forall i x, nth_error l i = Some x -> (x + offset < 2 ^ 64)%N ->
    nth_error (offset_sequence offset l) i = Some (x + offset)%N.
Proof. intros offset l. split; [apply offset_len|intros i x; apply offset_ok]. Qed.
Print Assumptions C80_offset_sequence.

Example C80_case :
  index_of Nat.eqb 3 [5; 3; 4] = Some 1 /\ index_of Nat.eqb 3 [5; 3; 3] = None /\ index_of Nat.eqb 3 [] = None /\
  offset_sequence 3 [0; 1; 5]%N = [3; 4; 8]%N.
Proof. repeat split. Qed.

(** ** C81 *)
(** remove_const_reference agrees with std::remove_cvref exactly on types that are not volatile. *)
Theorem C81_remove_const_reference : forall t,
  remove_const_reference t = remove_cvref t <->
  (forall c v o, remove_reference t = Obj (Q c v o) -> v = false).
Proof. exact remove_const_reference_ok. Qed.
Print Assumptions C81_remove_const_reference.

(** The documentation calls it a drop-in replacement. *)
Theorem C81_drop_in_refuted : ~ forall t, remove_const_reference t = remove_cvref t.
Proof. intro H. specialize (H (LRef (Q true true (Fundamental 0)))). discriminate H. Qed.
Print Assumptions C81_drop_in_refuted.

(** remove_const_pointer strips one pointer and the constness of what it points to, but not volatile. *)
Theorem C81_remove_const_pointer : forall c v c' v' o,
  remove_const_pointer (Obj (Q c v (Pointer (Q c' v' o)))) = Obj (Q false v' o).
Proof. exact remove_const_pointer_ok. Qed.
Print Assumptions C81_remove_const_pointer.

(** is_specialization_of: only for types without qualifiers and references. *)
Theorem C81_is_specialization_of : forall template t,
  is_specialization_of template t = true <-> exists args, t = Obj (Q false false (Special template args)).
Proof. exact is_specialization_ok. Qed.
Print Assumptions C81_is_specialization_of.

Theorem C81_is_scoped_enum : forall t, is_scoped_enum t = true <-> exists c v n, t = Obj (Q c v (Enum n true)).
Proof. exact is_scoped_ok. Qed.
Print Assumptions C81_is_scoped_enum.

Theorem C81_type_or_void : forall m void,
  (is_type_defined m = true <-> exists t, m = Accessible t) /\
  (forall t, m = Accessible t -> type_or_void void m = t) /\
  (is_type_defined m = false -> type_or_void void m = void).
Proof. exact type_defined_ok. Qed.
Print Assumptions C81_type_or_void.

Example C81_case :
  let char_ := Fundamental 1 in let plain o := Obj (Q false false o) in
  remove_const_pointer (plain (Pointer (Q true false char_))) = plain char_ /\
  remove_const_reference (LRef (Q true false char_)) = plain char_ /\
  remove_const_reference (RRef (Q false true char_)) = Obj (Q false true char_) /\
  is_specialization_of 7 (plain (Special 7 [Q false false char_])) = true /\
  is_specialization_of 7 (Obj (Q true false (Special 7 []))) = false /\
  is_specialization_of 7 (LRef (Q false false (Special 7 []))) = false /\
  is_scoped_enum (plain (Enum 2 true)) = true /\ is_scoped_enum (plain (Enum 2 false)) = false /\
  is_scoped_enum (LRef (Q false false (Enum 2 true))) = false /\
  is_type_defined (Inaccessible (plain char_)) = false.
Proof. repeat split. Qed.

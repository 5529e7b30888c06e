(** Specifications for EnumModel.v. *)
From Verif Require Import Base MiscModel MiscSpec.
Local Open Scope Z_scope.

(** An enumeration: its underlying type represents the value of enum_size, which is the number of its
    items. *)
Definition is_enum (t : ity) (size : Z) : Prop :=
  8 <= bits t <= 64 /\ 0 <= size /\ is_value t size.
(** [l] enumerates the items: each once and in order, nothing else. *)
Definition enumerates (size : Z) (l : list Z) : Prop :=
  Z.of_nat (length l) = size /\ forall i, (i < length l)%nat -> nth_error l i = Some (Z.of_nat i).
(** Reading of an array as a total map from the items *)
Definition reads {A} (a : list A) (e : Z) (v : A) : Prop := 0 <= e /\ nth_error a (Z.to_nat e) = Some v.

(** Big integers as lists of limbs, the least significant first. Independent of the model. *)
From Verif Require Import Base.
From Verif Require Export FloatPlatform.
Local Open Scope Z_scope.

(** The platform decides about the width of a limb. *)
Definition width {lw : platform} : Z := match lw with Limb32 _ => 32 | Limb64 _ => 64 end.

(** The capacity of the vectors: 62 limbs of 64 bits, and a little more with 32 bits. *)
Definition room : Z := 2 ^ 3968.
Section Limbs.
Context {lw : platform}.
Definition limb (x : Z) : Prop := 0 <= x < 2 ^ width.
Fixpoint big (v : list Z) : Z := match v with [] => 0 | x :: t => x + 2 ^ width * big t end.
(** The limbs of a number without leading zeros. *)
Definition wf (v : list Z) : Prop := Forall limb v /\ (v = [] \/ 2 ^ (width * (Z.of_nat (length v) - 1)) <= big v).
End Limbs.

(** flags as a set of enumerators: a state maps each object to the set of its flags. *)
From Verif Require Import Base FlagsModel.
Local Open Scope Z_scope.

(** The set represented by a bitset *)
Definition members (b : list bool) : Z -> Prop := fun e => 0 <= e /\ nth (Z.to_nat e) b false = true.

Definition sets (s : nat -> list bool) : nat -> Z -> Prop := fun r => members (s r).

Section Spec.
Variable n : Z.
Definition flag_set := Z -> Prop.
Definition enumerator (e : Z) : Prop := 0 <= e < n.

(** [effect S i S']: what an instruction does to the sets. All but the target are unchanged. *)
Definition becomes (S S' : nat -> flag_set) (r : nat) (T : flag_set) : Prop :=
  (forall e, enumerator e -> (S' r e <-> T e)) /\ (forall x e, x <> r -> enumerator e -> (S' x e <-> S x e)).
Definition unchanged (S S' : nat -> flag_set) : Prop := forall x e, enumerator e -> (S' x e <-> S x e).
Definition effect (S : nat -> flag_set) (i : instr) (S' : nat -> flag_set) : Prop :=
  match i with
  | i_bool r v | i_set_all r v => becomes S S' r (fun _ => v = true)
  | i_list r l => becomes S S' r (fun e => In e l)
  | i_one r e => becomes S S' r (fun x => x = e)
  | i_or_enums r e1 e2 => becomes S S' r (fun x => x = e1 \/ x = e2)
  | i_set r e v | i_assign r e v => becomes S S' r (fun x => x = e /\ v = true \/ x <> e /\ S r x)
  | i_clear r e => becomes S S' r (fun x => x <> e /\ S r x)
  | i_clear_all r => becomes S S' r (fun _ => False)
  | i_invert r => becomes S S' r (fun x => ~ S r x)
  | i_and_assign r x => becomes S S' r (fun e => S r e /\ S x e)
  | i_or_assign r x => becomes S S' r (fun e => S r e \/ S x e)
  | i_xor_assign r x => becomes S S' r (fun e => ~ (S r e <-> S x e))
  | i_and r x y => becomes S S' r (fun e => S x e /\ S y e)
  | i_or r x y => becomes S S' r (fun e => S x e \/ S y e)
  | i_xor r x y => becomes S S' r (fun e => ~ (S x e <-> S y e))
  | i_not r x => becomes S S' r (fun e => ~ S x e)
  | i_or_enum r x e => becomes S S' r (fun y => S x y \/ y = e)
  | _ => unchanged S S'
  end.

(** The text: one character per enumerator, the last enumerator first. *)
Definition printed (T : flag_set) (s : list Z) : Prop :=
  Z.of_nat (length s) = n /\
  forall e, enumerator e -> (T e -> nth (Z.to_nat (n - 1 - e)) s 0 = 49) /\ (~ T e -> nth (Z.to_nat (n - 1 - e)) s 0 = 48).
Definition observed (S : nat -> flag_set) (i : instr) (o : obs) : Prop :=
  match i, o with
  | i_get x e, o_bool v | i_index x e, o_bool v => v = true <-> S x e
  | i_is_clear x, o_bool v => v = true <-> forall e, enumerator e -> ~ S x e
  | i_is_set x, o_bool v => v = true <-> forall e, enumerator e -> S x e
  | i_eq x y, o_bool v => v = true <-> forall e, enumerator e -> (S x e <-> S y e)
  | i_ne x y, o_bool v => v = true <-> ~ forall e, enumerator e -> (S x e <-> S y e)
  | i_size _, o_size k => k = n
  | i_print x, o_text s => printed (S x) s
  | i_get _ _, _ | i_index _ _, _ | i_is_clear _, _ | i_is_set _, _ | i_eq _ _, _ | i_ne _ _, _ | i_size _, _ | i_print _, _ => False
  | _, o => o = o_none
  end.

(** Every flag named by the instruction is an enumerator. *)
Definition proper (i : instr) : Prop :=
  match i with
  | i_list _ l => Forall enumerator l
  | i_or_enums _ a b => enumerator a /\ enumerator b
  | i_one _ e | i_set _ e _ | i_assign _ e _ | i_clear _ e | i_or_enum _ _ e | i_get _ e | i_index _ e => enumerator e
  | _ => True
  end.

(** A run of the program over sets: [behaves S p os S'] *)
Inductive behaves : (nat -> flag_set) -> list instr -> list obs -> (nat -> flag_set) -> Prop :=
| beh_nil S : behaves S [] [] S
| beh_cons S i S1 p o os S' : effect S i S1 -> observed S i o -> behaves S1 p os S' -> behaves S (i :: p) (o :: os) S'.
End Spec.

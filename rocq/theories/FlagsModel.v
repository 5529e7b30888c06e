(** Model of utki::flags: src/utki/flags.hpp:73-374.

    std::bitset<n> is a list of [n] bools, index 0 first. An enumerator is the value of its
    underlying type, a [Z]; size_t(flag) is that value modulo 2^64. An enumeration with a fixed
    underlying type can hold values that are not enumerators, negative ones included. *)
From Verif Require Import Base.
Local Open Scope Z_scope.

Definition size_t (e : Z) : Z := e mod 2 ^ 64.

(** std::bitset *)
Definition bitset_set_all (b : list bool) : list bool := map (fun _ => true) b.
Definition bitset_reset_all (b : list bool) : list bool := map (fun _ => false) b.
Definition bitset_flip (b : list bool) : list bool := map negb b.
Fixpoint write_bit (b : list bool) (i : nat) (v : bool) : list bool :=
  match b, i with
  | [], _ => []
  | _ :: b, O => v :: b
  | x :: b, S i => x :: write_bit b i v
  end.
(** set(pos, value) and reset(pos) check the position, operator[] does not *)
Definition bitset_set (b : list bool) (pos : Z) (v : bool) : outcome (list bool) :=
  if pos <? Z.of_nat (length b) then Ok (write_bit b (Z.to_nat pos) v) else Throw OutOfRange.
Definition bitset_reset (b : list bool) (pos : Z) : outcome (list bool) := bitset_set b pos false.
Definition bitset_index (b : list bool) (pos : Z) : outcome bool :=
  if pos <? Z.of_nat (length b) then Ok (nth (Z.to_nat pos) b false) else UB OutOfBounds.
(** writing through the reference returned by operator[] *)
Definition bitset_assign (b : list bool) (pos : Z) (v : bool) : outcome (list bool) :=
  if pos <? Z.of_nat (length b) then Ok (write_bit b (Z.to_nat pos) v) else UB OutOfBounds.
Fixpoint bitset_map2 (f : bool -> bool -> bool) (a b : list bool) : list bool :=
  match a, b with
  | x :: a, y :: b => f x y :: bitset_map2 f a b
  | _, _ => []
  end.
Definition bitset_none (b : list bool) : bool := forallb negb b.
Definition bitset_all (b : list bool) : bool := forallb (fun x => x) b.
Fixpoint bitset_eqb (a b : list bool) : bool :=
  match a, b with
  | [], [] => true
  | x :: a, y :: b => Bool.eqb x y && bitset_eqb a b
  | _, _ => false
  end.
(** operator<<: the bit of the highest position first *)
Definition bitset_text (b : list bool) : list Z := rev (map (fun x : bool => if x then 49 else 48) b).

Section Flags.
Variables (dbg : bool) (n : Z).
(** n = size_t(enum_size), at least 1 by the static_assert *)
Definition empty_bits : list bool := repeat false (Z.to_nat n).

(** constructors: 92-116; operator| of two enumerators: 363-374 *)
Definition flags_bool (initial_value : bool) : list bool :=
  if initial_value then bitset_set_all empty_bits else empty_bits.
Fixpoint set_each (b : list bool) (l : list Z) : outcome (list bool) :=
  match l with
  | [] => Ok b
  | v :: l => b <- bitset_set b (size_t v) true ;; set_each b l
  end.
Definition flags_list (l : list Z) : outcome (list bool) := set_each empty_bits l.
Definition flags_one (e : Z) : outcome (list bool) := flags_list [e].
Definition or_enums (e1 e2 : Z) : outcome (list bool) := flags_list [e1; e2].

(** size: 118; operator[]: 123-131; get: 139-143. The assertion compares values of the enumeration
    type, before the conversion to size_t. *)
Definition flags_size (b : list bool) : Z := Z.of_nat (length b).
Definition flags_index (b : list bool) (e : Z) : outcome bool := bitset_index b (size_t e).
Definition flags_assign (b : list bool) (e : Z) (v : bool) : outcome (list bool) := bitset_assign b (size_t e) v.
Definition flags_get (b : list bool) (e : Z) : outcome bool :=
  assert_ dbg (e <? n) ;;; bitset_index b (size_t e).

(** set: 151-166; clear: 188-201. The exception of the bitset is swallowed; in the handler is
    ASSERT(false). *)
Definition swallow (b : list bool) (m : outcome (list bool)) : outcome (list bool) :=
  match m with
  | Throw _ => assert_ dbg false ;;; Ok b
  | m => m
  end.
Definition flags_set (b : list bool) (e : Z) (v : bool) : outcome (list bool) :=
  assert_ dbg (e <? n) ;;; swallow b (bitset_set b (size_t e) v).
Definition flags_clear (b : list bool) (e : Z) : outcome (list bool) :=
  assert_ dbg (e <? n) ;;; swallow b (bitset_reset b (size_t e)).

(** set all: 173-181; clear all: 207-211; is_clear: 218; is_set: 228; invert: 237-241 *)
Definition flags_set_all (b : list bool) (v : bool) : list bool :=
  if v then bitset_set_all b else bitset_reset_all b.
Definition flags_clear_all (b : list bool) : list bool := bitset_reset_all b.
Definition flags_is_clear (b : list bool) : bool := bitset_none b.
Definition flags_is_set (b : list bool) : bool := bitset_all b.
Definition flags_invert (b : list bool) : list bool := bitset_flip b.
(** operators: 249-350 *)
Definition flags_ne (a b : list bool) : bool := negb (bitset_eqb a b).
Definition flags_eq (a b : list bool) : bool := bitset_eqb a b.
Definition flags_not (a : list bool) : list bool := flags_invert a.
Definition flags_and (a b : list bool) : list bool := bitset_map2 andb a b.
Definition flags_or (a b : list bool) : list bool := bitset_map2 orb a b.
Definition flags_or_enum (a : list bool) (e : Z) : outcome (list bool) := flags_set a e true.
Definition flags_xor (a b : list bool) : list bool := bitset_map2 xorb a b.
Definition flags_print (b : list bool) : list Z := bitset_text b.

(** A program over any number of flags objects, addressed by numbers. *)
Inductive instr :=
| i_bool (r : nat) (v : bool) | i_list (r : nat) (l : list Z) | i_one (r : nat) (e : Z) | i_or_enums (r : nat) (e1 e2 : Z)
| i_set (r : nat) (e : Z) (v : bool) | i_assign (r : nat) (e : Z) (v : bool) | i_set_all (r : nat) (v : bool)
| i_clear (r : nat) (e : Z) | i_clear_all (r : nat) | i_invert (r : nat)
| i_and_assign (r x : nat) | i_or_assign (r x : nat) | i_xor_assign (r x : nat)
| i_and (r x y : nat) | i_or (r x y : nat) | i_xor (r x y : nat) | i_not (r x : nat) | i_or_enum (r x : nat) (e : Z)
| i_get (x : nat) (e : Z) | i_index (x : nat) (e : Z) | i_is_clear (x : nat) | i_is_set (x : nat)
| i_eq (x y : nat) | i_ne (x y : nat) | i_size (x : nat) | i_print (x : nat).
Inductive obs := o_none | o_bool (v : bool) | o_size (n : Z) | o_text (s : list Z).

Definition update {A} (s : nat -> A) (r : nat) (v : A) : nat -> A := fun x => if Nat.eqb x r then v else s x.
Definition store (s : nat -> list bool) (r : nat) (m : outcome (list bool)) : outcome ((nat -> list bool) * obs) :=
  v <- m ;; Ok (update s r v, o_none).
Definition query (s : nat -> list bool) (m : outcome obs) : outcome ((nat -> list bool) * obs) := o <- m ;; Ok (s, o).
Definition step (s : nat -> list bool) (i : instr) : outcome ((nat -> list bool) * obs) :=
  match i with
  | i_bool r v => store s r (Ok (flags_bool v))
  | i_list r l => store s r (flags_list l)
  | i_one r e => store s r (flags_one e)
  | i_or_enums r e1 e2 => store s r (or_enums e1 e2)
  | i_set r e v => store s r (flags_set (s r) e v)
  | i_assign r e v => store s r (flags_assign (s r) e v)
  | i_set_all r v => store s r (Ok (flags_set_all (s r) v))
  | i_clear r e => store s r (flags_clear (s r) e)
  | i_clear_all r => store s r (Ok (flags_clear_all (s r)))
  | i_invert r => store s r (Ok (flags_invert (s r)))
  | i_and_assign r x => store s r (Ok (flags_and (s r) (s x)))
  | i_or_assign r x => store s r (Ok (flags_or (s r) (s x)))
  | i_xor_assign r x => store s r (Ok (flags_xor (s r) (s x)))
  | i_and r x y => store s r (Ok (flags_and (s x) (s y)))
  | i_or r x y => store s r (Ok (flags_or (s x) (s y)))
  | i_xor r x y => store s r (Ok (flags_xor (s x) (s y)))
  | i_not r x => store s r (Ok (flags_not (s x)))
  | i_or_enum r x e => store s r (flags_or_enum (s x) e)
  | i_get x e => query s (v <- flags_get (s x) e ;; Ok (o_bool v))
  | i_index x e => query s (v <- flags_index (s x) e ;; Ok (o_bool v))
  | i_is_clear x => query s (Ok (o_bool (flags_is_clear (s x))))
  | i_is_set x => query s (Ok (o_bool (flags_is_set (s x))))
  | i_eq x y => query s (Ok (o_bool (flags_eq (s x) (s y))))
  | i_ne x y => query s (Ok (o_bool (flags_ne (s x) (s y))))
  | i_size x => query s (Ok (o_size (flags_size (s x))))
  | i_print x => query s (Ok (o_text (flags_print (s x))))
  end.
Fixpoint run (s : nat -> list bool) (p : list instr) : outcome ((nat -> list bool) * list obs) :=
  match p with
  | [] => Ok (s, [])
  | i :: p =>
      r <- step s i ;;
      let '(s, o) := r in
      r <- run s p ;;
      let '(s, os) := r in
      Ok (s, o :: os)
  end.
End Flags.

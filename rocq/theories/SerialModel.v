(** Model of the (de)serialization functions of src/utki/utility.hpp:282-576.
    Memory is one array of bytes; a pointer is a position in it. *)
From Verif Require Import Base.
Local Open Scope N_scope.

Definition mem := list N.

(** [*p] for reading and writing; outside of the array this is undefined. *)
Definition load (m : mem) (p : nat) : outcome N :=
  match nth_error m p with Some b => Ok b | None => UB OutOfBounds end.

Fixpoint update (m : mem) (p : nat) (b : N) : mem :=
  match m, p with
  | [], _ => []
  | _ :: r, O => b :: r
  | x :: r, S p => x :: update r p b
  end.

Definition store (m : mem) (p : nat) (b : N) : outcome mem :=
  if Nat.ltb p (length m) then Ok (update m p b) else UB OutOfBounds.

(** Width in bits of the promoted type of a [w]-byte unsigned type. *)
Definition promoted_bits (w : N) : N := if w <? 4 then 32 else 8 * w.

(** [x >> n] and [x << n] on the promoted type: the amount has to be below its width; types
    narrower than int are promoted to (signed) int, where the result of << has to fit. *)
Definition shr (w x n : N) : outcome N :=
  if n <? promoted_bits w then Ok (N.shiftr x n) else UB ShiftOverflow.

Definition shl (w x n : N) : outcome N :=
  if n <? promoted_bits w then
    if w <? 4 then
      (if N.shiftl x n <? 2 ^ 31 then Ok (N.shiftl x n) else UB SignedOverflow)
    else Ok (N.shiftl x n mod 2 ^ (8 * w))
  else UB ShiftOverflow.

(** utility.hpp:294-299: the loop of serialize_le. [n] bytes of the span are left, the loop
    variable [b] refers to position [p]. *)
Fixpoint serialize_le_loop (w value : N) (n : nat) (index : N) (p : nat) (m : mem) : outcome mem :=
  match n with
  | O => Ok m
  | S n' =>
      x <- shr w value (8 * index) ;;
      m <- store m p (N.land x 255 mod 256) ;;
      serialize_le_loop w value n' (index + 1) (S p) m
  end.

(** utility.hpp:288-302, serialize_le<unsigned_type> with sizeof = [w]; also serialize16le,
    serialize32le, serialize64le (311-338), which forward to it. Returns the new memory and the
    returned pointer. *)
Definition serialize_le (w : nat) (value : N) (out : nat) (m : mem) : outcome (mem * nat) :=
  m <- serialize_le_loop (N.of_nat w) value w 0 out m ;;
  Ok (m, (out + w)%nat).

(** utility.hpp:353-358: the loop of deserialize_le. *)
Fixpoint deserialize_le_loop (w : N) (n : nat) (index ret : N) (p : nat) (m : mem) : outcome N :=
  match n with
  | O => Ok ret
  | S n' =>
      b <- load m p ;;
      x <- shl w b (8 * index) ;;
      deserialize_le_loop w n' (index + 1) (N.lor ret x mod 2 ^ (8 * w)) (S p) m
  end.

(** utility.hpp:345-361, deserialize_le; deserialize16le, 32le, 64le (370-397) forward to it. *)
Definition deserialize_le (w : nat) (p : nat) (m : mem) : outcome N :=
  deserialize_le_loop (N.of_nat w) w 0 0 p m.

(** [--index] on [unsigned]. *)
Definition dec32 (i : N) : N := (i + 2 ^ 32 - 1) mod 2 ^ 32.

(** utility.hpp:439-448: the loop of serialize_be. *)
Fixpoint serialize_be_loop (dbg : bool) (w value : N) (n : nat) (index : N) (p : nat) (m : mem)
  : outcome mem :=
  match n with
  | O => Ok m
  | S n' =>
      assert_ dbg (0 <? index) ;;;
      let index := dec32 index in
      let num_bits_to_shift := (8 * index) mod 2 ^ 32 in
      assert_ dbg (num_bits_to_shift <=? w * 8) ;;;
      x <- shr w value num_bits_to_shift ;;
      m <- store m p (N.land x 255 mod 256) ;;
      serialize_be_loop dbg w value n' index (S p) m
  end.

(** utility.hpp:433-451, serialize_be; serialize16be, 32be, 64be (460-487) forward to it. *)
Definition serialize_be (dbg : bool) (w : nat) (value : N) (out : nat) (m : mem) : outcome (mem * nat) :=
  m <- serialize_be_loop dbg (N.of_nat w) value w (N.of_nat w) out m ;;
  Ok (m, (out + w)%nat).

(** utility.hpp:502-509: the loop of deserialize_be. *)
Fixpoint deserialize_be_loop (dbg : bool) (w : N) (n : nat) (index ret : N) (p : nat) (m : mem)
  : outcome N :=
  match n with
  | O => Ok ret
  | S n' =>
      b <- load m p ;;
      let index := dec32 index in
      assert_ dbg (index <=? w) ;;;
      x <- shl w b ((8 * index) mod 2 ^ 32) ;;
      deserialize_be_loop dbg w n' index (N.lor ret x mod 2 ^ (8 * w)) (S p) m
  end.

(** utility.hpp:494-512, deserialize_be; deserialize16be, 32be, 64be (521-548) forward to it. *)
Definition deserialize_be (dbg : bool) (w : nat) (p : nat) (m : mem) : outcome N :=
  deserialize_be_loop dbg (N.of_nat w) w (N.of_nat w) 0 p m.

(** A float by its IEEE 754 single precision fields. *)
Record float32 := { f_sign : bool; f_expo : N; f_frac : N }.

(** The object representation of a float read as uint32_t and back (the reinterpret_casts in
    utility.hpp:408-410, 422-424, 559-561, 573-575). By the letter of the standard these casts
    violate the aliasing rule; the model takes the meaning gcc and clang give them. *)
Definition float_bits (f : float32) : N :=
  (if f_sign f then 2 ^ 31 else 0) + f_expo f * 2 ^ 23 + f_frac f.
Definition float_of_bits (b : N) : float32 :=
  {| f_sign := N.testbit b 31; f_expo := b / 2 ^ 23 mod 2 ^ 8; f_frac := b mod 2 ^ 23 |}.

(** utility.hpp:405-411, 418-425, 556-562, 569-576. *)
Definition serialize_float_le (f : float32) (out : nat) (m : mem) := serialize_le 4 (float_bits f) out m.
Definition deserialize_float_le (p : nat) (m : mem) : outcome float32 :=
  v <- deserialize_le 4 p m ;; Ok (float_of_bits v).
Definition serialize_float_be (dbg : bool) (f : float32) (out : nat) (m : mem) :=
  serialize_be dbg 4 (float_bits f) out m.
Definition deserialize_float_be (dbg : bool) (p : nat) (m : mem) : outcome float32 :=
  v <- deserialize_be dbg 4 p m ;; Ok (float_of_bits v).

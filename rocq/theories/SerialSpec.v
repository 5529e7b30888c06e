(** Positional notation of numbers in base 256, independent of the code. *)
From Verif Require Import Base.
Local Open Scope N_scope.

(** Byte [i] of a number, 0 = least significant. *)
Definition nth_byte (v : N) (i : nat) : N := v / 256 ^ N.of_nat i mod 256.

Definition le_bytes (w : nat) (v : N) : list N := map (nth_byte v) (seq 0 w).
Definition be_bytes (w : nat) (v : N) : list N := map (fun i => nth_byte v (w - 1 - i)) (seq 0 w).

(** The number denoted by a list of bytes. *)
Fixpoint le_value (bs : list N) : N :=
  match bs with [] => 0 | b :: r => b + 256 * le_value r end.
Definition be_value (bs : list N) : N := le_value (rev bs).

(** The four bytes of an IEEE 754 single, most significant first: s eeeeeeee fff... *)
Definition ieee_bytes (sign : bool) (expo frac : N) : list N :=
  [ (if sign then 128 else 0) + expo / 2;
    (expo mod 2) * 128 + frac / 65536;
    frac / 256 mod 256;
    frac mod 256 ].

(** Specifications for MiscModel.v. *)
From Verif Require Import Base MiscModel.
Local Open Scope Z_scope.

(** A version that can exist: both members are uint16_t. *)
Definition is_version (v : version) : Prop := 0 <= major v < 65536 /\ 0 <= minor v < 65536.
(** Which of two versions is earlier: the lexicographic order *)
Definition earlier (a b : version) : Prop :=
  major a < major b \/ (major a = major b /\ minor a < minor b).

(** [v] is a value of the integral type. *)
Definition is_value (t : ity) (v : Z) : Prop :=
  if is_signed t then - 2 ^ (bits t - 1) <= v < 2 ^ (bits t - 1) else 0 <= v < 2 ^ bits t.
(** Equal modulo 2^b *)
Definition congruent (b x y : Z) : Prop := exists k, x - y = k * 2 ^ b.

(** Number of whole milliseconds from the epoch to the time point [t] (not before the epoch), in
    nanoseconds *)
Definition whole_ms (t ms : Z) : Prop := ms * 1000000 <= t < (ms + 1) * 1000000.

(** The size of type [t] is the smallest of 1, 2, 4, 8 bytes which is at least [n]. *)
Definition smallest_size (n : Z) (t : ity) : Prop :=
  exists s, In s [1; 2; 4; 8] /\ bits t = 8 * s /\ n <= s /\ forall s', In s' [1; 2; 4; 8] -> n <= s' -> s <= s'.
(** A decimal number: the value of a list of ASCII digits *)
Definition is_digit (c : Z) : Prop := 48 <= c <= 57.
Definition decimal (ds : list Z) : Z := fold_left (fun v d => 10 * v + (d - 48)) ds 0.

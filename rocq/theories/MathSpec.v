(** Floating point numbers as real numbers. Independent of the model. *)
From Coq Require Import Reals.
From Verif Require Import Base FloatSpec.
Local Open Scope R_scope.

(** The value of the pattern [n] of a finite number with the sign [neg]. *)
Definition value (f : format) (neg : bool) (n : Z) : R :=
  (if neg then -1 else 1) * (IZR (scaled f n) / IZR (2 ^ unit_exp f)).
Definition finite (f : format) (n : Z) : Prop := (0 <= n < infinity f)%Z.
(** [n] is the finite number nearest to the positive real [x], every other one being farther from it. *)
Definition nearest_real (f : format) (x : R) (n : Z) : Prop :=
  finite f n /\ forall m, finite f m -> m <> n -> Rabs (value f false n - x) < Rabs (value f false m - x).
(** The largest relative error of rounding to nearest, and the smallest positive number. *)
Definition roundoff (f : format) : R := / IZR (2 ^ (mant_bits f + 1)).
Definition smallest (f : format) : R := / IZR (2 ^ unit_exp f).
(** The numbers in order: the infinities are the ends, the two zeros are equal. *)
Definition order_key (neg : bool) (n : Z) : Z := if neg then (- n)%Z else n.

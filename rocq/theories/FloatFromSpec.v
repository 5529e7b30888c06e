(** What a conversion of a text to a floating point number gives. Independent of the model. *)
From Verif Require Import Base FloatSpec FloatTextSpec.
Local Open Scope Z_scope.

(** The pattern of the quiet NaN with an empty payload. *)
Definition nan_pattern (f : format) : Z := infinity f + 2 ^ (mant_bits f - 1).

(** [conversion f m bits range]: the meaning [m] gives the pattern [bits]; [range]: beyond the range of the format,
    that is, rounded to infinity, or rounded to zero without being zero. *)
Inductive conversion (f : format) : meaning -> Z -> bool -> Prop :=
| conversion_number neg d e n (range : bool) : nearest_decimal f d e n -> (range = true <-> n = infinity f \/ n = 0 /\ d <> 0) ->
    conversion f (Number neg d e) (signed_pattern f neg n) range
| conversion_nan neg : conversion f (Special neg Nan) (signed_pattern f neg (nan_pattern f)) false
| conversion_infinite neg : conversion f (Special neg Infinite) (signed_pattern f neg (infinity f)) false.

(** The explicit exponent of a number: what follows the characters before the letter. *)
Definition written_exponent (r : exponent_rule) (t : list Z) (x : Z) : Prop :=
  exists before xt, t = before ++ xt /\ Forall (fun c => c <> 101 /\ c <> 69) before /\ exponent_text r xt x.
(** A number with an explicit exponent of less than 28 bits, or with a text of somewhat less than 2^28 characters. *)
Definition moderate (r : exponent_rule) (t : list Z) (m : meaning) : Prop :=
  match m with
  | Special _ _ => True
  | Number _ _ _ => Z.of_nat (length t) + 400 <= 2 ^ 28 \/ exists x, written_exponent r t x /\ - 2 ^ 28 < x < 2 ^ 28
  end.

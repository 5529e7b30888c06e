(** What a correctly rounded conversion of a number to an IEEE 754 binary format is.
    Independent of the model. A bit pattern without its sign bit is a number [n]: the biased exponent
    is [n / 2^mant_bits], the fraction [n mod 2^mant_bits]. *)
From Verif Require Import Base.
Local Open Scope Z_scope.

Record format := {
  mant_bits : Z;  (* width of the fraction field *)
  unit_exp : Z;   (* the smallest positive number is 2^-unit_exp *)
  top_field : Z;  (* the exponent field of infinity *)
  sign_bit : Z    (* position of the sign *)
}.
Definition binary32 : format := {| mant_bits := 23; unit_exp := 149; top_field := 255; sign_bit := 31 |}.
Definition binary64 : format := {| mant_bits := 52; unit_exp := 1074; top_field := 2047; sign_bit := 63 |}.
(** The values of the 80-bit format of the x87; a pattern is here without the explicit leading bit. *)
Definition binary80 : format := {| mant_bits := 63; unit_exp := 16445; top_field := 32767; sign_bit := 79 |}.

(** The pattern of infinity. *)
Definition infinity (f : format) : Z := top_field f * 2 ^ mant_bits f.

(** The value of the pattern [n] in units of the smallest positive number of the format: the fraction
    for the exponent 0, the fraction with the implicit bit times 2^(exponent-1) otherwise. For the
    pattern of infinity this is the first power of two that is too large. *)
Definition scaled (f : format) (n : Z) : Z :=
  let field := n / 2 ^ mant_bits f in
  let fraction := n mod 2 ^ mant_bits f in
  if field =? 0 then fraction else (2 ^ mant_bits f + fraction) * 2 ^ (field - 1).

(** [n] is the pattern of the number nearest to [num / den >= 0]; a number halfway between two
    neighbours goes to the even pattern; everything from halfway between the largest finite number and
    the next power of two on goes to infinity. Compared in halves of the smallest positive number. *)
Definition nearest (f : format) (num den n : Z) : Prop :=
  let twice := 2 * num * 2 ^ unit_exp f in
  let middle n := (scaled f n + scaled f (n + 1)) * den in
  0 <= n <= infinity f /\
  (0 < n -> middle (n - 1) <= twice /\ (Z.odd n = true -> middle (n - 1) < twice)) /\
  (n < infinity f -> twice <= middle n /\ (Z.odd n = true -> twice < middle n)).

(** [d * 10^e] as a fraction *)
Definition dec_num (d e : Z) : Z := d * 10 ^ Z.max e 0.
Definition dec_den (e : Z) : Z := 10 ^ Z.max (- e) 0.
Definition nearest_decimal (f : format) (d e n : Z) : Prop := nearest f (dec_num d e) (dec_den e) n.

(** The pattern with the sign. *)
Definition signed_pattern (f : format) (negative : bool) (n : Z) : Z :=
  if negative then 2 ^ sign_bit f + n else n.

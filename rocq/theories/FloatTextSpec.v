(** Which texts denote numbers, and which number. Independent of the model. Characters are their codes:
    '0' = 48 .. '9' = 57, '+' = 43, '-' = 45, '.' = 46, 'E' = 69, 'e' = 101. *)
From Verif Require Import Base.
Local Open Scope Z_scope.

Definition is_digit (c : Z) : Prop := 48 <= c <= 57.

(** The number written with the digits [ds]. *)
Fixpoint decimal (ds : list Z) : Z :=
  match ds with [] => 0 | c :: t => (c - 48) * 10 ^ Z.of_nat (length t) + decimal t end.

(** Whether an explicit exponent may, must or must not be there. *)
Inductive exponent_rule := Optional | Required | Forbidden.

Inductive exponent_sign : list Z -> bool -> Prop :=
| no_sign : exponent_sign [] false
| plus_sign : exponent_sign [43] false
| minus_sign : exponent_sign [45] true.

(** The explicit exponent: nothing, or e or E, a sign or nothing, and digits. *)
Inductive exponent_text : exponent_rule -> list Z -> Z -> Prop :=
| exponent_none r : r <> Required -> exponent_text r [] 0
| exponent_some r c s neg ds : r <> Forbidden -> c = 101 \/ c = 69 -> exponent_sign s neg -> Forall is_digit ds -> ds <> [] ->
    exponent_text r (c :: s ++ ds) (if neg then - decimal ds else decimal ds).

(** [number_text r t neg d e]: the text [t] is a number: a minus sign or nothing, digits with at most one point among
    them, at least one digit, and the exponent. Its value is [d * 10^e], negated for a minus sign. *)
Inductive number_text (r : exponent_rule) : list Z -> bool -> Z -> Z -> Prop :=
| number_intro (neg : bool) ip point fp xt x :
    Forall is_digit ip -> Forall is_digit fp -> ip ++ fp <> [] ->
    (point = [] /\ fp = []) \/ point = [46] ->
    exponent_text r xt x ->
    number_text r ((if neg then [45] else []) ++ ip ++ point ++ fp ++ xt) neg (decimal (ip ++ fp)) (x - Z.of_nat (length fp)).

(** The same letters, apart from the case. *)
Definition same_letter (a b : Z) : Prop := a = b \/ a + 32 = b.
Definition same_letters (t word : list Z) : Prop := Forall2 same_letter t word.
Definition word_nan : list Z := [110; 97; 110].
Definition word_inf : list Z := [105; 110; 102].
Definition word_infinity : list Z := [105; 110; 102; 105; 110; 105; 116; 121].
(** Letters, digits and the underscore. *)
Definition n_char (c : Z) : Prop := 97 <= c <= 122 \/ 65 <= c <= 90 \/ 48 <= c <= 57 \/ c = 95.

Inductive special := Nan | Infinite.
Inductive special_text : list Z -> bool -> special -> Prop :=
| text_nan (neg : bool) t : same_letters t word_nan -> special_text ((if neg then [45] else []) ++ t) neg Nan
| text_nan_chars (neg : bool) t cs : same_letters t word_nan -> Forall n_char cs ->
    special_text ((if neg then [45] else []) ++ t ++ 40 :: cs ++ [41]) neg Nan
| text_inf (neg : bool) t : same_letters t word_inf -> special_text ((if neg then [45] else []) ++ t) neg Infinite
| text_infinity (neg : bool) t : same_letters t word_infinity -> special_text ((if neg then [45] else []) ++ t) neg Infinite.

(** What a text denotes. *)
Inductive meaning := Number (neg : bool) (d e : Z) | Special (neg : bool) (what : special).
Inductive denotes (r : exponent_rule) : list Z -> meaning -> Prop :=
| denotes_number t neg d e : number_text r t neg d e -> denotes r t (Number neg d e)
| denotes_special t neg what : special_text t neg what -> denotes r t (Special neg what).

(** [t] is the longest beginning of [s] that denotes something, [u] the rest. *)
Definition longest (r : exponent_rule) (s t u : list Z) (m : meaning) : Prop :=
  s = t ++ u /\ denotes r t m /\
  forall t' u' m', s = t' ++ u' -> denotes r t' m' -> (length t' <= length t)%nat.
(** No beginning of [s] denotes anything. *)
Definition no_beginning (r : exponent_rule) (s : list Z) : Prop :=
  forall t u m, s = t ++ u -> ~ denotes r t m.

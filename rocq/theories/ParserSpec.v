(** Specification of string_parser and of texts of numbers. *)
From Verif Require Import Base.
Local Open Scope Z_scope.

Definition space (c : Z) : Prop := In c [9; 10; 11; 12; 13; 32].

(** [maximal P pre rest]: [pre] is the longest prefix of [pre ++ rest] of characters satisfying [P]. *)
Definition first_not (P : Z -> Prop) (s : list Z) : Prop := forall c s', s = c :: s' -> ~ P c.
Definition maximal (P : Z -> Prop) (pre rest : list Z) : Prop := Forall P pre /\ first_not P rest.

(** [digit base c d]: the character [c] is a digit of value [d] *)
Definition digit (base c d : Z) : Prop :=
  0 <= d < base /\
  (0 <= d <= 9 /\ c = 48 + d \/ 10 <= d <= 35 /\ (c = 97 + (d - 10) \/ c = 65 + (d - 10))).
Definition is_digit (base c : Z) : Prop := exists d, digit base c d.

(** [denotes base ds v]: the digits [ds], most significant first, denote [v] *)
Inductive denotes (base : Z) : list Z -> Z -> Prop :=
| den_nil : denotes base [] 0
| den_snoc ds v c d : denotes base ds v -> digit base c d -> denotes base (ds ++ [c]) (v * base + d).

(** [unsigned_text t v rest]: the text [t] starts with a number of value [v], [rest] follows it. The
    number is hexadecimal after 0x, binary after 0b, octal after 0 if an octal digit follows, and
    decimal otherwise; 0 not followed by any of these is the number 0. *)
Inductive unsigned_text : list Z -> Z -> list Z -> Prop :=
| ut_hex ds v rest : ds <> [] -> denotes 16 ds v -> first_not (is_digit 16) rest ->
    unsigned_text (48 :: 120 :: ds ++ rest) v rest
| ut_bin ds v rest : ds <> [] -> denotes 2 ds v -> first_not (is_digit 2) rest ->
    unsigned_text (48 :: 98 :: ds ++ rest) v rest
| ut_oct ds v rest : ds <> [] -> denotes 8 ds v -> first_not (is_digit 8) rest ->
    unsigned_text (48 :: ds ++ rest) v rest
| ut_dec c ds v rest : c <> 48 -> denotes 10 (c :: ds) v -> first_not (is_digit 10) rest ->
    unsigned_text (c :: ds ++ rest) v rest
| ut_dec0 c ds v rest : ~ is_digit 8 c -> denotes 10 (c :: ds) v -> first_not (is_digit 10) rest ->
    unsigned_text (48 :: c :: ds ++ rest) v rest
| ut_zero rest : first_not (is_digit 10) rest ->
    (forall c r, rest = 120 :: c :: r -> ~ is_digit 16 c) ->
    (forall c r, rest = 98 :: c :: r -> ~ is_digit 2 c) ->
    unsigned_text (48 :: rest) 0 rest.

(** Decimal with an optional minus. *)
Inductive signed_text : list Z -> Z -> list Z -> Prop :=
| st_pos ds v rest : ds <> [] -> denotes 10 ds v -> first_not (is_digit 10) rest ->
    signed_text (ds ++ rest) v rest
| st_neg ds v rest : ds <> [] -> denotes 10 ds v -> first_not (is_digit 10) rest ->
    signed_text (45 :: ds ++ rest) (- v) rest.

(** Values of the signed and unsigned types of [n] bits. *)
Definition in_range (signed : bool) (n v : Z) : Prop :=
  if signed then - 2 ^ (n - 1) <= v < 2 ^ (n - 1) else 0 <= v < 2 ^ n.

(** [rest] cannot be taken for a continuation of the number [v] written in base [base] *)
Definition ends_number (base v : Z) (rest : list Z) : Prop :=
  first_not (is_digit base) rest /\
  (base = 10 -> v = 0 ->
    (forall c r, rest = 120 :: c :: r -> ~ is_digit 16 c) /\ (forall c r, rest = 98 :: c :: r -> ~ is_digit 2 c)).

(** Digits without superfluous leading zero and without upper case letters. *)
Definition canonical (ds : list Z) : Prop :=
  (ds = [48] \/ exists c ds', ds = c :: ds' /\ c <> 48) /\ Forall (fun c => ~ 65 <= c <= 90) ds.

(** skip_whitespaces_and_comma: spaces, and if a comma follows, it and the spaces after it *)
Definition spaces_comma (pre rest : list Z) : Prop :=
  (maximal space pre rest /\ forall r, rest <> 44 :: r) \/
  exists a b, pre = a ++ 44 :: b /\ Forall space a /\ maximal space b rest.

(** The text written by to_string *)
Definition written (signed : bool) (base v : Z) (ds : list Z) : list Z :=
  (if signed then [] else if base =? 2 then [48; 98] else if base =? 8 then [48] else if base =? 16 then [48; 120] else [])
  ++ (if v <? 0 then [45] else []) ++ ds.

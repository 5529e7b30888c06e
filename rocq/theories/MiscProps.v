From Coq Require Import String.
From Verif Require Import Base StrLit MiscModel MiscSpec MiscProofs.
Local Open Scope string_scope. Local Open Scope list_scope. Local Open Scope Z_scope.

(** C63: to_uint32_t is injective and order preserving. *)
Theorem C63_order : forall a b, is_version a -> is_version b ->
  (version_ge a b = true <-> to_uint32 a >= to_uint32 b) /\
  (version_lt a b = true <-> to_uint32 a < to_uint32 b) /\
  (to_uint32 a = to_uint32 b -> a = b) /\
  0 <= to_uint32 a < 2 ^ 32.
Proof. exact version_order. Qed.
Print Assumptions C63_order.
(** C63: < is the lexicographic order of (major, minor) *)
Theorem C63_less : forall a b, version_lt a b = true <-> earlier a b.
Proof. exact version_lt_spec. Qed.
Print Assumptions C63_less.
(** C63: a strict total order, of which >= is the negation *)
Theorem C63_total :
  (forall a, version_lt a a = false) /\
  (forall a b c, version_lt a b = true -> version_lt b c = true -> version_lt a c = true) /\
  (forall a b, version_lt a b = true \/ a = b \/ version_lt b a = true) /\
  (forall a b, version_ge a b = negb (version_lt a b)).
Proof. exact version_total. Qed.
Print Assumptions C63_total.
(** C63: a version is printed as two decimal numbers without leading zeros and with a dot between
    them, so that the text determines the version. *)
Theorem C63_print : forall v, is_version v -> exists a b,
  print_version v = a ++ 46 :: b /\ Forall is_digit a /\ Forall is_digit b /\ a <> [] /\ b <> [] /\
  decimal a = major v /\ decimal b = minor v /\
  (forall d ds, a = d :: ds -> ds <> [] -> d <> 48) /\ (forall d ds, b = d :: ds -> ds <> [] -> d <> 48).
Proof. exact print_version_spec. Qed.
Print Assumptions C63_print.
Theorem C63_print_injective : forall a b, is_version a -> is_version b -> print_version a = print_version b -> a = b.
Proof. exact print_version_inj. Qed.
Print Assumptions C63_print_injective.

Example C63_case : let v1 := {| major := 1; minor := 65535 |} in let v2 := {| major := 2; minor := 0 |} in
  is_version v1 /\ version_lt v1 v2 = true /\ to_uint32 v1 = 131071 /\ to_uint32 v2 = 131072 /\
  print_version v1 = zstr "1.65535" /\ print_version v2 = zstr "2.0".
Proof. vm_compute. repeat split; discriminate. Qed.

(** C64: the unsigned difference of two tick counts is the number of milliseconds between them
    modulo 2^32. *)
Theorem C64_difference : forall t1 t2 m1 m2, 0 <= t1 -> 0 <= t2 -> whole_ms t1 m1 -> whole_ms t2 m2 ->
  0 <= get_ticks_ms t1 < 2 ^ 32 /\
  congruent 32 (sub32 (get_ticks_ms t2) (get_ticks_ms t1)) (m2 - m1) /\
  (0 <= m2 - m1 < 2 ^ 32 -> sub32 (get_ticks_ms t2) (get_ticks_ms t1) = m2 - m1).
Proof. exact ticks_spec. Qed.
Print Assumptions C64_difference.
(** C64: for shorter intervals it is the elapsed time within a millisecond. *)
Theorem C64_elapsed : forall t1 t2, 0 <= t1 <= t2 -> t2 - t1 < (2 ^ 32 - 1) * 1000000 ->
  let d := sub32 (get_ticks_ms t2) (get_ticks_ms t1) in
  (d - 1) * 1000000 < t2 - t1 < (d + 1) * 1000000.
Proof. exact ticks_elapsed. Qed.
Print Assumptions C64_elapsed.
(** Across the wrap-around *)
Example C64_case : get_ticks_ms 4294967290123456 = 4294967290 /\ get_ticks_ms 4294967300999999 = 4 /\
  sub32 4 4294967290 = 10 /\ whole_ms 4294967290123456 4294967290 /\ whole_ms 4294967300999999 4294967300.
Proof. vm_compute. repeat split; discriminate. Qed.

(** C65: for unsigned types not narrower than int powN is the power modulo 2^width. *)
Theorem C65_unsigned : forall n f t x, pow_n n = Some f -> is_signed t = false -> 32 <= bits t -> is_value t x ->
  f t x = Ok (x ^ n mod 2 ^ bits t).
Proof. exact pow_unsigned. Qed.
Print Assumptions C65_unsigned.
(** C65: for signed types not narrower than int powN is the power if this is representable and
    undefined behaviour otherwise. *)
Theorem C65_signed : forall n f t x, pow_n n = Some f -> is_signed t = true -> 32 <= bits t -> is_value t x ->
  (is_value t (x ^ n) -> f t x = Ok (x ^ n)) /\ (~ is_value t (x ^ n) -> f t x = UB SignedOverflow).
Proof.
  intros n f t x Hn S B V. rewrite (pow_signed n f t x Hn S B V).
  pose proof (fits_spec t (x ^ n)) as F. destruct (fits t (x ^ n)); intuition congruence.
Qed.
Print Assumptions C65_signed.
(** C65: for int8_t, uint8_t and int16_t the result is always defined, the power modulo 2^width. *)
Theorem C65_narrow : forall n f t x, pow_n n = Some f -> 0 < bits t -> (if is_signed t then bits t <= 16 else bits t <= 15) ->
  is_value t x -> exists v, f t x = Ok v /\ is_value t v /\ congruent (bits t) v (x ^ n).
Proof. exact pow_narrow. Qed.
Print Assumptions C65_narrow.
(** C65: for uint16_t the promotion to int makes the square of large values undefined. *)
Theorem C65_uint16 : forall x, 0 <= x < 65536 ->
  pow2 {| is_signed := false; bits := 16 |} x = if x <=? 46340 then Ok (x ^ 2 mod 65536) else UB SignedOverflow.
Proof. exact pow2_uint16. Qed.
Print Assumptions C65_uint16.
(** C65: for every type, whatever is returned is the power modulo 2^width. *)
Theorem C65_any : forall n f t x v, pow_n n = Some f -> 0 < bits t -> f t x = Ok v ->
  is_value t v /\ congruent (bits t) v (x ^ n).
Proof. exact pow_congruent. Qed.
Print Assumptions C65_any.
(** C65: sign *)
Theorem C65_sign : forall t n, 2 <= bits t -> is_value t n -> sign t n = (if n <? 0 then -1 else 1).
Proof. exact sign_spec. Qed.
Print Assumptions C65_sign.
Example C65_case : let i := {| is_signed := true; bits := 32 |} in let u := {| is_signed := false; bits := 32 |} in
  pow6 i (-35) = Ok 1838265625 /\ pow6 i 36 = UB SignedOverflow /\ pow5 i (-73) = Ok (-2073071593) /\
  pow3 i (-1290) = Ok (-2146689000) /\ pow4 u 65536 = Ok 0 /\ pow2 u 65537 = Ok 131073 /\
  pow2 {| is_signed := false; bits := 16 |} 65535 = UB SignedOverflow /\ pow2 {| is_signed := true; bits := 8 |} 16 = Ok 0 /\
  pow3 {| is_signed := true; bits := 8 |} 7 = Ok 87 /\ sign i 0 = 1 /\ sign i (-2147483648) = -1.
Proof. vm_compute. repeat split. Qed.

(** C70: uint_size and int_size, over their whole domain *)
Theorem C70_sizes : forall n, 1 <= n <= 8 -> exists u i, uint_size n = Some u /\ int_size n = Some i /\
  is_signed u = false /\ is_signed i = true /\ smallest_size n u /\ smallest_size n i.
Proof. exact sizes_spec. Qed.
Print Assumptions C70_sizes.
Theorem C70_domain : forall n t, uint_size n = Some t \/ int_size n = Some t -> 1 <= n <= 8.
Proof. exact sizes_domain. Qed.
Print Assumptions C70_domain.
Example C70_case : uint_size 3 = Some {| is_signed := false; bits := 32 |} /\ int_size 5 = Some {| is_signed := true; bits := 64 |} /\
  uint_size 9 = None.
Proof. repeat split. Qed.

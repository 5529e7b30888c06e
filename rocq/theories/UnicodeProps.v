(** Properties C10-C15: UTF-8. *)
From Verif Require Import Base UnicodeModel UnicodeSpec UnicodeProofs.
Local Open Scope N_scope.

(** C10: the returned array of 7 chars: encoding, zero byte, unspecified rest. *)
Theorem C10_encoding : forall dbg c, c < 2 ^ 31 ->
  to_utf8_char dbg c = Ok (map Some (utf8 c) ++ Some 0 :: repeat None (6 - length (utf8 c))).
Proof. exact to_utf8_char_ok. Qed.
Print Assumptions C10_encoding.

Theorem C10_too_big : forall dbg c, 2 ^ 31 <= c ->
  to_utf8_char dbg c = Ok (Some 0 :: repeat None 6).
Proof. exact to_utf8_char_big. Qed.
Print Assumptions C10_too_big.

Theorem C10_prefix_free : forall c c' t, c < 2 ^ 31 -> c' < 2 ^ 31 ->
  utf8 c' = utf8 c ++ t -> c = c'.
Proof. exact utf8_prefix. Qed.
Print Assumptions C10_prefix_free.

Example C10_case :
  utf8 0x20ac = [0xe2; 0x82; 0xac] /\ utf8 0x1f600 = [0xf0; 0x9f; 0x98; 0x80] /\
  utf8 0x7fffffff = [0xfd; 0xbf; 0xbf; 0xbf; 0xbf; 0xbf] /\
  to_utf8_char true 0xe9 = Ok [Some 0xc3; Some 0xa9; Some 0; None; None; None; None].
Proof. vm_compute. auto. Qed.

(** C11, through the bounded and through the NUL-terminated overloads. *)
Theorem C11_roundtrip : forall dbg cs after,
  Forall (fun c => c < 2 ^ 31 /\ c <> 0) cs -> bytes_ok after = true ->
  exists b, to_utf8 dbg cs = Ok b /\ to_utf32_span b = Ok cs /\
            to_utf32_cstr (b ++ 0 :: after) = Ok cs.
Proof. exact utf32_of_utf8. Qed.
Print Assumptions C11_roundtrip.

Example C11_case :
  Forall (fun c => c < 2 ^ 31 /\ c <> 0) [0x41; 0x3b1; 0x20ac; 0x1f600; 0x7fffffff] /\
  to_utf8 true [0x41; 0x3b1; 0x20ac] = Ok [0x41; 0xce; 0xb1; 0xe2; 0x82; 0xac] /\
  to_utf32_cstr [0x41; 0xce; 0xb1; 0xe2; 0x82; 0xac; 0] = Ok [0x41; 0x3b1; 0x20ac].
Proof. split; [repeat constructor; discriminate|vm_compute; auto]. Qed.

(** C12: the byte strings which survive to_utf8(to_utf32(b)) are exactly the well-formed ones. *)
Theorem C12_roundtrip : forall dbg b, bytes_ok b = true ->
  ((exists cs, Forall (fun c => c < 2 ^ 31 /\ c <> 0) cs /\ b = flat_map utf8 cs) <->
   exists cs, to_utf32_span b = Ok cs /\ to_utf8 dbg cs = Ok b).
Proof. exact utf8_of_utf32. Qed.
Print Assumptions C12_roundtrip.

Example C12_case : flat_map utf8 [0x24; 0xa2; 0xd55c] = [0x24; 0xc2; 0xa2; 0xed; 0x95; 0x9c].
Proof. vm_compute. reflexivity. Qed.

(** C13: any number of increments over any span stays inside of the span ([it_p] is a suffix of
    it), and after [size()] increments the end is reached. The only other outcome is the over-wide
    shift. *)
Theorem C13_iterate : forall p n, bytes_ok p = true ->
  iterate false n p = UB ShiftOverflow \/
  exists it, iterate false n p = Ok it /\
    ((length p <= n)%nat -> it = Iter 0 []) /\ (exists pre, p = pre ++ it_p it).
Proof. exact iterate_span. Qed.
Print Assumptions C13_iterate.

(** One increment, completely: what makes it undefined and what it yields otherwise. *)
Theorem C13_increment : forall p, bytes_ok p = true ->
  (overlong_front p /\ next_char false p = UB ShiftOverflow) \/
  (~ overlong_front p /\ exists it, next_char false p = Ok it /\
     (it = Iter 0 [] /\ truncated p \/
      exists s, front_seq p s (it_p it) /\ it_c it = seq_value s)).
Proof. exact next_span_iff. Qed.
Print Assumptions C13_increment.

Theorem C13_to_utf32_total : forall p, bytes_ok p = true ->
  (exists cs, to_utf32_span p = Ok cs) \/ to_utf32_span p = UB ShiftOverflow.
Proof. exact span_total. Qed.
Print Assumptions C13_to_utf32_total.

Theorem C13_to_utf32_ub : forall p r, bytes_ok p = true ->
  (to_utf32_span p = UB r <-> r = ShiftOverflow /\ exists cs q, walks p cs q /\ overlong_front q).
Proof. exact span_ub_iff. Qed.
Print Assumptions C13_to_utf32_ub.

(** "Decoding a span is defined for every input" is false. *)
Theorem C13_safe_refuted : exists p, bytes_ok p = true /\ to_utf32_span p = UB ShiftOverflow.
Proof. exists [0xfe; 0x80; 0x80; 0x80; 0x80; 0x80; 0x80]. vm_compute. auto. Qed.
Print Assumptions C13_safe_refuted.

Example C13_case :
  to_utf32_span [0x61; 0xe2; 0x82] = Ok [0x61] /\
  to_utf32_span [0xfe; 0x80; 0x80; 0x80; 0x80; 0x80] = Ok [] /\
  to_utf32_span [0xbf; 0; 0; 0; 0; 0; 0; 0] = UB ShiftOverflow.
Proof. vm_compute. auto. Qed.

Example C13_case_stray : to_utf32_span [0x61; 0xa9; 0x80; 0x82; 0x62] = Ok [0x61; 0x9002; 0x62].
Proof. vm_compute. reflexivity. Qed.

(** C14 *)
Theorem C14_inside : forall s cs after, bytes_ok s = true -> bytes_ok after = true ->
  walks s cs [] -> to_utf32_cstr (s ++ 0 :: after) = Ok cs.
Proof. exact cstr_inside. Qed.
Print Assumptions C14_inside.

(** The array ends with the terminator and the text before it ends inside of a sequence. *)
Theorem C14_truncated : forall s cs q, bytes_ok s = true -> walks s cs q -> q <> [] -> truncated q ->
  (nul_completes q -> to_utf32_cstr (s ++ [0]) = Ok cs) /\
  (~ nul_completes q -> exists r, to_utf32_cstr (s ++ [0]) = UB r).
Proof. exact cstr_truncated. Qed.
Print Assumptions C14_truncated.

Theorem C14_overrun : forall arr, bytes_ok arr = true ->
  (to_utf32_cstr arr = UB OutOfBounds <-> exists cs q, walks arr cs q /\ truncated q).
Proof. exact cstr_oob_iff. Qed.
Print Assumptions C14_overrun.

Theorem C14_safe_refuted : exists s, bytes_ok s = true /\ ~ In 0 s /\
  to_utf32_span s = Ok [0x61] /\ to_utf32_cstr (s ++ [0]) = UB OutOfBounds.
Proof.
  exists [0x61; 0xc3]. split; [reflexivity|]. split; [intros [H|[H|[]]]; discriminate|].
  vm_compute. auto.
Qed.
Print Assumptions C14_safe_refuted.

Example C14_case :
  to_utf32_cstr ([0x61; 0xe2; 0x82] ++ [0]) = UB OutOfBounds /\
  to_utf32_cstr ([0x61; 0xe0; 0x80] ++ [0]) = Ok [0x61] /\
  to_utf32_cstr ([0x61; 0xc3] ++ [0; 0x62; 0]) = Ok [0x61; 0xc0; 0x62].
Proof. vm_compute. auto. Qed.

(** C15 *)
Theorem C15_dropped : forall dbg cs,
  to_utf8 dbg cs = to_utf8 dbg (filter (fun c => (0 <? c) && (c <? 2 ^ 31)) cs) /\
  to_utf8 dbg cs = Ok (flat_map utf8 (filter (fun c => (0 <? c) && (c <? 2 ^ 31)) cs)).
Proof. intros dbg cs. exact (conj (flat_filter dbg cs) (to_utf8_filter dbg cs)). Qed.
Print Assumptions C15_dropped.

Theorem C15_stops_at_zero : forall p cs, bytes_ok p = true ->
  (to_utf32_span p = Ok cs <-> exists q, walks p cs q /\ (zero_front q \/ truncated q)).
Proof. exact span_ok_iff. Qed.
Print Assumptions C15_stops_at_zero.

Example C15_case :
  to_utf8 true [0x61; 0; 0x80000000; 0x62] = Ok [0x61; 0x62] /\
  to_utf32_span [0x61; 0xc0; 0x80; 0x62] = Ok [0x61].
Proof. vm_compute. auto. Qed.

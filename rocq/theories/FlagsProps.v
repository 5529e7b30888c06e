(** Properties C48, C49. *)
From Coq Require Import String.
From Verif Require Import Base StrLit FlagsModel FlagsSpec FlagsProofs.
Local Open Scope string_scope.
Local Open Scope list_scope.
Local Open Scope Z_scope.

(** C48. [n] is enum_size. A program over any number of flags objects runs without failure, and its
    effects and observations are those of operations on sets of enumerators. The initial objects are
    arbitrary flags values. *)
Theorem C48_sets : forall dbg n, 0 < n < 2 ^ 64 -> forall p, Forall (proper n) p -> forall s, (forall r, Z.of_nat (length (s r)) = n) ->
  exists s' os, run dbg n s p = Ok (s', os) /\ (forall r, Z.of_nat (length (s' r)) = n) /\
    behaves n (sets s) p os (sets s').
Proof. exact run_ok. Qed.
Print Assumptions C48_sets.

(** The observations are a function of the sets. *)
Theorem C48_determined : forall n S p os S', behaves n S p os S' -> forall T os' T', Forall (proper n) p ->
  (forall x e, enumerator n e -> (S x e <-> T x e)) -> behaves n T p os' T' -> os = os'.
Proof. exact behaves_same. Qed.
Print Assumptions C48_determined.

Example C48_case :
  let p := [i_list 0 [0; 2]; i_one 1 2; i_xor 2 0 1; i_print 0; i_print 2; i_not 3 2; i_print 3; i_or_enum 3 2 3; i_print 3;
            i_get 3 3; i_eq 0 2; i_ne 0 2; i_and_assign 0 1; i_eq 0 1; i_set_all 0 true; i_is_set 0; i_clear 0 1; i_is_set 0; i_size 0; i_print 0] in
  match run true 5 (fun _ => empty_bits 5) p with
  | Ok (_, os) => filter (fun o => match o with o_none => false | _ => true end) os =
      [o_text (zstr "00101"); o_text (zstr "00001"); o_text (zstr "11110"); o_text (zstr "01001"); o_bool true; o_bool false; o_bool true;
       o_bool true; o_bool true; o_bool false; o_size 5; o_text (zstr "11101")]
  | _ => False
  end /\ Forall (proper 5) p.
Proof. split; [vm_compute; reflexivity|]. repeat constructor; unfold enumerator; lia. Qed.

(** C49. [e] is any value of an underlying type of at most 64 bits which is not an enumerator. In a
    debug build get aborts for values past the end, but negative values pass its assertion. *)
Theorem C49_out_of_range : forall dbg n, 0 < n < 2 ^ 64 -> forall b e, Z.of_nat (length b) = n ->
  - 2 ^ 63 <= e < 2 ^ 63 \/ 0 <= e < 2 ^ 64 -> ~ 0 <= e < n -> n <= 2 ^ 63 ->
  (forall v, flags_set dbg n b e v = (if dbg then Abort else Ok b)) /\
  flags_clear dbg n b e = (if dbg then Abort else Ok b) /\
  flags_get dbg n b e = (if dbg && (n <=? e) then Abort else UB OutOfBounds) /\
  flags_index b e = UB OutOfBounds /\ (forall v, flags_assign b e v = UB OutOfBounds).
Proof. intros. eapply out_of_range; eassumption. Qed.
Print Assumptions C49_out_of_range.

Theorem C49_construction : forall n, 0 < n < 2 ^ 64 -> forall l, Exists (fun e => ~ 0 <= e < n) l ->
  Forall (fun e => - 2 ^ 63 <= e < 2 ^ 63 \/ 0 <= e < 2 ^ 64) l -> n <= 2 ^ 63 -> flags_list n l = Throw OutOfRange.
Proof. intros. eapply list_out; eassumption. Qed.
Print Assumptions C49_construction.

Example C49_case : flags_set false 3 [true; false; true] 7 true = Ok [true; false; true] /\
  flags_set true 3 [true; false; true] (-1) true = Abort /\ flags_get true 3 [true; false; true] (-1) = UB OutOfBounds /\
  flags_get true 3 [true; false; true] 3 = Abort /\ flags_list 3 [1; 3] = Throw OutOfRange.
Proof. vm_compute. auto 10. Qed.

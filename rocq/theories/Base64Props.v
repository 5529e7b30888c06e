(** Properties C01-C04: base64_decode. [sc] = char is signed, [dbg] = debug build. *)
From Verif Require Import Base StrLit Base64Model Base64Spec Base64Proofs.
From Coq Require Import String.
Local Open Scope N_scope.
Local Open Scope list_scope.

(** C01 *)
Theorem C01_padded_roundtrip : forall sc dbg bs, bytes_ok bs = true ->
  base64_decode sc dbg (encode bs) = Ok bs.
Proof. exact decode_padded. Qed.
Print Assumptions C01_padded_roundtrip.

Example C01_case : encode [77; 97; 110; 0; 255] = str "TWFuAP8=" /\
  base64_decode true true (str "TWFuAP8=") = Ok [77; 97; 110; 0; 255].
Proof. split; vm_compute; reflexivity. Qed.
(** RFC 4648, section 10 test vectors for the specification. *)
Example C01_rfc_vectors : List.map (fun s => encode (str s)) ["" ; "f" ; "fo"; "foo"; "foob"; "fooba"; "foobar"]%string =
  List.map str ["" ; "Zg=="; "Zm8="; "Zm9v"; "Zm9vYg=="; "Zm9vYmE="; "Zm9vYmFy"]%string.
Proof. vm_compute. reflexivity. Qed.

(** C02 *)
Theorem C02_unpadded_roundtrip : forall sc dbg bs, bytes_ok bs = true ->
  base64_decode sc dbg (encode_unpadded bs) = Ok bs.
Proof. exact decode_unpadded. Qed.
Print Assumptions C02_unpadded_roundtrip.

Example C02_case : encode_unpadded [77; 97; 110; 0] = str "TWFuAA" /\
  base64_decode true true (str "TWFuAA") = Ok [77; 97; 110; 0].
Proof. split; vm_compute; reflexivity. Qed.

(** C03: the complete input/output behaviour, and its parts. *)
Theorem C03_functional : forall sc dbg s, bytes_ok s = true ->
  base64_decode sc dbg s = expected sc dbg s.
Proof. exact decode_expected. Qed.
Print Assumptions C03_functional.

Theorem C03_throws_iff : forall sc dbg s e, bytes_ok s = true ->
  (base64_decode sc dbg s = Throw e <->
   e = InvalidArgument /\ (List.length s < 4)%nat /\ exists p, s = p ++ [pad_char]).
Proof. exact decode_throws. Qed.
Print Assumptions C03_throws_iff.

Theorem C03_ub_iff : forall sc s, bytes_ok s = true ->
  ((exists r, base64_decode sc false s = UB r) <->
   ((~ exists p, s = p ++ [pad_char]) /\ (List.length s mod 4 = 1)%nat) \/
   (sc = true /\ ~ ((exists p, s = p ++ [pad_char]) /\ (List.length s < 4)%nat) /\
    exists c, In c (data_chars s) /\ 128 <= c)).
Proof. exact decode_ub. Qed.
Print Assumptions C03_ub_iff.

Theorem C03_result_size : forall sc dbg s bs, bytes_ok s = true ->
  base64_decode sc dbg s = Ok bs ->
  List.length bs = (3 * List.length (data_chars s) / 4)%nat /\ bytes_ok bs = true.
Proof. exact decode_length. Qed.
Print Assumptions C03_result_size.

Theorem C03_data_size : forall s, (has_pad 1 s = false \/ 4 <= List.length s)%nat ->
  List.length (data_chars s) =
  if has_pad 1 s then
    Nat.min (4 * (List.length s / 4) - 1) (List.length s - if has_pad 2 s then 2 else 1)
  else List.length s.
Proof. exact data_chars_len. Qed.
Print Assumptions C03_data_size.

(** "base64_decode is defined for every input" is false of the code. *)
Theorem C03_total_safety_refuted : exists s, bytes_ok s = true /\
  base64_decode true false s = UB OutOfBounds /\ base64_decode false false s = UB OutOfBounds /\
  base64_decode true true s = Abort.
Proof. exists (str "Zm9vY"). repeat split; vm_compute; reflexivity. Qed.
Print Assumptions C03_total_safety_refuted.

Theorem C03_high_char_refuted : exists s, bytes_ok s = true /\ (List.length s mod 4 = 0)%nat /\
  base64_decode true false s = UB OutOfBounds /\ base64_decode false false s = Ok [0; 0; 0].
Proof. exists [65; 65; 200; 65]. repeat split; vm_compute; reflexivity. Qed.
Print Assumptions C03_high_char_refuted.

Example C03_cases :
  expected true true (str "SGVsbA=") = Ok (str "He") /\
  expected true true (str "A=") = Throw InvalidArgument /\
  expected true true (str "====") = Ok [0] /\
  expected true false (str "AAAAA") = UB OutOfBounds.
Proof. repeat split; vm_compute; reflexivity. Qed.

(** C04 *)
Theorem C04_foreign_characters : forall sc dbg s, bytes_ok s = true ->
  base64_decode sc dbg (map neutralize s) = base64_decode sc dbg s.
Proof. exact decode_neutralize. Qed.
Print Assumptions C04_foreign_characters.

Theorem C04_inner_padding : forall sc dbg p r, bytes_ok (p ++ r) = true -> (2 <= List.length r)%nat ->
  base64_decode sc dbg (p ++ pad_char :: r) = base64_decode sc dbg (p ++ 65 :: r).
Proof. exact decode_inner_pad. Qed.
Print Assumptions C04_inner_padding.

Theorem C04_ignored_data : forall sc dbg d x, bytes_ok (d ++ x) = true ->
  (List.length d mod 4 = 3)%nat -> (1 <= List.length x <= 3)%nat -> forallb (readable sc) d = true ->
  base64_decode sc dbg (d ++ x ++ [pad_char]) = Ok (denoted d).
Proof. exact decode_ignored. Qed.
Print Assumptions C04_ignored_data.

Example C04_cases :
  map neutralize (str "T!F.") = str "TAFA" /\
  base64_decode true true (str "T!F.") = Ok (denoted (str "TAFA")) /\
  base64_decode true true (str "TWF" ++ str "uZm" ++ [pad_char]) = Ok (denoted (str "TWF")).
Proof. repeat split; vm_compute; reflexivity. Qed.

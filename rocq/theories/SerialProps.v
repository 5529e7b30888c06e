(** Properties C05-C07: serialization functions of utility.hpp. Memory is the list
    [pre ++ ... ++ post]; the pointer argument is [length pre]. [w] = sizeof of the type. *)
From Verif Require Import Base SerialModel SerialSpec SerialProofs.
Local Open Scope N_scope.

(** C05: the bytes written, the pointer returned, nothing else touched. *)
Theorem C05_serialize_le : forall w value pre old post, length old = w ->
  serialize_le w value (length pre) (pre ++ old ++ post) =
  Ok (pre ++ le_bytes w value ++ post, (length pre + w)%nat).
Proof. exact serialize_le_spec. Qed.
Print Assumptions C05_serialize_le.

Theorem C05_serialize_le_needs_room : forall w value p m, w <> O -> (length m < p + w)%nat ->
  serialize_le w value p m = UB OutOfBounds.
Proof. exact serialize_le_oob. Qed.
Print Assumptions C05_serialize_le_needs_room.

Theorem C05_deserialize_le : forall pre bs post, bytes_ok bs = true -> (length bs <= 8)%nat ->
  deserialize_le (length bs) (length pre) (pre ++ bs ++ post) = Ok (le_value bs).
Proof. exact deserialize_le_spec. Qed.
Print Assumptions C05_deserialize_le.

Theorem C05_write_read : forall w v pre old post,
  (w <= 8)%nat -> v < 256 ^ N.of_nat w -> length old = w ->
  (r <- serialize_le w v (length pre) (pre ++ old ++ post) ;;
   deserialize_le w (length pre) (fst r)) = Ok v.
Proof. exact le_write_read. Qed.
Print Assumptions C05_write_read.

Theorem C05_read_write : forall pre bs post, bytes_ok bs = true -> (length bs <= 8)%nat ->
  (v <- deserialize_le (length bs) (length pre) (pre ++ bs ++ post) ;;
   serialize_le (length bs) v (length pre) (pre ++ bs ++ post)) =
  Ok (pre ++ bs ++ post, (length pre + length bs)%nat).
Proof. exact le_read_write. Qed.
Print Assumptions C05_read_write.

Example C05_case :
  serialize_le 4 305419896 1 [9; 0; 0; 0; 0; 9] = Ok ([9; 120; 86; 52; 18; 9], 5%nat) /\
  le_bytes 4 305419896 = [120; 86; 52; 18] /\
  deserialize_le 8 0 [255; 255; 255; 255; 255; 255; 255; 255] = Ok 18446744073709551615 /\
  bytes_ok [120; 86; 52; 18] = true.
Proof. repeat split; vm_compute; reflexivity. Qed.

(** C06 *)
Theorem C06_serialize_be : forall dbg w value pre old post, length old = w -> (w <= 8)%nat ->
  serialize_be dbg w value (length pre) (pre ++ old ++ post) =
  Ok (pre ++ be_bytes w value ++ post, (length pre + w)%nat).
Proof. exact serialize_be_spec. Qed.
Print Assumptions C06_serialize_be.

Theorem C06_serialize_be_needs_room : forall dbg w value p m,
  w <> O -> (w <= 8)%nat -> (length m < p + w)%nat ->
  serialize_be dbg w value p m = UB OutOfBounds.
Proof. exact serialize_be_oob. Qed.
Print Assumptions C06_serialize_be_needs_room.

Theorem C06_deserialize_be : forall dbg pre bs post, bytes_ok bs = true -> (length bs <= 8)%nat ->
  deserialize_be dbg (length bs) (length pre) (pre ++ bs ++ post) = Ok (be_value bs).
Proof. exact deserialize_be_spec. Qed.
Print Assumptions C06_deserialize_be.

Theorem C06_write_read : forall dbg w v pre old post,
  (w <= 8)%nat -> v < 256 ^ N.of_nat w -> length old = w ->
  (r <- serialize_be dbg w v (length pre) (pre ++ old ++ post) ;;
   deserialize_be dbg w (length pre) (fst r)) = Ok v.
Proof. exact be_write_read. Qed.
Print Assumptions C06_write_read.

Theorem C06_read_write : forall dbg pre bs post, bytes_ok bs = true -> (length bs <= 8)%nat ->
  (v <- deserialize_be dbg (length bs) (length pre) (pre ++ bs ++ post) ;;
   serialize_be dbg (length bs) v (length pre) (pre ++ bs ++ post)) =
  Ok (pre ++ bs ++ post, (length pre + length bs)%nat).
Proof. exact be_read_write. Qed.
Print Assumptions C06_read_write.

Theorem C06_mirror : forall w v, be_bytes w v = rev (le_bytes w v).
Proof. exact be_le_bytes. Qed.
Print Assumptions C06_mirror.

Example C06_case :
  serialize_be true 4 305419896 1 [9; 0; 0; 0; 0; 9] = Ok ([9; 18; 52; 86; 120; 9], 5%nat) /\
  deserialize_be true 2 0 [1; 2] = Ok 258.
Proof. repeat split; vm_compute; reflexivity. Qed.

(** C07: floats by their fields (sign, exponent below 2^8, fraction below 2^23). *)
Theorem C07_serialize_le : forall f pre old post,
  f_expo f < 256 /\ f_frac f < 2 ^ 23 -> length old = 4%nat ->
  serialize_float_le f (length pre) (pre ++ old ++ post) =
  Ok (pre ++ rev (ieee_bytes (f_sign f) (f_expo f) (f_frac f)) ++ post, (length pre + 4)%nat).
Proof. exact serialize_float_le_spec. Qed.
Print Assumptions C07_serialize_le.

Theorem C07_serialize_be : forall dbg f pre old post,
  f_expo f < 256 /\ f_frac f < 2 ^ 23 -> length old = 4%nat ->
  serialize_float_be dbg f (length pre) (pre ++ old ++ post) =
  Ok (pre ++ ieee_bytes (f_sign f) (f_expo f) (f_frac f) ++ post, (length pre + 4)%nat).
Proof. exact serialize_float_be_spec. Qed.
Print Assumptions C07_serialize_be.

Theorem C07_deserialize_le : forall f pre post, f_expo f < 256 /\ f_frac f < 2 ^ 23 ->
  deserialize_float_le (length pre)
    (pre ++ rev (ieee_bytes (f_sign f) (f_expo f) (f_frac f)) ++ post) = Ok f.
Proof. exact deserialize_float_le_spec. Qed.
Print Assumptions C07_deserialize_le.

Theorem C07_deserialize_be : forall dbg f pre post, f_expo f < 256 /\ f_frac f < 2 ^ 23 ->
  deserialize_float_be dbg (length pre)
    (pre ++ ieee_bytes (f_sign f) (f_expo f) (f_frac f) ++ post) = Ok f.
Proof. exact deserialize_float_be_spec. Qed.
Print Assumptions C07_deserialize_be.

(** -1.5f = 0xbfc00000, and a NaN with payload. *)
Example C07_case :
  ieee_bytes true 127 4194304 = [191; 192; 0; 0] /\
  serialize_float_le {| f_sign := true; f_expo := 127; f_frac := 4194304 |} 0 [0; 0; 0; 0; 7]
    = Ok ([0; 0; 192; 191; 7], 4%nat) /\
  deserialize_float_be true 0 [255; 160; 0; 1] =
    Ok {| f_sign := true; f_expo := 255; f_frac := 2097153 |}.
Proof. repeat split; vm_compute; reflexivity. Qed.

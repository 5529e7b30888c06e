(** Model of src/utki/deserializer.cpp and deserializer.hpp. The object is its one member, a span
    over the buffer [buf]. *)
From Verif Require Import Base SerialModel SpanModel.
Local Open Scope N_scope.

Inductive op :=
| ReadString (length : N) | ReadSpan (length : N) | ReadU8
| ReadU16le | ReadU32le | ReadU64le | ReadFloatle
| ReadU16be | ReadU32be | ReadU64be | ReadFloatbe
| Skip (length : N) | Size | Empty.

(** Results; a returned string_view/span is the region of the buffer it refers to. *)
Inductive res :=
| RInt (v : N) | RFloat (f : float32) | RView (s : span) | RUnit | RSize (n : N) | RBool (b : bool).

Section Deser.
Variable dbg : bool.
Variable buf : list N.

(** deserializer.cpp:36-47 read_string; 49-60 read_span is the same up to the type of the result.
    [make_string_view] (string.hpp:89-93) keeps pointer and size. *)
Definition read_view (d : span) (length : N) : outcome (res * span) :=
  if s_size d <? length then Throw InvalidArgument
  else
    ret <- subspan dbg buf d 0 length ;;
    d' <- subspan dbg buf d length size_max ;;
    Ok (RView ret, d').

(** deserializer.cpp:62-71 read_uint8 *)
Definition read_uint8 (d : span) : outcome (res * span) :=
  if s_size d <? 1 then Throw InvalidArgument
  else
    ret <- span_front dbg buf d ;;
    d' <- subspan dbg buf d 1 size_max ;;
    Ok (RInt ret, d').

(** The pattern shared by the fixed size readers: check the size, decode at data(), advance. *)
Definition read_fixed (d : span) (w : N) (get : nat -> mem -> outcome res) : outcome (res * span) :=
  if s_size d <? w then Throw InvalidArgument
  else
    ret <- get (N.to_nat (s_off d)) buf ;;
    d' <- subspan dbg buf d w size_max ;;
    Ok (ret, d').

Definition as_int (get : nat -> mem -> outcome N) p m : outcome res := v <- get p m ;; Ok (RInt v).
Definition as_float (get : nat -> mem -> outcome float32) p m : outcome res := v <- get p m ;; Ok (RFloat v).

(** deserializer.cpp:73-82, 84-93, 95-104, 106-115 *)
Definition read_uint16_le d := read_fixed d 2 (as_int (deserialize_le 2)).
Definition read_uint32_le d := read_fixed d 4 (as_int (deserialize_le 4)).
Definition read_uint64_le d := read_fixed d 8 (as_int (deserialize_le 8)).
Definition read_float_le d := read_fixed d 4 (as_float deserialize_float_le).
(** deserializer.cpp:117-126, 128-137, 139-148, 150-159 *)
Definition read_uint16_be d := read_fixed d 2 (as_int (deserialize_be dbg 2)).
Definition read_uint32_be d := read_fixed d 4 (as_int (deserialize_be dbg 4)).
Definition read_uint64_be d := read_fixed d 8 (as_int (deserialize_be dbg 8)).
Definition read_float_be d := read_fixed d 4 (as_float (deserialize_float_be dbg)).

(** deserializer.cpp:161-168 skip *)
Definition skip (d : span) (length : N) : outcome (res * span) :=
  if s_size d <? length then Throw InvalidArgument
  else
    d' <- subspan dbg buf d length size_max ;;
    Ok (RUnit, d').

Definition call (d : span) (o : op) : outcome (res * span) :=
  match o with
  | ReadString n => read_view d n
  | ReadSpan n => read_view d n
  | ReadU8 => read_uint8 d
  | ReadU16le => read_uint16_le d
  | ReadU32le => read_uint32_le d
  | ReadU64le => read_uint64_le d
  | ReadFloatle => read_float_le d
  | ReadU16be => read_uint16_be d
  | ReadU32be => read_uint32_be d
  | ReadU64be => read_uint64_be d
  | ReadFloatbe => read_float_be d
  | Skip n => skip d n
  | Size => Ok (RSize (s_size d), d)           (* deserializer.hpp:49-52 *)
  | Empty => Ok (RBool (span_empty d), d)      (* deserializer.hpp:44-47 *)
  end.

(** One call: what the caller gets, and the object afterwards. The member is assigned only by the
    last statement of each function, so any non-normal exit leaves it as it was. *)
Definition step (d : span) (o : op) : outcome res * span :=
  match call d o with
  | Ok (r, d') => (Ok r, d')
  | Throw e => (Throw e, d)
  | UB r => (UB r, d)
  | Abort => (Abort, d)
  | Terminate => (Terminate, d)
  | Diverge => (Diverge, d)
  end.

(** A history of calls; the caller catches exceptions and goes on. *)
Fixpoint run (d : span) (ops : list op) : list (outcome res) * span :=
  match ops with
  | [] => ([], d)
  | o :: ops =>
      let '(r, d) := step d o in
      let '(rs, d) := run d ops in
      (r :: rs, d)
  end.

(** deserializer.hpp:40-42, constructor from a span over the whole buffer. *)
Definition make : span := Span 0 (N.of_nat (length buf)).

End Deser.

(** ** A client that writes records with the serialize functions of utility.hpp.
    Strings and raw blocks are copied byte by byte (client code, not part of the library); a gap
    is a block that the reader skips. *)
Inductive record :=
| WU8 (v : N) | WU16le (v : N) | WU32le (v : N) | WU64le (v : N) | WFloatle (f : float32)
| WU16be (v : N) | WU32be (v : N) | WU64be (v : N) | WFloatbe (f : float32)
| WString (s : list N) | WBlock (s : list N) | WGap (s : list N).

Fixpoint copy_out (s : list N) (out : nat) (m : mem) : outcome (mem * nat) :=
  match s with
  | [] => Ok (m, out)
  | b :: s => m <- store m out b ;; copy_out s (S out) m
  end.

Definition write (dbg : bool) (r : record) (out : nat) (m : mem) : outcome (mem * nat) :=
  match r with
  | WU8 v => serialize_le 1 v out m
  | WU16le v => serialize_le 2 v out m
  | WU32le v => serialize_le 4 v out m
  | WU64le v => serialize_le 8 v out m
  | WFloatle f => serialize_float_le f out m
  | WU16be v => serialize_be dbg 2 v out m
  | WU32be v => serialize_be dbg 4 v out m
  | WU64be v => serialize_be dbg 8 v out m
  | WFloatbe f => serialize_float_be dbg f out m
  | WString s | WBlock s | WGap s => copy_out s out m
  end.

Fixpoint write_all (dbg : bool) (rs : list record) (out : nat) (m : mem) : outcome (mem * nat) :=
  match rs with
  | [] => Ok (m, out)
  | r :: rs => x <- write dbg r out m ;; write_all dbg rs (snd x) (fst x)
  end.

(** The reader call that corresponds to a record. *)
Definition reader_of (r : record) : op :=
  match r with
  | WU8 _ => ReadU8
  | WU16le _ => ReadU16le | WU32le _ => ReadU32le | WU64le _ => ReadU64le | WFloatle _ => ReadFloatle
  | WU16be _ => ReadU16be | WU32be _ => ReadU32be | WU64be _ => ReadU64be | WFloatbe _ => ReadFloatbe
  | WString s => ReadString (N.of_nat (length s))
  | WBlock s => ReadSpan (N.of_nat (length s))
  | WGap s => Skip (N.of_nat (length s))
  end.

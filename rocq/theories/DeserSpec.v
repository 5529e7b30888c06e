(** What a byte reader should do: the unread bytes are a list, an operation takes a number of
    bytes off its front or refuses. [pos] counts the bytes taken so far. *)
From Verif Require Import Base SerialModel SerialSpec SpanModel DeserModel.
Local Open Scope N_scope.

(** Bytes an operation consumes. *)
Definition need (o : op) : N :=
  match o with
  | ReadString n | ReadSpan n | Skip n => n
  | ReadU8 => 1
  | ReadU16le | ReadU16be => 2
  | ReadU32le | ReadU32be | ReadFloatle | ReadFloatbe => 4
  | ReadU64le | ReadU64be => 8
  | Size | Empty => 0
  end.

Definition float_of_le (bs : list N) : float32 := float_of_bits (le_value bs).
Definition float_of_be (bs : list N) : float32 := float_of_bits (be_value bs).

(** The result, given the position, the [need o] bytes taken and the number of unread bytes. *)
Definition value_of (o : op) (pos : N) (bs : list N) (unread : N) : res :=
  match o with
  | ReadString n | ReadSpan n => RView (Span pos n)
  | ReadU8 | ReadU16le | ReadU32le | ReadU64le => RInt (le_value bs)
  | ReadU16be | ReadU32be | ReadU64be => RInt (be_value bs)
  | ReadFloatle => RFloat (float_of_le bs)
  | ReadFloatbe => RFloat (float_of_be bs)
  | Skip _ => RUnit
  | Size => RSize unread
  | Empty => RBool (unread =? 0)
  end.

Record reader := Reader { pos : N; rest : list N }.

Definition spec_step (r : reader) (o : op) : outcome res * reader :=
  let n := need o in
  let unread := N.of_nat (length (rest r)) in
  if n <=? unread then
    (Ok (value_of o (pos r) (firstn (N.to_nat n) (rest r)) unread),
     Reader (pos r + n) (skipn (N.to_nat n) (rest r)))
  else (Throw InvalidArgument, r).

Fixpoint spec_run (r : reader) (ops : list op) : list (outcome res) * reader :=
  match ops with
  | [] => ([], r)
  | o :: ops =>
      let '(x, r) := spec_step r o in
      let '(xs, r) := spec_run r ops in
      (x :: xs, r)
  end.

(** Arguments are values of size_t. *)
Definition op_ok (o : op) : Prop := need o < 2 ^ 64.

(** ** Records *)
Definition record_ok (r : record) : Prop :=
  match r with
  | WU8 v => v < 2 ^ 8
  | WU16le v | WU16be v => v < 2 ^ 16
  | WU32le v | WU32be v => v < 2 ^ 32
  | WU64le v | WU64be v => v < 2 ^ 64
  | WFloatle f | WFloatbe f => f_expo f < 2 ^ 8 /\ f_frac f < 2 ^ 23
  | WString s | WBlock s | WGap s => bytes_ok s = true
  end.

Definition record_size (r : record) : nat :=
  match r with
  | WU8 _ => 1
  | WU16le _ | WU16be _ => 2
  | WU32le _ | WU32be _ | WFloatle _ | WFloatbe _ => 4
  | WU64le _ | WU64be _ => 8
  | WString s | WBlock s | WGap s => length s
  end.

(** The read gave back what was written; views are compared by what they show of [m]. *)
Definition gave (m : list N) (x : outcome res) (r : record) : Prop :=
  match r, x with
  | (WU8 v | WU16le v | WU32le v | WU64le v | WU16be v | WU32be v | WU64be v), Ok (RInt v') => v' = v
  | (WFloatle f | WFloatbe f), Ok (RFloat f') => f' = f
  | (WString s | WBlock s), Ok (RView sp) => contents m sp = s
  | WGap _, Ok RUnit => True
  | _, _ => False
  end.

(** Bytes needed for a list of records. *)
Definition total (rs : list record) : nat := fold_right (fun r n => record_size r + n)%nat 0%nat rs.

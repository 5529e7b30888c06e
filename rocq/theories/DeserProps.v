(** Properties C08, C09: deserializer. *)
From Verif Require Import Base SerialModel SerialSpec SpanModel DeserModel DeserSpec DeserProofs.
Local Open Scope N_scope.

(** C08: every history of calls gives the results of the abstract reader, whose state stays the
    unread tail of the buffer. Results of the abstract reader are only [Ok] or
    [Throw InvalidArgument], so there is neither undefined behaviour nor a failed assertion. *)
Theorem C08_history : forall dbg buf, bytes_ok buf = true -> N.of_nat (length buf) < 2 ^ 63 ->
  forall ops, Forall op_ok ops ->
  let '(xs, d') := run dbg buf (make buf) ops in
  let '(ys, r') := spec_run (Reader 0 buf) ops in
  xs = ys /\ d' = Span (pos r') (N.of_nat (length (rest r'))) /\
  rest r' = skipn (N.to_nat (pos r')) buf /\
  pos r' + N.of_nat (length (rest r')) = N.of_nat (length buf).
Proof. exact run_make. Qed.
Print Assumptions C08_history.

(** A returned view shows exactly the next bytes. *)
Theorem C08_views : forall buf r n, rest r = skipn (N.to_nat (pos r)) buf ->
  contents buf (Span (pos r) n) = firstn (N.to_nat n) (rest r).
Proof. exact view_contents. Qed.
Print Assumptions C08_views.

Example C08_case :
  run true [1; 2; 3; 4; 5] (make [1; 2; 3; 4; 5])
      [ReadU16be; ReadU64le; ReadString (2 ^ 64 - 1); ReadSpan 2; Size; ReadU16le; ReadU8; Empty] =
  ([Ok (RInt 258); Throw InvalidArgument; Throw InvalidArgument; Ok (RView (Span 2 2));
    Ok (RSize 1); Throw InvalidArgument; Ok (RInt 5); Ok (RBool true)], Span 5 0).
Proof. vm_compute. reflexivity. Qed.

(** C09 *)
Theorem C09_records : forall dbg rs m, Forall record_ok rs -> bytes_ok m = true ->
  N.of_nat (length m) < 2 ^ 63 -> (total rs <= length m)%nat ->
  exists m', write_all dbg rs 0 m = Ok (m', total rs) /\
    length m' = length m /\ skipn (total rs) m' = skipn (total rs) m /\
    let '(xs, d') := run dbg m' (make m') (map reader_of rs) in
    Forall2 (gave m') xs rs /\
    d' = Span (N.of_nat (total rs)) (N.of_nat (length m - total rs)).
Proof. exact write_read. Qed.
Print Assumptions C09_records.

Example C09_case :
  let rs := [WU16be 513; WString [104; 105]; WFloatle {| f_sign := true; f_expo := 127; f_frac := 4194304 |};
             WGap [0]; WU8 7] in
  Forall record_ok rs /\ total rs = 10%nat /\
  write_all true rs 0 (repeat 99 11) = Ok ([2; 1; 104; 105; 0; 0; 192; 191; 0; 7; 99], 10%nat).
Proof. repeat split; repeat constructor. Qed.

(** Model of utki::word_wrap, src/utki/string.cpp:159-246.

    Characters are their codes. An iterator into the text is a position; differences of iterators are
    [Z]. [cpp20] selects the variant of the width test. *)
From Verif Require Import Base.
Local Open Scope N_scope.

Section Wrap.
Variable dbg cpp20 : bool.
Variable s : list N.
Variable width : N.   (* below 2^32 *)

Definition space : N := 32.
Definition newline : N := 10.

(** [*i] *)
Definition deref (i : nat) : outcome N :=
  match nth_error s i with Some c => Ok c | None => UB OutOfBounds end.
(** std::next(i): not past the end *)
Definition next (i : nat) : outcome nat := if Nat.ltb i (length s) then Ok (S i) else UB OutOfBounds.
(** std::prev(i, 1) *)
Definition prev (i : nat) : outcome nat := match i with O => UB OutOfBounds | S i => Ok i end.
Definition distance (a b : nat) : Z := Z.of_nat b - Z.of_nat a.
(** [str.substr(pos, n)]; both arguments are converted to size_t. *)
Definition substr (pos n : Z) : outcome (list N) :=
  let pos := Z.to_N (pos mod 2 ^ 64) in
  let n := Z.to_N (n mod 2 ^ 64) in
  if N.of_nat (length s) <? pos then Throw OutOfRange
  else Ok (firstn (N.to_nat (N.min n (N.of_nat (length s) - pos))) (skipn (N.to_nat pos) s)).
(** [ret.emplace_back(str.substr(distance(str.begin(), a), distance(a, b)))] *)
Definition emit (ret : list (list N)) (a b : nat) : outcome (list (list N)) :=
  l <- substr (distance 0 a) (distance a b) ;; Ok (ret ++ [l]).

(** The local variables. *)
Record state := State { ret : list (list N); line_begin : nat; span_begin : nat; word_ended : bool }.

(** 173-179: cmp_equal(distance, width), or unsigned(distance) == width *)
Definition at_width (a b : nat) : bool :=
  if cpp20 then (distance a b =? Z.of_N width)%Z else (distance a b mod 2 ^ 32 =? Z.of_N width)%Z.

(** 172-208: the wrapping part of the loop body *)
Definition wrap (st : state) (i : nat) : outcome state :=
  assert_ dbg (0 <=? distance (line_begin st) i)%Z ;;;
  c <- deref i ;;
  if negb (c =? newline) && at_width (line_begin st) i then
    b <- deref (span_begin st) ;;
    if b =? space then
      if word_ended st then
        r <- emit (ret st) (line_begin st) (span_begin st) ;;
        n <- next (span_begin st) ;;
        Ok (State r n (span_begin st) false)
      else Ok (State (ret st) i i false)
    else if word_ended st then
      assert_ dbg (1 <=? distance (line_begin st) (span_begin st))%Z ;;;
      p <- prev (span_begin st) ;;
      r <- emit (ret st) (line_begin st) p ;;
      Ok (State r (span_begin st) (span_begin st) false)
    else
      r <- emit (ret st) (line_begin st) i ;;
      Ok (State r i i false)
  else Ok st.

(** 209-227: the switch *)
Definition classify (st : state) (i : nat) : outcome state :=
  c <- deref i ;;
  if c =? space then
    b <- deref (span_begin st) ;;
    if negb (b =? space) then Ok (State (ret st) (line_begin st) i true) else Ok st
  else if c =? newline then
    r <- emit (ret st) (line_begin st) i ;;
    n <- next i ;;
    Ok (State r n n false)
  else
    b <- deref (span_begin st) ;;
    if b =? space then Ok (State (ret st) (line_begin st) i (word_ended st)) else Ok st.

(** 171-228 *)
Fixpoint loop (fuel : nat) (i : nat) (st : state) : outcome state :=
  match fuel with
  | O => Diverge
  | S fuel =>
      if Nat.eqb i (length s) then Ok st
      else
        st <- wrap st i ;;
        st <- classify st i ;;
        i <- next i ;;
        loop fuel i st
  end.

(** 159-246 *)
Definition word_wrap : outcome (list (list N)) :=
  if width =? 0 then Ok [s]
  else
    st <- loop (S (length s)) 0 (State [] 0 0 false) ;;
    at_space <- (if negb (Nat.eqb (span_begin st) (length s))
                 then b <- deref (span_begin st) ;; Ok (b =? space) else Ok false) ;;
    if (at_space : bool) then
      if word_ended st then emit (ret st) (line_begin st) (span_begin st) else Ok (ret st)
    else emit (ret st) (line_begin st) (length s).
End Wrap.

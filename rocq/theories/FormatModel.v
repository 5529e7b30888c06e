(** Model of make_string_va_list and make_string, src/utki/string.cpp:50-131.

    vsnprintf is an oracle: the [i]-th call produces [fmt i], [None] being an error (negative result).
    For a buffer of [n] characters it writes the first [n-1] characters of the text and a zero, and
    returns the length of the text; a length which is not representable as int is an error. The oracle does not model the conversion of arguments. *)
From Verif Require Import Base.
Local Open Scope Z_scope.

Section Format.
Variable fmt : nat -> option (list N).

(** State of a va_list: usable, passed to vsnprintf before (indeterminate), ended. *)
Inductive va := VaFresh | VaUsed | VaEnded.
Definition va_end (v : va) : outcome va := match v with VaEnded => UB BadArgument | _ => Ok VaEnded end.
(** va_copy(dst, src): the destination must not be initialised, the source must be usable. *)
Definition va_copy (dst src : va) : outcome va :=
  match dst, src with VaEnded, VaFresh => Ok VaFresh | _, _ => UB BadArgument end.

(** vsnprintf(buf, n, ...) for the [i]-th time, where [buf] really has [length buf] characters:
    the result, the new content of the buffer, the state of the va_list *)
Definition vsnprintf (i : nat) (buf : list N) (n : Z) (v : va) : outcome (Z * list N * va) :=
  match v with
  | VaFresh =>
      match fmt i with
      | None => Ok (-1, buf, VaUsed)
      | Some t =>
          if 2 ^ 31 <=? Z.of_nat (length t) then Ok (-1, buf, VaUsed) else
          let written := if n =? 0 then [] else firstn (Z.to_nat (n - 1)) t ++ [0%N] in
          if Z.of_nat (length written) <=? Z.of_nat (length buf)
          then Ok (Z.of_nat (length t), written ++ skipn (length written) buf, VaUsed)
          else UB OutOfBounds
      end
  | _ => UB BadArgument
  end.

(** std::string(ptr, n) *)
Definition std_string (buf : list N) (n : Z) : outcome (list N) :=
  if n <=? Z.of_nat (length buf) then Ok (firstn (Z.to_nat n) buf) else UB OutOfBounds.

(** The result of a call together with the number of vsnprintf calls and the state of [cur_args]
    after the destructor of cur_args_scope_exit, which also runs when an exception is thrown. *)
Inductive result := Returned (s : list N) | Thrown.

(** 71-115: the loop. [buf] is what buf_ptr points to: the local array, or the characters of [ret]
    and its terminating zero. [size] is an int; converted to size_t it is the same number here, as it
    is not negative, so that both variants of the comparison are the same. *)
Fixpoint loop (fuel : nat) (dbg : bool) (i : nat) (buf : list N) (buf_size : Z) (cur args : va) : outcome (result * nat * va) :=
  match fuel with
  | O => Diverge
  | S fuel =>
      r <- vsnprintf i buf buf_size cur ;;
      let '(size, buf, cur) := r in
      if size <? 0 then
        cur <- va_end cur ;; Ok (Thrown, S i, cur)
      else if buf_size <=? size then
        let ret := repeat 0%N (Z.to_nat size) in   (* ret.resize(size) *)
        let buf := ret ++ [0%N] in
        let buf_size := Z.of_nat (length ret) + 1 in
        cur <- va_end cur ;;
        cur <- va_copy cur args ;;
        assert_ dbg (Nat.ltb i 1) ;;;
        loop fuel dbg (S i) buf buf_size cur args
      else
        ret <- std_string buf size ;;
        cur <- va_end cur ;;
        Ok (Returned ret, S i, cur)
  end.

(** 50-118. [garbage] is the initial content of the local array of 1024 characters. *)
Definition kilobyte : nat := 1024.
Definition make_string_va_list (fuel : nat) (dbg : bool) (garbage : list N) (args : va) : outcome (result * nat * va) :=
  cur <- va_copy VaEnded args ;;
  loop fuel dbg 0 garbage (Z.of_nat kilobyte) cur args.

(** make_string: 120-131. An exception leaves the function without va_end(args): the second component
    is the state of [args] when the function is left. *)
Definition make_string (fuel : nat) (dbg : bool) (garbage : list N) : outcome (result * va) :=
  p <- make_string_va_list fuel dbg garbage VaFresh ;;
  match fst (fst p) with
  | Returned s => args <- va_end VaFresh ;; Ok (Returned s, args)
  | Thrown => Ok (Thrown, VaFresh)
  end.
End Format.

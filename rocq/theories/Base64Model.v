(** Model of src/utki/base64.cpp (whole file). *)
From Verif Require Import Base.
Local Open Scope N_scope.

(** A character is its code as unsigned char, 0..255. *)

(** base64.cpp:40-55, decode_table: transcribed entry by entry. *)
Definition decode_table : list N :=
  [ 0;  0;  0;  0;  0;  0;  0;  0;  0;  0;  0;  0;  0;  0;  0;  0;
    0;  0;  0;  0;  0;  0;  0;  0;  0;  0;  0;  0;  0;  0;  0;  0;
    0;  0;  0;  0;  0;  0;  0;  0;  0;  0;  0; 62;  0;  0;  0; 63;
   52; 53; 54; 55; 56; 57; 58; 59; 60; 61;  0;  0;  0;  0;  0;  0;
    0;  0;  1;  2;  3;  4;  5;  6;  7;  8;  9; 10; 11; 12; 13; 14;
   15; 16; 17; 18; 19; 20; 21; 22; 23; 24; 25;  0;  0;  0;  0;  0;
    0; 26; 27; 28; 29; 30; 31; 32; 33; 34; 35; 36; 37; 38; 39; 40;
   41; 42; 43; 44; 45; 46; 47; 48; 49; 50; 51;  0;  0;  0;  0;  0;
    0;  0;  0;  0;  0;  0;  0;  0;  0;  0;  0;  0;  0;  0;  0;  0;
    0;  0;  0;  0;  0;  0;  0;  0;  0;  0;  0;  0;  0;  0;  0;  0;
    0;  0;  0;  0;  0;  0;  0;  0;  0;  0;  0;  0;  0;  0;  0;  0;
    0;  0;  0;  0;  0;  0;  0;  0;  0;  0;  0;  0;  0;  0;  0;  0;
    0;  0;  0;  0;  0;  0;  0;  0;  0;  0;  0;  0;  0;  0;  0;  0;
    0;  0;  0;  0;  0;  0;  0;  0;  0;  0;  0;  0;  0;  0;  0;  0;
    0;  0;  0;  0;  0;  0;  0;  0;  0;  0;  0;  0;  0;  0;  0;  0;
    0;  0;  0;  0;  0;  0;  0;  0;  0;  0;  0;  0;  0;  0;  0;  0].

(** [decode_table[a]] with [char a] (base64.cpp:61-64). The index is converted from char to
    size_t: when char is signed ([sc = true], x86-64) a code >= 128 becomes an index near 2^64. *)
Definition lookup (sc : bool) (a : N) : outcome N :=
  if sc && (128 <=? a) then UB OutOfBounds
  else match nth_error decode_table (N.to_nat a) with
       | Some v => Ok v
       | None => UB OutOfBounds
       end.

(** base64.cpp:57-71, base64_decode_quad. Table entries are promoted to int, at most
    63 << 18 so no overflow. The result array of three bytes is a triple. *)
Definition decode_quad (sc : bool) (a b c d : N) : outcome (N * N * N) :=
  va <- lookup sc a ;;
  vb <- lookup sc b ;;
  vc <- lookup sc c ;;
  vd <- lookup sc d ;;
  let quad := N.lor (N.lor (N.lor (N.shiftl va (6 * 3)) (N.shiftl vb (6 * 2)))
                           (N.shiftl vc 6)) vd in
  Ok (N.land (N.shiftr quad (8 * 2)) 255,
      N.land (N.shiftr quad 8) 255,
      N.land quad 255).

(** [*i] for an iterator of a string_view: the iterator is represented by the characters
    from it to the end; dereferencing the end iterator is undefined. *)
Definition deref (i : list N) : outcome N :=
  match i with [] => UB OutOfBounds | a :: _ => Ok a end.

(** base64.cpp:98-113, the loop over whole quads; [n] = num_quads - counter.
    Returns the bytes appended and the iterator after the loop. *)
Fixpoint quad_loop (sc dbg : bool) (n : nat) (i : list N) : outcome (list N * list N) :=
  match n with
  | O => Ok ([], i)
  | S n' =>
      assert_ dbg (negb (Nat.eqb (length i) 0)) ;;;
      assert_ dbg (Nat.leb 4 (length i)) ;;;
      a <- deref i ;; let i := tl i in
      b <- deref i ;; let i := tl i in
      c <- deref i ;; let i := tl i in
      d <- deref i ;; let i := tl i in
      bytes <- decode_quad sc a b c d ;;
      r <- quad_loop sc dbg n' i ;;
      let '(b0, b1, b2) := bytes in
      let '(rest, i) := r in
      Ok (b0 :: b1 :: b2 :: rest, i)
  end.

Definition eqchar : N := 61. (* '=' *)
Definition Achar : N := 65. (* 'A' *)

(** [str.back() == '='] (base64.cpp:83, 91). *)
Definition back_is_eq (str : list N) : bool :=
  match rev str with c :: _ => c =? eqchar | [] => false end.

(** base64.cpp:115-139, after the loop: the tail of the string, [i] = what is left. *)
Definition tail (sc dbg : bool) (i : list N) : outcome (list N) :=
  match i with
  | [] => Ok []
  | a :: i =>
      assert_ dbg (negb (Nat.eqb (length i) 0)) ;;;
      b <- deref i ;; let i := tl i in
      match i with
      | [] =>
          bytes <- decode_quad sc a b Achar Achar ;;
          let '(b0, _, _) := bytes in Ok [b0]
      | c :: _ =>
          bytes <- decode_quad sc a b c Achar ;;
          let '(b0, b1, _) := bytes in Ok [b0; b1]
      end
  end.

(** base64.cpp:74-139, base64_decode. *)
Definition base64_decode (sc dbg : bool) (str : list N) : outcome (list N) :=
  match str with
  | [] => Ok []
  | _ =>
      let num_quads := Nat.div (length str) 4 in
      p <- (if back_is_eq str then
              if Nat.eqb num_quads 0 then Throw InvalidArgument
              else
                let str := removelast str in
                Ok (Nat.pred num_quads, if back_is_eq str then removelast str else str)
            else Ok (num_quads, str)) ;;
      let '(num_quads, str) := p in
      r <- quad_loop sc dbg num_quads str ;;
      let '(ret, i) := r in
      t <- tail sc dbg i ;;
      Ok (ret ++ t)
  end.

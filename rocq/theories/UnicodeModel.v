(** Model of src/utki/unicode.cpp and the inline functions of unicode.hpp.
    Bytes and code points are N; char32_t is 32 bits wide. *)
From Verif Require Import Base.
Local Open Scope N_scope.

(** ** utf8_iterator, unicode.hpp:42-98.
    The position [p] is represented by the bytes of the underlying array from [p] on. [cstr] tells
    how the iterator was made: from a span (false; [end] is the end of the array, unicode.cpp:36-41)
    or from a const char* (true; [end] stays nullptr, so [p == end] never holds,
    unicode.cpp:45-50). *)
Record iter := Iter { it_c : N; it_p : list N }.

(** [this->p == this->end] *)
Definition at_end (cstr : bool) (p : list N) : bool :=
  negb cstr && match p with [] => true | _ => false end.

(** [*this->p] *)
Definition deref (p : list N) : outcome N :=
  match p with [] => UB OutOfBounds | b :: _ => Ok b end.

(** [(uint8_t(b << i) >> 7)], unicode.cpp:83. *)
Definition more (b i : N) : bool := negb (N.shiftr (N.shiftl b i mod 256) 7 =? 0).

(** unicode.cpp:81-98: the loop and the statement after it. *)
Fixpoint cont_loop (cstr : bool) (fuel : nat) (b i c : N) (p : list N) : outcome iter :=
  match fuel with
  | O => Diverge
  | S fuel =>
      if more b i then
        if at_end cstr p then Ok (Iter 0 p)
        else
          x <- deref p ;;
          let c := N.shiftl c 6 mod 2 ^ 32 in
          let c := N.lor c (N.land x 63) in
          cont_loop cstr fuel b (i + 1) c (tl p)
      else
        let amount := 6 * (i - 1) in
        if 32 <=? amount then UB ShiftOverflow
        else
          let x := N.shiftl (N.shiftr (N.shiftl b (i + 1) mod 256) (i + 1)) amount mod 2 ^ 32 in
          Ok (Iter (N.lor c x) p)
  end.

(** unicode.cpp:54-98, operator++. *)
Definition next_char (cstr : bool) (p : list N) : outcome iter :=
  if at_end cstr p then Ok (Iter 0 p)
  else
    b <- deref p ;;
    let p := tl p in
    if N.land b 128 =? 0 then Ok (Iter b p)
    else if at_end cstr p then Ok (Iter 0 p)
    else
      x <- deref p ;;
      cont_loop cstr 9 b 2 (N.land x 63) (tl p).

(** unicode.cpp:194-214, both to_utf32 loops (identical): the iterator has been constructed, which
    runs operator++ once; go on while [!is_end()], i.e. while the character is not 0. *)
Fixpoint to_utf32_loop (cstr : bool) (fuel : nat) (it : iter) : outcome (list N) :=
  match fuel with
  | O => Diverge
  | S fuel =>
      if it_c it =? 0 then Ok []
      else
        it' <- next_char cstr (it_p it) ;;
        cs <- to_utf32_loop cstr fuel it' ;;
        Ok (it_c it :: cs)
  end.

Definition to_utf32 (cstr : bool) (p : list N) : outcome (list N) :=
  it <- next_char cstr p ;;
  to_utf32_loop cstr (S (length p)) it.

(** to_utf32(span), to_utf32(string_view): unicode.cpp:203-214, unicode.hpp:139-160. *)
Definition to_utf32_span (s : list N) : outcome (list N) := to_utf32 false s.
(** to_utf32(const char* ), to_utf32(const std::string&): unicode.hpp:111-128. [arr] is the whole
    array from the pointer on, the terminator included. *)
Definition to_utf32_cstr (arr : list N) : outcome (list N) := to_utf32 true arr.

(** ** to_utf8(char32_t), unicode.cpp:104-178.
    The array of 7 chars starts uninitialised ([None]); chars are stored as codes 0..255. *)
Definition set_at (a : list (option N)) (i : nat) (v : N) : outcome (list (option N)) :=
  if Nat.ltb i (length a) then Ok (firstn i a ++ Some (v mod 256) :: skipn (S i) a)
  else UB OutOfBounds.

(** [ret[i] = v0; ret[i+1] = v1; ...] *)
Fixpoint set_from (a : list (option N)) (i : nat) (vs : list N) : outcome (list (option N)) :=
  match vs with
  | [] => Ok a
  | v :: vs => a <- set_at a i v ;; set_from a (S i) vs
  end.

(** [0x80 | ((c >> n) & 0x3f)] *)
Definition cont (c n : N) : N := N.lor 128 (N.land (N.shiftr c n) 63).

Definition num_bytes (c : N) : option nat :=
  if c <=? 0x7ff then Some 2%nat
  else if c <=? 0xffff then Some 3%nat
  else if c <=? 0x1fffff then Some 4%nat
  else if c <=? 0x3ffffff then Some 5%nat
  else if c <=? 0x7fffffff then Some 6%nat
  else None.

Definition to_utf8_char (dbg : bool) (c : N) : outcome (list (option N)) :=
  let ret := repeat None 7 in
  if c <=? 0x7f then set_from ret 0 [c; 0]
  else
    match num_bytes c with
    | None => set_from ret 0 [0]
    | Some 2%nat => set_from ret 0 [N.lor 0xc0 (N.land (N.shiftr c 6) 0x1f); cont c 0; 0]
    | Some 3%nat => set_from ret 0 [N.lor 0xe0 (N.land (N.shiftr c 12) 0xf); cont c 6; cont c 0; 0]
    | Some 4%nat => set_from ret 0 [N.lor 0xf0 (N.land (N.shiftr c 18) 0x7); cont c 12; cont c 6; cont c 0; 0]
    | Some 5%nat => set_from ret 0 [N.lor 0xf8 (N.land (N.shiftr c 24) 0x3); cont c 18; cont c 12; cont c 6; cont c 0; 0]
    | Some 6%nat => set_from ret 0 [N.lor 0xfc (N.land (N.shiftr c 30) 0x1); cont c 24; cont c 18; cont c 12; cont c 6; cont c 0; 0]
    | _ => assert_ dbg false ;;; Ok ret
    end.

(** Streaming [buf.data()] as a C string: bytes up to the first zero byte. Reading an
    uninitialised char or beyond the array is undefined. *)
Fixpoint c_string (a : list (option N)) : outcome (list N) :=
  match a with
  | [] => UB OutOfBounds
  | None :: _ => UB OutOfBounds
  | Some b :: a => if b =? 0 then Ok [] else (s <- c_string a ;; Ok (b :: s))
  end.

(** unicode.cpp:182-192, to_utf8(span<const char32_t>). *)
Fixpoint to_utf8 (dbg : bool) (cs : list N) : outcome (list N) :=
  match cs with
  | [] => Ok []
  | c :: cs =>
      buf <- to_utf8_char dbg c ;;
      s <- c_string buf ;;
      rest <- to_utf8 dbg cs ;;
      Ok (s ++ rest)
  end.

(** Any number of increments of an iterator, whatever it points at. *)
Fixpoint advance (cstr : bool) (n : nat) (it : iter) : outcome iter :=
  match n with
  | O => Ok it
  | S n => it' <- next_char cstr (it_p it) ;; advance cstr n it'
  end.

(** Construction (unicode.cpp:36-50) followed by [n] increments. *)
Definition iterate (cstr : bool) (n : nat) (p : list N) : outcome iter :=
  it <- next_char cstr p ;; advance cstr n it.

(** Model of string_parser, integer to_string and read_number: src/utki/string.hpp:282-314,
    371-630, 631-683 and src/utki/string.cpp:319-490.

    The state of a string_parser is the text not parsed yet: the characters of its string_view. A
    view that points nowhere, std::string_view(), is the empty text. Characters are [Z]: nothing
    depends on the signedness of char. An operation maps the text before to the text after together
    with an outcome, so the text left behind by an exception is visible.

    std::from_chars and std::to_chars for integers are modelled after the standard: digits only (a
    minus sign for signed types), letters of both cases when read, lower case when written. The
    floating point version of read_number is modelled for an arbitrary from_chars. *)
From Verif Require Import Base StringModel.
Local Open Scope Z_scope.

Definition op (A : Type) : Type := list Z -> list Z * outcome A.
Definition ret {A} (x : A) : op A := fun s => (s, Ok x).
Definition fail {A} (m : outcome A) : op A := fun s => (s, m).
Definition andthen {A B} (m : op A) (k : A -> op B) : op B := fun s =>
  match m s with
  | (s, Ok x) => k x s
  | (s, Throw e) => (s, Throw e)
  | (s, UB r) => (s, UB r)
  | (s, Abort) => (s, Abort)
  | (s, Terminate) => (s, Terminate)
  | (s, Diverge) => (s, Diverge)
  end.
Notation "x <~ m ;; k" := (andthen m (fun x => k)) (at level 61, m at next level, right associativity).
Notation "m ;;~ k" := (andthen m (fun _ => k)) (at level 61, right associativity).

Definition get_view : op (list Z) := fun s => (s, Ok s).
Definition set_view (s : list Z) : op unit := fun _ => (s, Ok tt).
(** string_view::substr(pos): up to the end; throws when [pos] is past the end *)
Definition substr_from (s : list Z) (pos : N) : outcome (list Z) :=
  if (size s <? pos)%N then Throw OutOfRange else Ok (skipn (N.to_nat pos) s).
(** string_view::front and operator[]: outside of the text the behaviour is undefined *)
Definition front (s : list Z) : outcome Z := match s with [] => UB OutOfBounds | c :: _ => Ok c end.
Definition view_at (s : list Z) (n : N) : outcome Z :=
  match nth_error s (N.to_nat n) with Some c => Ok c | None => UB OutOfBounds end.

(** is_space: string.cpp:319-329 *)
Definition is_space (c : Z) : bool :=
  (c =? 32) || (c =? 10) || (c =? 9) || (c =? 13) || (c =? 11) || (c =? 12).

(** skip_whitespaces: string.cpp:331-341 *)
Fixpoint count_spaces (s : list Z) (pos : N) : N :=
  match s with
  | [] => pos
  | c :: s => if negb (is_space c) then pos else count_spaces s (pos + 1)
  end.
Definition skip_whitespaces : op unit := fun s =>
  match substr_from s (count_spaces s 0) with
  | Ok s' => (s', Ok tt)
  | Throw e => (s, Throw e)
  | _ => (s, Diverge)
  end.

(** skip_whitespaces_and_comma: string.cpp:343-362 *)
Fixpoint count_spaces_comma (s : list Z) (pos : N) (comma_skipped : bool) : N :=
  match s with
  | [] => pos
  | c :: s =>
      if is_space c then count_spaces_comma s (pos + 1) comma_skipped
      else if c =? 44 then
        if comma_skipped then pos else count_spaces_comma s (pos + 1) true
      else pos
  end.
Definition skip_whitespaces_and_comma : op unit := fun s =>
  match substr_from s (count_spaces_comma s 0 false) with
  | Ok s' => (s', Ok tt)
  | Throw e => (s, Throw e)
  | _ => (s, Diverge)
  end.

(** skip_inclusive_until: string.cpp:364-372. In the loop the text is not empty, so front() is its
    head and substr(1) its tail. *)
Fixpoint skip_inclusive_until (c : Z) (s : list Z) : list Z * outcome unit :=
  match s with
  | [] => ([], Ok tt)
  | x :: s => if x =? c then (s, Ok tt) else skip_inclusive_until c s
  end.

(** skip_inclusive_until_one_of: string.cpp:374-388 *)
Fixpoint find_in (cs : list Z) (x : Z) : option Z :=
  match cs with
  | [] => None
  | c :: cs => if c =? x then Some c else find_in cs x
  end.
Fixpoint skip_inclusive_until_one_of (cs : list Z) (s : list Z) : list Z * outcome Z :=
  match s with
  | [] => ([], Ok 0)
  | x :: s =>
      match find_in cs x with
      | Some c => (s, Ok c)
      | None => skip_inclusive_until_one_of cs s
      end
  end.

(** The loop shared by read_word, read_word_until and read_chars_until: stop at the first character
    that satisfies [p]; without such a character take everything and become the empty view. *)
Definition read_until (p : Z -> bool) : op (list Z) := fun s =>
  let dist := find_if p s in
  if (dist <? size s)%N then
    match substr s 0 dist, substr_from s dist with
    | Ok ret, Ok rest => (rest, Ok ret)
    | Throw e, _ => (s, Throw e)
    | _, Throw e => (s, Throw e)
    | _, _ => (s, Diverge)
    end
  else ([], Ok s).
(** string.cpp:390-406, 408-424, 474-490 *)
Definition read_word : op (list Z) := read_until is_space.
Definition read_word_until (c : Z) : op (list Z) := read_until (fun x => is_space x || (x =? c)).
Definition read_chars_until (c : Z) : op (list Z) := read_until (fun x => x =? c).

(** throw_if_empty: string.cpp:426-431; read_char: 433-442; peek_char: 444-460 *)
Definition throw_if_empty : op unit := fun s =>
  match s with [] => (s, Throw InvalidArgument) | _ => (s, Ok tt) end.
Definition read_char : op Z :=
  throw_if_empty ;;~
  s <~ get_view ;;
  r <~ fail (front s) ;;
  s' <~ fail (substr_from s 1) ;;
  set_view s' ;;~
  ret r.
Definition peek_char : op Z :=
  throw_if_empty ;;~
  s <~ get_view ;;
  fail (front s).
Definition peek_char_n (n : N) : op Z :=
  s <~ get_view ;;
  if (size s <=? n)%N then fail (Throw InvalidArgument) else fail (view_at s n).

(** read_chars: string.cpp:462-472. The view (data(), n) is the first [n] characters. *)
Definition read_chars (n : N) : op (list Z) :=
  s <~ get_view ;;
  let n := N.min n (size s) in
  let r := firstn (N.to_nat n) s in
  s' <~ fail (substr_from s n) ;;
  set_view s' ;;~
  ret r.

(** Integer types: signedness and number of bits. *)
Record ity := { is_signed : bool; bits : Z }.
Definition min_value (t : ity) : Z := if is_signed t then - 2 ^ (bits t - 1) else 0.
Definition max_value (t : ity) : Z := if is_signed t then 2 ^ (bits t - 1) - 1 else 2 ^ bits t - 1.
Definition fits (t : ity) (v : Z) : bool := (min_value t <=? v) && (v <=? max_value t).

(** integer_base and to_int: string.hpp:283-314 *)
Inductive integer_base := bin | oct | dec | hex.
Definition to_int (b : integer_base) : Z := match b with bin => 2 | oct => 8 | dec => 10 | hex => 16 end.

(** Result codes of from_chars: no error, invalid_argument, result_out_of_range, anything else. *)
Inductive errc := ec_ok | ec_invalid | ec_range | ec_other.
(** The number of characters before the returned pointer, the code, the value written (if any). *)
Record fc_result (V : Type) := { fc_len : N; fc_ec : errc; fc_value : option V }.
Arguments fc_len {V}. Arguments fc_ec {V}. Arguments fc_value {V}.

(** std::from_chars for integers *)
Definition digit_value (c : Z) : Z :=
  if (48 <=? c) && (c <=? 57) then c - 48
  else if (97 <=? c) && (c <=? 122) then c - 87
  else if (65 <=? c) && (c <=? 90) then c - 55
  else 36.
Fixpoint scan_digits (base : Z) (s : list Z) (n : N) (v : Z) : N * Z :=
  match s with
  | [] => (n, v)
  | c :: s => if digit_value c <? base then scan_digits base s (n + 1) (v * base + digit_value c) else (n, v)
  end.
Definition from_chars (t : ity) (base : Z) (s : list Z) : fc_result Z :=
  let neg := match s with c :: _ => is_signed t && (c =? 45) | [] => false end in
  let '(n, m) := scan_digits base (if neg then tl s else s) 0 0 in
  if (n =? 0)%N then {| fc_len := 0; fc_ec := ec_invalid; fc_value := None |}
  else
    let v := if neg then - m else m in
    let len := (if neg then n + 1 else n)%N in
    if fits t v then {| fc_len := len; fc_ec := ec_ok; fc_value := Some v |}
    else {| fc_len := len; fc_ec := ec_range; fc_value := None |}.

(** The part of read_number after from_chars: string.hpp:537-562. [zero] is the initial value. *)
Definition finish_number {V} (dbg : bool) (zero : V) (res : fc_result V) : op V :=
  match fc_ec res with
  | ec_invalid => fail (Throw InvalidArgument)
  | _ =>
      fail (assert_ dbg (0 <? fc_len res)%N) ;;~
      s <~ get_view ;;
      s' <~ fail (substr_from s (fc_len res)) ;;
      set_view s' ;;~
      match fc_ec res with
      | ec_range => ret zero
      | ec_ok => ret (match fc_value res with Some v => v | None => zero end)
      | _ => fail (Throw RuntimeError)
      end
  end.

Definition is_hex_digit (c : Z) : bool :=
  ((48 <=? c) && (c <=? 57)) || ((97 <=? c) && (c <=? 102)) || ((65 <=? c) && (c <=? 70)).

(** The detection of the base: string.hpp:487-527. [Some base] goes on with from_chars, [None]
    returns 0 at once. *)
Definition detect_base : op (option Z) :=
  c <~ peek_char ;;
  if c =? 48 then
    _ <~ read_char ;;
    s <~ get_view ;;
    match s with
    | [] => ret None
    | _ =>
        c <~ peek_char ;;
        if c =? 120 then
          if (size s <? 2)%N then ret None
          else
            c <~ peek_char_n 1 ;;
            if is_hex_digit c then read_char ;;~ ret (Some 16) else ret None
        else if c =? 98 then
          if (size s <? 2)%N then ret None
          else
            c <~ peek_char_n 1 ;;
            if (c =? 48) || (c =? 49) then read_char ;;~ ret (Some 2) else ret None
        else if (48 <=? c) && (c <=? 55) then ret (Some 8)
        else if (c <? 48) || (57 <? c) then ret None
        else ret (Some 10)
    end
  else ret (Some 10).

(** read_number for integers: string.hpp:465-562 *)
Definition read_number (dbg : bool) (t : ity) : op Z :=
  skip_whitespaces ;;~
  b <~ (if is_signed t then ret (Some 10) else detect_base) ;;
  match b with
  | None => ret 0
  | Some base =>
      s <~ get_view ;;
      finish_number dbg 0 (from_chars t base s)
  end.

(** read_number for floating point types; [fc] stands for utki::from_chars (string.cpp:265-317) *)
Definition read_float {V} (dbg : bool) (zero : V) (fc : list Z -> fc_result V) : op V :=
  skip_whitespaces ;;~
  s <~ get_view ;;
  finish_number dbg zero (fc s).

(** std::to_chars for integers: the digits of [v], the sign, and value_too_large when they do not
    fit into [avail] characters *)
Definition digit_char (d : Z) : Z := if d <? 10 then 48 + d else 87 + d.
Fixpoint write_digits (fuel : nat) (base v : Z) (acc : list Z) : list Z :=
  match fuel with
  | O => acc
  | S fuel =>
      let acc := digit_char (v mod base) :: acc in
      if v <? base then acc else write_digits fuel base (v / base) acc
  end.
Definition to_chars (v base : Z) (avail : Z) : option (list Z) :=
  let ds := write_digits (S (Z.to_nat (Z.log2 (Z.abs v)))) base (Z.abs v) [] in
  let cs := if v <? 0 then 45 :: ds else ds in
  if Z.of_nat (length cs) <=? avail then Some cs else None.

(** to_string for integers: string.hpp:631-683 *)
Definition buf_size : Z := 128.
Definition to_string (dbg : bool) (t : ity) (v : Z) (b : integer_base) : outcome (list Z) :=
  let prefix :=
    if is_signed t then []
    else match b with bin => [48; 98] | oct => [48] | hex => [48; 120] | dec => [] end in
  let begin := Z.of_nat (length prefix) in
  match to_chars v (to_int b) (buf_size - begin) with
  | None => Ok []
  | Some cs =>
      assert_ dbg (begin + Z.of_nat (length cs) <=? buf_size) ;;;
      Ok (prefix ++ cs)
  end.

(** The operations of string_parser, for stating facts about sequences of calls. *)
Inductive call :=
| c_skip_whitespaces | c_skip_whitespaces_and_comma | c_skip_inclusive_until (c : Z)
| c_skip_inclusive_until_one_of (cs : list Z) | c_read_word | c_read_word_until (c : Z)
| c_read_number (t : ity) | c_read_float (fc : list Z -> fc_result Z)
| c_read_char | c_peek_char | c_peek_char_n (n : N) | c_read_chars (n : N) | c_read_chars_until (c : Z).
Inductive value := v_none | v_char (c : Z) | v_text (s : list Z) | v_number (v : Z).
Definition with_value {A} (f : A -> value) (m : op A) : op value := x <~ m ;; ret (f x).
Definition perform (dbg : bool) (c : call) : op value :=
  match c with
  | c_skip_whitespaces => with_value (fun _ => v_none) skip_whitespaces
  | c_skip_whitespaces_and_comma => with_value (fun _ => v_none) skip_whitespaces_and_comma
  | c_skip_inclusive_until c => with_value (fun _ => v_none) (skip_inclusive_until c)
  | c_skip_inclusive_until_one_of cs => with_value v_char (skip_inclusive_until_one_of cs)
  | c_read_word => with_value v_text read_word
  | c_read_word_until c => with_value v_text (read_word_until c)
  | c_read_number t => with_value v_number (read_number dbg t)
  | c_read_float fc => with_value v_number (read_float dbg 0 fc)
  | c_read_char => with_value v_char read_char
  | c_peek_char => with_value v_char peek_char
  | c_peek_char_n n => with_value v_char (peek_char_n n)
  | c_read_chars n => with_value v_text (read_chars n)
  | c_read_chars_until c => with_value v_text (read_chars_until c)
  end.
(** A sequence of calls; the caller catches exceptions and goes on. *)
Fixpoint perform_all (dbg : bool) (cs : list call) (s : list Z) : list Z * list (outcome value) :=
  match cs with
  | [] => (s, [])
  | c :: cs =>
      let '(s, r) := perform dbg c s in
      let '(s, rs) := perform_all dbg cs s in
      (s, r :: rs)
  end.

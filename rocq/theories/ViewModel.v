(** Model of where string views point: utki::string_parser (src/utki/string.hpp:371-625, string.cpp:331-490), trim,
    trim_front and trim_back (string.hpp:690-804) on memory. ParserModel and StringModel speak of the texts only.

    Memory consists of blocks of characters, one for every string; a block that is gone was freed with its string. A
    std::string_view is a pointer (null, or a block and an offset) and a length. Reading through a view checks that the
    block is there. Arithmetic on pointers into a block that is gone is not undefined (implementation-defined, a plain
    addition on the supported platforms); indirection through such a pointer is.

    std::from_chars and utki::from_chars get the range of the view. Which of its characters they read is left open
    here: the model reads all of them. *)
From Verif Require Import Base StringModel ParserModel.
Local Open Scope Z_scope.

Definition heap : Type := nat -> option (list Z).
Definition pointer : Type := option (nat * N).
Record view := View { data : pointer; len : N }.

(** p + k; only zero is ever added to a null pointer *)
Definition advance (p : pointer) (k : N) : pointer :=
  match p with None => None | Some (b, o) => Some (b, (o + k)%N) end.
(** *p *)
Definition load (h : heap) (p : pointer) : outcome Z :=
  match p with
  | None => UB NullDeref
  | Some (b, o) =>
      match h b with
      | None => UB UseAfterFree
      | Some s => match nth_error s (N.to_nat o) with Some c => Ok c | None => UB OutOfBounds end
      end
  end.

(** Members of std::string_view: operator[] (also what an iterator reads), front, empty, substr *)
Definition vat (h : heap) (v : view) (i : N) : outcome Z :=
  if (i <? len v)%N then load h (advance (data v) i) else UB OutOfBounds.
Definition vempty (v : view) : bool := (len v =? 0)%N.
Definition vsubstr (v : view) (pos n : N) : outcome view :=
  if (len v <? pos)%N then Throw OutOfRange
  else Ok (View (advance (data v) pos) (N.min n (len v - pos))).
(** std::string_view() *)
Definition null_view : view := View None 0.

(** The characters of a view one after the other, [n] of them from position [i] on *)
Fixpoint vtext_from (h : heap) (v : view) (n : nat) (i : N) : outcome (list Z) :=
  match n with
  | O => Ok []
  | S n => c <- vat h v i ;; s <- vtext_from h v n (i + 1) ;; Ok (c :: s)
  end.
Definition vtext (h : heap) (v : view) : outcome (list Z) := vtext_from h v (N.to_nat (len v)) 0.

(** The position of the first character satisfying [p], or the length: the loops over begin() to end(). [n] characters
    are left, the next one is at [i]. *)
Fixpoint vfind (h : heap) (v : view) (p : Z -> bool) (n : nat) (i : N) : outcome N :=
  match n with
  | O => Ok i
  | S n => c <- vat h v i ;; if p c : bool then Ok i else vfind h v p n (i + 1)
  end.
Definition vfind_if (h : heap) (v : view) (p : Z -> bool) : outcome N := vfind h v p (N.to_nat (len v)) 0.
(** std::find_if over rbegin() to rend(): the distance from begin() to the base of the result *)
Fixpoint vfind_back (h : heap) (v : view) (p : Z -> bool) (n : nat) : outcome N :=
  match n with
  | O => Ok 0%N
  | S k => c <- vat h v (N.of_nat k) ;; if p c : bool then Ok (N.of_nat (S k)) else vfind_back h v p k
  end.

(** ** trim: string.hpp:690-705, 734-750, 779-783. The overloads for std::string and for pointers make a view of the
    argument, not of a copy. *)
Definition vtrim_front (h : heap) (v : view) : outcome view :=
  k <- vfind_if h v (fun c => negb (classic_isspace c)) ;; vsubstr v k npos.
Definition vtrim_back (h : heap) (v : view) : outcome view :=
  k <- vfind_back h v (fun c => negb (classic_isspace c)) (N.to_nat (len v)) ;; vsubstr v 0 k.
Definition vtrim (h : heap) (v : view) : outcome view := w <- vtrim_back h v ;; vtrim_front h w.

(** ** string_parser: the member [view] is the state *)
Definition vop (A : Type) : Type := heap -> view -> view * outcome A.
Definition vret {A} (x : A) : vop A := fun _ v => (v, Ok x).
Definition vfail {A} (m : outcome A) : vop A := fun _ v => (v, m).
Definition vthen {A B} (m : vop A) (k : A -> vop B) : vop B := fun h v =>
  match m h v with
  | (v, Ok x) => k x h v
  | (v, Throw e) => (v, Throw e)
  | (v, UB r) => (v, UB r)
  | (v, Abort) => (v, Abort)
  | (v, Terminate) => (v, Terminate)
  | (v, Diverge) => (v, Diverge)
  end.
Notation "x <! m ;; k" := (vthen m (fun x => k)) (at level 61, m at next level, right associativity).
Notation "m ;;! k" := (vthen m (fun _ => k)) (at level 61, right associativity).
(** this->view; this->view = v; an expression that reads memory *)
Definition this_view : vop view := fun _ v => (v, Ok v).
Definition set_this (v : view) : vop unit := fun _ _ => (v, Ok tt).
Definition reading {A} (f : heap -> outcome A) : vop A := fun h v => (v, f h).
(** this->view = this->view.substr(pos) *)
Definition drop (pos : N) : vop unit :=
  v <! this_view ;; w <! vfail (vsubstr v pos npos) ;; set_this w.

(** string.cpp:331-341 *)
Definition vskip_whitespaces : vop unit :=
  v <! this_view ;;
  pos <! reading (fun h => vfind_if h v (fun c => negb (is_space c))) ;;
  drop pos.

(** string.cpp:343-362 *)
Fixpoint vfind_comma (h : heap) (v : view) (n : nat) (pos : N) (comma_skipped : bool) : outcome N :=
  match n with
  | O => Ok pos
  | S n =>
      c <- vat h v pos ;;
      if is_space c then vfind_comma h v n (pos + 1) comma_skipped
      else if c =? 44 then
        if comma_skipped then Ok pos else vfind_comma h v n (pos + 1) true
      else Ok pos
  end.
Definition vskip_whitespaces_and_comma : vop unit :=
  v <! this_view ;;
  pos <! reading (fun h => vfind_comma h v (N.to_nat (len v)) 0 false) ;;
  drop pos.

(** string.cpp:364-388; [n] bounds the number of rounds, every round shortens the view. The set of characters of
    skip_inclusive_until_one_of lies in memory of its own. *)
Fixpoint vskip_loop (p : Z -> option Z) (n : nat) : vop (option Z) :=
  match n with
  | O => vret None
  | S n =>
      v <! this_view ;;
      if vempty v then vret None
      else
        c <! reading (fun h => vat h v 0) ;;
        match p c with
        | Some x => drop 1 ;;! vret (Some x)
        | None => drop 1 ;;! vskip_loop p n
        end
  end.
Definition vskip_inclusive_until (c : Z) : vop unit :=
  v <! this_view ;;
  _ <! vskip_loop (fun x => if x =? c then Some x else None) (N.to_nat (len v)) ;;
  vret tt.
Definition vskip_inclusive_until_one_of (cs : list Z) : vop Z :=
  v <! this_view ;;
  r <! vskip_loop (find_in cs) (N.to_nat (len v)) ;;
  vret (match r with Some c => c | None => 0 end).

(** string.cpp:390-406, 408-424, 474-490: without a character satisfying [p] the whole view is returned and the parser
    is left with std::string_view() *)
Definition vread_until (p : Z -> bool) : vop view :=
  v <! this_view ;;
  dist <! reading (fun h => vfind_if h v p) ;;
  if (dist =? len v)%N then set_this null_view ;;! vret v
  else
    r <! vfail (vsubstr v 0 dist) ;;
    drop dist ;;!
    vret r.
Definition vread_word : vop view := vread_until is_space.
Definition vread_word_until (c : Z) : vop view := vread_until (fun x => is_space x || (x =? c)).
Definition vread_chars_until (c : Z) : vop view := vread_until (fun x => x =? c).

(** string.cpp:426-460 *)
Definition vthrow_if_empty : vop unit :=
  v <! this_view ;; if vempty v then vfail (Throw InvalidArgument) else vret tt.
Definition vread_char : vop Z :=
  vthrow_if_empty ;;!
  v <! this_view ;;
  r <! reading (fun h => vat h v 0) ;;
  drop 1 ;;!
  vret r.
Definition vpeek_char : vop Z :=
  vthrow_if_empty ;;!
  v <! this_view ;;
  reading (fun h => vat h v 0).
Definition vpeek_char_n (n : N) : vop Z :=
  v <! this_view ;;
  if (len v <=? n)%N then vfail (Throw InvalidArgument) else reading (fun h => vat h v n).

(** string.cpp:462-472 *)
Definition vread_chars (n : N) : vop view :=
  v <! this_view ;;
  let n := N.min n (len v) in
  let r := View (data v) n in
  drop n ;;!
  vret r.

(** string.hpp:465-562 *)
Definition vfinish_number {V} (dbg : bool) (zero : V) (res : fc_result V) : vop V :=
  match fc_ec res with
  | ec_invalid => vfail (Throw InvalidArgument)
  | _ =>
      vfail (assert_ dbg (0 <? fc_len res)%N) ;;!
      drop (fc_len res) ;;!
      match fc_ec res with
      | ec_range => vret zero
      | ec_ok => vret (match fc_value res with Some v => v | None => zero end)
      | _ => vfail (Throw RuntimeError)
      end
  end.
Definition vdetect_base : vop (option Z) :=
  c <! vpeek_char ;;
  if c =? 48 then
    _ <! vread_char ;;
    v <! this_view ;;
    if vempty v then vret None
    else
      c <! vpeek_char ;;
      if c =? 120 then
        if (len v <? 2)%N then vret None
        else
          c <! vpeek_char_n 1 ;;
          if is_hex_digit c then vread_char ;;! vret (Some 16) else vret None
      else if c =? 98 then
        if (len v <? 2)%N then vret None
        else
          c <! vpeek_char_n 1 ;;
          if (c =? 48) || (c =? 49) then vread_char ;;! vret (Some 2) else vret None
      else if (48 <=? c) && (c <=? 55) then vret (Some 8)
      else if (c <? 48) || (57 <? c) then vret None
      else vret (Some 10)
  else vret (Some 10).
Definition vread_number (dbg : bool) (t : ity) : vop Z :=
  vskip_whitespaces ;;!
  b <! (if is_signed t then vret (Some 10) else vdetect_base) ;;
  match b with
  | None => vret 0
  | Some base =>
      v <! this_view ;;
      s <! reading (fun h => vtext h v) ;;
      vfinish_number dbg 0 (from_chars t base s)
  end.
Definition vread_float {V} (dbg : bool) (zero : V) (fc : list Z -> fc_result V) : vop V :=
  vskip_whitespaces ;;!
  v <! this_view ;;
  s <! reading (fun h => vtext h v) ;;
  vfinish_number dbg zero (fc s).

(** The calls of ParserModel; what is a text there is a view here. *)
Inductive vvalue := w_none | w_char (c : Z) | w_view (v : view) | w_number (v : Z).
Definition with_vvalue {A} (f : A -> vvalue) (m : vop A) : vop vvalue := x <! m ;; vret (f x).
Definition vperform (dbg : bool) (c : call) : vop vvalue :=
  match c with
  | c_skip_whitespaces => with_vvalue (fun _ => w_none) vskip_whitespaces
  | c_skip_whitespaces_and_comma => with_vvalue (fun _ => w_none) vskip_whitespaces_and_comma
  | c_skip_inclusive_until c => with_vvalue (fun _ => w_none) (vskip_inclusive_until c)
  | c_skip_inclusive_until_one_of cs => with_vvalue w_char (vskip_inclusive_until_one_of cs)
  | c_read_word => with_vvalue w_view vread_word
  | c_read_word_until c => with_vvalue w_view (vread_word_until c)
  | c_read_number t => with_vvalue w_number (vread_number dbg t)
  | c_read_float fc => with_vvalue w_number (vread_float dbg 0 fc)
  | c_read_char => with_vvalue w_char vread_char
  | c_peek_char => with_vvalue w_char vpeek_char
  | c_peek_char_n n => with_vvalue w_char (vpeek_char_n n)
  | c_read_chars n => with_vvalue w_view (vread_chars n)
  | c_read_chars_until c => with_vvalue w_view (vread_chars_until c)
  end.

(** A program: calls of the parser, mixed with changes of memory by the rest of the program: a string gets another
    content in place, a string is destroyed, a string is made. *)
Inductive event := Call (c : call) | Store (b : nat) (s : list Z) | Free (b : nat).
Definition update (h : heap) (b : nat) (s : option (list Z)) : heap := fun b' => if Nat.eqb b' b then s else h b'.
Fixpoint run (dbg : bool) (es : list event) (h : heap) (v : view) : heap * view * list (outcome vvalue) :=
  match es with
  | [] => (h, v, [])
  | Call c :: es =>
      let '(v, r) := vperform dbg c h v in
      let '(h, v, rs) := run dbg es h v in
      (h, v, r :: rs)
  | Store b s :: es => run dbg es (update h b (Some s)) v
  | Free b :: es => run dbg es (update h b None) v
  end.

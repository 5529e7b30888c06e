(** Model of making spans, vectors and strings out of each other: span.hpp:96-296 (constructors),
    303-327, 374-437 (iteration), 536-651 and string.hpp:69-144, 261-270.

    Memory is one array of elements; a pointer is null or a position in it.  An object that owns or refers to
    elements (std::vector, std::basic_string, std::array, std::initializer_list, std::basic_string_view) is what
    data() and size() of it return; data() of an empty one is unspecified. *)
From Verif Require Import Base.

Definition ptr := option nat.
Record cont := Cont { c_data : ptr; c_size : nat }.
Record sp := Sp { s_data : ptr; s_size : nat }.

(** span.hpp:104-107 and 536-540 *)
Definition make_span_ptr (p : ptr) (n : nat) : sp := Sp p n.

(** span.hpp:109 *)
Definition span_default : sp := Sp None 0.

(** span.hpp:115-139, conversion between element types that differ in constness *)
Definition span_convert (s : sp) : sp := Sp (s_data s) (s_size s).

(** span.hpp:141-264: initializer_list, array, vector, basic_string, basic_string_view *)
Definition span_of (c : cont) : sp := Sp (c_data c) (c_size c).

(** span.hpp:542-546 *)
Definition make_span_init (c : cont) : sp := Sp (c_data c) (c_size c).

(** span.hpp:548-602: array, vector, basic_string, basic_string_view *)
Definition make_span (c : cont) : sp :=
  make_span_ptr (if Nat.eqb (c_size c) 0 then None else c_data c) (c_size c).

(** span.hpp:303-327 *)
Definition sp_empty (s : sp) : bool := Nat.eqb (s_size s) 0.
Definition size_bytes (s : sp) (sizeof : N) : N := ((N.of_nat (s_size s) * sizeof) mod 2 ^ 64)%N.

Section Memory.
Context {A : Type}.
Variable mem : list A.

(** Pointer arithmetic; adding 0 to a null pointer is allowed. *)
Definition padd (p : ptr) (n : nat) : outcome ptr :=
  match p with
  | None => if Nat.eqb n 0 then Ok None else UB BadPointer
  | Some i => if Nat.leb (i + n) (length mem) then Ok (Some (i + n)) else UB BadPointer
  end.
Definition pload (p : ptr) : outcome A :=
  match p with
  | None => UB NullDeref
  | Some i => match nth_error mem i with Some a => Ok a | None => UB OutOfBounds end
  end.
Definition pdec (p : ptr) : outcome ptr :=
  match p with Some (S i) => Ok (Some i) | _ => UB BadPointer end.
Definition peq (p q : ptr) : bool :=
  match p, q with None, None => true | Some i, Some j => Nat.eqb i j | _, _ => false end.

(** span.hpp:378-408, begin(), end() and the const forms *)
Definition sp_begin (s : sp) : ptr := s_data s.
Definition sp_end (s : sp) : outcome ptr := padd (s_data s) (s_size s).

(** [for(auto i = s.begin(); i != s.end(); ++i) body( *i )]; [body] threads a state and can throw. *)
Fixpoint for_each {S : Type} (fuel : nat) (i e : ptr) (body : S -> A -> S * outcome unit) (st : S) : S * outcome unit :=
  if peq i e then (st, Ok tt)
  else
    match fuel with
    | O => (st, Diverge)
    | Datatypes.S fuel =>
        match pload i with
        | Ok a =>
            let (st, r) := body st a in
            match r with
            | Ok _ =>
                match padd i 1 with
                | Ok i => for_each fuel i e body st
                | UB r => (st, UB r)
                | _ => (st, Abort)
                end
            | r => (st, r)
            end
        | UB r => (st, UB r)
        | _ => (st, Abort)
        end
    end.
Definition for_span {S : Type} (s : sp) (body : S -> A -> S * outcome unit) (st : S) : S * outcome unit :=
  match sp_end s with
  | Ok e => for_each (s_size s) (sp_begin s) e body st
  | UB r => (st, UB r)
  | _ => (st, Abort)
  end.

(** span.hpp:410-428 with std::reverse_iterator: [*i] is [*--tmp] of a copy of the underlying pointer. *)
Fixpoint for_each_rev {S : Type} (fuel : nat) (i e : ptr) (body : S -> A -> S * outcome unit) (st : S)
  : S * outcome unit :=
  if peq i e then (st, Ok tt)
  else
    match fuel with
    | O => (st, Diverge)
    | Datatypes.S fuel =>
        match (tmp <- pdec i ;; pload tmp) with
        | Ok a =>
            let (st, r) := body st a in
            match r with
            | Ok _ =>
                match pdec i with
                | Ok i => for_each_rev fuel i e body st
                | UB r => (st, UB r)
                | _ => (st, Abort)
                end
            | r => (st, r)
            end
        | UB r => (st, UB r)
        | _ => (st, Abort)
        end
    end.
Definition for_span_rev {S : Type} (s : sp) (body : S -> A -> S * outcome unit) (st : S) : S * outcome unit :=
  match sp_end s with
  | Ok e => for_each_rev (s_size s) e (sp_begin s) body st
  | UB r => (st, UB r)
  | _ => (st, Abort)
  end.

(** span.hpp:614-621; the vector is a fresh object, given by its elements. *)
Definition make_vector (s : sp) : outcome (list A) :=
  let (v, r) := for_span s (fun v a => (v ++ [a], Ok tt)) [] in r ;;; Ok v.

(** span.hpp:520-534, operator<<; [put a] is what [s << a] writes, or the exception it throws. *)
Definition put_element (put : A -> outcome (list N)) (out : list N) (a : A) : list N * outcome unit :=
  match put a with
  | Ok t => (out ++ t, Ok tt)
  | Throw e => (out, Throw e)
  | UB r => (out, UB r)
  | Abort => (out, Abort) | Terminate => (out, Terminate) | Diverge => (out, Diverge)
  end.
Definition print_span (put : A -> outcome (list N)) (out : list N) (s : sp) : list N * outcome unit :=
  for_span s (put_element put) out.
End Memory.

(** ** Characters and bytes.  Memory is an array of bytes. *)
Section Bytes.
Variable mem : list N.

(** strlen *)
Fixpoint zero_from (fuel i : nat) : outcome nat :=
  match fuel with
  | O => Diverge
  | S fuel =>
      b <- pload mem (Some i) ;;
      if N.eqb b 0 then Ok 0 else r <- zero_from fuel (S i) ;; Ok (S r)
  end.
Definition strlen (p : ptr) : outcome nat :=
  match p with None => UB NullDeref | Some i => zero_from (S (length mem)) i end.

(** span.hpp:266-296 and 604-612 *)
Definition span_cstr (p : ptr) : outcome sp := n <- strlen p ;; Ok (Sp p n).
Definition make_span_cstr (p : ptr) : outcome sp := n <- strlen p ;; Ok (make_span_ptr p n).

(** Reading a byte as uint8_t and as char. *)
Definition as_uint8 (b : N) : Z := Z.of_N b.
Definition as_char (signed : bool) (b : N) : Z :=
  if signed && (128 <=? b)%N then (Z.of_N b - 256)%Z else Z.of_N b.

(** span.hpp:623-645; reinterpret_cast leaves the address alone. *)
Definition to_uint8_t (s : sp) : sp := make_span_ptr (s_data s) (s_size s).
Definition to_char (s : sp) : sp := make_span_ptr (s_data s) (s_size s).

(** std::string(p, n): copies [n] characters; [p] may be null when [n] is 0. *)
Fixpoint read_n (n i : nat) : outcome (list N) :=
  match n with
  | O => Ok []
  | S n => b <- pload mem (Some i) ;; r <- read_n n (S i) ;; Ok (b :: r)
  end.
Definition string_of (p : ptr) (n : nat) : outcome (list N) :=
  match n, p with
  | O, _ => Ok []
  | _, None => UB NullDeref
  | n, Some i => read_n n i
  end.

(** string.hpp:69-92 *)
Definition make_string_char (s : sp) : outcome (list N) := string_of (s_data s) (s_size s).
Definition make_string_view (s : sp) : cont := Cont (s_data s) (s_size s).
(** string.hpp:99-102: std::string of the string_view *)
Definition make_string_uint8 (s : sp) : outcome (list N) :=
  let v := make_string_view s in string_of (c_data v) (c_size v).
(** string.hpp:109-144: arrays and vectors *)
Definition make_string_cont_char (c : cont) : outcome (list N) := make_string_char (make_span c).
Definition make_string_cont_uint8 (c : cont) : outcome (list N) := make_string_uint8 (make_span c).
End Bytes.

(** ** cat, string.hpp:261-270 *)
(** A stream is the text written, its formatting state and whether it is good.  An argument writes a text that
    depends on the formatting state and may change that state (std::hex) and make the stream bad; inserting into a
    bad stream writes nothing. *)
Section Cat.
Context {F : Type}.
Record stream := Stream { st_text : list N; st_format : F; st_good : bool }.
Definition arg := F -> list N * F * bool.
Definition insert_arg (s : stream) (a : arg) : stream :=
  if st_good s then
    let '(t, f, g) := a (st_format s) in Stream (st_text s ++ t) f g
  else s.
Variable initial : F.
Definition cat (args : list arg) : list N := st_text (fold_left insert_arg args (Stream [] initial true)).
End Cat.
Arguments stream : clear implicits.
Arguments arg : clear implicits.

(** Model of utki::span, src/utki/span.hpp:69-479, 489-493 (the implementation used below C++26).
    A span is a region of an underlying array [arr]: offset and size in elements. Pointers are
    positions in [arr]; forming a position beyond one past its end is undefined. *)
From Verif Require Import Base.
Local Open Scope N_scope.

Record span := Span { s_off : N; s_size : N }.

Definition size_max : N := 2 ^ 64 - 1.

Section Span.
Context {A : Type}.
Variable dbg : bool.
Variable arr : list A.

Definition arr_len : N := N.of_nat (length arr).

(** [*p] *)
Definition load_at (p : N) : outcome A :=
  if p <? arr_len then
    match nth_error arr (N.to_nat p) with Some a => Ok a | None => UB OutOfBounds end
  else UB OutOfBounds.

(** span.hpp:303-316 *)
Definition span_empty (s : span) : bool := s_size s =? 0.

(** span.hpp:333-354, operator[] (both overloads). *)
Definition span_index (s : span) (i : N) : outcome A :=
  assert_ dbg (i <? s_size s) ;;;
  load_at (s_off s + i).

(** span.hpp:356-372, at (both overloads). *)
Definition span_at (s : span) (i : N) : outcome A :=
  if s_size s <=? i then Throw OutOfRange else load_at (s_off s + i).

(** span.hpp:443-453, front *)
Definition span_front (s : span) : outcome A :=
  assert_ dbg (negb (span_empty s)) ;;; span_index s 0.

(** span.hpp:455-465, back; size() - 1 is computed in size_t. *)
Definition span_back (s : span) : outcome A :=
  assert_ dbg (negb (span_empty s)) ;;; span_index s ((s_size s + 2 ^ 64 - 1) mod 2 ^ 64).

(** span.hpp:467-478, subspan. [end()] is s_off + s_size. *)
Definition subspan (s : span) (offset count : N) : outcome span :=
  let new_p := s_off s + offset in
  if arr_len <? new_p then UB BadPointer
  else
    assert_ dbg (new_p <=? s_off s + s_size s) ;;;
    (* end() - new_p is converted from ptrdiff_t to size_t *)
    let new_s := if count =? size_max then (s_off s + s_size s + 2 ^ 64 - new_p) mod 2 ^ 64 else count in
    (if dbg && (arr_len <? new_p + new_s) then UB BadPointer
     else assert_ dbg (new_p + new_s <=? s_off s + s_size s)) ;;;
    Ok (Span new_p new_s).

(** span.hpp:489-493, overlaps. [p] is a position in the same array. For an empty span
    [&*s.begin()] dereferences the end and std::prev(end) may lie before the array. *)
Definition overlaps (s : span) (p : N) : outcome bool :=
  if span_empty s then UB BadPointer
  else Ok ((s_off s <=? p) && (p <=? s_off s + s_size s - 1)).

End Span.

(** Reading a span from begin() to end(): the elements a span denotes. *)
Definition contents {A} (arr : list A) (s : span) : list A :=
  firstn (N.to_nat (s_size s)) (skipn (N.to_nat (s_off s)) arr).

(** The span lies inside of its array. *)
Definition span_valid {A} (arr : list A) (s : span) : Prop :=
  s_off s + s_size s <= N.of_nat (length arr).

(** Properties C55, C57: utki::span. [arr] is the array the span points into; [contents arr s]
    are the elements from begin() to end(). *)
From Verif Require Import Base SpanModel SpanProofs.
Local Open Scope N_scope.

(** C55 *)
Theorem C55_element_access : forall (A : Type) (arr : list A) dbg s i,
  span_valid arr s -> i < s_size s ->
  exists a, nth_error (contents arr s) (N.to_nat i) = Some a /\
            span_at arr s i = Ok a /\ span_index dbg arr s i = Ok a.
Proof. intros A. exact (@at_in A). Qed.
Print Assumptions C55_element_access.

Theorem C55_at_out_of_range : forall (A : Type) (arr : list A) s i,
  s_size s <= i -> span_at arr s i = Throw OutOfRange.
Proof. intros A. exact (@at_out A). Qed.
Print Assumptions C55_at_out_of_range.

Theorem C55_index_out_of_bounds_debug : forall (A : Type) (arr : list A) s i,
  s_size s <= i -> span_index true arr s i = Abort.
Proof. intros A. exact (@index_out_debug A). Qed.
Print Assumptions C55_index_out_of_bounds_debug.

Theorem C55_index_out_of_array_release : forall (A : Type) (arr : list A) s i,
  N.of_nat (length arr) <= s_off s + i -> span_index false arr s i = UB OutOfBounds.
Proof. intros A. exact (@index_out_release A). Qed.
Print Assumptions C55_index_out_of_array_release.

Theorem C55_subspan : forall (A : Type) (arr : list A), N.of_nat (length arr) < 2 ^ 63 ->
  forall dbg s o n, span_valid arr s -> o <= s_size s -> n <= s_size s - o ->
  exists s', subspan dbg arr s o n = Ok s' /\ span_valid arr s' /\
             contents arr s' = firstn (N.to_nat n) (skipn (N.to_nat o) (contents arr s)).
Proof. intros A. exact (@subspan_in A). Qed.
Print Assumptions C55_subspan.

Theorem C55_subspan_rest : forall (A : Type) (arr : list A), N.of_nat (length arr) < 2 ^ 63 ->
  forall dbg s o, span_valid arr s -> o <= s_size s ->
  exists s', subspan dbg arr s o size_max = Ok s' /\ span_valid arr s' /\
             contents arr s' = skipn (N.to_nat o) (contents arr s).
Proof. intros A. exact (@subspan_rest A). Qed.
Print Assumptions C55_subspan_rest.

Theorem C55_subspan_out_of_bounds_debug : forall (A : Type) (arr : list A) s o n,
  span_valid arr s -> n <> size_max -> s_size s < o + n ->
  subspan true arr s o n = Abort \/ subspan true arr s o n = UB BadPointer.
Proof. intros A. exact (@subspan_out_debug A). Qed.
Print Assumptions C55_subspan_out_of_bounds_debug.

Theorem C55_subspan_out_of_bounds_release : forall (A : Type) (arr : list A) s o n,
  n <> size_max -> s_size s < o + n -> s_off s + o <= N.of_nat (length arr) ->
  subspan false arr s o n = Ok (Span (s_off s + o) n).
Proof. intros A. exact (@subspan_out_release A). Qed.
Print Assumptions C55_subspan_out_of_bounds_release.

Theorem C55_front : forall (A : Type) (arr : list A) dbg s, span_valid arr s -> s_size s <> 0 ->
  exists a l, contents arr s = a :: l /\ span_front dbg arr s = Ok a.
Proof. intros A. exact (@front_in A). Qed.
Print Assumptions C55_front.

Theorem C55_back : forall (A : Type) (arr : list A), N.of_nat (length arr) < 2 ^ 63 ->
  forall dbg s, span_valid arr s -> s_size s <> 0 ->
  exists a l, contents arr s = l ++ [a] /\ span_back dbg arr s = Ok a.
Proof. intros A. exact (@back_in A). Qed.
Print Assumptions C55_back.

Theorem C55_empty_front_back_debug : forall (A : Type) (arr : list A) s, s_size s = 0 ->
  span_front true arr s = Abort /\ span_back true arr s = Abort.
Proof. intros A. exact (@empty_front_back_debug A). Qed.
Print Assumptions C55_empty_front_back_debug.

Example C55_case :
  let arr := [10; 11; 12; 13; 14] in
  span_valid arr (Span 1 3) /\ contents arr (Span 1 3) = [11; 12; 13] /\
  subspan true arr (Span 1 3) 1 size_max = Ok (Span 2 2) /\
  span_at arr (Span 1 3) 3 = Throw OutOfRange /\
  span_index false arr (Span 1 3) 3 = Ok 14 (* silently outside of the span *) /\
  subspan true arr (Span 1 3) 1 3 = Abort /\
  span_back false arr (Span 1 0) = UB OutOfBounds.
Proof. repeat split; vm_compute; try reflexivity; discriminate. Qed.

(** C57 *)
Theorem C57_overlaps : forall s p, s_size s <> 0 ->
  overlaps s p = Ok true /\ (exists i, i < s_size s /\ p = s_off s + i) \/
  overlaps s p = Ok false /\ ~ (exists i, i < s_size s /\ p = s_off s + i).
Proof. exact overlaps_iff. Qed.
Print Assumptions C57_overlaps.

Theorem C57_overlaps_empty : forall s p, s_size s = 0 -> overlaps s p = UB BadPointer.
Proof. exact overlaps_empty. Qed.
Print Assumptions C57_overlaps_empty.

Example C57_case : overlaps (Span 2 3) 4 = Ok true /\ overlaps (Span 2 3) 5 = Ok false /\
  overlaps (Span 2 3) 1 = Ok false.
Proof. repeat split. Qed.

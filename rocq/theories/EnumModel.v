(** Model of src/utki/enum_iterable.hpp and src/utki/enum_array.hpp.

    A scoped enumeration is given by its underlying type [t] and the value [size] of its item
    enum_size; a value of the enumeration is any value of the underlying type. *)
From Verif Require Import Base MiscModel UtilModel.
Local Open Scope Z_scope.

(** ** enum_iterable: enum_iterable.hpp:37-127. An iterator is the value [e] it holds. *)
(** operator++, 74-78: [e + 1] is calculated in the promoted underlying type. *)
Definition enum_inc (t : ity) (e : Z) : outcome Z :=
  let p := promote t in
  r <- (if is_signed p then (if fits p (e + 1) then Ok (e + 1) else UB SignedOverflow)
        else Ok (convert p (e + 1))) ;;
  Ok (convert t r).
(** operator!=, 64-67 *)
Definition enum_ne (a b : Z) : bool := negb (a =? b).
(** size, 85-88 *)
Definition enum_iterable_size (size : Z) : Z := size mod 2 ^ 64.
(** begin, 90-93; end, 95-98 *)
Definition enum_begin : Z := 0.
Definition enum_end (size : Z) : Z := size.
(** A range-for loop: the values visited *)
Fixpoint enum_loop (fuel : nat) (t : ity) (e last : Z) : outcome (list Z) :=
  match fuel with
  | O => Diverge
  | S fuel =>
      if enum_ne e last then
        e' <- enum_inc t e ;;
        r <- enum_loop fuel t e' last ;;
        Ok (e :: r)
      else Ok []
  end.
Definition enum_iterate (fuel : nat) (t : ity) (size : Z) : outcome (list Z) :=
  enum_loop fuel t enum_begin (enum_end size).

(** std::next(iter, d) of an input iterator: d increments *)
Fixpoint enum_advance (d : nat) (t : ity) (e : Z) : outcome Z :=
  match d with
  | O => Ok e
  | S d => e' <- enum_inc t e ;; enum_advance d t e'
  end.
(** utki::next, utility.hpp:70-83, on these iterators. difference_type (59) is the signed type of the
    width of the underlying type. *)
Definition enum_maxd (t : ity) : Z := max_value {| is_signed := true; bits := bits t |}.
Fixpoint enum_next (fuel : nat) (t : ity) (e num_left : Z) : outcome Z :=
  match fuel with
  | O => Diverge
  | S fuel =>
      if enum_maxd t <? num_left then
        let num_left := (num_left - enum_maxd t) mod 2 ^ 64 in
        e <- enum_advance (Z.to_nat (enum_maxd t)) t e ;;
        enum_next fuel t e num_left
      else
        d <- to_difference (enum_maxd t) num_left ;;
        enum_advance (Z.to_nat d) t e
  end.

(** ** enum_array: enum_array.hpp:47-86. The array is the list of its elements. *)
(** operator[] const, 80-84 *)
Definition array_get {A} (dbg : bool) (a : list A) (i : Z) : outcome A :=
  assert_ dbg (i mod 2 ^ 64 <? Z.of_nat (length a)) ;;;
  deref a (i mod 2 ^ 64).
(** Assignment to the reference operator[], 74-78, returns *)
Definition array_set {A} (dbg : bool) (a : list A) (i : Z) (v : A) : outcome (list A) :=
  assert_ dbg (i mod 2 ^ 64 <? Z.of_nat (length a)) ;;;
  _x <- deref a (i mod 2 ^ 64) ;;
  Ok (firstn (Z.to_nat (i mod 2 ^ 64)) a ++ v :: skipn (S (Z.to_nat (i mod 2 ^ 64))) a).

(** zip_with_enum, 56-70, is a zip_view (views.hpp:121-199) of the array and of enum_iterable_v; its
    iterators are pairs. The end iterators are taken with utki::next. *)
Definition enum_zip_end {A} (fuel : nat) (t : ity) (size : Z) (a : list A) : outcome (Z * Z) :=
  let min_size := Z.min (Z.of_nat (length a)) (enum_iterable_size size) in
  p <- next_std (Z.of_nat (length a)) 0 min_size ;;
  e <- enum_next fuel t enum_begin min_size ;;
  Ok (p, e).
(** A range-for loop over the zip_view whose body replaces the element [x] paired with [e] by
    [f e x]; the pairs visited and the array after the loop *)
Fixpoint enum_zip_loop {A} (fuel : nat) (t : ity) (f : Z -> A -> A) (a : list A) (i last : Z * Z)
  : outcome (list (A * Z) * list A) :=
  match fuel with
  | O => Diverge
  | S fuel =>
      if negb (fst i =? fst last) then
        x <- deref a (fst i) ;;
        let a' := firstn (Z.to_nat (fst i)) a ++ f (snd i) x :: skipn (S (Z.to_nat (fst i))) a in
        p <- std_next (Z.of_nat (length a')) (fst i) 1 ;;
        e <- enum_advance 1 t (snd i) ;;
        r <- enum_zip_loop fuel t f a' (p, e) last ;;
        Ok ((x, snd i) :: fst r, snd r)
      else Ok ([], a)
  end.
Definition zip_with_enum {A} (fuel : nat) (t : ity) (size : Z) (f : Z -> A -> A) (a : list A)
  : outcome (list (A * Z) * list A) :=
  last <- enum_zip_end fuel t size a ;;
  enum_zip_loop fuel t f a (0, enum_begin) last.

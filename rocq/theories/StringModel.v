(** Model of split, join, trim, starts_with, ends_with and make_indentation:
    src/utki/string.hpp:145-252, 684-854 and src/utki/string.cpp:133-157, 492-500.

    Strings are lists of characters. Character codes of type char are [Z] (char may be signed).
    Sizes and positions of std::string_view are [N]; npos is the greatest size_t. *)
From Verif Require Import Base UtilModel.
Local Open Scope N_scope.

Definition npos : N := 2 ^ 64 - 1.

Section View.
Context {A : Type}.
Variable eqb : A -> A -> bool.
Implicit Types s : list A.

Definition size s : N := N.of_nat (length s).
(** string_view::substr(pos, n) *)
Definition substr s (pos n : N) : outcome (list A) :=
  if size s <? pos then Throw OutOfRange
  else Ok (firstn (N.to_nat (N.min n (size s - pos))) (skipn (N.to_nat pos) s)).

(** string_view::find(c, pos): the first occurrence at [pos] or later. [i] is the position of the
    head of the list. *)
Fixpoint find_char_from (c : A) (i : N) s (pos : N) : N :=
  match s with
  | [] => npos
  | x :: s => if (pos <=? i) && eqb x c then i else find_char_from c (i + 1) s pos
  end.
Definition find_char s (c : A) (pos : N) : N := find_char_from c 0 s pos.

(** string_view::find(v): the first position at which [v] occurs *)
Fixpoint is_prefix (v s : list A) : bool :=
  match v, s with
  | [], _ => true
  | x :: v, y :: s => eqb x y && is_prefix v s
  | _ :: _, [] => false
  end.
Fixpoint find_view_from (v : list A) (i : N) s : N :=
  if is_prefix v s then i
  else match s with [] => npos | _ :: s => find_view_from v (i + 1) s end.
Definition find_view s (v : list A) : N := find_view_from v 0 s.

(** operator== of string views *)
Fixpoint view_eqb (a b : list A) : bool :=
  match a, b with
  | [], [] => true
  | x :: a, y :: b => eqb x y && view_eqb a b
  | _, _ => false
  end.

(** split(str, delimiter): string.hpp:152-182. The overloads for basic_string and for pointers make a
    view of the string. *)
Fixpoint split_loop (fuel : nat) s (delimiter : A) (pos : N) (ret : list (list A)) : outcome (list (list A)) :=
  match fuel with
  | O => Diverge
  | S fuel =>
      let dpos := find_char s delimiter pos in
      if dpos =? npos then
        w <- substr s pos ((size s - pos) mod 2 ^ 64) ;;
        Ok (ret ++ [w])
      else
        w <- substr s pos ((dpos - pos) mod 2 ^ 64) ;;
        split_loop fuel s delimiter ((dpos + 1) mod 2 ^ 64) (ret ++ [w])
  end.
Definition split (fuel : nat) s (delimiter : A) : outcome (list (list A)) := split_loop fuel s delimiter 0 [].

(** join(strings, delimiter): string.hpp:233-252; the characters written to the stream *)
Definition join (fuel : nat) (dbg : bool) (strings : list (list A)) (delimiter : A) : outcome (list A) :=
  match strings with
  | [] => Ok []
  | front :: _ =>
      rest <- skip_front_iterate fuel dbg 1 strings ;;
      Ok (fold_left (fun ss s => ss ++ [delimiter] ++ s) rest front)
  end.

(** starts_with: string.hpp:824-831, ends_with: 841-854 *)
Definition starts_with (cpp20 : bool) s (prefix : list A) : bool :=
  if cpp20 then view_eqb (firstn (length prefix) s) prefix
  else find_view s prefix =? 0.
Definition ends_with (cpp20 : bool) s (suffix : list A) : bool :=
  if cpp20 then
    (size suffix <=? size s) && view_eqb (skipn (length s - length suffix) s) suffix
  else if size suffix =? 0 then true
  else if size s <? size suffix then false
  else find_view s suffix =? (size s - size suffix).
End View.

(** std::isspace of <cctype> in the current C locale, given by [ws]: its argument has to be
    representable as unsigned char or equal to EOF (-1). *)
Definition c_isspace (ws : Z -> bool) (c : Z) : outcome bool :=
  if ((-1 <=? c) && (c <=? 255))%Z then Ok (ws c) else UB BadArgument.

(** split(str): string.cpp:133-157 *)
Definition add_str (buf : list Z) (ret : list (list Z)) : list Z * list (list Z) :=
  match buf with [] => ([], ret) | _ => ([], ret ++ [buf]) end.
Fixpoint split_words_loop (ws : Z -> bool) (s buf : list Z) (ret : list (list Z)) : outcome (list (list Z)) :=
  match s with
  | [] => Ok (snd (add_str buf ret))
  | c :: s =>
      sp <- c_isspace ws c ;;
      if sp : bool then let '(buf, ret) := add_str buf ret in split_words_loop ws s buf ret
      else split_words_loop ws s (buf ++ [c]) ret
  end.
Definition split_words (ws : Z -> bool) (s : list Z) : outcome (list (list Z)) := split_words_loop ws s [] [].

(** std::isspace(c, std::locale::classic()): tab, LF, VT, FF, CR and space; defined for every value. *)
Definition classic_isspace (c : Z) : bool := ((9 <=? c) && (c <=? 13) || (c =? 32))%Z.

(** std::find_if: number of elements before the first satisfying one *)
Fixpoint find_if (p : Z -> bool) (s : list Z) : N :=
  match s with
  | [] => 0
  | c :: s => if p c then 0 else 1 + find_if p s
  end.

(** trim_front: string.hpp:690-705 *)
Definition trim_front (s : list Z) : outcome (list Z) :=
  substr s (find_if (fun c => negb (classic_isspace c)) s) npos.
(** trim_back: string.hpp:733-749. The base of the reverse iterator after [k] steps is size - k. *)
Definition trim_back (s : list Z) : outcome (list Z) :=
  substr s 0 (size s - find_if (fun c => negb (classic_isspace c)) (rev s)).
(** trim: string.hpp:778-782 *)
Definition trim (s : list Z) : outcome (list Z) := t <- trim_back s ;; trim_front t.

(** make_indentation: string.cpp:492-500. depth * size is computed in unsigned (32 bits). *)
Definition make_indentation (depth size : N) : list N :=
  if size =? 0 then repeat 9 (N.to_nat depth)
  else repeat 32 (N.to_nat ((depth * size) mod 2 ^ 32)).

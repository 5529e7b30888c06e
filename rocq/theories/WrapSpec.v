(** Specification of word wrapping. *)
From Verif Require Import Base.
Local Open Scope N_scope.

Definition is_blank (c : N) : bool := (c =? 32) || (c =? 10).

(** The text is the lines in order, with only spaces and newlines before, between and after them. *)
Inductive covers : list N -> list (list N) -> Prop :=
| cov_end gap : forallb is_blank gap = true -> covers gap []
| cov_line gap line rest lines : forallb is_blank gap = true -> covers rest lines ->
    covers (gap ++ line ++ rest) (line :: lines).

(** Words: maximal runs of characters other than space and newline. [cur] is the current run. *)
Fixpoint words_from (cur : list N) (s : list N) : list (list N) :=
  match s with
  | [] => match cur with [] => [] | _ => [cur] end
  | c :: s =>
      if is_blank c then match cur with [] => words_from [] s | _ => cur :: words_from [] s end
      else words_from (cur ++ [c]) s
  end.
Definition words (s : list N) : list (list N) := words_from [] s.

(** [join d l]: the strings of [l] with [d] between them. *)
Fixpoint join (d : N) (l : list (list N)) : list N :=
  match l with
  | [] => []
  | [x] => x
  | x :: l => x ++ d :: join d l
  end.

(** [w] cut into pieces of [n] characters, the last one being the rest (of 1 to [n] characters). *)
Fixpoint chunks_fuel (k n : nat) (w : list N) : list (list N) :=
  match k with
  | O => []
  | S k => if Nat.leb (length w) n then [w] else firstn n w :: chunks_fuel k n (skipn n w)
  end.
Definition chunks (n : nat) (w : list N) : list (list N) := chunks_fuel (length w) n w.

(** Greedy filling. [done] are the finished lines of the paragraph, [cur] is the line being filled.
    A word goes to the current line if there is room for a space and the word, and, unless it is
    the last word of the paragraph, for one more character. Otherwise it starts a new line, or
    several if it is too long for one. *)
Definition place (n : nat) (w : list N) : list (list N) * list N :=
  (removelast (chunks n w), last (chunks n w) []).
Fixpoint fill (n : nat) (cur : list N) (ws : list (list N)) : list (list N) :=
  match ws with
  | [] => [cur]
  | w :: ws =>
      let need := (length cur + 1 + length w + match ws with [] => 0 | _ => 1 end)%nat in
      if Nat.leb need n then fill n (cur ++ 32 :: w) ws
      else let '(full, cur') := place n w in cur :: full ++ fill n cur' ws
  end.
Definition greedy (n : nat) (ws : list (list N)) : list (list N) :=
  match ws with
  | [] => [[]]
  | w :: ws => let '(full, cur) := place n w in full ++ fill n cur ws
  end.

(** Paragraphs of single-spaced words; only the last word of a paragraph may have a length that is a
    multiple of the width. *)
Definition word_ok (w : list N) : Prop := w <> [] /\ forallb (fun c => negb (is_blank c)) w = true.
Definition paragraph_ok (n : nat) (ws : list (list N)) : Prop :=
  Forall word_ok ws /\ Forall (fun w => (length w mod n <> 0)%nat) (removelast ws).

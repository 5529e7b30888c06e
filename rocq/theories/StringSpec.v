(** Specification of string functions. *)
From Verif Require Import Base.

(** The strings with [d] between them. *)
Fixpoint glue {A} (d : A) (l : list (list A)) : list A :=
  match l with
  | [] => []
  | x :: l' => match l' with [] => x | _ => x ++ d :: glue d l' end
  end.

Definition count {A} (eqb : A -> A -> bool) (d : A) (s : list A) : nat := length (filter (fun x => eqb x d) s).

(** [ws_words ws s l]: [l] are the maximal runs of characters of [s] that do not satisfy [ws]. The
    words are separated, preceded and followed by characters satisfying it, at least one between
    two words. *)
Inductive ws_words {A} (ws : A -> bool) : list A -> list (list A) -> Prop :=
| wws_end gap : forallb ws gap = true -> ws_words ws gap []
| wws_last gap w : forallb ws gap = true -> w <> [] -> forallb (fun c => negb (ws c)) w = true ->
    ws_words ws (gap ++ w) [w]
| wws_cons gap w c s l : forallb ws gap = true -> w <> [] -> forallb (fun c => negb (ws c)) w = true ->
    ws c = true -> ws_words ws s l -> ws_words ws (gap ++ w ++ c :: s) (w :: l).

(** Whitespace of the classic locale. *)
Definition whitespace (c : Z) : Prop := In c [9; 10; 11; 12; 13; 32]%Z.
Definition starts_not (p : Z -> Prop) (s : list Z) : Prop := forall c s', s = c :: s' -> ~ p c.
Definition ends_not (p : Z -> Prop) (s : list Z) : Prop := forall c s', s = s' ++ [c] -> ~ p c.

Definition prefix_of {A} (v s : list A) : Prop := exists r, s = v ++ r.
Definition suffix_of {A} (v s : list A) : Prop := exists r, s = r ++ v.
(** [v] occurs in [s] at position [i] *)
Definition occurs_at {A} (v s : list A) (i : nat) : Prop := exists a b, s = a ++ v ++ b /\ length a = i.

(** The formatted text is the same for every call that does not fail. *)
Definition deterministic (fmt : nat -> option (list N)) (text : list N) : Prop :=
  (Z.of_nat (length text) < 2 ^ 31)%Z /\ forall i t, fmt i = Some t -> t = text.

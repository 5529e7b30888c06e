(** Specification of string views in memory. *)
From Verif Require Import Base ParserModel ViewModel.
Local Open Scope Z_scope.

(** The view [v] shows the text [t]: it is empty, or its characters are in a block that is there. *)
Definition shows (h : heap) (v : view) (t : list Z) : Prop :=
  len v = N.of_nat (length t) /\ (len v < 2 ^ 64)%N /\
  (t = [] \/ exists b pre post, data v = Some (b, N.of_nat (length pre)) /\ h b = Some (pre ++ t ++ post)).

(** The [n] characters of [v] from [k] on: the same block, nothing is copied. *)
Definition piece (v : view) (k n : N) : view :=
  View (match data v with Some (b, o) => Some (b, (o + k)%N) | None => None end) n.

(** Operations that give up the pointer when they reach the end. *)
Definition forgets (c : call) : Prop :=
  match c with c_read_word | c_read_word_until _ | c_read_chars_until _ => True | _ => False end.

(** What is left of [v] when [k] characters are taken off by the call [c] *)
Definition left_of (c : call) (v : view) (k : N) (w : view) : Prop :=
  (k <= len v)%N /\
  (w = piece v k (len v - k) /\ ~ (forgets c /\ k = len v) \/ w = View None 0 /\ forgets c /\ k = len v).

(** The same result, with the view of the first [k] characters of [v] in place of a text of length [k]. *)
Definition matches (v : view) (k : N) (r : outcome vvalue) (r' : outcome value) : Prop :=
  match r, r' with
  | Ok w_none, Ok v_none => True
  | Ok (w_char c), Ok (v_char c') => c = c'
  | Ok (w_number n), Ok (v_number n') => n = n'
  | Ok (w_view w), Ok (v_text s) => w = piece v 0 k /\ k = N.of_nat (length s)
  | Throw e, Throw e' => e = e'
  | _, _ => False
  end.

(** A result at any later time: the views in it show the texts. *)
Definition agrees (h : heap) (r : outcome vvalue) (r' : outcome value) : Prop :=
  match r, r' with
  | Ok w_none, Ok v_none => True
  | Ok (w_char c), Ok (v_char c') => c = c'
  | Ok (w_number n), Ok (v_number n') => n = n'
  | Ok (w_view w), Ok (v_text s) => shows h w s
  | Throw e, Throw e' => e = e'
  | _, _ => False
  end.

(** Results of a sequence of calls, as seen from the view [v] of the beginning: the views among them are pieces of
    [v], each behind the one before ([k] characters are taken off before, [e] at the end). A view returned when nothing
    is left may be null. *)
Inductive handed (v : view) : N -> list (outcome vvalue) -> N -> Prop :=
| handed_end k : handed v k [] k
| handed_view k n rs e : handed v (k + n) rs e -> handed v k (Ok (w_view (piece v k n)) :: rs) e
| handed_null rs e : handed v (len v) rs e -> handed v (len v) (Ok (w_view (View None 0)) :: rs) e
| handed_other k n r rs e : (forall w, r <> Ok (w_view w)) -> handed v (k + n) rs e -> handed v k (r :: rs) e.

(** The calls of a program, and the blocks it touches otherwise *)
Fixpoint calls (es : list event) : list call :=
  match es with [] => [] | Call c :: es => c :: calls es | _ :: es => calls es end.
Definition untouched (b : nat) (es : list event) : Prop := (forall s, ~ In (Store b s) es) /\ ~ In (Free b) es.

(** A view whose string is gone *)
Definition dangling (h : heap) (v : view) : Prop := (0 < len v)%N /\ exists b o, data v = Some (b, o) /\ h b = None.

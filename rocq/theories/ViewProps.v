(** Property C115. *)
From Coq Require Import String.
From Verif Require Import Base StrLit StringModel ParserModel ParserSpec ParserCallSpec StringSpec ViewModel ViewSpec ViewProofs.
Local Open Scope string_scope.
Local Open Scope list_scope.
Local Open Scope Z_scope.

(** One call: the result is that of the text (C27, C28, C31, C92), returned views are the characters taken off where
    they are, and the parser goes on behind them, except that three of the operations forget the string at its end. *)
Theorem C115_step : forall dbg c h v t, good_call c -> shows h v t ->
  exists k w r r', vperform dbg c h v = (w, r) /\ left_of c v k w /\
    perform dbg c t = (skipn (N.to_nat k) t, r') /\ matches v k r r'.
Proof. exact call_step. Qed.
Print Assumptions C115_step.

(** Any program that leaves the parsed string alone: at its end every view handed out still shows the text it showed
    when it was returned, whatever has happened to the parser and to other strings since. *)
Theorem C115_history : forall dbg es h v t, shows h v t ->
  (forall b o, data v = Some (b, o) -> untouched b es) -> Forall good_call (calls es) ->
  exists h' w rs e, run dbg es h v = (h', w, rs) /\ (e <= len v)%N /\
    (w = piece v e (len v - e) \/ w = View None 0 /\ e = len v) /\
    exists rs', perform_all dbg (calls es) t = (skipn (N.to_nat e) t, rs') /\
    shows h' w (skipn (N.to_nat e) t) /\ Forall2 (agrees h') rs rs' /\ handed v 0 rs e.
Proof. exact history. Qed.
Print Assumptions C115_history.

(** In particular the views are inside of the string. *)
Theorem C115_inside : forall v k rs e, handed v k rs e -> forall w, In (Ok (w_view w)) rs ->
  w = View None 0 \/ exists i n, w = piece v i n /\ (k <= i)%N /\ (i + n <= e)%N.
Proof. exact handed_inside. Qed.
Print Assumptions C115_inside.

(** The views follow changes of the string in place, as long as it stays long enough. *)
Theorem C115_later : forall h v b o s k n, data v = Some (b, o) -> h b = Some s ->
  (o + k + n <= N.of_nat (length s))%N -> (n < 2 ^ 64)%N ->
  shows h (piece v k n) (firstn (N.to_nat n) (skipn (N.to_nat (o + k)) s)).
Proof. exact piece_later. Qed.
Print Assumptions C115_later.

(** When the string is gone: every operation of the parser that needs a character is undefined. read_chars does not
    look at the characters and returns a view that can not be read. *)
Theorem C115_dangling : forall dbg c h v, dangling h v -> (len v < 2 ^ 64)%N -> vperform dbg c h v =
  match c with
  | c_read_chars n => (piece v (N.min n (len v)) (len v - N.min n (len v)), Ok (w_view (piece v 0 (N.min n (len v)))))
  | c_peek_char_n n => (v, if (len v <=? n)%N then Throw InvalidArgument else UB UseAfterFree)
  | _ => (v, UB UseAfterFree)
  end.
Proof. exact dangling_perform. Qed.
Print Assumptions C115_dangling.
Theorem C115_dangling_read : forall h v i, dangling h v -> (i < len v)%N -> vat h v i = UB UseAfterFree.
Proof. exact dangling_at. Qed.
Print Assumptions C115_dangling_read.

(** trim, trim_front and trim_back return the part of their argument, nothing is copied. *)
Theorem C115_trim_front : forall h v t, shows h v t -> exists g s, t = g ++ s /\ Forall whitespace g /\ starts_not whitespace s /\
  vtrim_front h v = Ok (piece v (N.of_nat (length g)) (N.of_nat (length s))).
Proof. exact vtrim_front_ok. Qed.
Print Assumptions C115_trim_front.
Theorem C115_trim_back : forall h v t, shows h v t -> exists s g, t = s ++ g /\ Forall whitespace g /\ ends_not whitespace s /\
  vtrim_back h v = Ok (piece v 0 (N.of_nat (length s))).
Proof. exact vtrim_back_ok. Qed.
Print Assumptions C115_trim_back.
Theorem C115_trim : forall h v t, shows h v t -> exists g s k, t = g ++ s ++ k /\ Forall whitespace g /\ Forall whitespace k /\
  starts_not whitespace s /\ ends_not whitespace s /\
  vtrim h v = Ok (piece v (N.of_nat (length g)) (N.of_nat (length s))).
Proof. exact vtrim_ok. Qed.
Print Assumptions C115_trim.

(** Two strings in memory; a parser of the first one, from its third character on. *)
Definition two_strings : heap := fun b => match b with 0%nat => Some (zstr "..ab 12,cd") | 1%nat => Some (zstr "  x ") | _ => None end.
Definition whole : view := View (Some (0%nat, 2%N)) 8.
Definition i32 := {| is_signed := true; bits := 32 |}.

Example C115_case :
  shows two_strings whole (zstr "ab 12,cd") /\
  (* the other string is destroyed, another one made *)
  (exists h', run true [Call c_read_word; Free 1; Call (c_read_number i32); Store 5 (zstr "z"); Call c_read_char;
              Call (c_read_chars 1); Call c_read_word; Call c_read_word; Call c_read_char] two_strings whole =
    (h', View None 0,
      [Ok (w_view (View (Some (0%nat, 2%N)) 2)); Ok (w_number 12); Ok (w_char 44); Ok (w_view (View (Some (0%nat, 8%N)) 1));
       Ok (w_view (View (Some (0%nat, 9%N)) 1)); Ok (w_view (View None 0)); Throw InvalidArgument]) /\
    vtext h' (View (Some (0%nat, 2%N)) 2) = Ok (zstr "ab") /\ vtext h' (View (Some (0%nat, 9%N)) 1) = Ok (zstr "d")) /\
  (* the string of the parser is destroyed *)
  (exists h', run true [Call c_read_word; Free 0; Call (c_read_chars 2); Call c_peek_char] two_strings whole =
    (h', View (Some (0%nat, 6%N)) 4,
      [Ok (w_view (View (Some (0%nat, 2%N)) 2)); Ok (w_view (View (Some (0%nat, 4%N)) 2)); UB UseAfterFree]) /\
    vtext h' (View (Some (0%nat, 2%N)) 2) = UB UseAfterFree).
Proof.
  split; [|split].
  - split; [reflexivity|]. split; [reflexivity|]. right. exists 0%nat, (zstr ".."), []. split; reflexivity.
  - eexists. split; [vm_compute; reflexivity|]. vm_compute. auto.
  - eexists. split; [vm_compute; reflexivity|]. vm_compute. auto.
Qed.

(** auto v = utki::trim(std::string("  x ")): the result is a view of a string that is gone at the semicolon. *)
Example C115_trim_case :
  vtrim two_strings (View (Some (1%nat, 0%N)) 4) = Ok (View (Some (1%nat, 2%N)) 1) /\
  vtext two_strings (View (Some (1%nat, 2%N)) 1) = Ok (zstr "x") /\
  vtext (update two_strings 1 None) (View (Some (1%nat, 2%N)) 1) = UB UseAfterFree /\
  (* of spaces only the view at the beginning is left, by trim_front the one at the end *)
  vtrim two_strings (View (Some (1%nat, 0%N)) 2) = Ok (View (Some (1%nat, 0%N)) 0) /\
  vtrim_front two_strings (View (Some (1%nat, 0%N)) 2) = Ok (View (Some (1%nat, 2%N)) 0).
Proof. vm_compute. auto 6. Qed.

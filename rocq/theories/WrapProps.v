(** Properties C19 - C22 and C72: word_wrap. [dbg] is the debug build, [cpp20] the language version
    (it selects the width test); the string is shorter than 2^63 and the width is a 32-bit
    unsigned number. *)
From Coq Require Import String.
From Verif Require Import Base StrLit WrapModel WrapSpec WrapSpecProofs.
Local Open Scope string_scope.
Local Open Scope list_scope.
Local Open Scope N_scope.

(** C19. *)
Theorem C19_width : forall dbg cpp20 s width, N.of_nat (length s) < 2 ^ 63 -> width < 2 ^ 32 -> 0 < width ->
  exists ls, word_wrap dbg cpp20 s width = Ok ls /\
  Forall (fun l => N.of_nat (length l) <= width /\ ~ In 10 l) ls.
Proof. exact wrap_width. Qed.
Print Assumptions C19_width.

Theorem C19_zero : forall dbg cpp20 s width, width = 0 -> word_wrap dbg cpp20 s width = Ok [s].
Proof. intros dbg cpp20 s width ->. reflexivity. Qed.
Print Assumptions C19_zero.

Example C19_case :
  word_wrap true true (str "abcdefghi  jk lmn  ") 4 =
  Ok [str "abcd"; str "efgh"; str "i "; str "jk"; str "lmn"].
Proof. vm_compute. reflexivity. Qed.
Example C19_case_newline :
  word_wrap true true (str "a b" ++ [10; 10] ++ str "cd e" ++ [10]) 3 = Ok [str "a b"; []; str "cd"; str "e"; []].
Proof. vm_compute. reflexivity. Qed.

(** C20. *)
Theorem C20_covers : forall dbg cpp20 s width, N.of_nat (length s) < 2 ^ 63 -> width < 2 ^ 32 ->
  exists ls, word_wrap dbg cpp20 s width = Ok ls /\ covers s ls /\
  filter (fun c => negb (is_blank c)) (concat ls) = filter (fun c => negb (is_blank c)) s.
Proof. exact wrap_covers. Qed.
Print Assumptions C20_covers.

(** Tabs are not spaces for this function. *)
Example C20_case : word_wrap false false (str "ab " ++ [9] ++ str " cd") 4 = Ok [str "ab"; [9] ++ str " cd"].
Proof. vm_compute. reflexivity. Qed.
(** [covers] does not hold for a line in which a letter is lost. *)
Example C20_spec_case : ~ covers (str "a b") [str "a"].
Proof. intro C. apply WrapSpecProofs.covers_filter in C. vm_compute in C. discriminate. Qed.

(** C21. Reading the character at the end of the string, decrementing below the beginning, a negative
    length and a failing assertion are all outcomes other than [Ok]. *)
Theorem C21_safe : forall dbg cpp20 s width, N.of_nat (length s) < 2 ^ 63 -> width < 2 ^ 32 ->
  exists ls, word_wrap dbg cpp20 s width = Ok ls.
Proof. exact wrap_ok. Qed.
Print Assumptions C21_safe.

Example C21_case :
  word_wrap true false [32; 32; 32; 32; 32] 2 = Ok [] /\ word_wrap true false [32; 32; 97; 32; 32; 10; 32] 1 = Ok [[97]; [32]] /\
  deref [97; 98] 2 = UB OutOfBounds /\ prev 0 = UB OutOfBounds.
Proof. vm_compute. auto. Qed.

(** C22. *)
Theorem C22_unbroken_refuted : ~ (forall dbg cpp20 s width ls, N.of_nat (length s) < 2 ^ 63 -> width < 2 ^ 32 ->
  word_wrap dbg cpp20 s width = Ok ls ->
  Forall (fun w => N.of_nat (length w) <= width) (words s) -> flat_map words ls = words s).
Proof.
  intro H. specialize (H true true (str "abc def") 3 [str "abc"; str " de"; str "f"]).
  specialize (H ltac:(vm_compute; reflexivity) ltac:(vm_compute; reflexivity) ltac:(vm_compute; reflexivity)).
  assert (F : Forall (fun w => N.of_nat (length w) <= 3) (words (str "abc def"))).
  { vm_compute. repeat constructor; discriminate. }
  specialize (H F). vm_compute in H. discriminate.
Qed.
Print Assumptions C22_unbroken_refuted.

(** A text that starts with spaces; here no word is as long as the width. *)
Example C22_case_leading : word_wrap true true (str "   abcd") 5 = Ok [str "   ab"; str "cd"].
Proof. vm_compute. reflexivity. Qed.

(** Texts that are lines of words separated by single spaces. *)
Theorem C22_unbroken : forall dbg cpp20 s width, N.of_nat (length s) < 2 ^ 63 -> width < 2 ^ 32 ->
  forall ps, 0 < width -> ps <> [] -> s = join 10 (map (join 32) ps) ->
  Forall (Forall word_ok) ps ->
  Forall (fun p => Forall (fun w => N.of_nat (length w) <= width) p /\
                   Forall (fun w => N.of_nat (length w) < width) (removelast p)) ps ->
  exists ls, word_wrap dbg cpp20 s width = Ok ls /\ flat_map words ls = concat ps.
Proof. exact wrap_unbroken. Qed.
Print Assumptions C22_unbroken.

(** Too long words are cut into pieces of [width] characters and a rest. *)
Theorem C22_pieces : forall dbg cpp20 s width, N.of_nat (length s) < 2 ^ 63 -> width < 2 ^ 32 ->
  forall ps, 0 < width -> ps <> [] -> s = join 10 (map (join 32) ps) ->
  Forall (paragraph_ok (N.to_nat width)) ps ->
  exists ls, word_wrap dbg cpp20 s width = Ok ls /\
    flat_map words ls = flat_map (chunks (N.to_nat width)) (concat ps).
Proof. exact wrap_words. Qed.
Print Assumptions C22_pieces.

Example C22_case :
  let ps := [[str "ab"; str "cde"; str "f"]; []; [str "ghijklmno"; str "pq"; str "rstu"]] in
  word_wrap false true (join 10 (map (join 32) ps)) 4 =
    Ok [str "ab"; str "cde"; str "f"; []; str "ghij"; str "klmn"; str "o"; str "pq"; str "rstu"] /\
  Forall (paragraph_ok 4) ps.
Proof.
  split; [vm_compute; reflexivity|]. repeat constructor; try discriminate.
Qed.

(** C72. The result for such texts: greedy filling, where a word which is not the last one of its
    line of the text is put into the current line only if one more character fits after it. *)
Theorem C72_greedy : forall dbg cpp20 s width, N.of_nat (length s) < 2 ^ 63 -> width < 2 ^ 32 ->
  forall ps, 0 < width -> ps <> [] -> s = join 10 (map (join 32) ps) ->
  Forall (paragraph_ok (N.to_nat width)) ps ->
  word_wrap dbg cpp20 s width = Ok (flat_map (greedy (N.to_nat width)) ps).
Proof. exact wrap_greedy. Qed.
Print Assumptions C72_greedy.

(** "ab cd" would fit in the first line. *)
Example C72_case : word_wrap true true (str "ab cd ef") 5 = Ok [str "ab"; str "cd ef"] /\
  greedy 5 [str "ab"; str "cd"; str "ef"] = [str "ab"; str "cd ef"] /\
  word_wrap true true (str "ab cd") 5 = Ok [str "ab cd"].
Proof. vm_compute. auto. Qed.

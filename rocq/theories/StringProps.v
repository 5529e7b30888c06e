(** Properties C16 - C18, C23 - C26. *)
From Coq Require Import String.
From Verif Require Import Base StrLit StringModel StringSpec StringProofs FormatModel FormatProofs.
Local Open Scope string_scope.
Local Open Scope list_scope.
Local Open Scope N_scope.

(** C16. [eqb] is equality of characters; the fuel only has to be greater than the length of the text. *)
Theorem C16_join_split : forall A (eqb : A -> A -> bool), (forall x y, eqb x y = true <-> x = y) ->
  forall fuel dbg s d, N.of_nat (length s) < 2 ^ 64 - 1 -> (length s < fuel)%nat ->
  exists l, split eqb fuel s d = Ok l /\ l <> [] /\ Forall (fun w => ~ In d w) l /\
    length l = S (count eqb d s) /\
    forall fuel', (length l < fuel')%nat -> join fuel' dbg l d = Ok s.
Proof. exact @split_join. Qed.
Print Assumptions C16_join_split.

Theorem C16_unique : forall A (eqb : A -> A -> bool), (forall x y, eqb x y = true <-> x = y) ->
  forall fuel s d l, N.of_nat (length s) < 2 ^ 64 - 1 -> (length s < fuel)%nat ->
  (split eqb fuel s d = Ok l <-> l <> [] /\ Forall (fun w => ~ In d w) l /\ glue d l = s).
Proof. exact @split_unique. Qed.
Print Assumptions C16_unique.

Example C16_case : split N.eqb 20 (str ",ab,,c,") 44 = Ok [[]; str "ab"; []; str "c"; []] /\
  join 20 true [[]; str "ab"; []; str "c"; []] 44 = Ok (str ",ab,,c,") /\ split N.eqb 1 [] 44 = Ok [[]] /\
  split N.eqb 2 (str ",ab,,c,") 44 = Diverge.
Proof. vm_compute. auto. Qed.

(** C17. *)
Theorem C17_split_join : forall A (eqb : A -> A -> bool), (forall x y, eqb x y = true <-> x = y) ->
  forall dbg (l : list (list A)) d, l <> [] -> Forall (fun w => ~ In d w) l -> exists s,
  (forall fuel, (length l < fuel)%nat -> join fuel dbg l d = Ok s) /\
  (N.of_nat (length s) < 2 ^ 64 - 1 -> forall fuel, (length s < fuel)%nat -> split eqb fuel s d = Ok l).
Proof. exact @join_split. Qed.
Print Assumptions C17_split_join.

(** The result of join, for every list (empty, or with strings that contain the delimiter). *)
Theorem C17_join : forall A fuel dbg (d : A) (l : list (list A)), (length l < fuel)%nat -> join fuel dbg l d = Ok (glue d l).
Proof. exact @join_ok. Qed.
Print Assumptions C17_join.

Example C17_case : join 9 true [str "x"; []; str "yz"] 59 = Ok (str "x;;yz") /\ join 9 true [] 59 = Ok [] /\
  split N.eqb 9 (str "x;;yz") 59 = Ok [str "x"; []; str "yz"].
Proof. vm_compute. auto. Qed.

(** C18. [ws] is the whitespace classification of the current C locale. Values of type char are in
    -128..255 whatever its signedness. *)
Theorem C18_words : forall ws s, Forall (fun c => (-1 <= c <= 255)%Z) s ->
  exists l, split_words ws s = Ok l /\ ws_words ws s l.
Proof. exact split_words_ok. Qed.
Print Assumptions C18_words.

Theorem C18_words_unique : forall A (ws : A -> bool) s l l', ws_words ws s l -> ws_words ws s l' -> l = l'.
Proof. exact @ws_words_unique. Qed.
Print Assumptions C18_words_unique.

Theorem C18_words_ub : forall ws s, Exists (fun c => (c < -1)%Z) s -> Forall (fun c => (c <= 255)%Z) s ->
  split_words ws s = UB BadArgument.
Proof. exact split_words_ub. Qed.
Print Assumptions C18_words_ub.

Example C18_case : split_words classic_isspace (zstr "  ab c  d") = Ok [zstr "ab"; zstr "c"; zstr "d"] /\
  split_words classic_isspace (zstr "a" ++ [-61; -92]%Z) = UB BadArgument.
Proof. vm_compute. auto. Qed.

(** C23. *)
Theorem C23_trim_front : forall s, N.of_nat (length s) < npos -> exists t g, trim_front s = Ok t /\ s = g ++ t /\
  Forall whitespace g /\ starts_not whitespace t.
Proof. exact trim_front_ok. Qed.
Print Assumptions C23_trim_front.

Theorem C23_trim_back : forall s, N.of_nat (length s) < npos -> exists t g, trim_back s = Ok t /\ s = t ++ g /\
  Forall whitespace g /\ ends_not whitespace t.
Proof. exact trim_back_ok. Qed.
Print Assumptions C23_trim_back.

Theorem C23_trim : forall s, N.of_nat (length s) < npos -> exists t g h, trim s = Ok t /\ s = g ++ t ++ h /\
  Forall whitespace g /\ Forall whitespace h /\ starts_not whitespace t /\ ends_not whitespace t.
Proof. exact trim_ok. Qed.
Print Assumptions C23_trim.

Example C23_case : trim ([9; 32]%Z ++ zstr "a b" ++ [13; 10]%Z) = Ok (zstr "a b") /\ trim [32; 32]%Z = Ok [] /\
  trim_front (zstr " a ") = Ok (zstr "a ") /\ trim_back (zstr " a ") = Ok (zstr " a") /\ trim [-96]%Z = Ok [-96]%Z.
Proof. vm_compute. auto. Qed.

(** C24. *)
Theorem C24_starts_with : forall A (eqb : A -> A -> bool), (forall x y, eqb x y = true <-> x = y) ->
  forall cpp20 s p, N.of_nat (length s) < npos -> (starts_with eqb cpp20 s p = true <-> prefix_of p s).
Proof. exact @starts_with_spec. Qed.
Print Assumptions C24_starts_with.

Theorem C24_ends_with_20 : forall A (eqb : A -> A -> bool), (forall x y, eqb x y = true <-> x = y) ->
  forall s v, ends_with eqb true s v = true <-> suffix_of v s.
Proof. exact @ends_with_20. Qed.
Print Assumptions C24_ends_with_20.

Theorem C24_ends_with_17 : forall A (eqb : A -> A -> bool), (forall x y, eqb x y = true <-> x = y) ->
  forall s v, N.of_nat (length s) < npos ->
  (ends_with eqb false s v = true <->
   v = [] \/ (suffix_of v s /\ forall i, occurs_at v s i -> (length s - length v <= i)%nat)).
Proof. exact @ends_with_17. Qed.
Print Assumptions C24_ends_with_17.

Theorem C24_ends_with_17_refuted : ~ (forall s v, N.of_nat (length s) < npos ->
  (ends_with N.eqb false s v = true <-> suffix_of v s)).
Proof.
  intro H. destruct (H (str "abab") (str "ab")) as [_ H2]; [vm_compute; reflexivity|].
  specialize (H2 (ex_intro _ (str "ab") eq_refl)). vm_compute in H2. discriminate.
Qed.
Print Assumptions C24_ends_with_17_refuted.

Example C24_case : ends_with N.eqb false (str "file.txt") (str ".txt") = true /\
  ends_with N.eqb false (str "xt") (str ".txt") = false /\ ends_with N.eqb true (str "abab") (str "ab") = true /\
  starts_with N.eqb false (str "abab") (str "ab") = true /\ starts_with N.eqb false (str "aab") (str "ab") = false.
Proof. vm_compute. auto. Qed.

(** C25. *)
Theorem C25_indentation : forall depth size, depth < 2 ^ 32 -> size < 2 ^ 32 ->
  N.of_nat (length (make_indentation depth size)) = (if size =? 0 then depth else (depth * size) mod 2 ^ 32) /\
  Forall (fun c => c = if size =? 0 then 9 else 32) (make_indentation depth size).
Proof. exact make_indentation_ok. Qed.
Print Assumptions C25_indentation.

Theorem C25_exact : forall depth size, depth < 2 ^ 32 -> 0 < size < 2 ^ 32 ->
  (N.of_nat (length (make_indentation depth size)) = depth * size <-> depth * size < 2 ^ 32).
Proof. exact make_indentation_exact. Qed.
Print Assumptions C25_exact.

Example C25_case : make_indentation 2 3 = str "      " /\ make_indentation 2 0 = [9; 9] /\
  make_indentation (2 ^ 16) (2 ^ 16) = [] /\ make_indentation (2 ^ 31 + 1) 2 = str "  ".
Proof. vm_compute. auto. Qed.

(** C26. [fmt i] is what the [i]-th call of vsnprintf formats ([None]: it fails); all calls that do
    not fail give the same text. Any use of a consumed or ended va_list, a va_list that is ended
    twice, and a write outside of the buffer would be [UB]. The last component is the state of the
    copy of the va_list at the end. *)
Theorem C26_va_list : forall fmt text fuel dbg garbage, length garbage = kilobyte -> deterministic fmt text ->
  (2 <= fuel)%nat ->
  exists r calls, make_string_va_list fmt fuel dbg garbage VaFresh = Ok (r, calls, VaEnded) /\
    (1 <= calls <= 2)%nat /\ (calls = 2%nat <-> fmt 0%nat <> None /\ (1024 <= length text)%nat) /\
    r = match fmt (pred calls) with Some _ => Returned text | None => Thrown end.
Proof. exact va_list_ok. Qed.
Print Assumptions C26_va_list.

Theorem C26_make_string : forall text fuel dbg garbage, length garbage = kilobyte -> (Z.of_nat (length text) < 2 ^ 31)%Z ->
  (2 <= fuel)%nat -> make_string (fun _ => Some text) fuel dbg garbage = Ok (Returned text, VaEnded).
Proof. exact make_string_total. Qed.
Print Assumptions C26_make_string.

(** When vsnprintf fails the exception leaves make_string without va_end for its own va_list. *)
Theorem C26_make_string_throws : forall fmt text fuel dbg garbage, length garbage = kilobyte -> deterministic fmt text -> (2 <= fuel)%nat ->
  (exists calls, (1 <= calls <= 2)%nat /\ fmt (pred calls) <> None /\
     make_string fmt fuel dbg garbage = Ok (Returned text, VaEnded)) \/
  (exists calls, (1 <= calls <= 2)%nat /\ fmt (pred calls) = None /\
     make_string fmt fuel dbg garbage = Ok (Thrown, VaFresh)).
Proof. exact make_string_ok. Qed.
Print Assumptions C26_make_string_throws.

(** Text of exactly 1023 and 1024 characters; failure of the second call. *)
Example C26_case :
  make_string_va_list (fun _ => Some (repeat 65 1023)) 2 true (repeat 1 1024) VaFresh = Ok (Returned (repeat 65 1023), 1%nat, VaEnded) /\
  make_string_va_list (fun _ => Some (repeat 65 1024)) 2 true (repeat 1 1024) VaFresh = Ok (Returned (repeat 65 1024), 2%nat, VaEnded) /\
  make_string_va_list (fun i => if Nat.eqb i 0 then Some (repeat 65 1024) else None) 2 true (repeat 1 1024) VaFresh = Ok (Thrown, 2%nat, VaEnded) /\
  vsnprintf (fun _ => Some (str "abc")) 0 [1; 2] 3 VaFresh = UB OutOfBounds.
Proof. vm_compute. auto. Qed.

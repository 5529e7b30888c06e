From Verif Require Import Base ListLemmas TextModel TextSpec.

Section Memory.
Context {A : Type}.
Variable mem : list A.

Lemma pload_range i x r : skipn i mem = x :: r -> pload mem (Some i) = Ok x.
Proof.
  intro E. cbn [pload].
  assert (nth_error mem i = Some x) as ->; [|reflexivity].
  revert E. generalize mem. clear. induction i as [|i IH]; intros [|y l] E; try discriminate.
  - cbn in *. congruence.
  - cbn [skipn nth_error] in *. apply IH, E.
Qed.

Lemma skipn_more i x (r : list A) : skipn i mem = x :: r -> skipn (S i) mem = r.
Proof.
  revert i. generalize mem. clear. induction mem as [|y l IH]; intros [|i] E; cbn [skipn] in *; try discriminate.
  - congruence.
  - apply IH in E. exact E.
Qed.

Lemma range_split i n : i + S n <= length mem -> exists x, skipn i mem = x :: skipn (S i) mem.
Proof.
  intro L. destruct (skipn i mem) as [|x r] eqn:E.
  - assert (length (skipn i mem) = 0) by (rewrite E; reflexivity). rewrite skipn_length in H. lia.
  - exists x. rewrite (skipn_more i x r E). reflexivity.
Qed.

Lemma for_each_ok {S : Type} (body : S -> A -> S * outcome unit) : forall n i st, i + n <= length mem ->
  for_each mem n (Some i) (Some (i + n)) body st = run body (firstn n (skipn i mem)) st.
Proof.
  induction n as [|n IH]; intros i st L.
  - cbn [for_each peq]. rewrite Nat.add_0_r, Nat.eqb_refl. reflexivity.
  - cbn [for_each peq]. destruct (Nat.eqb_spec i (i + Datatypes.S n)); [lia|].
    destruct (range_split i n L) as [x E]. rewrite (pload_range i x _ E), E. cbn [firstn run].
    destruct (body st x) as [st' [u|e|r| | |]]; try reflexivity.
    cbn [padd]. destruct (Nat.leb_spec (i + 1) (length mem)); [|lia].
    replace (i + 1) with (Datatypes.S i) by lia. replace (i + Datatypes.S n) with (Datatypes.S i + n) by lia.
    apply IH. lia.
Qed.

Lemma for_span_ok {S : Type} s (body : S -> A -> S * outcome unit) st : sp_valid mem s ->
  for_span mem s body st = run body (elements mem s) st.
Proof.
  destruct s as [[i|] n]; unfold for_span, sp_valid, elements, sp_end, sp_begin; cbn [s_data s_size valid_range range padd].
  - intro L. destruct (Nat.leb_spec (i + n) (length mem)); [|lia]. apply for_each_ok, L.
  - intros ->. reflexivity.
Qed.

Lemma firstn_snoc_nth n i x : nth_error mem (i + n) = Some x ->
  firstn (S n) (skipn i mem) = firstn n (skipn i mem) ++ [x].
Proof.
  revert n. assert (H : forall (l : list A) n, nth_error l n = Some x -> firstn (S n) l = firstn n l ++ [x]).
  { induction l as [|y l IH]; intros [|n] E; cbn in E; try discriminate.
    - injection E as ->. reflexivity.
    - change (firstn (S (S n)) (y :: l)) with (y :: firstn (S n) l). rewrite (IH n E). reflexivity. }
  intros n E. apply H. rewrite <- E. generalize mem. clear.
  induction i as [|i IH]; intros l; [reflexivity|]. destruct l as [|y l]; [destruct n; reflexivity|].
  cbn [skipn]. rewrite IH. reflexivity.
Qed.

Lemma for_each_rev_ok {S : Type} (body : S -> A -> S * outcome unit) i : forall n st, i + n <= length mem ->
  for_each_rev mem n (Some (i + n)) (Some i) body st = run body (rev (firstn n (skipn i mem))) st.
Proof.
  induction n as [|n IH]; intros st L.
  - cbn [for_each_rev peq]. rewrite Nat.add_0_r, Nat.eqb_refl. reflexivity.
  - cbn [for_each_rev peq]. destruct (Nat.eqb_spec (i + Datatypes.S n) i); [lia|].
    rewrite <- plus_n_Sm. cbn [pdec bind].
    destruct (nth_error mem (i + n)) as [x|] eqn:E; [|apply nth_error_None in E; lia].
    rewrite (firstn_snoc_nth n i x E), rev_app_distr. cbn [rev app run pload]. rewrite E.
    destruct (body st x) as [st' [u|e|r| | |]]; try reflexivity. apply IH. lia.
Qed.

Lemma for_span_rev_ok {S : Type} s (body : S -> A -> S * outcome unit) st : sp_valid mem s ->
  for_span_rev mem s body st = run body (rev (elements mem s)) st.
Proof.
  destruct s as [[i|] n]; unfold for_span_rev, sp_valid, elements, sp_end, sp_begin; cbn [s_data s_size valid_range range padd].
  - intro L. destruct (Nat.leb_spec (i + n) (length mem)); [|lia]. apply for_each_rev_ok, L.
  - intros ->. reflexivity.
Qed.

Lemma run_push l : forall acc : list A, run (fun v a => (v ++ [a], Ok tt)) l acc = (acc ++ l, Ok tt).
Proof.
  induction l as [|a l IH]; intro acc; cbn [run]; [rewrite app_nil_r; reflexivity|].
  rewrite IH, <- app_assoc. reflexivity.
Qed.

Lemma make_vector_ok s : sp_valid mem s -> make_vector mem s = Ok (elements mem s).
Proof. intro V. unfold make_vector. rewrite for_span_ok by exact V. rewrite run_push. reflexivity. Qed.

Lemma elements_length s : sp_valid mem s -> length (elements mem s) = s_size s.
Proof.
  destruct s as [[i|] n]; unfold sp_valid, elements; cbn [s_data s_size valid_range range].
  - intro L. rewrite firstn_length, skipn_length. lia.
  - intros ->. reflexivity.
Qed.

(** *** operator<< *)
Lemma run_print (put : A -> outcome (list N)) l : forall out, (forall a, In a l -> exists t, put a = Ok t) ->
  run (put_element put) l out = (out ++ written put l, Ok tt).
Proof.
  induction l as [|a l IH]; intros out H; unfold put_element, written; cbn [run flat_map];
    fold (put_element put); [rewrite app_nil_r; reflexivity|].
  fold (written put l).
  destruct (H a (or_introl eq_refl)) as [t ->]. rewrite IH by (intros b Hb; apply H; right; exact Hb).
  rewrite <- app_assoc. reflexivity.
Qed.

Lemma run_print_throw (put : A -> outcome (list N)) l1 a l2 e : forall out, (forall b, In b l1 -> exists t, put b = Ok t) -> put a = Throw e ->
  run (put_element put) (l1 ++ a :: l2) out = (out ++ written put l1, Throw e).
Proof.
  induction l1 as [|b l1 IH]; intros out H E; unfold put_element, written; cbn [run flat_map app]; fold (put_element put).
  - rewrite E, app_nil_r. reflexivity.
  - fold (written put l1). destruct (H b (or_introl eq_refl)) as [t ->]. rewrite IH; [|intros c Hc; apply H; right; exact Hc|exact E].
    rewrite <- app_assoc. reflexivity.
Qed.

Lemma print_ok put out s : sp_valid mem s -> (forall a, In a (elements mem s) -> exists t, put a = Ok t) ->
  print_span mem put out s = (out ++ written put (elements mem s), Ok tt).
Proof. intros V H. unfold print_span. rewrite for_span_ok by exact V. apply run_print, H. Qed.

Lemma print_throw put out s l1 a l2 e : sp_valid mem s -> elements mem s = l1 ++ a :: l2 ->
  (forall b, In b l1 -> exists t, put b = Ok t) -> put a = Throw e ->
  print_span mem put out s = (out ++ written put l1, Throw e).
Proof. intros V E H T. unfold print_span. rewrite for_span_ok by exact V. rewrite E. apply run_print_throw; assumption. Qed.

(** *** Making spans *)
Lemma range_zero p : range mem p 0 = [].
Proof. destruct p; reflexivity. Qed.

Lemma make_span_ok c : cont_valid mem c ->
  sp_valid mem (make_span c) /\ s_size (make_span c) = c_size c /\ elements mem (make_span c) = cont_elements mem c /\
  (c_size c = 0 -> s_data (make_span c) = None) /\ (c_size c <> 0 -> s_data (make_span c) = c_data c).
Proof.
  destruct c as [p n]. unfold cont_valid, sp_valid, elements, cont_elements, make_span, make_span_ptr. cbn [c_data c_size s_data s_size].
  intro V. destruct (Nat.eqb_spec n 0) as [->|NE].
  - rewrite !range_zero. split; [reflexivity|]. split; [reflexivity|]. split; [reflexivity|]. split; [reflexivity|]. intro H. now elim H.
  - destruct V as [V|V]; [contradiction|]. repeat split; auto. intro; contradiction.
Qed.

Lemma span_of_ok c : 
  s_data (span_of c) = c_data c /\ s_size (span_of c) = c_size c /\ elements mem (span_of c) = cont_elements mem c /\
  make_span_init c = span_of c /\
  (c_size c <> 0 -> span_of c = make_span c).
Proof.
  destruct c as [p n]. repeat split. cbn [c_size]. intro H. unfold span_of, make_span, make_span_ptr. cbn [c_data c_size].
  destruct (Nat.eqb_spec n 0); [contradiction|reflexivity].
Qed.

Lemma convert_same s : span_convert s = s.
Proof. destruct s; reflexivity. Qed.
End Memory.

Lemma size_bytes_ok s k : (N.of_nat (s_size s) * k < 2 ^ 64)%N -> size_bytes s k = (N.of_nat (s_size s) * k)%N.
Proof. intro H. unfold size_bytes. apply N.mod_small, H. Qed.

(** ** Bytes *)
Section Bytes.
Variable mem : list N.

Lemma skipn_app_len {B} (a b : list B) : skipn (length a) (a ++ b) = b.
Proof. induction a; [reflexivity|]. exact IHa. Qed.

Lemma zero_from_ok : forall t fuel i rest, skipn i mem = t ++ 0%N :: rest -> ~ In 0%N t -> length t < fuel ->
  zero_from mem fuel i = Ok (length t).
Proof.
  induction t as [|b t IH]; intros [|fuel] i rest E N0 L; cbn [length] in *; try lia; cbn [zero_from].
  - rewrite (pload_range mem i 0%N rest E). reflexivity.
  - rewrite (pload_range mem i b _ E). cbn [bind].
    destruct (N.eqb_spec b 0) as [->|_]; [exfalso; apply N0; left; reflexivity|].
    rewrite (IH fuel (S i) rest); [reflexivity|eapply skipn_more; eassumption|intro H; apply N0; right; exact H|lia].
Qed.

Lemma zero_from_ub : forall t fuel i, skipn i mem = t -> ~ In 0%N t -> length t < fuel ->
  zero_from mem fuel i = UB OutOfBounds.
Proof.
  induction t as [|b t IH]; intros [|fuel] i E N0 L; cbn [length] in *; try lia; cbn [zero_from].
  - cbn [pload]. destruct (nth_error mem i) as [x|] eqn:X; [|reflexivity].
    assert (i < length mem) by (apply nth_error_Some; congruence).
    assert (length (skipn i mem) = 0) by (rewrite E; reflexivity). rewrite skipn_length in H0. lia.
  - rewrite (pload_range mem i b _ E). cbn [bind].
    destruct (N.eqb_spec b 0) as [->|_]; [exfalso; apply N0; left; reflexivity|].
    rewrite (IH fuel (S i)); [reflexivity|eapply skipn_more; eassumption|intro H; apply N0; right; exact H|lia].
Qed.

Lemma cstr_ok i t rest : skipn i mem = t ++ 0%N :: rest -> ~ In 0%N t ->
  make_span_cstr mem (Some i) = Ok (Sp (Some i) (length t)) /\ span_cstr mem (Some i) = Ok (Sp (Some i) (length t)) /\
  sp_valid mem (Sp (Some i) (length t)) /\ elements mem (Sp (Some i) (length t)) = t.
Proof.
  intros E H.
  assert (L : i + length t < length mem).
  { assert (length (skipn i mem) = length t + S (length rest)) by (rewrite E, app_length; reflexivity).
    rewrite skipn_length in H0. lia. }
  assert (Z : strlen mem (Some i) = Ok (length t)).
  { unfold strlen. apply (zero_from_ok t _ i rest E H). lia. }
  unfold make_span_cstr, span_cstr. rewrite Z. cbn [bind]. repeat split.
  - unfold sp_valid. cbn [s_data s_size valid_range]. lia.
  - unfold elements. cbn [s_data s_size range]. rewrite E. apply firstn_app_exact.
Qed.

Lemma cstr_unterminated i : ~ In 0%N (skipn i mem) -> make_span_cstr mem (Some i) = UB OutOfBounds.
Proof.
  intro H. unfold make_span_cstr, strlen. rewrite (zero_from_ub (skipn i mem) _ i eq_refl H); [reflexivity|].
  rewrite skipn_length. lia.
Qed.

Lemma read_n_ok : forall n i, i + n <= length mem -> read_n mem n i = Ok (firstn n (skipn i mem)).
Proof.
  induction n as [|n IH]; intros i L; [reflexivity|]. cbn [read_n].
  destruct (range_split mem i n L) as [x E]. rewrite (pload_range mem i x _ E). cbn [bind].
  rewrite IH by lia. rewrite E. reflexivity.
Qed.

Lemma string_of_ok p n : n = 0 \/ valid_range mem p n -> string_of mem p n = Ok (range mem p n).
Proof.
  intros [->|V].
  - rewrite range_zero. destruct p; reflexivity.
  - destruct p as [i|]; cbn [valid_range range] in *.
    + destruct n as [|n]; [reflexivity|]. unfold string_of. apply read_n_ok, V.
    + subst n. reflexivity.
Qed.

Lemma make_string_ok s : sp_valid mem s ->
  make_string_char mem s = Ok (elements mem s) /\ make_string_uint8 mem s = Ok (elements mem s) /\
  cont_elements mem (make_string_view s) = elements mem s /\ c_size (make_string_view s) = s_size s /\
  (s_size s <> 0 -> make_span (make_string_view s) = s).
Proof.
  intro V. unfold make_string_char, make_string_uint8, make_string_view. cbn [c_data c_size].
  rewrite string_of_ok by (right; exact V). repeat split.
  intro NE. destruct s as [p n]. cbn [s_data s_size] in *. unfold make_span, make_span_ptr. cbn [c_data c_size].
  destruct (Nat.eqb_spec n 0); [contradiction|reflexivity].
Qed.

Lemma make_string_cont_ok c : cont_valid mem c ->
  make_string_cont_char mem c = Ok (cont_elements mem c) /\ make_string_cont_uint8 mem c = Ok (cont_elements mem c).
Proof.
  intro V. destruct (make_span_ok mem c V) as [V' [_ [E _]]].
  unfold make_string_cont_char, make_string_cont_uint8.
  destruct (make_string_ok (make_span c) V') as [-> [-> _]]. rewrite E. split; reflexivity.
Qed.

Lemma casts s : to_uint8_t s = s /\ to_char s = s.
Proof. destruct s; split; reflexivity. Qed.

Lemma as_char_uint8 sg b : (b < 256)%N ->
  (as_uint8 b = Z.of_N b /\ as_char sg b mod 256 = as_uint8 b /\ (if sg then -128 <= as_char sg b < 128 else 0 <= as_char sg b < 256))%Z.
Proof.
  unfold as_char, as_uint8. intro H. split; [reflexivity|]. destruct sg; cbn [andb]; [|split; [apply Z.mod_small|]; lia].
  destruct (N.leb_spec 128 b).
  - split; [|lia]. rewrite <- (Z_mod_plus_full _ 1 256). rewrite Z.mod_small; lia.
  - split; [rewrite Z.mod_small; lia|lia].
Qed.
End Bytes.

(** ** cat *)
Section Cat.
Context {F : Type}.
Lemma fold_bad (args : list (arg F)) s : st_good s = false -> fold_left insert_arg args s = s.
Proof.
  intro H. induction args as [|a args IH]; [reflexivity|]. cbn [fold_left].
  unfold insert_arg at 2. rewrite H. exact IH.
Qed.
Lemma fold_texts (args : list (arg F)) : forall t f,
  st_text (fold_left insert_arg args (Stream t f true)) = t ++ concat (texts f args).
Proof.
  induction args as [|a args IH]; intros t f; cbn [fold_left texts concat]; [rewrite app_nil_r; reflexivity|].
  unfold insert_arg at 2. cbn [st_good st_format st_text].
  destruct (a f) as [[x f'] g] eqn:E. cbn [concat]. destruct g.
  - rewrite IH, app_assoc. reflexivity.
  - rewrite fold_bad by reflexivity. cbn [st_text concat]. rewrite app_nil_r. reflexivity.
Qed.
Lemma cat_ok (f : F) args : cat f args = concat (texts f args).
Proof. unfold cat. rewrite fold_texts. reflexivity. Qed.

Lemma cat_simple (f : F) (ts : list (list N)) : cat f (map (fun t (f : F) => (t, f, true)) ts) = concat ts.
Proof.
  rewrite cat_ok. f_equal. induction ts as [|t ts IH]; [reflexivity|]. cbn [map texts]. rewrite IH. reflexivity.
Qed.
Lemma cat_bad (f : F) (a : list (list N)) (x : list N) args :
  cat f (map (fun t (f : F) => (t, f, true)) a ++ (fun f => (x, f, false)) :: args) = concat a ++ x.
Proof.
  rewrite cat_ok. induction a as [|t a IH]; cbn [map app texts concat]; [apply app_nil_r|].
  rewrite <- app_assoc. f_equal. exact IH.
Qed.
End Cat.

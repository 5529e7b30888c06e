From Verif Require Import Base ListLemmas TextModel TextSpec TextProofs LogModel LogSpec.

Section Log.
Context {F X : Type}.
Notation world := (world F X).
Notation action := (action F X).

Lemma log_ok (print : action) (w w' : world) : print w = (w', Ok tt) -> log (Some print) w = (flush w', Ok tt).
Proof. intro E. cbn [log]. rewrite E. reflexivity. Qed.

Lemma log_fails (print : action) (w w' : world) r : print w = (w', r) -> is_ok r = false -> log (Some print) w = (w', r).
Proof. intros E H. cbn [log]. rewrite E. destruct r; [discriminate|reflexivity..]. Qed.

Lemma fold_good (args : list (arg F)) : forall s : stream F,
  st_good s = true -> st_text (fold_left insert_arg args s) = st_text s ++ concat (texts (st_format s) args).
Proof. intros [t f g] H. cbn in H. subst g. apply fold_texts. Qed.

Lemma flush_flush (w : world) : flush (flush w) = flush w.
Proof. unfold flush. destruct (st_good (cout w)) eqn:E; cbn [cout]; rewrite E; reflexivity. Qed.

Lemma logcat_ok args (w : world) : st_good (cout w) = true ->
  let w' := fst (logcat args w) in
  snd (logcat args w) = Ok tt /\
  st_text (cout w') = st_text (cout w) ++ concat (texts (st_format (cout w)) args) /\
  (st_good (cout w') = true -> flushed w' = length (st_text (cout w'))) /\
  rest w' = rest w.
Proof.
  intros G w'. unfold w', logcat. cbn [log fst snd]. rewrite flush_flush.
  pose proof (fold_good args (cout w) G) as E. unfold flush. cbn [cout].
  destruct (st_good (fold_left insert_arg args (cout w))) eqn:E'; cbn [cout flushed rest]; repeat split; auto; congruence.
Qed.

Lemma logcat_bad args (w : world) : st_good (cout w) = false -> logcat args w = (w, Ok tt).
Proof.
  intro G. unfold logcat. cbn [log]. rewrite fold_bad by exact G. unfold flush. cbn [cout]. rewrite G. cbn [cout]. rewrite G.
  destruct w; reflexivity.
Qed.
End Log.

Lemma demangle_ok alloc demangled cxa name h : cxa_contract demangled cxa ->
  demangle alloc cxa name h =
    (new_string alloc (match demangled name with Some t => t | None => name end), h).
Proof.
  intros C. specialize (C name h). unfold demangle. destruct (demangled name) as [t|].
  - destruct C as [b [Fresh ->]]. cbn [Z.eqb string_of_block find fst snd free existsb orb].
    rewrite Nat.eqb_refl. cbn [orb filter fst]. rewrite Nat.eqb_refl. cbn [negb snd]. f_equal.
    induction h as [|x h IH]; [reflexivity|]. cbn [filter].
    destruct (Nat.eqb_spec (fst x) b) as [E|_]; [exfalso; exact (Fresh x (or_introl eq_refl) E)|].
    cbn [negb]. rewrite IH; [reflexivity|]. intros y Hy. apply Fresh. right. exact Hy.
  - destruct C as [s [NE ->]]. destruct (Z.eqb_spec s 0); [contradiction|]. reflexivity.
Qed.

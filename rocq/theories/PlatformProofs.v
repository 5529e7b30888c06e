(** Proofs about logging, assertions and demangle on other platforms. *)
From Coq Require Import String.
From Verif Require Import Base StrLit TextModel LogModel StringModel StringSpec StringProofs MiscModel DebugModel PlatformModel PlatformSpec.

Lemma c_str_spec {C} (is_zero : C -> bool) zero s : (forall c, is_zero c = true <-> c = zero) -> up_to_zero zero s (c_str is_zero s).
Proof.
  intro Z. induction s as [|c s [N E]]; cbn [c_str]; [split; [intros []|left; reflexivity]|]. destruct (is_zero c) eqn:Ec.
  - apply Z in Ec. subst c. split; [intros []|]. right. exists s. reflexivity.
  - split.
    + intros [->|I]; [|exact (N I)]. rewrite (proj2 (Z zero) eq_refl) in Ec. discriminate.
    + destruct E as [E|[r E]]; [left; congruence|right; exists r; cbn; congruence].
Qed.
Lemma c_str_N s : up_to_zero 0%N s (c_str (N.eqb 0) s).
Proof. apply c_str_spec. intro c. rewrite N.eqb_eq. split; congruence. Qed.
Lemma c_str_Z s : up_to_zero 0%Z s (c_str (Z.eqb 0) s).
Proof. apply c_str_spec. intro c. rewrite Z.eqb_eq. split; congruence. Qed.

Lemma log_compare {F X : Type} (print : printing F X) out fmt (d : device X) (w : world F X) :
  appends print out -> cout w = Stream (st_text (cout w)) fmt true -> rest w = others d ->
  let '(o, f', g, x', r) := out fmt (others d) in
  (exists fl, log (Some (to_cout print)) w = (World (Stream (st_text (cout w) ++ o) f' g) fl x', r)) /\
  exists es, log_android fmt (Some print) d = (Device (system_log d ++ es) x', r) /\
    match r with
    | Ok _ => exists t, up_to_zero 0%N o t /\ es = [Entry Info "utki" t]
    | _ => es = []
    end.
Proof.
  intros A C R. specialize (A (st_text (cout w)) fmt (others d)) as A1. specialize (A [] fmt (others d)) as A2.
  unfold log, log_android, to_cout. rewrite A2. rewrite C. cbn [st_text]. rewrite R, A1. clear A1 A2 A.
  destruct (out fmt (others d)) as [[[[o f'] g] x'] r]. cbn [app st_text]. split.
  - destruct r; try (eexists; reflexivity). unfold flush. cbn [cout st_good]. destruct g; eexists; destruct a; reflexivity.
  - destruct r as [[]|e|u| | |]; [|exists []; rewrite app_nil_r; auto..].
    eexists. split; [reflexivity|]. exists (c_str (N.eqb 0) o). split; [apply c_str_N|reflexivity].
Qed.

Lemma cat_appends {F X : Type} (args : list (arg F)) :
  appends (fun (s : stream F) (x : X) => (fold_left insert_arg args s, x, Ok tt))
    (fun f x => let s := fold_left insert_arg args (Stream [] f true) in (st_text s, st_format s, st_good s, x, Ok tt)).
Proof.
  intros t f x. cbn zeta. f_equal. f_equal.
  assert (G : forall g t f o, fold_left insert_arg args (Stream (t ++ o) f g) =
    let s := fold_left insert_arg args (Stream o f g) in Stream (t ++ st_text s) (st_format s) (st_good s)).
  { clear. induction args as [|a l IH]; intros g t f o; [reflexivity|]. cbn [fold_left].
    assert (S : exists u f' g', forall t, insert_arg (Stream (t ++ o) f g) a = Stream (t ++ o ++ u) f' g').
    { unfold insert_arg. cbn [st_good st_format st_text]. destruct g.
      - destruct (a f) as [[u f'] g]. exists u, f', g. intro. rewrite <- app_assoc. reflexivity.
      - exists [], f, false. intro. rewrite app_nil_r. reflexivity. }
    destruct S as (u & f' & g' & S). rewrite (S t), (S [] : insert_arg (Stream o f g) a = _). apply IH. }
  rewrite <- (app_nil_r t) at 1. rewrite (G true t f []). reflexivity.
Qed.
Lemma logcat_android_ok {F X : Type} default args (d : device X) : exists t,
  @logcat_android F X default args d = (Device (system_log d ++ [Entry Info "utki" t]) (others d), Ok tt) /\
  up_to_zero 0%N (TextModel.cat default args) t.
Proof. eexists. split; [reflexivity|]. apply c_str_N. Qed.

Lemma assert_compare terminal condition print loc :
  let '(text, e) := assert_always terminal condition print loc in
  let '(entries, e') := assert_always_android terminal condition print loc in
  e' = e /\
  match e with
  | Aborted => exists s t, text = s ++ [10%Z] /\ up_to_zero 0%Z s t /\ entries = [Entry Fatal "utki" (zstr "Assertion failed: " ++ t)]
  | _ => entries = []
  end.
Proof.
  unfold assert_always, assert_always_android. destruct condition; [auto|]. destruct (file loc) as [f|]; [|auto].
  destruct print as [[text [e|]]|]; [auto| |]; (split; [reflexivity|]).
  - eexists. eexists. split; [|split; [apply c_str_Z|reflexivity]]. unfold endl. rewrite <- !app_assoc. reflexivity.
  - eexists. eexists. split; [|split; [apply c_str_Z|reflexivity]]. unfold endl. rewrite <- !app_assoc. reflexivity.
Qed.

Lemma demangle_msvc_ok cpp20 name : (N.of_nat (length name) < npos)%N ->
  (forall r, name = str "class " ++ r -> demangle_msvc cpp20 name = Ok r) /\
  ((forall r, name <> str "class " ++ r) -> demangle_msvc cpp20 name = Ok name).
Proof.
  intro B. unfold demangle_msvc. pose proof (starts_with_spec N.eqb N.eqb_eq cpp20 name (str "class ") B) as S. split.
  - intros r E. rewrite (proj2 S) by (exists r; exact E). unfold substr, size.
    assert (L : length name = (6 + length r)%nat) by (rewrite E; reflexivity). rewrite L.
    change (N.of_nat (length (str "class "))) with 6%N. replace (N.of_nat (6 + length r) <? 6)%N with false by lia.
    rewrite E. change (N.to_nat 6) with (length (str "class ")). rewrite skipn_app, skipn_all, Nat.sub_diag. cbn [app skipn].
    rewrite firstn_all2; [reflexivity|]. unfold npos in *. lia.
  - intro N. destruct (starts_with N.eqb cpp20 name (str "class ")); [|reflexivity]. destruct (proj1 S eq_refl) as [r E]. exfalso. exact (N r E).
Qed.

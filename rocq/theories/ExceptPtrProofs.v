(** Proofs about the lifetime of what what() returns *)
From Coq Require Import String.
From Verif Require Import Base StrLit ExceptModel ExceptPtrModel ExceptPtrSpec.
Local Open Scope string_scope. Local Open Scope list_scope. Local Open Scope nat_scope.

Definition lives (m : mem) (b : nat) (t : text) : Prop := nth_error (buffers m) b = Some (Some t).
Definition dead (m : mem) (b : nat) : Prop := nth_error (buffers m) b = Some None.
Definition sound (m : mem) : Prop := forall i b, description m i = Some b -> (exists t, lives m b t) /\ forall j, description m j = Some b -> j = i.

Definition good {A B} (R : mem -> A -> B -> Prop) (c : call A) (o : outcome B) (r : nat -> Prop) : Prop :=
  forall m, sound m -> let m' := snd (c m) in
  match o with Ok b => exists a, fst (c m) = Ok a /\ R m' a b | Terminate => fst (c m) = Terminate | _ => False end /\
  sound m' /\ List.length (buffers m) <= List.length (buffers m') /\
  (forall i, description m' i = description m i \/ r i /\ exists b, description m' i = Some b /\ List.length (buffers m) <= b) /\
  (forall b t, lives m b t -> (forall i, r i -> description m i <> Some b) -> lives m' b t) /\
  (forall b, dead m b -> dead m' b) /\
  ((exists v, o = Ok v) -> forall i, r i -> (forall b, description m i = Some b -> dead m' b) /\ exists b, description m' i = Some b /\ List.length (buffers m) <= b).
Definition same {A} (m : mem) (a b : A) : Prop := a = b.
Definition shows (m : mem) (p : pointer) (t : text) : Prop := read m p = Ok t.

Lemma good_return : forall A (a : A), good same (return_ a) (Ok a) (fun _ => False).
Proof. intros A a m S. cbn. unfold same. split; [eauto|]. split; [exact S|]. repeat split; auto; tauto. Qed.
Lemma good_terminate : forall A B (R : mem -> A -> B -> Prop) r, good R terminate Terminate r.
Proof.
  intros A B R r m S. cbn. split; [reflexivity|]. split; [exact S|]. split; [lia|]. split; [auto|]. split; [auto|]. split; [auto|]. intros (v & E). discriminate.
Qed.
Lemma good_eq : forall A B (R : mem -> A -> B -> Prop) c o o' (r r' : nat -> Prop), good R c o' r' -> o = o' -> (forall i, r i <-> r' i) -> good R c o r.
Proof.
  intros A B R c o o' r r' G -> I m S. destruct (G m S) as (H1 & H2 & H3 & H4 & H5 & H6 & H7). split; [exact H1|]. split; [exact H2|]. split; [exact H3|]. split; [|split; [|split; [exact H6|]]].
  - intros i. destruct (H4 i) as [E|(a & E)]; [auto|right; split; [apply I; exact a|exact E]].
  - intros b t L K. apply H5; [exact L|]. intros i X. apply K. apply I. exact X.
  - intros V i X. apply H7; [exact V|]. apply I. exact X.
Qed.
Lemma good_then : forall A B C D (R : mem -> A -> B -> Prop) (Q : mem -> C -> D -> Prop) c o k k' (r1 r2 : nat -> Prop),
  good R c o r1 -> (forall b, o = Ok b -> forall m a, sound m -> R m a b -> forall m', m' = m ->
    let m' := snd (k a m) in
    match k' b with Ok b => exists a', fst (k a m) = Ok a' /\ Q m' a' b | Terminate => fst (k a m) = Terminate | _ => False end /\
    sound m' /\ List.length (buffers m) <= List.length (buffers m') /\
    (forall i, description m' i = description m i \/ r2 i /\ exists b, description m' i = Some b /\ List.length (buffers m) <= b) /\
    (forall b t, lives m b t -> (forall i, r2 i -> description m i <> Some b) -> lives m' b t) /\
    (forall b, dead m b -> dead m' b) /\
    ((exists v, k' b = Ok v) -> forall i, r2 i -> (forall b, description m i = Some b -> dead m' b) /\ exists b, description m' i = Some b /\ List.length (buffers m) <= b)) ->
  good Q (then_ c k) (bind o k') (fun i => r1 i \/ r2 i).
Proof.
  intros A B C D R Q c o k k' r1 r2 G K m S. destruct (G m S) as (H1 & H2 & H3 & H4 & H5 & H6 & H7). unfold then_.
  destruct (c m) as [x m1]; cbn [fst snd] in *. destruct o as [b| | | | |]; try (destruct H1; fail); cbn [bind].
  - destruct H1 as (a & -> & Ra). destruct (K b eq_refl m1 a H2 Ra m1 eq_refl) as (K1 & K2 & K3 & K4 & K5 & K6 & K7). cbn zeta.
    destruct (k a m1) as [y m2]; cbn [fst snd] in *. split; [exact K1|]. split; [exact K2|]. split; [lia|]. split; [|split; [|split]].
    + intros i. destruct (K4 i) as [E|(X & b' & E & L)].
      * rewrite E. destruct (H4 i) as [E'|(X & b' & E' & L)]; [auto|]. right. split; [auto|]. exists b'. auto.
      * right. split; [auto|]. exists b'. split; [exact E|lia].
    + intros b' t L N. assert (L1 : lives m1 b' t) by (apply H5; [exact L|auto]). apply K5; [exact L1|]. intros i X. destruct (H4 i) as [E|(_ & b'' & E & L')].
      * rewrite E. auto.
      * rewrite E. intros F. injection F as ->. unfold lives in L. assert (b' < List.length (buffers m)) by (apply nth_error_Some; rewrite L; discriminate). lia.
    + auto.
    + pose proof (H7 (ex_intro _ b eq_refl)) as H7'. intros V i X. split.
      * intros b' E. destruct X as [X|X]; [apply K6; apply (proj1 (H7' i X)); exact E|].
        destruct (H4 i) as [E'|(X' & _)].
        -- apply (proj1 (K7 V i X)). rewrite E'. exact E.
        -- apply K6. apply (proj1 (H7' i X')). exact E.
      * destruct X as [X|X].
        -- destruct (H7' i X) as (_ & b' & E & L). destruct (K4 i) as [E'|(_ & b'' & E' & L')]; [exists b'; rewrite E'; auto|exists b''; split; [exact E'|lia]].
        -- destruct (K7 V i X) as (_ & b' & E & L). exists b'. split; [exact E|lia].
  - rewrite H1. cbn [fst snd]. split; [reflexivity|]. split; [exact H2|]. split; [exact H3|]. split; [|split; [|split]].
    + intros i. destruct (H4 i) as [E|(X & E)]; auto.
    + intros b t L N. apply H5; auto.
    + exact H6.
    + intros (v & V). discriminate.
Qed.
Lemma good_text : forall A C D (Q : mem -> C -> D -> Prop) (c : call A) o k k' (r1 r2 : nat -> Prop),
  good same c o r1 -> (forall b, good Q (k b) (k' b) r2) -> good Q (then_ c k) (bind o k') (fun i => r1 i \/ r2 i).
Proof.
  intros A C D Q c o k k' r1 r2 G K. eapply good_then; [exact G|]. intros b _ m a S -> m' ->. apply K. exact S.
Qed.
Lemma good_read : forall D (Q : mem -> D -> D -> Prop) c o (k : text -> call D) k' (r1 r2 : nat -> Prop),
  good shows c o r1 -> (forall b, good Q (k b) (k' b) r2) -> good Q (then_ c (fun p => then_ (read_now p) k)) (bind o k') (fun i => r1 i \/ r2 i).
Proof.
  intros D Q c o k k' r1 r2 G K. eapply good_then; [exact G|]. intros b _ m a S E m' ->. unfold shows in E. unfold then_, read_now. rewrite E. apply K. exact S.
Qed.

Lemma give_back_length : forall l b, List.length (give_back l b) = List.length l.
Proof. induction l as [|x l IH]; intros [|b]; cbn; auto. Qed.
Lemma give_back_same : forall l b, b < List.length l -> nth_error (give_back l b) b = Some None.
Proof. induction l as [|x l IH]; intros [|b] H; cbn in *; try lia; auto. apply IH. lia. Qed.
Lemma give_back_other : forall l b c, c <> b -> nth_error (give_back l b) c = nth_error l c.
Proof. induction l as [|x l IH]; intros [|b] [|c] H; cbn; try congruence; auto. Qed.
Lemma give_back_dead : forall l b c, nth_error l c = Some None -> nth_error (give_back l b) c = Some None.
Proof.
  intros l b c H. destruct (Nat.eq_dec c b) as [->|N]; [|rewrite give_back_other by exact N; exact H].
  apply give_back_same. apply nth_error_Some. rewrite H. discriminate.
Qed.
Definition kept (m : mem) (id : nat) : list (option text) := match description m id with None => buffers m | Some b => give_back (buffers m) b end.
Lemma kept_length : forall m id, List.length (kept m id) = List.length (buffers m).
Proof. intros m id. unfold kept. destruct (description m id); [apply give_back_length|reflexivity]. Qed.
Lemma nth_kept : forall m id b x, nth_error (kept m id) b = Some x -> nth_error (kept m id ++ [x]) b = Some x.
Proof. intros m id b x H. rewrite nth_error_app1; [exact H|]. apply nth_error_Some. rewrite H. discriminate. Qed.
Lemma good_assign : forall id t, good shows (fun m => (Ok (Buffer (List.length (buffers m))), assign m id t)) (Ok t) (eq id).
Proof.
  intros id t m S. cbn [fst snd].
  assert (New : lives (assign m id t) (List.length (buffers m)) t).
  { unfold lives, assign. cbn. fold (kept m id). rewrite nth_error_app2; rewrite kept_length; [|lia]. rewrite Nat.sub_diag. reflexivity. }
  assert (Old : forall b t', lives m b t' -> description m id <> Some b -> lives (assign m id t) b t').
  { intros b t' L N. unfold lives, assign. cbn. fold (kept m id). assert (b < List.length (buffers m)) by (apply nth_error_Some; unfold lives in L; rewrite L; discriminate).
    rewrite nth_error_app1 by (rewrite kept_length; lia). unfold kept. destruct (description m id) as [c|]; [|exact L]. rewrite give_back_other; [exact L|congruence]. }
  split; [|split; [|split; [|split; [|split; [|split]]]]].
  - exists (Buffer (List.length (buffers m))). split; [reflexivity|]. unfold shows, read. unfold lives in New. rewrite New. reflexivity.
  - intros i b E. cbn in E. destruct (Nat.eqb_spec i id) as [->|N].
    + injection E as <-. split; [exists t; exact New|]. intros j. cbn. destruct (Nat.eqb_spec j id) as [->|N]; [reflexivity|]. intros E. destruct (S _ _ E) as ((t' & L) & _).
      unfold lives in L. assert (List.length (buffers m) < List.length (buffers m)) by (apply nth_error_Some; rewrite L; discriminate). lia.
    + destruct (S _ _ E) as ((t' & L) & U). split.
      * exists t'. apply Old; [exact L|]. intros F. apply N. symmetry. apply U. exact F.
      * intros j. cbn. destruct (Nat.eqb_spec j id) as [->|N']; [|apply U]. intros F. injection F as <-.
        unfold lives in L. assert (List.length (buffers m) < List.length (buffers m)) by (apply nth_error_Some; rewrite L; discriminate). lia.
  - cbn. fold (kept m id). rewrite app_length, kept_length. lia.
  - intros i. cbn. destruct (Nat.eqb_spec i id) as [->|N]; [|auto]. right. split; [reflexivity|]. eexists. split; [reflexivity|lia].
  - intros b t' L N. apply Old; [exact L|]. apply N. reflexivity.
  - intros b H. unfold dead, assign. cbn. fold (kept m id). assert (b < List.length (buffers m)) by (apply nth_error_Some; unfold dead in H; rewrite H; discriminate).
    rewrite nth_error_app1 by (rewrite kept_length; lia). unfold kept. destruct (description m id) as [c|]; [apply give_back_dead|]; exact H.
  - intros _ i <-. split; [|cbn; rewrite Nat.eqb_refl; eexists; split; [reflexivity|lia]]. intros b E. unfold dead, assign. cbn. destruct (S _ _ E) as ((t' & L) & _). rewrite E.
    assert (b < List.length (buffers m)) by (apply nth_error_Some; unfold lives in L; rewrite L; discriminate).
    rewrite nth_error_app1 by (rewrite give_back_length; lia). apply give_back_same. lia.
Qed.

Section Ind.
Variable P : object -> Prop.
Hypothesis HPlain : forall c name what base, (forall n, base = Nested n -> P n) -> P (Plain c name what base).
Hypothesis HStack : forall i name nesting nested base, P nesting -> (forall n, nested = Some n -> P n) -> (forall n, base = Nested n -> P n) -> P (Stack i name nesting nested base).
Fixpoint object_induction (x : object) : P x :=
  let base_ind (base : nest object) : forall n, base = Nested n -> P n :=
    match base with
    | Nested m => fun n E => match E in _ = b return match b with Nested k => P k | _ => True end with eq_refl => object_induction m end
    | NoNested => fun n E => match E in _ = b return match b with Nested k => P k | _ => True end with eq_refl => I end
    | NullNested => fun n E => match E in _ = b return match b with Nested k => P k | _ => True end with eq_refl => I end
    end in
  match x with
  | Plain c name what base => HPlain c name what base (base_ind base)
  | Stack i name nesting nested base => HStack i name nesting nested base (object_induction nesting)
      (match nested return forall n, nested = Some n -> P n with
       | Some m => fun n E => match E in _ = b return match b with Some k => P k | _ => True end with eq_refl => object_induction m end
       | None => fun n E => match E in _ = b return match b with Some k => P k | _ => True end with eq_refl => I end
       end) (base_ind base)
  end.
End Ind.

Section E.
Variable gnu : bool.
Definition fine (x : object) : Prop :=
  let p := printers_of gnu (forget x) in let c := calls_of gnu x in
  good shows (c_what c) (what_of p) (asked What x) /\ (forall ind, good same (c_to_string c ind) (to_string_of p ind) (asked ToString x)) /\
  (forall ind, good same (c_method c ind) (method_of p ind) (asked Method x)) /\ (forall ind, good same (c_current c ind) (current_of p ind) (asked Current x)).
Definition rest (base : nest object) (ind : text) : call text :=
  match base with
  | NoNested => return_ []
  | NullNested => terminate
  | Nested n =>
      t <~ (if obj_is_std n then c_to_string (calls_of gnu n) ind else c_current (calls_of gnu n) ind) ;;
      return_ (newline ++ t)
  end.
Definition pure_rest (base : nest object) (ind : text) : outcome text :=
  match base with
  | NoNested => Ok []
  | NullNested => Terminate
  | Nested n =>
      t <- (if is_std (forget n) then to_string_of (printers_of gnu (forget n)) ind else current_of (printers_of gnu (forget n)) ind) ;;
      Ok (newline ++ t)
  end.
Definition in_base (base : nest object) (i : nat) : Prop := exists n, base = Nested n /\ asked (shown n) n i.
Lemma forget_std : forall x, is_std (forget x) = obj_is_std x.
Proof. destruct x as [[] ? ? ?|]; reflexivity. Qed.
Lemma forget_utki : forall x, is_utki (forget x) = obj_is_utki x.
Proof. destruct x as [[] ? ? ?|]; reflexivity. Qed.
Lemma good_shown : forall n ind, fine n ->
  good same (if obj_is_std n then c_to_string (calls_of gnu n) ind else c_current (calls_of gnu n) ind)
    (if is_std (forget n) then to_string_of (printers_of gnu (forget n)) ind else current_of (printers_of gnu (forget n)) ind) (asked (shown n) n).
Proof. intros n ind (_ & T & _ & C). rewrite forget_std. unfold shown. destruct (obj_is_std n); [apply T|apply C]. Qed.
Lemma good_rest : forall base ind, (forall n, base = Nested n -> fine n) -> good same (rest base ind) (pure_rest base ind) (in_base base).
Proof.
  intros base ind H. destruct base as [| |n]; cbn [rest pure_rest].
  - eapply good_eq; [apply good_return|reflexivity|]. intros i. split; [intros (n & E & _); discriminate|tauto].
  - apply good_terminate.
  - eapply good_eq; [eapply good_text; [apply good_shown; apply H; reflexivity|intros b; apply good_return]|reflexivity|].
    intros i. unfold in_base. split; [intros (n' & E & A); injection E as <-; auto|]. intros [A|[]]. eauto.
Qed.
Definition to_string_with (name : text) (what : call pointer) (base : nest object) (ind : text) : call text :=
  p <~ what ;;
  w <~ read_now p ;;
  r <~ rest base ind ;;
  return_ (ind ++ name ++ zstr ": " ++ w ++ r).
Lemma good_to_string : forall name what o base ind r, good shows what o r -> (forall n, base = Nested n -> fine n) ->
  good same (to_string_with name what base ind) (w <- o ;; r <- pure_rest base ind ;; Ok (ind ++ name ++ zstr ": " ++ w ++ r)) (fun i => r i \/ in_base base i).
Proof.
  intros name what o base ind r W H. unfold to_string_with.
  eapply good_eq; [apply (good_read _ same what o _ (fun w => r <- pure_rest base ind ;; Ok (ind ++ name ++ zstr ": " ++ w ++ r)) r (fun i => in_base base i \/ False) W)|reflexivity|intros i; tauto].
  intros w. eapply good_text; [apply good_rest; exact H|]. intros b. apply good_return.
Qed.
Definition method_with (nesting : object) (nested : option object) (ind : text) : call text :=
  h <~ c_to_string (calls_of gnu nesting) [] ;;
  t <~ match nested with
       | None => terminate
       | Some n => if obj_is_utki n then c_method (calls_of gnu n) ind
                   else if obj_is_std n then c_to_string (calls_of gnu n) ind
                   else c_current (calls_of gnu n) ind
       end ;;
  return_ (ind ++ h ++ newline ++ t).
Lemma all_fine : forall x, fine x.
Proof.
  induction x as [c name what base IH|i name nesting nested base IHn IHd IHb] using object_induction.
  - assert (W : good shows (return_ (Fixed what)) (Ok what) (fun _ => False)).
    { eapply good_eq with (r' := fun _ => False); [|reflexivity|tauto]. intros m S. destruct (good_return _ (Fixed what) m S) as (_ & X). split; [|destruct X as (X1 & X2 & X3 & X4 & X5 & X6); split; [exact X1|]; repeat split; auto; tauto].
      exists (Fixed what). split; reflexivity. }
    assert (B : forall ind, pure_rest base ind = match base with NoNested => Ok [] | NullNested => Terminate | Nested n =>
      t <- (if is_std (forget n) then to_string_of (printers_of gnu (forget n)) ind else current_of (printers_of gnu (forget n)) ind) ;; Ok (newline ++ t) end) by reflexivity.
    assert (T : forall i, asked ToString (Plain c name what base) i <-> in_base base i).
    { intros i. split; [|intros (n & -> & A); eapply asks_base; [reflexivity|exact A]]. intros A. inversion A; subst; [inversion H|]. cbn in H. exists n. auto. }
    split; [|split; [|split]].
    + eapply good_eq; [exact W|reflexivity|]. intros i. split; [intros A; inversion A|tauto].
    + intros ind. eapply good_eq; [apply (good_to_string name _ _ base ind _ W IH)| |].
      * cbn [forget printers_of to_string_of]. destruct base; reflexivity.
      * intros i. rewrite T. tauto.
    + intros ind. eapply good_eq; [apply (good_to_string name _ _ base [] _ W IH)| |].
      * cbn [forget printers_of method_of]. destruct base; reflexivity.
      * intros i. split; [intros A; inversion A; subst; right; apply T; assumption|]. intros [[]|A]. apply asks_plain. apply T. exact A.
    + intros ind. eapply good_eq; [eapply good_text; [apply (good_rest base ind IH)|intros b; apply good_return]| |].
      * cbn [forget printers_of current_of]. destruct base; reflexivity.
      * intros i. split; [intros A; inversion A; subst; left; exists n; auto|]. intros [(n & -> & A)|[]]. eapply asks_current; [reflexivity|exact A].
  - assert (M : forall ind, good same (c_method (calls_of gnu (Stack i name nesting nested base)) ind) (method_of (printers_of gnu (forget (Stack i name nesting nested base))) ind)
      (asked Method (Stack i name nesting nested base))).
    { intros ind. destruct IHn as (_ & T & _). change (c_method (calls_of gnu (Stack i name nesting nested base)) ind) with (method_with nesting nested ind). unfold method_with.
      eapply good_eq; [eapply good_text with (r2 := fun j => (exists n, nested = Some n /\ asked (listed n) n j) \/ False); [apply T|]| |].
      - intros h. eapply good_text with (o := match nested with None => Terminate | Some n => if is_utki (forget n) then method_of (printers_of gnu (forget n)) ind
          else if is_std (forget n) then to_string_of (printers_of gnu (forget n)) ind else current_of (printers_of gnu (forget n)) ind end); [|intros t; apply good_return].
        destruct nested as [n|]; [|apply good_terminate]. destruct (IHd n eq_refl) as (_ & T' & M' & C'). rewrite forget_std, forget_utki.
        eapply good_eq with (r' := asked (listed n) n); [|reflexivity|].
        + unfold listed, shown. destruct (obj_is_utki n); [apply M'|]. destruct (obj_is_std n); [apply T'|apply C'].
        + intros j. split; [intros (n' & E & A); injection E as <-; exact A|]. intros A. eauto.
      - cbn [forget printers_of method_of]. destruct nested; reflexivity.
      - intros j. split; [intros A; inversion A; subst; eauto|]. intros [A|[(n & -> & A)|[]]]; [apply asks_nesting; exact A|apply asks_nested; exact A]. }
    assert (W : good shows (c_what (calls_of gnu (Stack i name nesting nested base))) (what_of (printers_of gnu (forget (Stack i name nesting nested base)))) (asked What (Stack i name nesting nested base))).
    { assert (X : good shows (c_what (calls_of gnu (Stack i name nesting nested base)))
        (t <- method_of (printers_of gnu (forget (Stack i name nesting nested base))) (zstr "- ") ;; Ok (zstr "exception stack:" ++ newline ++ t))
        (fun j => asked Method (Stack i name nesting nested base) j \/ i = j)).
      { change (c_what (calls_of gnu (Stack i name nesting nested base))) with (t <~ c_method (calls_of gnu (Stack i name nesting nested base)) (zstr "- ") ;;
          fun m => (Ok (Buffer (List.length (buffers m))), assign m i (zstr "exception stack:" ++ newline ++ t))).
        eapply good_text; [apply M|]. intros t. apply good_assign. }
      eapply good_eq; [exact X| |].
      - specialize (X start). cbn zeta in X. assert (S0 : sound start) by (intros a b E; discriminate E). specialize (X S0). destruct X as (X & _).
        change (what_of (printers_of gnu (forget (Stack i name nesting nested base)))) with
          (match (t <- method_of (printers_of gnu (forget (Stack i name nesting nested base))) (zstr "- ") ;; Ok (zstr "exception stack:" ++ newline ++ t)) with
           | Throw BadAlloc => Ok (zstr "std::bad_alloc") | Throw _ => Ok (zstr "error") | r => r end).
        destruct (method_of _ _); cbn [bind] in *; try reflexivity. destruct X.
      - intros j. split; [intros A; inversion A; subst; auto|]. intros [A|<-]; [apply asks_listed; exact A|apply asks_itself]. }
    split; [exact W|]. split; [|split; [exact M|]].
    + intros ind. eapply good_eq; [apply (good_to_string name _ _ base ind _ W IHb)| |].
      * cbn [forget printers_of to_string_of]. destruct base; reflexivity.
      * intros j. split; [intros A; inversion A; subst; [auto|right; exists n; auto]|].
        intros [A|(n & -> & A)]; [apply asks_what; exact A|eapply asks_base; [reflexivity|exact A]].
    + intros ind. eapply good_eq; [eapply good_text; [apply (good_rest base ind IHb)|intros b; apply good_return]| |].
      * cbn [forget printers_of current_of]. destruct base; reflexivity.
      * intros j. split; [intros A; inversion A; subst; left; exists n; auto|]. intros [(n & -> & A)|[]]. eapply asks_current; [reflexivity|exact A].
Qed.

Definition any {A B} (m : mem) (a : A) (b : B) : Prop := True.
Lemma good_any : forall A B (R : mem -> A -> B -> Prop) (c : call A) o r, good R c o r ->
  good any (_ <~ c ;; return_ tt) (_ <- o ;; Ok tt) r.
Proof.
  intros A B R c o r G. eapply good_eq; [eapply good_then with (r2 := fun _ => False); [exact G|]|reflexivity|intros i; tauto].
  intros b _ m a S _ m' _. destruct (good_return _ tt m S) as (H & X). split; [|exact X]. exists tt. split; [reflexivity|exact I].
Qed.
Lemma perform_good : forall u, exists o : outcome unit, good any (perform gnu u) o (asked (use_kind u) (use_object u)).
Proof.
  intros [k x ind]. destruct (all_fine x) as (W & T & M & C). unfold perform. cbn [use_kind use_object use_ind].
  destruct k; eexists; [eapply good_any; apply W|eapply good_any; apply T|eapply good_any; apply M|eapply good_any; apply C].
Qed.
Lemma start_sound : sound start.
Proof. intros i b E. discriminate E. Qed.
Lemma runs_sound : forall us m m', runs gnu us m m' -> sound m -> sound m'.
Proof.
  intros us m m' R. induction R as [m|u us m m1 m2 E R IH]; intros S; [exact S|]. apply IH. destruct (perform_good u) as (o & G). destruct (G m S) as (_ & S' & _). rewrite E in S'. exact S'.
Qed.
Lemma texts : forall us m x ind, runs gnu us start m -> let c := calls_of gnu x in let p := printers_of gnu (forget x) in
  fst ((q <~ c_what c ;; read_now q) m) = what_of p /\ fst (c_to_string c ind m) = to_string_of p ind /\
  fst (c_method c ind m) = method_of p ind /\ fst (c_current c ind m) = current_of p ind.
Proof.
  intros us m x ind R c p. pose proof (runs_sound us start m R start_sound) as S. destruct (all_fine x) as (W & T & M & C). fold c p in W, T, M, C.
  assert (X : forall (d : call text) o r, good same d o r -> fst (d m) = o).
  { intros d o r G. destruct (G m S) as (H & _). destruct o; try (destruct H; fail); [|exact H]. destruct H as (b & E & ->). exact E. }
  split; [|split; [|split]]; [|eapply X; apply T|eapply X; apply M|eapply X; apply C].
  destruct (W m S) as (H & _). unfold then_. destruct (c_what c m) as [q m1]. cbn [fst snd] in H. destruct (what_of p); try (destruct H; fail).
  - destruct H as (q' & -> & E). exact E.
  - subst q. reflexivity.
Qed.
Lemma what_pointer : forall i name nesting nested base m p m1, c_what (calls_of gnu (Stack i name nesting nested base)) m = (Ok p, m1) ->
  exists b, p = Buffer b /\ description m1 i = Some b.
Proof.
  intros i name nesting nested base m p m1 E.
  change (c_what (calls_of gnu (Stack i name nesting nested base))) with (t <~ c_method (calls_of gnu (Stack i name nesting nested base)) (zstr "- ") ;;
    fun m => (Ok (Buffer (List.length (buffers m))), assign m i (zstr "exception stack:" ++ newline ++ t))) in E.
  unfold then_ in E. destruct (c_method _ _ m) as [[t| | | | |] m']; try discriminate. injection E as <- <-. eexists. split; [reflexivity|]. cbn. rewrite Nat.eqb_refl. reflexivity.
Qed.
Lemma what_sound : forall x m p m1, sound m -> c_what (calls_of gnu x) m = (Ok p, m1) -> sound m1 /\ exists t, read m1 p = Ok t /\ what_of (printers_of gnu (forget x)) = Ok t.
Proof.
  intros x m p m1 S E. destruct (all_fine x) as (W & _). destruct (W m S) as (H & S1 & _). rewrite E in H, S1. cbn [fst snd] in *. split; [exact S1|].
  destruct (what_of _) as [t| | | | |]; try (destruct H; fail); [|discriminate]. destruct H as (q & F & X). injection F as <-. exists t. auto.
Qed.
Lemma runs_keep : forall us m m', runs gnu us m m' -> forall i b t, sound m -> description m i = Some b -> lives m b t ->
  (forall u, In u us -> ~ asked (use_kind u) (use_object u) i) -> lives m' b t.
Proof.
  intros us m m' R. induction R as [m|u us m m1 m2 E R IH]; intros i b t S D L N; [exact L|]. destruct (perform_good u) as (o & G).
  destruct (G m S) as (_ & S' & _ & H4 & H5 & _). rewrite E in S', H4, H5. cbn [fst snd] in *. apply (IH i b t S').
  - destruct (H4 i) as [F|(A & _)]; [rewrite F; exact D|]. destruct (N u (or_introl eq_refl) A).
  - apply H5; [exact L|]. intros j A F. destruct (S _ _ D) as (_ & U). pose proof (U j F) as ->. exact (N u (or_introl eq_refl) A).
  - intros v I. apply N. right. exact I.
Qed.
Lemma runs_dead : forall us m m', runs gnu us m m' -> forall b, sound m -> dead m b -> dead m' b.
Proof.
  intros us m m' R. induction R as [m|u us m m1 m2 E R IH]; intros b S D; [exact D|]. destruct (perform_good u) as (o & G).
  destruct (G m S) as (_ & S' & _ & _ & _ & H6 & _). rewrite E in S', H6. cbn [fst snd] in *. auto.
Qed.
Lemma runs_kill : forall us m m', runs gnu us m m' -> forall i b, sound m -> description m i = Some b ->
  (exists u, In u us /\ asked (use_kind u) (use_object u) i) -> dead m' b.
Proof.
  intros us m m' R. induction R as [m|u us m m1 m2 E R IH]; intros i b S D (v & I & A); [destruct I|]. destruct (perform_good u) as (o & G).
  destruct (G m S) as (H1 & S' & _ & H4 & _ & H6 & H7). rewrite E in H1, S', H4, H6, H7. cbn [fst snd] in *.
  assert (O : exists x, o = Ok x) by (destruct o; try (destruct H1; fail); [eauto|discriminate]).
  destruct I as [->|I].
  - apply (runs_dead _ _ _ R b S'). apply (proj1 (H7 O i A)). exact D.
  - destruct (H4 i) as [F|(A' & _)].
    + apply (IH i b S'); [rewrite F; exact D|eauto].
    + apply (runs_dead _ _ _ R b S'). apply (proj1 (H7 O i A')). exact D.
Qed.
Lemma writes : forall us m u m1, runs gnu us start m -> perform gnu u m = (Ok tt, m1) ->
  forall i, asked (use_kind u) (use_object u) i <-> description m1 i <> description m i.
Proof.
  intros us m u m1 R E i. pose proof (runs_sound _ _ _ R start_sound) as S. destruct (perform_good u) as (o & G).
  destruct (G m S) as (H1 & _ & _ & H4 & _ & _ & H7). rewrite E in *. cbn [fst snd] in *.
  assert (O : exists x, o = Ok x) by (destruct o; try (destruct H1; fail); [eauto|discriminate]). split.
  - intros A F. destruct (H7 O i A) as (_ & b & D & L). rewrite F in D. destruct (S _ _ D) as ((t & T) & _). unfold lives in T.
    assert (b < List.length (buffers m)) by (apply nth_error_Some; rewrite T; discriminate). lia.
  - intros N. destruct (H4 i) as [F|(A & _)]; [contradiction|exact A].
Qed.
Lemma pointer_keeps : forall us us' i name nesting nested base m p m1 m2, runs gnu us start m ->
  c_what (calls_of gnu (Stack i name nesting nested base)) m = (Ok p, m1) -> runs gnu us' m1 m2 -> (forall u, In u us' -> ~ asked (use_kind u) (use_object u) i) ->
  read m2 p = what_of (printers_of gnu (forget (Stack i name nesting nested base))).
Proof.
  intros us us' i name nesting nested base m p m1 m2 R E R' N. destruct (what_sound _ m p m1 (runs_sound _ _ _ R start_sound) E) as (S1 & t & L & ->).
  destruct (what_pointer _ _ _ _ _ _ _ _ E) as (b & -> & D). cbn [read] in *. assert (X : lives m1 b t) by (unfold lives; destruct (nth_error _ b) as [[x|]|]; try discriminate; congruence).
  pose proof (runs_keep _ _ _ R' i b t S1 D X N) as Y. unfold lives in Y. rewrite Y. reflexivity.
Qed.
Lemma pointer_dangles : forall us us' i name nesting nested base m p m1 m2, runs gnu us start m ->
  c_what (calls_of gnu (Stack i name nesting nested base)) m = (Ok p, m1) -> runs gnu us' m1 m2 -> (exists u, In u us' /\ asked (use_kind u) (use_object u) i) ->
  read m2 p = UB UseAfterFree.
Proof.
  intros us us' i name nesting nested base m p m1 m2 R E R' N. destruct (what_sound _ m p m1 (runs_sound _ _ _ R start_sound) E) as (S1 & _).
  destruct (what_pointer _ _ _ _ _ _ _ _ E) as (b & -> & D). pose proof (runs_kill _ _ _ R' i b S1 D N) as Y. unfold dead in Y. cbn. rewrite Y. reflexivity.
Qed.
End E.
Lemma thrown_asks : forall x, thrown x -> forall i, ~ asked Method x i /\ ~ asked (shown x) x i \/ exists j name nesting nested base, x = Stack j name nesting nested base /\ ~ asked Method x i.
Proof.
  intros x T. induction T as [c name what|j name c n w x T IH]; intros i.
  - left. assert (H : ~ asked ToString (Plain c name what NoNested) i) by (intros A; inversion A; subst; [inversion H|discriminate]). split.
    + intros A. inversion A; subst. contradiction.
    + unfold shown. destruct (obj_is_std _); [exact H|]. intros A. inversion A; subst. discriminate.
  - right. exists j, name, (Plain c n w NoNested), (Some x), NoNested. split; [reflexivity|]. intros A. inversion A; subst.
    + match goal with Q : asked ToString _ _ |- _ => inversion Q; subst end; [|discriminate]. match goal with Q : asked What _ _ |- _ => inversion Q end.
    + match goal with Q : asked (listed x) _ _ |- _ => rename Q into B end. unfold listed in B.
      destruct (IH i) as [(X & Y)|(j' & ? & ? & ? & ? & -> & X)]; [destruct (obj_is_utki x)|]; contradiction.
Qed.
Lemma thrown_method : forall x i, thrown x -> ~ asked Method x i.
Proof. intros x i T. destruct (thrown_asks x T i) as [(X & _)|(? & ? & ? & ? & ? & -> & X)]; exact X. Qed.
Lemma thrown_only : forall k i name nesting nested base j, thrown (Stack i name nesting nested base) -> asked k (Stack i name nesting nested base) j -> j = i /\ (k = What \/ k = ToString).
Proof.
  intros k i name nesting nested base j T A. assert (B : base = NoNested) by (inversion T; reflexivity). subst base.
  inversion A; subst; auto; try discriminate; try (destruct (thrown_method _ j T); assumption).
  match goal with Q : asked What _ _ |- _ => inversion Q; subst end; auto. destruct (thrown_method _ j T). assumption.
Qed.

(** Proofs about exception texts in a process that runs out of memory *)
From Coq Require Import String.
From Verif Require Import Base StrLit ExceptModel ExceptProofs ExceptAllocModel ExceptAllocSpec.
Local Open Scope string_scope. Local Open Scope list_scope. Local Open Scope Z_scope.

Section Rel.
Variable mangled : text -> text.
Notation damaged := (damaged mangled).
Definition rel {A B} (R : A -> B -> Prop) (m : run A) (o : outcome B) : Prop :=
  ends o \/ forall f,
  match fst (m f) with
  | Ok a => exists b, o = Ok b /\ R a b
  | Throw BadAlloc => True
  | Throw e => o = Throw e
  | UB u => o = UB u
  | Abort => o = Abort
  | Terminate => o = Terminate
  | Diverge => o = Diverge
  end.
Lemma rel_bind : forall A B C D (R : A -> B -> Prop) (Q : C -> D -> Prop) m o k k', rel R m o -> (forall a b, R a b -> rel Q (k a) (k' b)) ->
  rel Q (and_then m k) (bind o k').
Proof.
  intros A B C D R Q m o k k' [H|H] K; [left; destruct o; cbn in *; tauto|].
  destruct o as [b|e|u| | |]; try (left; exact I).
  - destruct (k' b) as [d|x|u| | |] eqn:E; try (left; cbn; rewrite E; exact I); right; intros f; specialize (H f); unfold and_then;
      (destruct (m f) as [[a|y|v| | |] g]; cbn in H |- *;
       [destruct H as (b' & Eb & Rb); injection Eb as <-; destruct (K a b Rb) as [W|W]; [rewrite E in W; destruct W|];
        specialize (W g); rewrite E in W; rewrite E; exact W
       |destruct y; try exact I; discriminate|discriminate|discriminate|discriminate|discriminate]).
  - right. intros f. specialize (H f). unfold and_then. destruct (m f) as [[a|y|v| | |] g]; cbn in H |- *; try discriminate.
    + destruct H as (b & Eb & _). discriminate.
    + destruct y; try exact I; injection H as ->; reflexivity.
Qed.
Lemma rel_ret : forall A B (R : A -> B -> Prop) a b, R a b -> rel R (ret a) (Ok b).
Proof. intros A B R a b H. right. intros f. cbn. exists b. auto. Qed.
Lemma rel_lift : forall A (R : A -> A -> Prop) o, (forall a, R a a) -> rel R (lift o) o.
Proof. intros A R o H. right. intros f. cbn. destruct o as [a|e|u| | |]; try reflexivity; [exists a; auto|destruct e; auto]. Qed.
Lemma rel_weaken : forall A B (R Q : A -> B -> Prop) m o, (forall a b, R a b -> Q a b) -> rel R m o -> rel Q m o.
Proof.
  intros A B R Q m o H [W|W]; [left; exact W|right]. intros f. specialize (W f). destruct (fst (m f)) as [a|e|u| | |]; try exact W.
  destruct W as (b & E & X). exists b. auto.
Qed.
Lemma rel_new : forall t t', damaged t t' -> rel damaged (new_string t) (Ok t').
Proof.
  intros t t' D. right. intros f. unfold new_string, allocate, and_then. destruct f as [|[n|] f]; cbn; eauto.
Qed.
Definition holds (s : stream) (t : text) : Prop := damaged (fst s) t.
Lemma damaged_nil : forall t, damaged [] t.
Proof. intros t. apply (beginning _ 0 t t). apply whole. Qed.
Lemma rel_insert : forall s p t t', holds s p -> damaged t t' -> rel holds (insert s t) (Ok (p ++ t')).
Proof.
  intros s p t t' S D. right. intros f. unfold insert. destruct s as [x b]. unfold holds in *. cbn in *. destruct b.
  - cbn. exists (p ++ t'). split; [reflexivity|]. rewrite <- (app_nil_r x). apply parts; [exact S|apply damaged_nil].
  - unfold allocate, and_then. destruct f as [|[n|] f]; cbn; eexists; (split; [reflexivity|]); cbn; apply parts; try assumption. apply beginning. exact D.
Qed.
Lemma rel_str : forall s p, holds s p -> rel damaged (str s) (Ok p).
Proof. intros s p S. apply rel_new. exact S. Qed.
Lemma rel_demangle : forall gnu n, rel damaged (demangle gnu mangled n) (Ok n).
Proof.
  intros gnu n. unfold demangle. destruct gnu; [|apply rel_new; apply whole].
  right. intros f. unfold and_then, allocate, new_string. destruct f as [|[x|] [|[y|] f]]; cbn; try exact I; eexists; (split; [reflexivity|]); constructor.
Qed.
Lemma rel_current_type : forall gnu n, rel damaged (a_current_type gnu mangled n) (Ok (current_type gnu n)).
Proof. intros gnu n. unfold a_current_type, current_type. destruct gnu; [apply rel_demangle|apply rel_new; apply whole]. Qed.

Section E.
Variable gnu : bool.
Definition fine (e : exn) : Prop :=
  let p := printers_of gnu e in let a := alloc_printers_of gnu mangled e in
  rel damaged (a_what a) (what_of p) /\ (forall ind, rel damaged (a_to_string a ind) (to_string_of p ind)) /\
  (forall ind, rel damaged (a_method a ind) (method_of p ind)) /\ (forall ind, rel damaged (a_current a ind) (current_of p ind)).

(** the local functions of the fixpoints *)
Definition rest (base : nest exn) (ind : text) : outcome text :=
  match base with
  | NoNested => Ok []
  | NullNested => Terminate
  | Nested n =>
      t <- (if is_std n then to_string_of (printers_of gnu n) ind else current_of (printers_of gnu n) ind) ;;
      Ok (newline ++ t)
  end.
Definition a_rest (base : nest exn) (ind : text) (ss : stream) : run stream :=
  match base with
  | NoNested => ret ss
  | NullNested => lift Terminate
  | Nested n =>
      ss <~ insert ss newline ;;
      t <~ (if is_std n then a_to_string (alloc_printers_of gnu mangled n) ind else a_current (alloc_printers_of gnu mangled n) ind) ;;
      insert ss t
  end.
Lemma rel_eq : forall A B (R : A -> B -> Prop) m o o', o = o' -> rel R m o' -> rel R m o.
Proof. intros. subst. assumption. Qed.
Lemma rel_rest : forall base ind s p, (forall n, base = Nested n -> fine n) -> holds s p ->
  rel holds (a_rest base ind s) (t <- rest base ind ;; Ok (p ++ t)).
Proof.
  intros base ind s p H S. destruct base as [| |n]; cbn [a_rest rest bind].
  - rewrite app_nil_r. apply rel_ret. exact S.
  - left. exact I.
  - destruct (H n eq_refl) as (_ & T & _ & C).
    eapply rel_eq with (o' := p' <- Ok (p ++ newline) ;; t <- (if is_std n then to_string_of (printers_of gnu n) ind else current_of (printers_of gnu n) ind) ;; Ok (p' ++ t)).
    + cbn [bind]. destruct (if is_std n then _ else _); cbn [bind]; try reflexivity. rewrite <- app_assoc. reflexivity.
    + eapply rel_bind; [apply rel_insert; [exact S|apply whole]|]. intros s' p' S'.
      eapply rel_bind with (R := damaged); [destruct (is_std n); [apply T|apply C]|]. intros t t' D. apply rel_insert; assumption.
Qed.
Definition to_string_with (name : text) (what : outcome text) (base : nest exn) (ind : text) : outcome text :=
  w <- what ;; r <- rest base ind ;; Ok (ind ++ name ++ zstr ": " ++ w ++ r).
Definition a_to_string_with (name : text) (what : run text) (base : nest exn) (ind : text) : run text :=
  ss <~ insert empty_stream ind ;;
  t <~ demangle gnu mangled name ;;
  ss <~ insert ss t ;;
  ss <~ insert ss (zstr ": ") ;;
  w <~ what ;;
  ss <~ insert ss w ;;
  ss <~ a_rest base ind ss ;;
  str ss.
Lemma rel_to_string : forall name what a_what base ind, (forall n, base = Nested n -> fine n) -> rel damaged a_what what ->
  rel damaged (a_to_string_with name a_what base ind) (to_string_with name what base ind).
Proof.
  intros name what aw base ind H W.
  eapply rel_eq with (o' := p <- Ok ([] ++ ind) ;; t <- Ok name ;; p <- Ok (p ++ t) ;; p <- Ok (p ++ zstr ": ") ;; w <- what ;; p <- Ok (p ++ w) ;;
    p <- (r <- rest base ind ;; Ok (p ++ r)) ;; Ok p).
  - unfold to_string_with. cbn [bind app]. destruct what as [w| | | | |]; cbn [bind]; try reflexivity. destruct (rest base ind) as [r| | | | |]; cbn [bind]; try reflexivity.
    rewrite <- !app_assoc. reflexivity.
  - unfold a_to_string_with. eapply rel_bind; [apply rel_insert; [apply damaged_nil|apply whole]|]. intros s p S.
    eapply rel_bind; [apply rel_demangle|]. intros t t' D. eapply rel_bind; [apply rel_insert; [exact S|exact D]|]. intros s1 p1 S1.
    eapply rel_bind; [apply rel_insert; [exact S1|apply whole]|]. intros s2 p2 S2. eapply rel_bind; [exact W|]. intros w w' Dw.
    eapply rel_bind; [apply rel_insert; [exact S2|exact Dw]|]. intros s3 p3 S3. eapply rel_bind; [apply rel_rest; [exact H|exact S3]|]. intros s4 p4 S4.
    apply rel_str. exact S4.
Qed.
Definition current_with (name : text) (base : nest exn) (ind : text) : outcome text :=
  r <- rest base ind ;; Ok (ind ++ current_type gnu name ++ r).
Definition a_current_with (name : text) (base : nest exn) (ind : text) : run text :=
  ss <~ insert empty_stream ind ;;
  t <~ a_current_type gnu mangled name ;;
  ss <~ insert ss t ;;
  ss <~ a_rest base ind ss ;;
  str ss.
Lemma rel_current : forall name base ind, (forall n, base = Nested n -> fine n) -> rel damaged (a_current_with name base ind) (current_with name base ind).
Proof.
  intros name base ind H.
  eapply rel_eq with (o' := p <- Ok ([] ++ ind) ;; t <- Ok (current_type gnu name) ;; p <- Ok (p ++ t) ;; p <- (r <- rest base ind ;; Ok (p ++ r)) ;; Ok p).
  - unfold current_with. cbn [bind app]. destruct (rest base ind) as [r| | | | |]; cbn [bind]; try reflexivity. rewrite <- !app_assoc. reflexivity.
  - unfold a_current_with. eapply rel_bind; [apply rel_insert; [apply damaged_nil|apply whole]|]. intros s p S.
    eapply rel_bind; [apply rel_current_type|]. intros t t' D. eapply rel_bind; [apply rel_insert; [exact S|exact D]|]. intros s1 p1 S1.
    eapply rel_bind; [apply rel_rest; [exact H|exact S1]|]. intros s4 p4 S4. apply rel_str. exact S4.
Qed.
Definition method_with (nesting : exn) (nested : option exn) (ind : text) : outcome text :=
  h <- to_string_of (printers_of gnu nesting) [] ;;
  t <- match nested with
       | None => Terminate
       | Some n => if is_utki n then method_of (printers_of gnu n) ind else if is_std n then to_string_of (printers_of gnu n) ind else current_of (printers_of gnu n) ind
       end ;;
  Ok (ind ++ h ++ newline ++ t).
Definition a_method_with (nesting : exn) (nested : option exn) (ind : text) : run text :=
  ss <~ insert empty_stream ind ;;
  h <~ a_to_string (alloc_printers_of gnu mangled nesting) [] ;;
  ss <~ insert ss h ;;
  match nested with
  | None => lift Terminate
  | Some n =>
      ss <~ insert ss newline ;;
      t <~ (if is_utki n then a_method (alloc_printers_of gnu mangled n) ind
            else if is_std n then a_to_string (alloc_printers_of gnu mangled n) ind
            else a_current (alloc_printers_of gnu mangled n) ind) ;;
      ss <~ insert ss t ;;
      str ss
  end.
Lemma rel_method : forall nesting nested ind, fine nesting -> (forall n, nested = Some n -> fine n) ->
  rel damaged (a_method_with nesting nested ind) (method_with nesting nested ind).
Proof.
  intros nesting nested ind N H. destruct N as (_ & T & _).
  eapply rel_eq with (o' := p <- Ok ([] ++ ind) ;; h <- to_string_of (printers_of gnu nesting) [] ;; p <- Ok (p ++ h) ;;
    match nested with
    | None => Terminate
    | Some n => p <- Ok (p ++ newline) ;;
        t <- (if is_utki n then method_of (printers_of gnu n) ind else if is_std n then to_string_of (printers_of gnu n) ind else current_of (printers_of gnu n) ind) ;;
        p <- Ok (p ++ t) ;; Ok p
    end).
  - unfold method_with. cbn [bind app]. destruct (to_string_of _ _) as [h| | | | |]; cbn [bind]; try reflexivity. destruct nested as [n|]; [|reflexivity].
    cbn [bind]. destruct (if is_utki n then _ else _) as [t| | | | |]; cbn [bind]; try reflexivity. rewrite <- !app_assoc. reflexivity.
  - unfold a_method_with. eapply rel_bind; [apply rel_insert; [apply damaged_nil|apply whole]|]. intros s p S.
    eapply rel_bind; [apply T|]. intros h h' D. eapply rel_bind; [apply rel_insert; [exact S|exact D]|]. intros s1 p1 S1.
    destruct nested as [n|]; [|left; exact I]. destruct (H n eq_refl) as (_ & T' & M' & C').
    eapply rel_bind; [apply rel_insert; [exact S1|apply whole]|]. intros s2 p2 S2.
    eapply rel_bind with (R := damaged); [destruct (is_utki n); [apply M'|destruct (is_std n); [apply T'|apply C']]|]. intros t t' Dt.
    eapply rel_bind; [apply rel_insert; [exact S2|exact Dt]|]. intros s3 p3 S3. apply rel_str. exact S3.
Qed.
Definition what_with (nesting : exn) (nested : option exn) : outcome text :=
  match (t <- method_with nesting nested (zstr "- ") ;; Ok (zstr "exception stack:" ++ newline ++ t)) with
  | Throw BadAlloc => Ok (zstr "std::bad_alloc")
  | Throw _ => Ok (zstr "error")
  | r => r
  end.
Definition a_what_with (nesting : exn) (nested : option exn) : run text := fun f =>
  match (t <~ a_method_with nesting nested (zstr "- ") ;;
         ss <~ insert empty_stream (zstr "exception stack:" ++ newline) ;;
         ss <~ insert ss t ;;
         str ss) f with
  | (Throw BadAlloc, f) => (Ok (zstr "std::bad_alloc"), f)
  | (Throw _, f) => (Ok (zstr "error"), f)
  | r => r
  end.
Lemma rel_what : forall nesting nested, fine nesting -> (forall n, nested = Some n -> fine n) -> rel damaged (a_what_with nesting nested) (what_with nesting nested).
Proof.
  intros nesting nested N H. pose proof (rel_method nesting nested (zstr "- ") N H) as W.
  assert (X : rel damaged (t <~ a_method_with nesting nested (zstr "- ") ;; ss <~ insert empty_stream (zstr "exception stack:" ++ newline) ;; ss <~ insert ss t ;; str ss)
    (t <- method_with nesting nested (zstr "- ") ;; p <- Ok ([] ++ (zstr "exception stack:" ++ newline)) ;; p <- Ok (p ++ t) ;; Ok p)).
  { eapply rel_bind; [exact W|]. intros t t' D. eapply rel_bind; [apply rel_insert; [apply damaged_nil|apply whole]|]. intros s p S.
    eapply rel_bind; [apply rel_insert; [exact S|exact D]|]. intros s1 p1 S1. apply rel_str. exact S1. }
  unfold what_with, a_what_with. destruct (method_with nesting nested (zstr "- ")) as [t|x|u| | |]; cbn [bind] in *; try (left; exact I).
  - destruct X as [X|X]; [destruct X|]. right. intros f. specialize (X f).
    destruct (and_then _ _ f) as [[a|y|v| | |] g]; cbn [fst] in *; try discriminate.
    + destruct X as (b & E & D). injection E as <-. eexists. split; [reflexivity|]. exact D.
    + destruct y; try discriminate. cbn [fst]. eexists. split; [reflexivity|]. apply no_stack.
  - destruct X as [X|X]; [destruct X|]. right. intros f. specialize (X f).
    destruct (and_then _ _ f) as [[a|y|v| | |] g]; cbn [fst] in *; try discriminate.
    + destruct X as (b & E & _). discriminate.
    + destruct y; try (injection X as ->; cbn [fst]; eexists; split; [reflexivity|apply whole]).
      cbn [fst]. destruct x; eexists; (split; [reflexivity|]); try apply no_error. apply whole.
Qed.
Lemma all_fine : forall e, fine e.
Proof.
  induction e as [c name what base IH|name what own base IH|name nesting nested base IHn IHd IHb] using exn_induction.
  - repeat split.
    + apply rel_ret. apply whole.
    + intros ind. apply (rel_to_string name (Ok what) (ret what) base ind IH). apply rel_ret. apply whole.
    + intros ind. apply (rel_to_string name (Ok what) (ret what) base [] IH). apply rel_ret. apply whole.
    + intros ind. exact (rel_current name base ind IH).
  - repeat split.
    + apply rel_ret. apply whole.
    + intros ind. apply (rel_to_string name (Ok what) (ret what) base ind IH). apply rel_ret. apply whole.
    + intros ind. apply rel_lift. intros a. apply whole.
    + intros ind. exact (rel_current name base ind IH).
  - pose proof (rel_what nesting nested IHn IHd) as W. repeat split.
    + exact W.
    + intros ind. exact (rel_to_string name _ _ base ind IHb W).
    + intros ind. exact (rel_method nesting nested ind IHn IHd).
    + intros ind. exact (rel_current name base ind IHb).
Qed.
End E.
Lemma rel_no_worse : forall m o f, rel damaged m o -> no_worse mangled (fst (m f)) o.
Proof.
  intros m o f [H|H]; [left; exact H|right]. specialize (H f). destruct (fst (m f)) as [a|e|u| | |]; try exact H; destruct e; exact H.
Qed.
End Rel.

(** Without faults *)
Definition clean {A} (m : run A) (o : outcome A) : Prop := m [] = (o, []).
Lemma clean_bind : forall A B (m : run A) o (k : A -> run B) k', clean m o -> (forall a, o = Ok a -> clean (k a) (k' a)) -> clean (and_then m k) (bind o k').
Proof. intros A B m o k k' H K. unfold clean, and_then in *. rewrite H. destruct o; try reflexivity. apply K. reflexivity. Qed.
Lemma clean_insert : forall t x, clean (insert (x, false) t) (Ok (x ++ t, false)).
Proof. reflexivity. Qed.
Section Clean.
Variables (gnu : bool) (mangled : text -> text).
Definition same (e : exn) : Prop :=
  let p := printers_of gnu e in let a := alloc_printers_of gnu mangled e in
  clean (a_what a) (what_of p) /\ (forall ind, clean (a_to_string a ind) (to_string_of p ind)) /\
  (forall ind, clean (a_method a ind) (method_of p ind)) /\ (forall ind, clean (a_current a ind) (current_of p ind)).
Lemma clean_rest : forall base ind x, (forall n, base = Nested n -> same n) ->
  clean (a_rest mangled gnu base ind (x, false)) (t <- rest gnu base ind ;; Ok (x ++ t, false)).
Proof.
  intros base ind x H. destruct base as [| |n]; unfold clean; cbn.
  - rewrite app_nil_r. reflexivity.
  - reflexivity.
  - destruct (H n eq_refl) as (_ & T & _ & C). unfold clean in *. unfold and_then, insert. cbn.
    destruct (is_std n); [rewrite T|rewrite C]; [destruct (to_string_of _ _)|destruct (current_of _ _)]; cbn; try reflexivity; rewrite <- app_assoc; reflexivity.
Qed.
Lemma step : forall A B (m : run A) (k : A -> run B) a, m [] = (Ok a, []) -> and_then m k [] = k a [].
Proof. intros A B m k a E. unfold and_then. rewrite E. reflexivity. Qed.
Lemma stop : forall A B (m : run A) (k : A -> run B) o (k' : A -> outcome B), m [] = (o, []) -> (forall a, o <> Ok a) -> and_then m k [] = (bind o k', []).
Proof. intros A B m k o k' E N. unfold and_then. rewrite E. destruct o; try reflexivity. destruct (N a eq_refl). Qed.
Lemma demangle_clean : forall name, demangle gnu mangled name [] = (Ok name, []).
Proof. intros name. unfold demangle. destruct gnu; reflexivity. Qed.
Lemma insert_clean : forall x t, insert (x, false) t [] = (Ok (x ++ t, false), []).
Proof. reflexivity. Qed.
Lemma clean_to_string : forall name what aw base ind, (forall n, base = Nested n -> same n) -> clean aw what ->
  clean (a_to_string_with mangled gnu name aw base ind) (to_string_with gnu name what base ind).
Proof.
  intros name what aw base ind H W. unfold clean, a_to_string_with, to_string_with, empty_stream in *.
  erewrite step by apply insert_clean. erewrite step by apply demangle_clean. do 2 (erewrite step by apply insert_clean).
  destruct what as [w| | | | |]; [erewrite step by exact W|refine (stop _ _ _ _ _ (fun _ => Ok []) W _); discriminate..].
  erewrite step by apply insert_clean. cbn [bind]. pose proof (clean_rest base ind (((([] ++ ind) ++ name) ++ zstr ": ") ++ w) H) as R. unfold clean in R.
  destruct (rest gnu base ind) as [r| | | | |]; cbn [bind] in *; [erewrite step by exact R|refine (stop _ _ _ _ _ (fun _ => Ok []) R _); discriminate..].
  unfold str, fst. cbn [app]. rewrite <- !app_assoc. reflexivity.
Qed.
Lemma clean_current : forall name base ind, (forall n, base = Nested n -> same n) -> clean (a_current_with mangled gnu name base ind) (current_with gnu name base ind).
Proof.
  intros name base ind H. unfold clean, a_current_with, current_with, empty_stream in *.
  erewrite step by apply insert_clean. assert (C : a_current_type gnu mangled name [] = (Ok (current_type gnu name), [])) by (unfold a_current_type, current_type, demangle; destruct gnu; reflexivity).
  erewrite step by exact C. erewrite step by apply insert_clean. pose proof (clean_rest base ind (([] ++ ind) ++ current_type gnu name) H) as R. unfold clean in R.
  destruct (rest gnu base ind) as [r| | | | |]; cbn [bind] in *; [erewrite step by exact R|refine (stop _ _ _ _ _ (fun _ => Ok []) R _); discriminate..].
  unfold str, fst. cbn [app]. rewrite <- !app_assoc. reflexivity.
Qed.
Lemma clean_method : forall nesting nested ind, same nesting -> (forall n, nested = Some n -> same n) ->
  clean (a_method_with mangled gnu nesting nested ind) (method_with gnu nesting nested ind).
Proof.
  intros nesting nested ind (_ & T & _) H. specialize (T []). unfold clean, a_method_with, method_with, empty_stream in *. erewrite step by apply insert_clean.
  destruct (to_string_of (printers_of gnu nesting) []) as [h| | | | |]; cbn [bind] in *; [erewrite step by exact T|refine (stop _ _ _ _ _ (fun _ => Ok []) T _); discriminate..].
  erewrite step by apply insert_clean. destruct nested as [n|]; [|reflexivity]. destruct (H n eq_refl) as (_ & T' & M' & C'). erewrite step by apply insert_clean.
  assert (X : (if is_utki n then a_method (alloc_printers_of gnu mangled n) ind else if is_std n then a_to_string (alloc_printers_of gnu mangled n) ind
    else a_current (alloc_printers_of gnu mangled n) ind) [] =
    (if is_utki n then method_of (printers_of gnu n) ind else if is_std n then to_string_of (printers_of gnu n) ind else current_of (printers_of gnu n) ind, []))
    by (destruct (is_utki n); [apply M'|destruct (is_std n); [apply T'|apply C']]).
  destruct (if is_utki n then method_of _ _ else _) as [t| | | | |]; cbn [bind] in *; [erewrite step by exact X|refine (stop _ _ _ _ _ (fun _ => Ok []) X _); discriminate..].
  erewrite step by apply insert_clean. unfold str, fst. cbn [app]. rewrite <- !app_assoc. reflexivity.
Qed.
Lemma all_same : forall e, same e.
Proof.
  induction e as [c name what base IH|name what own base IH|name nesting nested base IHn IHd IHb] using exn_induction.
  - repeat split.
    + intros ind. exact (clean_to_string name (Ok what) (ret what) base ind IH eq_refl).
    + intros ind. exact (clean_to_string name (Ok what) (ret what) base [] IH eq_refl).
    + intros ind. exact (clean_current name base ind IH).
  - repeat split.
    + intros ind. exact (clean_to_string name (Ok what) (ret what) base ind IH eq_refl).
    + intros ind. exact (clean_current name base ind IH).
  - assert (W : clean (a_what_with mangled gnu nesting nested) (what_with gnu nesting nested)).
    { pose proof (clean_method nesting nested (zstr "- ") IHn IHd) as M. unfold clean, a_what_with, what_with in *. unfold and_then at 1. rewrite M.
      destruct (method_with gnu nesting nested (zstr "- ")) as [t|x|u| | |]; cbn; try reflexivity. destruct x; reflexivity. }
    repeat split.
    + exact W.
    + intros ind. exact (clean_to_string name _ _ base ind IHb W).
    + intros ind. exact (clean_method nesting nested ind IHn IHd).
    + intros ind. exact (clean_current name base ind IHb).
Qed.
End Clean.

Lemma what_no_throw : forall gnu mangled e f x, fst (a_what (alloc_printers_of gnu mangled e) f) <> Throw x.
Proof.
  intros gnu mangled e f x. destruct e; cbn [alloc_printers_of a_what]; try discriminate.
  destruct (and_then _ _ f) as [[a|y|v| | |] g]; cbn; try discriminate. destruct y; discriminate.
Qed.

Lemma no_worse_ok : forall mangled r t, no_worse mangled r (Ok t) -> r = Throw BadAlloc \/ exists t', r = Ok t' /\ damaged mangled t' t.
Proof.
  intros mangled r t [[]|H]. destruct r as [a|x|u| | |]; try discriminate.
  - destruct H as (b & E & D). injection E as <-. right. eauto.
  - destruct x; try discriminate. left. reflexivity.
Qed.
Lemma In_firstn : forall A n (l : list A) x, In x (firstn n l) -> In x l.
Proof. induction n; destruct l; cbn; intros x H; try tauto. destruct H; auto. Qed.
Lemma damaged_bytes : forall mangled t t', damaged mangled t t' -> forall b, In b t -> In b t' \/ In b (zstr "std::bad_alloc") \/ exists n, In b (mangled n) /\ ~ In b n.
Proof.
  intros mangled t t' D. induction D as [t|n t t' D IH|a a' b b' D1 IH1 D2 IH2|n|t|]; intros x H.
  - auto.
  - apply IH. eapply In_firstn. exact H.
  - rewrite in_app_iff in *. destruct H as [H|H]; [destruct (IH1 _ H)|destruct (IH2 _ H)]; tauto.
  - destruct (in_dec Z.eq_dec x n) as [I|I]; [auto|]. right. right. exists n. auto.
  - auto.
  - auto.
Qed.

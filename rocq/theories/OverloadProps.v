(** Property C111. *)
From Verif Require Import Base OverloadModel OverloadSpec OverloadProofs.
From Coq Require Import Permutation.

(** C111. Functors that take T, const T&, auto or const auto&: each alternative goes to the functor written for its type if there is one, else
    to the generic one, whatever conversions there are between the types, *)
Theorem C111_visit : forall cv fs alternatives const rv i t k, usual fs -> (forall t, In t alternatives -> exists k, meant_for fs t k) ->
  nth_error alternatives i = Some t -> meant_for fs t k -> visit cv fs alternatives const rv i = Some k.
Proof. exact usual_visit. Qed.
Print Assumptions C111_visit.
(** and whatever the order in which they are written, which holds for all functors. *)
Theorem C111_order : forall cv fs fs' a, Permutation fs fs' ->
  match call cv fs a with
  | Some i => exists j, call cv fs' a = Some j /\ nth_error fs' j = nth_error fs i
  | None => call cv fs' a = None
  end.
Proof. exact call_perm. Qed.
Print Assumptions C111_order.
(** A functor that takes T by value is called for T, whatever generic functors there are. *)
Theorem C111_by_value : forall cv fs a k, nth_error fs k = Some (by_value (atype a)) ->
  (forall j q, nth_error fs j = Some q -> for_type q = Some (atype a) -> j = k) -> call cv fs a = Some k.
Proof. exact by_value_called. Qed.
Print Assumptions C111_by_value.
(** One that takes const T& is not always: auto& and auto&& can take its arguments away. *)
Theorem C111_const_ref : forall cv fs a k n g, nth_error fs k = Some (by_cref (atype a)) -> nth_error fs n = Some g -> for_type g = None ->
  (forall j q, nth_error fs j = Some q -> for_type q = Some (atype a) -> j = k) -> (forall j q, nth_error fs j = Some q -> for_type q = None -> j = n) ->
  call cv fs a = Some (if taken_away g a then n else k).
Proof.
  intros cv fs a k n g K N G U V. destruct (taken_away g a) eqn:T.
  - eapply taken_called; try eassumption. intros j q Q _ F. rewrite (U j q Q F) in Q. congruence.
  - eapply cref_called; try eassumption. intros j q Q F. rewrite (V j q Q F) in Q. congruence.
Qed.
Print Assumptions C111_const_ref.
(** Without a functor for the type and a generic one, the one with the best conversion is called, *)
Theorem C111_conversion : forall cv fs a k u c, usual fs -> (forall j q, nth_error fs j = Some q -> for_type q <> None) ->
  (forall j q, nth_error fs j = Some q -> for_type q <> Some (atype a)) ->
  (exists p, nth_error fs k = Some p /\ for_type p = Some u) -> cv (atype a) u = Some c ->
  (forall j q w d, nth_error fs j = Some q -> j <> k -> for_type q = Some w -> cv (atype a) w = Some d -> rank_no (via c) < rank_no (via d)) ->
  call cv fs a = Some k.
Proof. exact converting_called. Qed.
Print Assumptions C111_conversion.
(** and two functors for the same type are one too many. *)
Theorem C111_twice : forall cv fs a j k p q, j <> k -> nth_error fs j = Some p -> nth_error fs k = Some q -> plain p (atype a) -> plain q (atype a) ->
  (forall i x, nth_error fs i = Some x -> plain_generic x \/ exists t, plain x t) -> call cv fs a = None.
Proof. exact twice_ambiguous. Qed.
Print Assumptions C111_twice.

(** Several generic functors: of those that take references the first in the order of [choice] is called, *)
Theorem C111_generic : forall cv fs a n g, nth_error fs n = Some g -> In g (choice a) ->
  (forall j q, nth_error fs j = Some q -> for_type q <> Some (atype a)) ->
  (forall j q, nth_error fs j = Some q -> for_type q = None -> j <> n -> q <> auto_value /\ behind (choice a) g q) ->
  call cv fs a = Some n.
Proof. exact choice_called. Qed.
Print Assumptions C111_generic.
(** while auto beside another one that can take the argument is ambiguous. *)
Theorem C111_auto_ambiguous : forall cv fs a n j q, nth_error fs n = Some auto_value -> nth_error fs j = Some q -> j <> n ->
  In q (auto_value :: choice a) -> (forall i p, nth_error fs i = Some p -> for_type p <> Some (atype a)) -> call cv fs a = None.
Proof. exact auto_ambiguous. Qed.
Print Assumptions C111_auto_ambiguous.

(** The same for all functors that take references, those written for the type and generic ones: the first in the order of [takers] is called,
    whatever functors there are for other types, *)
Theorem C111_reference : forall cv fs a n g, nth_error fs n = Some g -> In g (takers a) ->
  (forall j q, nth_error fs j = Some q -> j <> n -> ~ takes_value q a /\ (In q (takers a) -> behind (takers a) g q)) ->
  call cv fs a = Some n.
Proof. exact taker_called. Qed.
Print Assumptions C111_reference.
(** and if there is none of them, the program does not compile unless a conversion helps, *)
Theorem C111_no_taker : forall cv fs a, (forall j q, nth_error fs j = Some q -> ~ takes_value q a /\ ~ In q (takers a)) ->
  (forall j q t, nth_error fs j = Some q -> for_type q = Some t -> t <> atype a -> cv (atype a) t = None) -> call cv fs a = None.
Proof. exact none_takes. Qed.
Print Assumptions C111_no_taker.
(** which it never does for a T&. *)
Theorem C111_ref_converts : forall cv fs a t n, fs = [by_ref t] -> t <> atype a -> call cv fs a <> Some n.
Proof. exact ref_converts. Qed.
Print Assumptions C111_ref_converts.

(** char, int, const char*, std::string, std::pair: types 0 to 4, with their conversions *)
Definition some_conversions : conversions := fun t u =>
  match t, u with 0, 1 => Some promotion | 1, 0 => Some conversion | 2, 3 => Some user_defined | _, _ => None end.
(** the functors of the test of the project *)
Definition tested : list param := [auto_value; by_value 3; by_value 1].
Example C111_case : usual tested /\ (forall t, In t [0; 1; 2; 3; 4] -> exists k, meant_for tested t k) /\
  map (visit some_conversions tested [0; 1; 2; 3; 4] false false) [0; 1; 2; 3; 4] = [Some 0; Some 2; Some 0; Some 1; Some 0] /\
  (* auto& takes strings away, if the variant is not const *)
  map (fun const => visit some_conversions [auto_ref; by_cref 3] [1; 3] const false 1) [false; true] = [Some 0; Some 1] /\
  (* without the generic functor, characters go to the one for int; pairs do not compile *)
  visit some_conversions [by_value 3; by_value 1] [0; 1; 2; 3] false false 0 = Some 1 /\
  visit some_conversions [by_value 3; by_value 1] [0; 1; 2; 3; 4] false false 0 = None /\
  (* auto and auto& are ambiguous, auto& and auto&& are not *)
  call some_conversions [auto_value; auto_ref] {| atype := 1; aconst := false; arvalue := false |} = None /\
  call some_conversions [auto_fref; auto_ref] {| atype := 1; aconst := false; arvalue := false |} = Some 1 /\
  call some_conversions [by_cref 1; by_value 1; auto_value] {| atype := 1; aconst := false; arvalue := false |} = None.
Proof.
  split; [|split; [|repeat split; reflexivity]].
  - split.
    + intros [|[|[|[|k]]]] p H; try discriminate; injection H as <-; [left; left; reflexivity|right; exists 3; left; reflexivity|right; exists 1; left; reflexivity].
    + intros [|[|[|[|j]]]] [|[|[|[|k]]]] p q Hj Hk; try discriminate; injection Hj as <-; injection Hk as <-; discriminate || reflexivity.
  - assert (G : forall t, t <> 1 -> t <> 3 -> meant_for tested t 0).
    { intros t N1 N3. exists auto_value. split; [reflexivity|]. right. split; [reflexivity|].
      intros [|[|[|[|j]]]] q H; try discriminate; injection H as <-; cbn; congruence. }
    intros t [<-|[<-|[<-|[<-|[<-|[]]]]]].
    + exists 0. apply G; discriminate.
    + exists 2. exists (by_value 1). auto.
    + exists 0. apply G; discriminate.
    + exists 1. exists (by_value 3). auto.
    + exists 0. apply G; discriminate.
Qed.

Example C111_generic_case :
  map (fun a => call some_conversions [auto_cref; by_value 3; auto_fref; auto_ref] a)
    [{| atype := 1; aconst := false; arvalue := false |}; {| atype := 1; aconst := true; arvalue := false |};
     {| atype := 1; aconst := false; arvalue := true |}; {| atype := 1; aconst := true; arvalue := true |}] =
    [Some 3; Some 0; Some 2; Some 2] /\
  (* auto& cannot take an rvalue, so that auto is left *)
  call some_conversions [auto_value; auto_ref] {| atype := 1; aconst := false; arvalue := true |} = Some 0.
Proof. split; reflexivity. Qed.

Example C111_reference_case :
  map (fun a => call some_conversions [by_cref 1; by_ref 1; by_rref 1; by_value 3] a)
    [{| atype := 1; aconst := false; arvalue := false |}; {| atype := 1; aconst := true; arvalue := false |};
     {| atype := 1; aconst := false; arvalue := true |}; {| atype := 1; aconst := true; arvalue := true |}] =
    [Some 1; Some 0; Some 2; Some 0] /\
  (* T&& alone cannot be called with an object that has a name, but with what it is converted from *)
  map (fun t => call some_conversions [by_rref 1] {| atype := t; aconst := false; arvalue := false |}) [1; 0] = [None; Some 0] /\
  call some_conversions [by_ref 1] {| atype := 0; aconst := false; arvalue := false |} = None.
Proof. repeat split; reflexivity. Qed.

(** Specification of overloaded: which functor is meant for an alternative. *)
From Verif Require Import Base OverloadModel.

(** the type a functor that is not generic is written for *)
Definition for_type (p : param) : option ty :=
  match p with by_value t | by_ref t | by_cref t | by_rref t => Some t | _ => None end.
(** T or const T& *)
Definition plain (p : param) (t : ty) : Prop := p = by_value t \/ p = by_cref t.
(** auto or const auto& *)
Definition plain_generic (p : param) : Prop := p = auto_value \/ p = auto_cref.

(** The usual way of writing it: only T, const T&, auto and const auto&; no type twice, at most one generic functor. *)
Definition usual (fs : list param) : Prop :=
  (forall k p, nth_error fs k = Some p -> plain_generic p \/ exists t, plain p t) /\
  (forall j k p q, nth_error fs j = Some p -> nth_error fs k = Some q -> for_type p = for_type q -> j = k).

(** functor k is written for type t, or it is generic and none is written for t *)
Definition meant_for (fs : list param) (t : ty) (k : nat) : Prop := exists p, nth_error fs k = Some p /\
  (for_type p = Some t \/ (for_type p = None /\ forall j q, nth_error fs j = Some q -> for_type q <> Some t)).

(** When a generic functor takes an argument away from one that is written for const T&: auto& objects of variants that are neither const nor
    rvalues, auto&& all but const objects of variants that are not rvalues. *)
Definition taken_away (g : param) (a : arg) : bool :=
  match g with auto_ref => negb (aconst a) && negb (arvalue a) | auto_fref => negb (aconst a) || arvalue a | _ => false end.

(** The generic functors that take the argument by reference, the one preferred first; auto& cannot take an rvalue unless it is const. *)
Definition choice (a : arg) : list param :=
  match aconst a, arvalue a with
  | false, false => [auto_ref; auto_fref; auto_cref]
  | true, false => [auto_cref; auto_ref; auto_fref]
  | false, true => [auto_fref; auto_cref]
  | true, true => [auto_fref; auto_cref; auto_ref]
  end.
(** q is neither g nor preferred to it *)
Definition behind (l : list param) (g q : param) : Prop := exists before after, l = before ++ g :: after /\ ~ In q (before ++ [g]).

(** All functors that take the argument itself by reference, written for its type or generic, the one preferred first *)
Definition takers (a : arg) : list param :=
  let t := atype a in
  match aconst a, arvalue a with
  | false, false => [by_ref t; auto_ref; auto_fref; by_cref t; auto_cref]
  | true, false => [by_cref t; auto_cref; auto_ref; auto_fref]
  | false, true => [by_rref t; auto_fref; by_cref t; auto_cref]
  | true, true => [auto_fref; by_cref t; auto_cref; auto_ref]
  end.
Definition takes_value (p : param) (a : arg) : Prop := p = auto_value \/ p = by_value (atype a).

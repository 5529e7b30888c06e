(** Model of utki::overloaded: src/utki/variant.hpp:91-100, as called by std::visit.

    overloaded derives from all the functors and brings their call operators into one overload set
    (using functor_type::operator()...). What is modelled is which of them a call selects: overload
    resolution for one argument ([over.match], [over.ics.rank], [temp.deduct.partial]).

    Types are numbers. The implicit conversions between different types are a parameter of everything.
    Simplifications: a functor has one call operator, which is const and takes one parameter, with one
    of the eight usual declarations; conversions do not depend on constness; there are no references
    to base classes (an alternative derived from another one) and no const rvalue references as
    declared parameters. *)
From Verif Require Import Base.

Definition ty := nat.

(** The declared parameter of a call operator; the last four are those of generic lambdas. *)
Inductive param :=
| by_value (t : ty)      (** T *)
| by_ref (t : ty)        (** T& *)
| by_cref (t : ty)       (** const T& *)
| by_rref (t : ty)       (** T&& *)
| auto_value             (** auto *)
| auto_ref               (** auto& *)
| auto_cref              (** const auto& *)
| auto_fref.             (** auto&& *)

(** An argument: its type, whether it is const, and whether it is an rvalue. *)
Record arg := { atype : ty; aconst : bool; arvalue : bool }.

(** A parameter after deduction: an object, or a reference to a (const) object that is an rvalue reference or not. *)
Inductive pty := object (t : ty) | reference (t : ty) (const rv : bool).
Definition is_template (p : param) : bool := match p with auto_value | auto_ref | auto_cref | auto_fref => true | _ => false end.
Definition deduce (p : param) (a : arg) : pty :=
  match p with
  | by_value t => object t
  | by_ref t => reference t false false
  | by_cref t => reference t true false
  | by_rref t => reference t false true
  | auto_value => object (atype a)
  | auto_ref => reference (atype a) (aconst a) false
  | auto_cref => reference (atype a) true false
  | auto_fref => reference (atype a) (aconst a) (arvalue a)
  end.

(** Conversion sequences, the better first: no conversion at all, and those between different types. *)
Inductive converts := qualification | promotion | conversion | user_defined.
Inductive rank := identity | via (c : converts).
Definition rank_no (r : rank) : nat :=
  match r with identity => 0 | via qualification => 1 | via promotion => 2 | via conversion => 3 | via user_defined => 4 end.
Definition conversions := ty -> ty -> option converts.
Definition converted (cv : conversions) (t u : ty) : option rank := match cv t u with Some c => Some (via c) | None => None end.

(** A reference of this kind can be bound to the argument itself. *)
Definition binds (const rv : bool) (a : arg) : bool :=
  if rv then arvalue a && (const || negb (aconst a)) else const || (negb (aconst a) && negb (arvalue a)).
(** A reference of this kind can be bound to a temporary object that is not const. *)
Definition binds_temporary (const rv : bool) : bool := const || rv.

(** The conversion sequence from the argument to the parameter: its rank, None if there is none. *)
Definition sequence (cv : conversions) (p : pty) (a : arg) : option rank :=
  match p with
  | object t => if Nat.eqb t (atype a) then Some identity else converted cv (atype a) t
  | reference t c rv =>
      if Nat.eqb t (atype a) then if binds c rv a then Some identity else None
      else if binds_temporary c rv then converted cv (atype a) t else None
  end.

(** [over.ics.rank]: is the conversion to p better than the one to q? *)
Definition better_sequence (p q : pty) (r s : rank) : bool :=
  if Nat.ltb (rank_no r) (rank_no s) then true
  else if Nat.eqb (rank_no r) (rank_no s) then
    match p, q with
    | reference t c rv, reference u d rw =>
        (* an rvalue reference is better, then the one to a less const object (a T& and a const T&& never bind to the same);
           user defined conversions to different types are made by different functions and cannot be compared *)
        if Nat.eqb (rank_no r) 4 && negb (Nat.eqb t u) then false
        else (rv && negb rw) || (Nat.eqb t u && negb c && d && Bool.eqb rv rw)
    | _, _ => false
    end
  else false.
(** [temp.deduct.partial]: which of two generic lambdas is more specialized *)
Definition more_specialized (p q : param) : bool :=
  match p, q with
  | auto_ref, auto_fref | auto_cref, auto_fref | auto_cref, auto_ref => true
  | _, _ => false
  end.
(** [over.match.best] *)
Definition better (p q : param) (a : arg) (r s : rank) : bool :=
  better_sequence (deduce p a) (deduce q a) r s ||
  (negb (better_sequence (deduce q a) (deduce p a) s r) &&
   ((negb (is_template p) && is_template q) || (is_template p && is_template q && more_specialized p q))).

Definition viable (cv : conversions) (fs : list param) (a : arg) (i : nat) : option (param * rank) :=
  match nth_error fs i with
  | Some p => match sequence cv (deduce p a) a with Some r => Some (p, r) | None => None end
  | None => None
  end.
(** functor i is viable and better than every other viable one *)
Definition is_best (cv : conversions) (fs : list param) (a : arg) (i : nat) : bool :=
  match viable cv fs a i with
  | None => false
  | Some (p, r) =>
      forallb (fun j => Nat.eqb j i || match viable cv fs a j with None => true | Some (q, s) => better p q a r s end) (seq 0 (length fs))
  end.
(** overloaded{fs...}(a): the functor called; None if the program does not compile *)
Definition call (cv : conversions) (fs : list param) (a : arg) : option nat := find (is_best cv fs a) (seq 0 (length fs)).

(** std::visit(overloaded{fs...}, v): alternative i is passed with the constness and the value category of the variant.
    It compiles only if all the calls do. *)
Definition visit (cv : conversions) (fs : list param) (alternatives : list ty) (const rv : bool) (i : nat) : option nat :=
  let f t := call cv fs {| atype := t; aconst := const; arvalue := rv |} in
  if forallb (fun t => match f t with Some _ => true | None => false end) alternatives then
    match nth_error alternatives i with Some t => f t | None => None end
  else None.

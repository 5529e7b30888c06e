(** Property C56. *)
From Verif Require Import Base DeepModel DeepSpec DeepProofs.

(** For any element types and operators *)
Theorem C56_equals : forall (A B : Type) (eq : A -> B -> bool) l r,
  exists b, deep_equals eq l r = Ok b /\ (b = true <-> elementwise eq l r).
Proof. exact @deep_equals_ok. Qed.
Print Assumptions C56_equals.
Theorem C56_not_equals : forall (A B : Type) (eq : A -> B -> bool) l r,
  exists b, deep_not_equals eq l r = Ok b /\ (b = true <-> ~ elementwise eq l r).
Proof. exact @deep_not_equals_ok. Qed.
Print Assumptions C56_not_equals.
Theorem C56_less_than : forall (A B : Type) (lt : A -> B -> bool) (lt' : B -> A -> bool) l r,
  deep_less_than lt lt' l r = true <-> lexicographic lt lt' l r.
Proof. exact @lex_ok. Qed.
Print Assumptions C56_less_than.
Theorem C56_total_order : forall (A : Type) (eq lt : A -> A -> bool), total_order eq lt ->
  (forall l r, deep_equals eq l r = Ok true <-> l = r) /\
  (forall l r, deep_not_equals eq l r = Ok true <-> l <> r) /\
  (forall l, deep_less_than lt lt l l = false) /\
  (forall l m r, deep_less_than lt lt l m = true -> deep_less_than lt lt m r = true -> deep_less_than lt lt l r = true) /\
  (forall l r, deep_less_than lt lt l r = true \/ l = r \/ deep_less_than lt lt r l = true) /\
  (forall l r, deep_greater_than lt lt l r = deep_less_than lt lt r l) /\
  (forall l r, deep_less_or_equals lt lt l r = true <-> deep_less_than lt lt l r = true \/ l = r) /\
  (forall l r, deep_greater_or_equals lt lt l r = true <-> deep_less_than lt lt r l = true \/ l = r).
Proof. exact @deep_total. Qed.
Print Assumptions C56_total_order.

Example C56_case_order : total_order Z.eqb Z.ltb.
Proof. split; [apply Z.eqb_eq|]. split; [apply Z.ltb_irrefl|]. split; [intros x y z; rewrite !Z.ltb_lt; lia|]. intros x y. rewrite !Z.ltb_lt. lia. Qed.
Example C56_case :
  deep_less_than Z.ltb Z.ltb [1; 2; 9]%Z [1; 3]%Z = true /\ deep_less_than Z.ltb Z.ltb [1; 2]%Z [1; 2; 0]%Z = true /\
  deep_less_than Z.ltb Z.ltb [1; 2; 0]%Z [1; 2]%Z = false /\ deep_less_than Z.ltb Z.ltb [] ([] : list Z) = false /\
  deep_equals Z.eqb [1; 2]%Z [1; 2]%Z = Ok true /\ deep_equals Z.eqb [1; 2]%Z [1; 2; 3]%Z = Ok false /\ deep_equals Z.eqb [1; 2]%Z [1; 3]%Z = Ok false /\
  deep_less_or_equals Z.ltb Z.ltb [1; 2]%Z [1; 2]%Z = true /\ deep_less_or_equals Z.ltb Z.ltb [2]%Z [1; 2]%Z = false /\
  deep_greater_or_equals Z.ltb Z.ltb [1; 2]%Z [1; 2]%Z = true /\ deep_greater_or_equals Z.ltb Z.ltb [1]%Z [1; 2]%Z = false /\
  deep_greater_than Z.ltb Z.ltb [2]%Z [1; 2]%Z = true /\ deep_not_equals Z.eqb [1]%Z [2]%Z = Ok true.
Proof. vm_compute. intuition. Qed.
(** Without a total order the comparisons disagree: with an element that is neither less than, equal to nor greater
    than any other (a floating point NaN, here [None]) deep_less_or_equals and deep_greater_or_equals hold and
    deep_equals does not. *)
Definition flt (x y : option Z) : bool := match x, y with Some x, Some y => Z.ltb x y | _, _ => false end.
Definition feq (x y : option Z) : bool := match x, y with Some x, Some y => Z.eqb x y | _, _ => false end.
Example C56_nan :
  deep_less_or_equals flt flt [None] [Some 1%Z] = true /\ deep_greater_or_equals flt flt [None] [Some 1%Z] = true /\
  deep_equals feq [None] [Some 1%Z] = Ok false /\ deep_equals feq [None] [None] = Ok false.
Proof. vm_compute. auto. Qed.

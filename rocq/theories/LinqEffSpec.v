(** Specification of linq with functions and copies of elements that have effects and may throw. *)
From Verif Require Import Base SortSpec LinqModel.   (* of LinqModel only the types [hold] and [param] *)

(** One thing after the other, the second one only if the first one succeeds *)
Definition after {W X Y} (m : W * outcome X) (k : W -> X -> W * outcome Y) : W * outcome Y :=
  match m with
  | (w, Ok x) => k w x
  | (w, Throw e) => (w, Throw e)
  | (w, UB r) => (w, UB r)
  | (w, Abort) => (w, Abort)
  | (w, Terminate) => (w, Terminate)
  | (w, Diverge) => (w, Diverge)
  end.
Definition when {W} (b : bool) (m : W * outcome unit) (w : W) : W * outcome unit := if b then m else (w, Ok tt).

(** The same exception, or the same kind of disaster *)
Inductive same_failure {X Y} : outcome X -> outcome Y -> Prop :=
| same_throw e : same_failure (Throw e) (Throw e)
| same_ub r : same_failure (UB r) (UB r)
| same_abort : same_failure Abort Abort
| same_terminate : same_failure Terminate Terminate
| same_diverge : same_failure Diverge Diverge.

(** [step] is done for each of [l] in order, and succeeds each time, with the results [rs]; the world goes from [w] to [w']. *)
Inductive visits {W A R} (step : W -> A -> W * outcome R) : W -> list A -> W -> list R -> Prop :=
| visits_nil w : visits step w [] w []
| visits_cons w x w1 r l w2 rs : step w x = (w1, Ok r) -> visits step w1 l w2 rs -> visits step w (x :: l) w2 (r :: rs).

Definition each {A R} (left : A -> R -> A) (l : list A) (rs : list R) : list A := map (fun xr => left (fst xr) (snd xr)) (combine l rs).

(** [step] is done once for each of [l], in order, up to the first failure, which is then the outcome. [left x r] is what [x]
    is like after it gave [r], [failed x] what it is like after failing; elements behind are as they were. *)
Definition traverses {W A R Y} (step : W -> A -> W * outcome R) (left : A -> R -> A) (failed : A -> A) (result : list R -> Y -> Prop)
    (w : W) (l : list A) (w' : W) (l' : list A) (o : outcome Y) : Prop :=
  (exists rs y, visits step w l w' rs /\ l' = each left l rs /\ o = Ok y /\ result rs y) \/
  (exists done x rest rs w1 r, l = done ++ x :: rest /\ visits step w done w1 rs /\ step w1 x = (w', r) /\ same_failure r o /\
     l' = each left done rs ++ failed x :: rest).

(** The elements for which there is a [true] *)
Definition chosen {A} (l : list A) (bs : list bool) : list A := map fst (filter snd (combine l bs)).

(** Each element with its index *)
Definition indexed {A} (i : N) (l : list A) : list (N * A) := combine (map (fun j => i + N.of_nat j)%N (seq 0 (length l))) l.

(** What is done for one element: it is copied for a function that takes it by value, unless it can be moved; then the function is
    called; elements that are kept or grouped are copied then, unless they can be moved. Nothing else. *)
Definition borrowed (h : hold) : bool := match h with Borrowed => true | Owned => false end.
Definition by_value (p : param) : bool := match p with ByValue => true | ByConstRef => false end.
Section Steps.
Context {W A : Type}.
Variable copy : W -> A -> W * outcome unit.
Variable moved : A -> A.
Definition select_step {B} (p : param) (func : W -> A -> W * outcome B) (h : hold) (w : W) (x : A) : W * outcome B :=
  after (when (by_value p && borrowed h) (copy w x) w) (fun w _ => func w x).
Definition where_step (p : param) (func : W -> A -> W * outcome bool) (h : hold) (w : W) (x : A) : W * outcome bool :=
  after (when (by_value p && borrowed h) (copy w x) w) (fun w _ =>
    after (func w x) (fun w b => after (when (b && borrowed h) (copy w x) w) (fun w _ => (w, Ok b)))).
(** The function that gives the key is called with an lvalue. *)
Definition group_step {K} (p : param) (func : W -> A -> W * outcome K) (h : hold) (w : W) (x : A) : W * outcome K :=
  after (when (by_value p) (copy w x) w) (fun w _ =>
    after (func w x) (fun w k => after (when (borrowed h) (copy w x) w) (fun w _ => (w, Ok k)))).
(** What is left of the element *)
Definition give {R} (p : param) (h : hold) (x : A) (_ : R) : A := if by_value p && negb (borrowed h) then moved x else x.
Definition where_left (p : param) (h : hold) (x : A) (b : bool) : A :=
  let x' := give p h x tt in if b && negb (borrowed h) then moved x' else x'.
Definition group_left {K} (h : hold) (x : A) (_ : K) : A := if borrowed h then x else moved x.
End Steps.

(** What std::sort promises if the comparison has effects and may throw: if all calls that succeed agree with one strict weak
    order, then it gives a sorted permutation, or ends in the way a call of the comparison ended. *)
Definition sorts_eff {W A} (std_sort : (W -> A -> A -> W * outcome bool) -> W -> list A -> W * list A * outcome unit) : Prop :=
  forall cmp lt, strict_weak_order lt -> (forall w x y w' b, cmp w x y = (w', Ok b) -> b = lt x y) ->
  forall w l w' l' o, std_sort cmp w l = (w', l', o) ->
  (o = Ok tt /\ Permutation l' l /\ sorted lt l') \/ (exists w1 x y r, cmp w1 x y = (w', r) /\ same_failure r o).

(** What sorting may do to memory when the comparator does as it likes. *)
From Verif Require Import Base.
From Coq Require Export Sorting.Permutation.

(** The elements from [first] to [last]. *)
Definition range {A} (m : list A) (first last : nat) : list A := firstn (last - first) (skipn first m).

(** The elements of the range are in another order; nothing else changed. *)
Definition rearranged {A} (first last : nat) (m m' : list A) : Prop :=
  length m' = length m /\ firstn first m' = firstn first m /\ skipn last m' = skipn last m /\
  Permutation (range m first last) (range m' first last).

(** The failure of an operation, whatever its result type. *)
Definition failure {X} (o : outcome X) : outcome unit := match o with
  | Ok _ => Ok tt | Throw e => Throw e | UB r => UB r | Abort => Abort | Terminate => Terminate | Diverge => Diverge end.

(** A comparator that also counts its calls. *)
Definition counted {W A} (cmp : W -> A -> A -> W * outcome bool) (w : nat * W) (x y : A) : nat * W * outcome bool :=
  let '(w', r) := cmp (snd w) x y in ((S (fst w), w'), r).
Definition uncounted {W A} (copy : W -> A -> W * outcome unit) (w : nat * W) (x : A) : nat * W * outcome unit :=
  let '(w', r) := copy (snd w) x in ((fst w, w'), r).

(** A comparator that is a function, and elements that can be copied without effect. *)
Definition pure_cmp {A} (lt : A -> A -> bool) (w : unit) (x y : A) : unit * outcome bool := (w, Ok (lt x y)).
Definition pure_copy {A} (w : unit) (x : A) : unit * outcome unit := (w, Ok tt).

(** The middle element of [worst n lo], of what is left after that is removed, and so on, is always the least one. *)
Fixpoint worst (n lo : nat) : list nat :=
  match n with
  | O => []
  | S n' => match worst n' (S lo) with
      | [] => [lo]
      | (_ :: _) as l => let i := (n / 2 - 1)%nat in nth i l 0 :: firstn i l ++ lo :: skipn (S i) l
      end
  end.

(** [r] is how comparing or copying elements of the range failed, and nothing was done to the world since. *)
Definition failed_in {W A} (cmp : W -> A -> A -> W * outcome bool) (copy : W -> A -> W * outcome unit) (elems : list A)
    (w' : W) (r : outcome unit) : Prop :=
  r <> Ok tt /\
  ((exists w0 x y o, In x elems /\ In y elems /\ cmp w0 x y = (w', o) /\ failure o = r) \/
   (exists w0 x, In x elems /\ copy w0 x = (w', r))).

(** No element is ever said to be before itself. *)
Definition irreflexive_on {W A} (cmp : W -> A -> A -> W * outcome bool) (elems : list A) : Prop :=
  forall w x, In x elems -> snd (cmp w x x) <> Ok true.

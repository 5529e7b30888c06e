(** Specification for the templates of UtilModel. *)
From Verif Require Import Base.
From Coq Require Export Sorting.Sorted.

(** [t] consists of the [i]-th elements of the collections. *)
Definition row {A} (cs : list (list A)) (i : nat) (t : list A) : Prop :=
  Forall2 (fun c x => nth_error c i = Some x) cs t.

(** A std::map: keys strictly increasing. *)
Definition is_map {K V} (lt : K -> K -> bool) (m : list (K * V)) : Prop :=
  StronglySorted (fun p q => lt (fst p) (fst q) = true) m.

Definition same {K} (lt : K -> K -> bool) (a b : K) : Prop := lt a b = false /\ lt b a = false.

(** [(k, v)] is the first element of [m] whose value is equivalent to [v]. *)
Definition first_with {K V} (lt : V -> V -> bool) (m : list (K * V)) (k : K) (v : V) : Prop :=
  exists m1 m2, m = m1 ++ (k, v) :: m2 /\ forall k' v', In (k', v') m1 -> ~ same lt v v'.

(** Values pairwise different (not equivalent). *)
Definition distinct_values {K V} (lt : V -> V -> bool) (m : list (K * V)) : Prop :=
  ForallOrdPairs (fun p q => ~ same lt (snd p) (snd q)) m.

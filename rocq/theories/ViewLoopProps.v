(** Property C118: loops over skip_front, reverse and zip whose bodies change the collections. *)
From Verif Require Import Base ViewLoopModel ViewLoopSpec ViewLoopProofs.
From Coq Require Import Lia.

(** skip_front<n>(c) with a body that leaves the places of the current element and of those after it alone (it may write to all of them, and
    insert and erase before the current one): the body is run for the elements after the first n, in order, until it leaves the loop or fails. *)
Theorem C118_skip_front : forall (S : Type) (colls : S -> nat -> coll) dbg n k body fuel s, sound (colls s k) -> n <= length (ids (colls s k)) ->
  (forall a, In a (skipn n (ids (colls s k))) -> keeps colls same_from body k a) -> length (ids (colls s k)) < fuel ->
  for_skip_front colls dbg n k body fuel s = each body (skipn n (ids (colls s k))) s.
Proof. exact @skip_front_ok. Qed.
Print Assumptions C118_skip_front.
(** Too few elements: nothing is run. *)
Theorem C118_skip_front_short : forall (S : Type) (colls : S -> nat -> coll) dbg n k body fuel s, sound (colls s k) -> length (ids (colls s k)) < n ->
  for_skip_front colls dbg n k body fuel s = (s, if dbg then Abort else UB OutOfBounds).
Proof. exact @skip_front_out. Qed.
Print Assumptions C118_skip_front_short.
(** A body that goes on after it has made the place of the current element invalid, or the end: undefined behaviour, at once. *)
Theorem C118_skip_front_invalid : forall (S : Type) (colls : S -> nat -> coll) dbg n k body fuel s l1 a l2 s1 s2, sound (colls s k) ->
  skipn n (ids (colls s k)) = l1 ++ a :: l2 ->
  (forall a, In a l1 -> keeps colls same_from body k a) -> length (ids (colls s k)) < fuel ->
  each body l1 s = (s1, Ok true) -> body a s1 = (s2, Ok true) ->
  ~ In a (places (colls s2 k)) \/ (In a (ids (colls s2 k)) /\ ~ In (fin (colls s k)) (places (colls s2 k)) /\ sound (colls s2 k)) ->
  for_skip_front colls dbg n k body fuel s = (s2, UB UseAfterFree).
Proof.
  intros S colls dbg n k body fuel s l1 a l2 s1 s2 D E K F E1 B [G|(I & G & D2)];
    [eapply skip_front_gone; eassumption|eapply skip_front_end_gone; eassumption].
Qed.
Print Assumptions C118_skip_front_invalid.

(** reverse(c) with a body that leaves the places up to the one after the current element alone: in reverse order. *)
Theorem C118_reverse : forall (S : Type) (colls : S -> nat -> coll) k body fuel s, sound (colls s k) ->
  (forall a, In a (ids (colls s k)) -> keeps colls same_upto body k a) -> length (ids (colls s k)) < fuel ->
  for_reverse colls k body fuel s = each body (rev (ids (colls s k))) s.
Proof. exact @reverse_ok. Qed.
Print Assumptions C118_reverse.
(** The element visited before (at first: the end) must stay as well, since that is where the reverse iterator stands. *)
Theorem C118_reverse_invalid : forall (S : Type) (colls : S -> nat -> coll) k body fuel s l1 a l2 s1 s2, sound (colls s k) ->
  rev (ids (colls s k)) = l1 ++ a :: l2 ->
  (forall a, In a l1 -> keeps colls same_upto body k a) -> length (ids (colls s k)) < fuel ->
  each body l1 s = (s1, Ok true) -> body a s1 = (s2, Ok true) -> ~ In (last l1 (fin (colls s k))) (places (colls s2 k)) ->
  for_reverse colls k body fuel s = (s2, UB UseAfterFree).
Proof. exact @reverse_gone. Qed.
Print Assumptions C118_reverse_invalid.

(** Erasing the current element a of a list: the reverse iterator stands at b, after the element; the next step takes it to z, that is to the
    element before z, so that z itself is passed over. *)
Theorem C118_reverse_erase : forall (S : Type) (colls : S -> nat -> coll) k body fuel s l1 z a b l2 s2 e, sound (colls s k) ->
  places (colls s k) = (l1 ++ [z]) ++ a :: b :: l2 ->
  In e (places (colls s k)) -> e <> b -> e <> a -> body a s = (s2, Ok true) -> places (colls s2 k) = (l1 ++ [z]) ++ b :: l2 ->
  let go := loop (fun s => it_neq (colls s k)) (fun s => it_prev (colls s k)) (fun s => it_prev (colls s k)) body in
  go (Datatypes.S fuel) s b e = go fuel s2 z e.
Proof. exact @reverse_erase. Qed.
Print Assumptions C118_reverse_erase.

(** zip(c1, ..., cn), where the same collection may be given several times, made at any time before the loop: as many times as the smallest
    size was then, the references of the i-th elements. *)
Theorem C118_zip : forall (S : Type) (colls : S -> nat -> coll) ks body n fuel s0 s, ks <> [] -> smallest colls n ks s0 ->
  (forall k, In k ks -> sound (colls s k)) -> (forall k, In k ks -> n <= length (ids (colls s k))) ->
  (forall r, In r (rows colls n ks s) -> keeps_all colls body ks r) -> n < fuel ->
  for_zip colls (zip colls ks s0) body fuel s = each body (rows colls n ks s) s.
Proof.
  intros S colls ks body n fuel s0 s N M D L K F. pose proof (zip_smallest colls ks s0 n N M) as E. rewrite <- E in *. apply zip_ok; assumption.
Qed.
Print Assumptions C118_zip.
(** If one of them has become smaller than that, the loop is undefined before the body is run. *)
Theorem C118_zip_short : forall (S : Type) (colls : S -> nat -> coll) ks body n fuel s0 s, ks <> [] -> smallest colls n ks s0 ->
  (forall k, In k ks -> sound (colls s k)) -> (exists k, In k ks /\ length (ids (colls s k)) < n) ->
  for_zip colls (zip colls ks s0) body fuel s = (s, UB OutOfBounds).
Proof.
  intros S colls ks body n fuel s0 s N M D L. pose proof (zip_smallest colls ks s0 n N M) as E. rewrite <- E in *. apply zip_short; assumption.
Qed.
Print Assumptions C118_zip_short.
(** A body that goes on after it has made the current place of one of the collections invalid: undefined behaviour. *)
Theorem C118_zip_invalid : forall (S : Type) (colls : S -> nat -> coll) ks body n fuel s0 s i s1 s2 k, ks <> [] -> smallest colls n ks s0 ->
  (forall k, In k ks -> sound (colls s k)) -> (forall k, In k ks -> n <= length (ids (colls s k))) ->
  i < n -> (forall j, j < i -> keeps_all colls body ks (row colls ks s j)) -> n < fuel ->
  each body (rows colls i ks s) s = (s1, Ok true) -> body (row colls ks s i) s1 = (s2, Ok true) ->
  In k ks -> ~ In (nth i (ids (colls s k)) 0) (places (colls s2 k)) ->
  exists u, for_zip colls (zip colls ks s0) body fuel s = (s2, UB u).
Proof.
  intros S colls ks body n fuel s0 s i s1 s2 k N M D L I K F E1 B Ik G. pose proof (zip_smallest colls ks s0 n N M) as E. rewrite <- E in *.
  eapply zip_gone; eassumption.
Qed.
Print Assumptions C118_zip_invalid.

(** Cases: collections 0 and 1, the values at the places, and the places visited *)
Record program := { first : coll; second : coll; cell : nat -> nat; seen : list nat }.
Definition of_program (s : program) (k : nat) : coll := match k with 0 => first s | _ => second s end.
Definition at_start : program :=
  {| first := {| ids := [10; 11; 12]; fin := 13 |}; second := {| ids := [20; 21]; fin := 22 |}; cell := fun a => a; seen := [] |}.
Definition write (a v : nat) (s : program) : program :=
  {| first := first s; second := second s; cell := fun b => if Nat.eqb b a then v else cell s b; seen := seen s |}.
Definition see (a : nat) (s : program) : program := {| first := first s; second := second s; cell := cell s; seen := seen s ++ [a] |}.
Definition set_first (l : list nat) (e : nat) (s : program) : program := {| first := {| ids := l; fin := e |}; second := second s; cell := cell s; seen := seen s |}.
Definition without (a : nat) (s : program) : program := set_first (filter (fun b => negb (Nat.eqb a b)) (ids (first s))) (fin (first s)) s.
Definition add (l : list nat) (s : program) : program * outcome bool :=
  match l with [a; b] => (write a (cell s a + cell s b) s, Ok true) | _ => (s, Abort) end.
Definition contents (r : program * outcome bool) : list nat * outcome bool := (map (cell (fst r)) (ids (first (fst r))), snd r).
Definition visited (r : program * outcome bool) : list nat * outcome bool := (seen (fst r), snd r).

Lemma add_keeps : forall ks l, length ks = length l -> keeps_all of_program add ks l.
Proof.
  intros ks l L s s' D H.
  assert (E : forall k, of_program s' k = of_program s k).
  { destruct l as [|a [|b [|]]]; try discriminate. injection H as <-. reflexivity. }
  revert l L H. assert (G : forall l, length ks = length l -> Forall2 (fun k a => sound (of_program s' k) /\ same_from a (of_program s k) (of_program s' k)) ks l).
  { clear - D E. induction ks as [|k ks IH]; intros [|a l] L; try discriminate; constructor.
    - rewrite E. split; [apply D; left; reflexivity|]. intros l1 l2 P. exists l1. exact P.
    - apply IH; [intros x I; apply D; right; exact I|injection L; auto]. }
  intros l L _. apply G. exact L.
Qed.
Example C118_case :
  (* for(auto [a, b] : zip(first, second)) a += b;   and with the same collection twice *)
  contents (for_zip of_program (zip of_program [0; 1] at_start) add 9 at_start) = ([30; 32; 12], Ok true) /\
  contents (for_zip of_program (zip of_program [0; 0] at_start) add 9 at_start) = ([20; 22; 24], Ok true) /\
  smallest of_program 2 [0; 1] at_start /\ (forall r, In r (rows of_program 2 [0; 1] at_start) -> keeps_all of_program add [0; 1] r) /\
  (* the element before the current one is erased from a list *)
  visited (for_skip_front of_program true 1 0 (fun a s => (see a (without (a - 1) s), Ok true)) 9 at_start) = ([11; 12], Ok true) /\
  (* push_back to a vector: with reallocation, without, and with break *)
  visited (for_skip_front of_program true 1 0 (fun a s => (see a (set_first [50; 51; 52; 53] 54 s), Ok true)) 9 at_start) = ([11], UB UseAfterFree) /\
  visited (for_skip_front of_program true 1 0 (fun a s => (see a (set_first [10; 11; 12; 14] 15 s), Ok true)) 9 at_start) = ([11], UB UseAfterFree) /\
  visited (for_skip_front of_program true 1 0 (fun a s => (see a (set_first [50; 51; 52; 53] 54 s), Ok false)) 9 at_start) = ([11], Ok false) /\
  (* an exception *)
  visited (for_reverse of_program 0 (fun a s => (see a s, if Nat.eqb a 11 then Throw LogicError else Ok true)) 9 at_start) = ([12; 11], Throw LogicError).
Proof.
  repeat split; try reflexivity.
  - intros k [<-|[<-|[]]]; cbn; lia.
  - exists 1. cbn. auto.
  - intros r [<-|[<-|[]]]; apply add_keeps; reflexivity.
Qed.
(** Erasing the current element of a list in a loop over reverse(): the element before it is passed over, or the loop is undefined. *)
Example C118_reverse_erase_refuted :
  let erase a s := (see a (without a s), Ok true) in
  visited (for_reverse of_program 0 erase 9 (set_first [10; 11] 13 at_start)) = ([11], Ok true) /\
  visited (for_reverse of_program 0 erase 9 at_start) = ([12; 10], UB OutOfBounds).
Proof. split; reflexivity. Qed.

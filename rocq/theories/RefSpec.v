(** Specification of shared_ref and unique_ref: what the variables refer to, without counting. *)
From Verif Require Import Base RefModel.

Definition env (B : Type) := nat -> option B.
Definition put {B} (E : env B) (v : nat) (b : option B) : env B := fun x => if Nat.eqb x v then b else E x.

(** ** shared_ref *)
Record sspec := { refs : env (kind * ptr); wrefs : env ptr; types : list nat }.
Definition with_refs (S : sspec) (E : env (kind * ptr)) : sspec := {| refs := E; wrefs := wrefs S; types := types S |}.
(** An object is referred to by some shared_ref or std::shared_ptr. *)
Definition referred (S : sspec) (o : nat) : Prop := exists v k, refs S v = Some (k, Some o).
(** A shared_ref that is used must not be a moved-from one; a std::shared_ptr may be null. *)
Definition usable (x : kind * ptr) : Prop := match x with (Ref, None) => False | _ => True end.

Section Shared.
Variable derives : nat -> nat -> bool.
Inductive sstep : sspec -> op -> sspec -> out -> Prop :=
| st_make S v c : refs S v = None ->
    sstep S (make v c None) {| refs := put (refs S) v (Some (Ref, Some (length (types S)))); wrefs := wrefs S; types := types S ++ [c] |} o_none
| st_make_fails S v c e : refs S v = None -> sstep S (make v c (Some e)) S (o_threw e)
| st_null S v : refs S v = None -> sstep S (null_ptr v) (with_refs S (put (refs S) v (Some (Ptr, None)))) o_none
| st_copy S v u x : refs S v = None -> refs S u = Some x -> usable x ->
    sstep S (copy v u) (with_refs S (put (refs S) v (Some x))) o_none
| st_move S v u k p : refs S v = None -> refs S u = Some (k, p) -> usable (k, p) ->
    sstep S (move v u) (with_refs S (put (put (refs S) u (Some (k, None))) v (Some (k, p)))) o_none
| st_copy_assign S v u k old p : refs S v = Some (k, old) -> refs S u = Some (k, p) -> usable (k, p) ->
    sstep S (copy_assign v u) (with_refs S (put (refs S) v (Some (k, p)))) o_none
| st_move_assign S v u k old p : refs S v = Some (k, old) -> refs S u = Some (k, p) -> usable (k, p) ->
    sstep S (move_assign v u) (with_refs S (put (put (refs S) u (Some (k, None))) v (Some (k, p)))) o_none
| st_convert S v u o : refs S v = None -> refs S u = Some (Ref, Some o) ->
    sstep S (convert v u) (with_refs S (put (refs S) v (Some (Ref, Some o)))) o_none
| st_to_ptr S v u o : refs S v = None -> refs S u = Some (Ref, Some o) ->
    sstep S (to_ptr v u) (with_refs S (put (refs S) v (Some (Ptr, Some o)))) o_none
| st_from_ptr S v u o : refs S v = None -> refs S u = Some (Ptr, Some o) ->
    sstep S (from_ptr v u) (with_refs S (put (refs S) v (Some (Ref, Some o)))) o_none
| st_destroy S v x : refs S v = Some x -> sstep S (destroy v) (with_refs S (put (refs S) v None)) o_none
| st_get S v o : refs S v = Some (Ref, Some o) -> sstep S (get v) S (o_obj o)
| st_cast S v u t o d : refs S v = None -> refs S u = Some (Ref, Some o) -> nth_error (types S) o = Some d -> derives d t = true ->
    sstep S (cast v u t) (with_refs S (put (refs S) v (Some (Ref, Some o)))) o_none
| st_bad_cast S v u t o d : refs S v = None -> refs S u = Some (Ref, Some o) -> nth_error (types S) o = Some d -> derives d t = false ->
    sstep S (cast v u t) S (o_threw BadCast)
| st_weak S w v x : wrefs S w = None -> refs S v = Some x -> usable x ->
    sstep S (make_weak w v) {| refs := refs S; wrefs := put (wrefs S) w (Some (snd x)); types := types S |} o_none
| st_lock S v w o : refs S v = None -> wrefs S w = Some (Some o) -> referred S o ->
    sstep S (lock v w) (with_refs S (put (refs S) v (Some (Ptr, Some o)))) o_none
| st_lock_expired S v w p : refs S v = None -> wrefs S w = Some p -> (forall o, p = Some o -> ~ referred S o) ->
    sstep S (lock v w) (with_refs S (put (refs S) v (Some (Ptr, None)))) o_none
| st_drop_weak S w p : wrefs S w = Some p -> sstep S (drop_weak w) {| refs := refs S; wrefs := put (wrefs S) w None; types := types S |} o_none
| st_from_this S v o t d : refs S v = None -> referred S o -> nth_error (types S) o = Some d -> derives d t = true ->
    sstep S (from_this v o t) (with_refs S (put (refs S) v (Some (Ref, Some o)))) o_none.
Inductive srun : sspec -> list op -> sspec -> list out -> Prop :=
| sr_nil S : srun S [] S []
| sr_cons S a S1 x h S2 xs : sstep S a S1 x -> srun S1 h S2 xs -> srun S (a :: h) S2 (x :: xs).
End Shared.
Definition sinit : sspec := {| refs := fun _ => None; wrefs := fun _ => None; types := [] |}.

(** A shared_ref is moved from by these operations; operations that give it an object or end its life. *)
Definition moves_from (a : op) (v : nat) : Prop := exists u, u <> v /\ (a = move u v \/ a = move_assign u v).
Definition gives (a : op) (v : nat) : Prop := (exists u, a = copy_assign v u \/ a = move_assign v u) \/ a = destroy v.

(** ** unique_ref *)
Record uspec := { owns : env (kind * ptr); objects : nat }.
Inductive usstep : uspec -> uop -> uspec -> out -> Prop :=
| ut_make S v : owns S v = None ->
    usstep S (umake v None) {| owns := put (owns S) v (Some (Ref, Some (objects S))); objects := Datatypes.S (objects S) |} o_none
| ut_make_fails S v e : owns S v = None -> usstep S (umake v (Some e)) S (o_threw e)
| ut_move S v u k p : owns S v = None -> owns S u = Some (k, p) -> usable (k, p) ->
    usstep S (umove v u) {| owns := put (put (owns S) u (Some (k, None))) v (Some (k, p)); objects := objects S |} o_none
| ut_assign S v u k old p : owns S v = Some (k, old) -> owns S u = Some (k, p) -> usable (k, p) ->
    usstep S (uassign v u) {| owns := put (put (owns S) u (Some (k, None))) v (Some (k, p)); objects := objects S |} o_none
| ut_convert S v u o : owns S v = None -> owns S u = Some (Ref, Some o) ->
    usstep S (uconvert v u) {| owns := put (put (owns S) u (Some (Ref, None))) v (Some (Ref, Some o)); objects := objects S |} o_none
| ut_to_ptr S v u o : owns S v = None -> owns S u = Some (Ref, Some o) ->
    usstep S (uto_ptr v u) {| owns := put (put (owns S) u (Some (Ref, None))) v (Some (Ptr, Some o)); objects := objects S |} o_none
| ut_from_ptr S v u o : owns S v = None -> owns S u = Some (Ptr, Some o) ->
    usstep S (ufrom_ptr v u) {| owns := put (put (owns S) u (Some (Ptr, None))) v (Some (Ref, Some o)); objects := objects S |} o_none
| ut_destroy S v x : owns S v = Some x -> usstep S (udestroy v) {| owns := put (owns S) v None; objects := objects S |} o_none
| ut_get S v o : owns S v = Some (Ref, Some o) -> usstep S (uget v) S (o_obj o).
Inductive usrun : uspec -> list uop -> uspec -> list out -> Prop :=
| ur_nil S : usrun S [] S []
| ur_cons S a S1 x h S2 xs : usstep S a S1 x -> usrun S1 h S2 xs -> usrun S (a :: h) S2 (x :: xs).
Definition usinit : uspec := {| owns := fun _ => None; objects := 0 |}.
Definition umoves_from (a : uop) (v : nat) : Prop :=
  exists u, u <> v /\ (a = umove u v \/ a = uassign u v \/ a = uconvert u v \/ a = uto_ptr u v).
Definition ugives (a : uop) (v : nat) : Prop := (exists u, a = uassign v u) \/ a = udestroy v.
Definition owned (S : uspec) (o : nat) : Prop := exists v k, owns S v = Some (k, Some o).

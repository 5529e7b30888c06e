From Verif Require Import Base MiscModel MiscSpec EnumModel EnumSpec EnumProofs.
Local Open Scope Z_scope.

(** C68: iterating enum_iterable visits the items 0..enum_size-1 in order exactly once. *)
Theorem C68_iterate : forall t size fuel, is_enum t size -> size < Z.of_nat fuel ->
  exists l, enum_iterate fuel t size = Ok l /\ enumerates size l.
Proof. exact enum_iterate_ok. Qed.
Print Assumptions C68_iterate.

(** C68: an enum_array is a total map of the items. *)
Theorem C68_get : forall A dbg (a : list A) i, Z.of_nat (length a) <= 2 ^ 64 -> 0 <= i < Z.of_nat (length a) ->
  exists v, array_get dbg a i = Ok v /\ reads a i v.
Proof. exact @array_get_total. Qed.
Print Assumptions C68_get.
(** C68: writing an element changes only its own reading. *)
Theorem C68_set : forall A dbg (a : list A) i v, Z.of_nat (length a) <= 2 ^ 64 -> 0 <= i < Z.of_nat (length a) ->
  exists a', array_set dbg a i v = Ok a' /\ length a' = length a /\ reads a' i v /\
    forall j w, j <> i -> (reads a' j w <-> reads a j w).
Proof. exact @array_set_ok. Qed.
Print Assumptions C68_set.
(** C68: a value which is not an item (enum_size among them) is caught by the assertion and undefined
    behaviour in a release build. *)
Theorem C68_bad : forall A dbg (a : list A) i v, Z.of_nat (length a) <= i mod 2 ^ 64 ->
  array_get dbg a i = (if dbg then Abort else UB OutOfBounds) /\
  array_set dbg a i v = (if dbg then Abort else UB OutOfBounds).
Proof. exact @array_bad. Qed.
Print Assumptions C68_bad.

(** C68: zip_with_enum visits every element once, in order, paired with its own item, and an
    assignment through the pair changes this element. *)
Theorem C68_zip : forall A t size (f : Z -> A -> A) (a : list A) fuel, is_enum t size ->
  Z.of_nat (length a) = size -> size < Z.of_nat fuel ->
  exists l a', zip_with_enum fuel t size f a = Ok (l, a') /\ length l = length a /\ length a' = length a /\
    (forall i x, nth_error a i = Some x -> nth_error l i = Some (x, Z.of_nat i) /\ nth_error a' i = Some (f (Z.of_nat i) x)).
Proof. exact @zip_with_enum_ok. Qed.
Print Assumptions C68_zip.

(** Concrete cases: an enumeration over uint8_t whose enum_size is 200, more than the greatest value of
    the iterators' difference_type; one over int8_t with the greatest possible enum_size *)
Example C68_case_enum : is_enum {| is_signed := false; bits := 8 |} 200 /\ is_enum {| is_signed := true; bits := 8 |} 127.
Proof. split; (split; [cbn; lia|split; [lia|cbn; lia]]). Qed.
Example C68_case_iterate : enum_iterate 300 {| is_signed := true; bits := 8 |} 3 = Ok [0; 1; 2].
Proof. vm_compute. reflexivity. Qed.
Example C68_case_zip : zip_with_enum 300 {| is_signed := false; bits := 8 |} 200 (fun e x => e + x) (repeat 7 200)
  = Ok (map (fun i => (7, Z.of_nat i)) (seq 0 200), map (fun i => Z.of_nat i + 7) (seq 0 200)).
Proof. vm_compute. reflexivity. Qed.
Example C68_case_array : array_set true [10; 20; 30] 1 99 = Ok [10; 99; 30] /\ array_get true [10; 20; 30] 3 = Abort /\
  array_get false [10; 20; 30] 3 = UB OutOfBounds /\ array_get true [10; 20; 30] (-1) = Abort.
Proof. vm_compute. repeat split. Qed.

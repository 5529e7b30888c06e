(** Properties of the constants and of the questions about terminals. *)
From Verif Require Import Base FloatSpec FloatRoundProofs FloatFastModel FloatFastProofs MathModel ConstModel.
Local Open Scope Z_scope.

(** ** C97: masks and units *)
(** The bit mask of number i, by name *)
Definition bit_mask (i : Z) : Z :=
  nth (Z.to_nat i) [bit_0_mask; bit_1_mask; bit_2_mask; bit_3_mask; bit_4_mask; bit_5_mask; bit_6_mask; bit_7_mask] 0.
Lemma bit_mask_power i : 0 <= i < 8 -> bit_mask i = 2 ^ i.
Proof. intro I. assert (i = 0 \/ i = 1 \/ i = 2 \/ i = 3 \/ i = 4 \/ i = 5 \/ i = 6 \/ i = 7) as D by lia. repeat (destruct D as [-> | D]; [reflexivity|]). subst i. reflexivity. Qed.
(** For every integer, negative ones in two's complement included: a bit mask keeps exactly its bit, the masks of the byte and
    of the nibbles keep exactly these, and the number of bits of a type is the one the masks have. *)
Theorem C97_masks : forall x,
  (forall i, 0 <= i < 8 -> Z.land x (bit_mask i) = (if Z.testbit x i then 2 ^ i else 0)) /\
  Z.land x byte_mask = x mod 256 /\
  Z.land x lower_nibble_mask = x mod 16 /\
  Z.land x upper_nibble_mask = (x mod 256 / 16) * 16 /\
  byte_mask = 2 ^ byte_bits - 1 /\ lower_nibble_mask = 2 ^ nibble_bits - 1 /\ 2 * nibble_bits = byte_bits /\
  num_bits_in_byte = byte_bits /\ num_bits_in_nibble = nibble_bits.
Proof.
  intro x. split; [|repeat split].
  - intros i I. rewrite bit_mask_power by exact I. apply Z.bits_inj'. intros j J. rewrite Z.land_spec, Z.pow2_bits_eqb by lia.
    destruct (Z.eqb_spec i j) as [<- | N]; [|rewrite andb_false_r; destruct (Z.testbit x i); rewrite ?Z.bits_0, ?Z.pow2_bits_eqb by lia; [|reflexivity]; symmetry; apply Z.eqb_neq, N].
    destruct (Z.testbit x i); rewrite ?Z.bits_0, ?Z.pow2_bits_true by lia; reflexivity.
  - change byte_mask with (Z.ones 8). rewrite Z.land_ones by lia. reflexivity.
  - change lower_nibble_mask with (Z.ones 4). rewrite Z.land_ones by lia. reflexivity.
  - change upper_nibble_mask with (Z.land (Z.ones 8) (Z.lnot (Z.ones 4))). rewrite Z.land_assoc, Z.land_ones by lia. change (2 ^ 8) with 256.
    rewrite <- Z.ldiff_land, Z.ldiff_ones_r, Z.shiftl_mul_pow2, Z.shiftr_div_pow2 by lia. reflexivity.
Qed.
Print Assumptions C97_masks.
(** cm_per_inch and mm_per_inch are the doubles nearest to 2.54 and 25.4, the product included. *)
Theorem C97_units : exists cm mm, cm_per_inch = Num false cm /\ nearest binary64 254 100 cm /\ mm_per_inch = Num false mm /\ nearest binary64 254 10 mm /\
  kilobyte = 2 ^ 10 /\ hundred_percent = 100.
Proof.
  exists (round_positive binary64 ToNearest 254 100), (round_positive binary64 ToNearest 254 10).
  split; [reflexivity|]. split; [apply (round_nearest binary64 good_binary64); lia|]. split; [vm_compute; reflexivity|].
  split; [apply (round_nearest binary64 good_binary64); lia|]. split; reflexivity.
Qed.
Print Assumptions C97_units.
Example C97_values : Z.land 0xa7 upper_nibble_mask = 0xa0 /\ Z.land (-1) bit_7_mask = 0x80 /\ mm_per_inch = Num false 0x4039666666666666.
Proof. vm_compute. auto. Qed.

(** ** C98: is_terminal_cerr, is_terminal_cout, is_terminal_cin *)
(** A stream is a terminal: it has a descriptor, which is open and refers to a terminal. A descriptor refers to one file. *)
Definition terminal (p : process) (s : stream) : Prop := In (descriptor p s, true) (open_files p).
Theorem C98_terminals : forall p, NoDup (map fst (open_files p)) ->
  (is_terminal_cerr p = true <-> terminal p Stderr) /\ (is_terminal_cout p = true <-> terminal p Stdout) /\ (is_terminal_cin p = true <-> terminal p Stdin) /\
  is_cerr_terminal p = is_terminal_cerr p /\ is_cout_terminal p = is_terminal_cout p /\ is_cin_terminal p = is_terminal_cin p.
Proof.
  intros p N. assert (K : forall s, negb (isatty p (fileno p s) =? 0) = true <-> terminal p s).
  { intro s. unfold isatty, fileno, terminal. generalize (descriptor p s). intro fd. induction (open_files p) as [|[d b] l IH]; cbn [find fst map In] in *; [split; [discriminate|intros []]|].
    apply NoDup_cons_iff in N. destruct N as [N N']. destruct (Z.eqb_spec d fd) as [<- | D].
    - destruct b; cbn; [tauto|]. split; [discriminate|]. intros [E|I]; [congruence|]. exfalso. apply N. apply (in_map fst) in I. exact I.
    - rewrite (IH N'). split; [tauto|]. intros [E|I]; [congruence|exact I]. }
  unfold is_terminal_cerr, is_terminal_cout, is_terminal_cin. rewrite !K. repeat split; auto.
Qed.
Print Assumptions C98_terminals.
(** Standard output redirected to a file, standard error closed *)
Example C98_redirected :
  let p := {| descriptor := fun s => match s with Stdin => 0 | Stdout => 1 | Stderr => 2 end; open_files := [(0, true); (1, false); (3, true)] |} in
  is_terminal_cin p = true /\ is_terminal_cout p = false /\ is_terminal_cerr p = false.
Proof. vm_compute. auto. Qed.

(** The finite checks of the power of five table, by computation. *)
From Verif Require Import Base FloatTable FloatCerts FloatComputeModel.
Local Open Scope Z_scope.

(** floor (log2 (10^q)) *)
Definition lg10 (q : Z) : Z := Z.shiftr ((152170 + 65536) * q) 16.
Definition entry_hi (q : Z) : Z := nth (Z.to_nat (2 * (q + 342))) power_of_five_128 0.
Definition entry_lo (q : Z) : Z := nth (Z.to_nat (2 * (q + 342) + 1)) power_of_five_128 0.
Definition entry (q : Z) : Z := entry_hi q * 2 ^ 64 + entry_lo q.
(** 10^q * 2^(127 - lg10 q) = exact_num / exact_den: what the entry approximates *)
Definition exact_num (q : Z) : Z := 10 ^ Z.max q 0 * 2 ^ Z.max (127 - lg10 q) 0.
Definition exact_den (q : Z) : Z := 10 ^ Z.max (- q) 0 * 2 ^ Z.max (lg10 q - 127) 0.

Definition all_q : list Z := map (fun i => Z.of_nat i - 342) (seq 0 651).
Lemma all_q_spec (q : Z) : -342 <= q <= 308 -> In q all_q.
Proof.
  intro H. unfold all_q. apply in_map_iff. exists (Z.to_nat (q + 342)). split; [lia|].
  apply in_seq. lia.
Qed.
Lemma all_q_bool (P : Z -> bool) (q : Z) : forallb P all_q = true -> -342 <= q <= 308 -> P q = true.
Proof. intros H B. rewrite forallb_forall in H. apply H, all_q_spec, B. Qed.

Definition check_entry (q : Z) : bool :=
  let n := exact_num q in let d := exact_den q in let t := entry q in
  (2 ^ 63 <=? entry_hi q) && (entry_hi q <? 2 ^ 64) && (0 <=? entry_lo q) && (entry_lo q <? 2 ^ 64) &&
  (0 <? n) && (0 <? d) && (2 ^ 127 * d <=? n) && (n <? 2 ^ 128 * d) &&
  (if (0 <=? q) && (q <=? 55) then t * d =? n
   else if (-27 <=? q) && (q <? 0) then ((t - 1) * d <? n) && (n <? t * d)
   else (t * d <? n) && (n <? (t + 1) * d)).
Lemma check_entries : forallb check_entry all_q = true.
Proof. vm_compute. reflexivity. Qed.

Definition certificate (q : Z) : Z * Z * Z * Z := nth (Z.to_nat (q + 342)) certificates (0, 0, 0, 0).
Definition check_certificate (q : Z) : bool :=
  let '(p2, q2, p1, q1) := certificate q in
  let t := entry q in
  (p1 * q2 - p2 * q1 =? 1) && (0 <? q1) && (0 <? q2) && (2 ^ 64 <=? q1 + q2) &&
  (if (-27 <=? q) && (q <? 0)
   then (p2 * exact_den q * 2 ^ 137 <=? q2 * exact_num q) && (q1 * t <? p1 * 2 ^ 137)
   else (p2 * 2 ^ 137 <=? q2 * t) && (q1 * (t + 1) <? p1 * 2 ^ 137)).
Lemma check_certificates : forallb check_certificate all_q = true.
Proof. vm_compute. reflexivity. Qed.

From Verif Require Import Base BitLemmas Base64Model Base64Spec.
Local Open Scope N_scope.
Ltac Zify.zify_post_hook ::= Z.div_mod_to_equations.

(** ** Table lookup = position in the alphabet *)
Definition table_ok (c : N) : bool :=
  match nth_error decode_table (N.to_nat c) with
  | Some v => (v =? char_value c) && (v <? 64)
  | None => false
  end.

Lemma table_sweep : forallb (fun i => table_ok (N.of_nat i)) (seq 0 256) = true.
Proof. vm_compute. reflexivity. Qed.

Lemma table_lookup c : c < 256 ->
  nth_error decode_table (N.to_nat c) = Some (char_value c) /\ char_value c < 64.
Proof.
  intro H. pose proof table_sweep as S. rewrite forallb_forall in S.
  specialize (S (N.to_nat c)). rewrite N2Nat.id in S. unfold table_ok in S.
  assert (In (N.to_nat c) (seq 0 256)) as Hin by (apply in_seq; lia).
  specialize (S Hin). destruct (nth_error _ _) as [v|]; [|discriminate].
  apply andb_true_iff in S. destruct S as [S1 S2].
  apply N.eqb_eq in S1. apply N.ltb_lt in S2. subst v. auto.
Qed.

Lemma lookup_spec sc c : c < 256 ->
  lookup sc c = if readable sc c then Ok (char_value c) else UB OutOfBounds.
Proof.
  intro H. unfold lookup, readable. destruct (table_lookup c H) as [E _].
  destruct (sc && (128 <=? c)); simpl; [reflexivity|]. rewrite E. reflexivity.
Qed.

(** ** Bits *)
Lemma bits6 v : bits_of 6 v =
  [N.testbit v 5; N.testbit v 4; N.testbit v 3; N.testbit v 2; N.testbit v 1; N.testbit v 0].
Proof. reflexivity. Qed.

Lemma bits8 v : bits_of 8 v =
  [N.testbit v 7; N.testbit v 6; N.testbit v 5; N.testbit v 4;
   N.testbit v 3; N.testbit v 2; N.testbit v 1; N.testbit v 0].
Proof. reflexivity. Qed.

Lemma of_bits_6 a b c d e f : of_bits [a; b; c; d; e; f] =
  32 * N.b2n a + 16 * N.b2n b + 8 * N.b2n c + 4 * N.b2n d + 2 * N.b2n e + N.b2n f.
Proof. unfold of_bits. cbn [fold_left]. lia. Qed.

Lemma of_bits_8 a b c d e f g h : of_bits [a; b; c; d; e; f; g; h] =
  128 * N.b2n a + 64 * N.b2n b +
  32 * N.b2n c + 16 * N.b2n d + 8 * N.b2n e + 4 * N.b2n f + 2 * N.b2n g + N.b2n h.
Proof. unfold of_bits. cbn [fold_left]. lia. Qed.

Lemma b2n_le b : N.b2n b <= 1.
Proof. destruct b; simpl; lia. Qed.

Lemma testbit_sum6 v : v < 64 ->
  v = 32 * N.b2n (N.testbit v 5) + 16 * N.b2n (N.testbit v 4) + 8 * N.b2n (N.testbit v 3) +
      4 * N.b2n (N.testbit v 2) + 2 * N.b2n (N.testbit v 1) + N.b2n (N.testbit v 0).
Proof.
  intro H. apply N.eqb_eq.
  apply (sweep (fun v => N.eqb v ( 32 * N.b2n (N.testbit v 5) + 16 * N.b2n (N.testbit v 4) + 8 * N.b2n (N.testbit v 3) +
      4 * N.b2n (N.testbit v 2) + 2 * N.b2n (N.testbit v 1) + N.b2n (N.testbit v 0))) 64); [vm_compute; reflexivity|exact H].
Qed.

Lemma testbit_sum8 v : v < 256 ->
  v = 128 * N.b2n (N.testbit v 7) + 64 * N.b2n (N.testbit v 6) +
      32 * N.b2n (N.testbit v 5) + 16 * N.b2n (N.testbit v 4) + 8 * N.b2n (N.testbit v 3) +
      4 * N.b2n (N.testbit v 2) + 2 * N.b2n (N.testbit v 1) + N.b2n (N.testbit v 0).
Proof.
  intro H. apply N.eqb_eq.
  apply (sweep (fun v => N.eqb v ( 128 * N.b2n (N.testbit v 7) + 64 * N.b2n (N.testbit v 6) +
      32 * N.b2n (N.testbit v 5) + 16 * N.b2n (N.testbit v 4) + 8 * N.b2n (N.testbit v 3) +
      4 * N.b2n (N.testbit v 2) + 2 * N.b2n (N.testbit v 1) + N.b2n (N.testbit v 0))) 256); [vm_compute; reflexivity|exact H].
Qed.

(** ** One quad *)
Definition quad_val (va vb vc vd : N) : N := va * 2 ^ 18 + vb * 2 ^ 12 + vc * 2 ^ 6 + vd.

Lemma quad_bits va vb vc vd : va < 64 -> vb < 64 -> vc < 64 -> vd < 64 ->
  N.lor (N.lor (N.lor (N.shiftl va (6 * 3)) (N.shiftl vb (6 * 2))) (N.shiftl vc 6)) vd
  = quad_val va vb vc vd.
Proof.
  intros Ha Hb Hc Hd. unfold quad_val. rewrite !shiftl_mul.
  change (6 * 3) with 18. change (6 * 2) with 12.
  rewrite lor_mul_add by (change (2 ^ 12) with 4096; change (2 ^ 18) with 262144; lia).
  rewrite (lor_add_mod (vc * 2 ^ 6) _ 12).
  2:{ change (2 ^ 6) with 64; change (2 ^ 12) with 4096; lia. }
  2:{ change (2 ^ 18) with 262144; change (2 ^ 12) with 4096. lia. }
  rewrite (lor_add_mod vd _ 6).
  2:{ change (2 ^ 6) with 64; lia. }
  2:{ change (2 ^ 18) with 262144; change (2 ^ 12) with 4096; change (2 ^ 6) with 64. lia. }
  reflexivity.
Qed.

Lemma mask255 a : N.land a 255 = a mod 256.
Proof. change 255 with (N.ones 8). rewrite N.land_ones. reflexivity. Qed.

Definition quad_bytes (va vb vc vd : N) : N * N * N :=
  (quad_val va vb vc vd / 65536 mod 256, quad_val va vb vc vd / 256 mod 256,
   quad_val va vb vc vd mod 256).

Lemma octets_quad va vb vc vd r : va < 64 -> vb < 64 -> vc < 64 -> vd < 64 ->
  octets (bits_of 6 va ++ bits_of 6 vb ++ bits_of 6 vc ++ bits_of 6 vd ++ r) =
  let '(b0, b1, b2) := quad_bytes va vb vc vd in b0 :: b1 :: b2 :: octets r.
Proof.
  intros Ha Hb Hc Hd. rewrite !bits6. cbn [app octets]. rewrite !of_bits_8.
  unfold quad_bytes, quad_val.
  change (2 ^ 18) with 262144; change (2 ^ 12) with 4096; change (2 ^ 6) with 64.
  pose proof (testbit_sum6 va Ha) as Ea. pose proof (testbit_sum6 vb Hb) as Eb.
  pose proof (testbit_sum6 vc Hc) as Ec. pose proof (testbit_sum6 vd Hd) as Ed.
  repeat match goal with
  | |- context [N.b2n ?x] => let b := fresh "b" in
      pose proof (b2n_le x); set (b := N.b2n x) in *; clearbody b
  end.
  f_equal; [|f_equal; [|f_equal]].
  - symmetry. replace (va * 262144 + vb * 4096 + vc * 64 + vd) with
      ((128 * b + 64 * b0 + 32 * b1 + 16 * b2 + 8 * b3 + 4 * b4 + 2 * b5 + b6) * 65536 +
       ((128 * b7 + 64 * b8 + 32 * b9 + 16 * b10 + 8 * b11 + 4 * b12 + 2 * b13 + b14) * 256 +
       (128 * b15 + 64 * b16 + 32 * b17 + 16 * b18 + 8 * b19 + 4 * b20 + 2 * b21 + b22))) by lia.
    rewrite N.div_add_l by lia. rewrite (N.div_small _ 65536) by lia.
    rewrite N.add_0_r. apply N.mod_small. lia.
  - symmetry. replace (va * 262144 + vb * 4096 + vc * 64 + vd) with
      (((128 * b + 64 * b0 + 32 * b1 + 16 * b2 + 8 * b3 + 4 * b4 + 2 * b5 + b6) * 256 +
       (128 * b7 + 64 * b8 + 32 * b9 + 16 * b10 + 8 * b11 + 4 * b12 + 2 * b13 + b14)) * 256 +
       (128 * b15 + 64 * b16 + 32 * b17 + 16 * b18 + 8 * b19 + 4 * b20 + 2 * b21 + b22)) by lia.
    rewrite N.div_add_l by lia. rewrite (N.div_small _ 256) by lia.
    rewrite N.add_0_r. rewrite N.add_comm, N.mod_add by lia. apply N.mod_small. lia.
  - symmetry. replace (va * 262144 + vb * 4096 + vc * 64 + vd) with
      ((128 * b15 + 64 * b16 + 32 * b17 + 16 * b18 + 8 * b19 + 4 * b20 + 2 * b21 + b22) + 
      ((128 * b + 64 * b0 + 32 * b1 + 16 * b2 + 8 * b3 + 4 * b4 + 2 * b5 + b6) * 256 +
       (128 * b7 + 64 * b8 + 32 * b9 + 16 * b10 + 8 * b11 + 4 * b12 + 2 * b13 + b14)) * 256) by lia.
    rewrite N.mod_add by lia. apply N.mod_small. lia.
Qed.

Lemma decode_quad_spec sc a b c d : a < 256 -> b < 256 -> c < 256 -> d < 256 ->
  decode_quad sc a b c d =
  if readable sc a && readable sc b && readable sc c && readable sc d
  then Ok (quad_bytes (char_value a) (char_value b) (char_value c) (char_value d))
  else UB OutOfBounds.
Proof.
  intros Ha Hb Hc Hd. unfold decode_quad.
  rewrite !lookup_spec by assumption.
  destruct (readable sc a); [|reflexivity]. destruct (readable sc b); [|reflexivity].
  destruct (readable sc c); [|reflexivity]. destruct (readable sc d); [|reflexivity].
  cbn [bind andb].
  rewrite quad_bits by (apply table_lookup; assumption).
  unfold quad_bytes. rewrite !mask255, !shiftr_div. reflexivity.
Qed.

(** ** The loop *)
Definition value_bits (cs : list N) : list bool := flat_map (fun c => bits_of 6 (char_value c)) cs.

Lemma bytes_ok_cons c l : bytes_ok (c :: l) = true -> c < 256 /\ bytes_ok l = true.
Proof. unfold bytes_ok, byte_ok. cbn [forallb]. rewrite andb_true_iff, N.ltb_lt. tauto. Qed.

Lemma octets_quad_chars a b c d r : a < 256 -> b < 256 -> c < 256 -> d < 256 ->
  octets (value_bits (a :: b :: c :: d :: r)) =
  let '(b0, b1, b2) := quad_bytes (char_value a) (char_value b) (char_value c) (char_value d) in
  b0 :: b1 :: b2 :: octets (value_bits r).
Proof.
  intros. unfold value_bits. cbn [flat_map]. apply octets_quad; apply table_lookup; assumption.
Qed.

Lemma quad_loop_spec sc dbg n : forall l rest, bytes_ok l = true -> length l = (4 * n)%nat ->
  quad_loop sc dbg n (l ++ rest) =
  if forallb (readable sc) l then Ok (octets (value_bits l), rest) else UB OutOfBounds.
Proof.
  induction n as [|n IH]; intros l rest Hl Hn.
  - destruct l; [reflexivity|discriminate].
  - destruct l as [|a [|b [|c [|d l]]]]; try (simpl in Hn; lia).
    apply bytes_ok_cons in Hl; destruct Hl as [Ha Hl].
    apply bytes_ok_cons in Hl; destruct Hl as [Hb Hl].
    apply bytes_ok_cons in Hl; destruct Hl as [Hc Hl].
    apply bytes_ok_cons in Hl; destruct Hl as [Hd Hl].
    cbn [app quad_loop length Nat.eqb Nat.leb negb deref tl].
    unfold assert_. rewrite !andb_false_r. cbn [bind].
    rewrite decode_quad_spec by assumption.
    rewrite octets_quad_chars by assumption.
    cbn [forallb]. rewrite <- !andb_assoc.
    destruct (readable sc a); [|reflexivity]. destruct (readable sc b); [|reflexivity].
    destruct (readable sc c); [|reflexivity]. destruct (readable sc d); [|reflexivity].
    cbn [bind andb]. rewrite IH; [|exact Hl|simpl in Hn; lia].
    destruct (forallb (readable sc) l); [|reflexivity].
    cbn [bind]. destruct (quad_bytes _ _ _ _) as [[b0 b1] b2]. reflexivity.
Qed.

Lemma value_bits_app l1 l2 : value_bits (l1 ++ l2) = value_bits l1 ++ value_bits l2.
Proof. apply flat_map_app. Qed.

Lemma octets_quads_app n : forall l rest, bytes_ok l = true -> length l = (4 * n)%nat ->
  octets (value_bits (l ++ rest)) = octets (value_bits l) ++ octets (value_bits rest).
Proof.
  induction n as [|n IH]; intros l rest Hl Hn.
  - destruct l; [reflexivity|discriminate].
  - destruct l as [|a [|b [|c [|d l]]]]; try (simpl in Hn; lia).
    apply bytes_ok_cons in Hl; destruct Hl as [Ha Hl].
    apply bytes_ok_cons in Hl; destruct Hl as [Hb Hl].
    apply bytes_ok_cons in Hl; destruct Hl as [Hc Hl].
    apply bytes_ok_cons in Hl; destruct Hl as [Hd Hl].
    cbn [app]. rewrite !octets_quad_chars by assumption.
    destruct (quad_bytes _ _ _ _) as [[b0 b1] b2]. cbn [app]. do 3 f_equal.
    apply IH; [exact Hl|simpl in Hn; lia].
Qed.

Lemma readable_A sc : readable sc Achar = true.
Proof. destruct sc; reflexivity. Qed.

(** The tail of two or more characters: only the first three matter. *)
Lemma tail_spec sc dbg i : bytes_ok i = true -> (2 <= length i)%nat ->
  tail sc dbg i =
  if forallb (readable sc) (firstn 3 i) then Ok (octets (value_bits (firstn 3 i))) else UB OutOfBounds.
Proof.
  intros Hi Hn. destruct i as [|a [|b i]]; try (simpl in Hn; lia).
  apply bytes_ok_cons in Hi; destruct Hi as [Ha Hi].
  apply bytes_ok_cons in Hi; destruct Hi as [Hb Hi].
  unfold tail. cbn [length Nat.eqb negb]. unfold assert_. rewrite andb_false_r. cbn [bind deref tl].
  assert (HA : Achar < 256) by (cbv; reflexivity).
  destruct i as [|c i].
  - rewrite decode_quad_spec by assumption. rewrite readable_A. cbn [firstn forallb].
    rewrite !andb_true_r.
    destruct (readable sc a); [|reflexivity]. destruct (readable sc b); [|reflexivity].
    cbn [andb bind].
    pose proof (octets_quad_chars a b Achar Achar [] Ha Hb HA HA) as Q.
    destruct (quad_bytes _ _ _ _) as [[b0 b1] b2].
    assert (E : octets (value_bits [a; b]) = firstn 1 (octets (value_bits [a; b; Achar; Achar])))
      by reflexivity.
    rewrite E, Q. reflexivity.
  - apply bytes_ok_cons in Hi; destruct Hi as [Hc Hi].
    rewrite decode_quad_spec by assumption. rewrite readable_A. cbn [firstn forallb].
    rewrite !andb_true_r.
    rewrite <- andb_assoc.
    destruct (readable sc a); [|reflexivity]. destruct (readable sc b); [|reflexivity].
    destruct (readable sc c); [|reflexivity].
    cbn [andb bind].
    pose proof (octets_quad_chars a b c Achar [] Ha Hb Hc HA) as Q.
    destruct (quad_bytes _ _ _ _) as [[b0 b1] b2].
    assert (E : octets (value_bits [a; b; c]) = firstn 2 (octets (value_bits [a; b; c; Achar])))
      by reflexivity.
    rewrite E, Q. reflexivity.
Qed.

(** ** Padding *)
Lemma has_pad_1 p c : has_pad 1 (p ++ [c]) = (c =? pad_char).
Proof.
  unfold has_pad. rewrite app_length. cbn [length].
  replace (length p + 1 - 1)%nat with (length p) by lia.
  replace (1 <=? length p + 1)%nat with true by (symmetry; apply Nat.leb_le; lia).
  rewrite skipn_app, skipn_all, Nat.sub_diag. cbn [skipn app forallb andb].
  rewrite andb_true_r. reflexivity.
Qed.

Lemma has_pad_2 p b c : has_pad 2 (p ++ [b; c]) = (b =? pad_char) && (c =? pad_char).
Proof.
  unfold has_pad. rewrite app_length. cbn [length].
  replace (length p + 2 - 2)%nat with (length p) by lia.
  replace (2 <=? length p + 2)%nat with true by (symmetry; apply Nat.leb_le; lia).
  rewrite skipn_app, skipn_all, Nat.sub_diag. cbn [skipn app forallb andb].
  rewrite andb_true_r. reflexivity.
Qed.

Lemma back_is_eq_app p c : back_is_eq (p ++ [c]) = (c =? pad_char).
Proof. unfold back_is_eq. rewrite rev_app_distr. reflexivity. Qed.

Lemma back_has_pad s : back_is_eq s = has_pad 1 s.
Proof.
  destruct s as [|x s] using rev_ind; [reflexivity|].
  rewrite back_is_eq_app, has_pad_1. reflexivity.
Qed.

Lemma bytes_ok_app l1 l2 : bytes_ok (l1 ++ l2) = bytes_ok l1 && bytes_ok l2.
Proof. apply forallb_app. Qed.

Lemma bytes_ok_firstn n l : bytes_ok l = true -> bytes_ok (firstn n l) = true.
Proof.
  intro H. rewrite <- (firstn_skipn n l), bytes_ok_app in H. apply andb_true_iff in H. tauto.
Qed.

Lemma bytes_ok_skipn n l : bytes_ok l = true -> bytes_ok (skipn n l) = true.
Proof.
  intro H. rewrite <- (firstn_skipn n l), bytes_ok_app in H. apply andb_true_iff in H. tauto.
Qed.

(** Loop and tail on a string of which [q] quads are decoded and at least two characters are left. *)
Lemma loop_tail sc dbg q s : bytes_ok s = true -> (4 * q + 2 <= length s)%nat ->
  (r <- quad_loop sc dbg q s ;; (let '(ret, i) := r in t <- tail sc dbg i ;; Ok (ret ++ t))) =
  let d := firstn (4 * q + 3) s in
  if forallb (readable sc) d then Ok (denoted d) else UB OutOfBounds.
Proof.
  intros Hs Hn.
  assert (Hd : firstn (4 * q + 3) s = firstn (4 * q) s ++ firstn 3 (skipn (4 * q) s)).
  { rewrite <- (firstn_skipn (4 * q) s) at 1. rewrite firstn_app.
    assert (length (firstn (4 * q) s) = (4 * q)%nat) as L by (rewrite firstn_length; lia).
    rewrite L. replace (4 * q + 3 - 4 * q)%nat with 3%nat by lia.
    f_equal. rewrite firstn_all2; [reflexivity|]. rewrite L. lia. }
  rewrite <- (firstn_skipn (4 * q) s) at 1.
  rewrite quad_loop_spec;
    [|apply bytes_ok_firstn; exact Hs|rewrite firstn_length; lia].
  rewrite Hd. cbv zeta. rewrite forallb_app.
  destruct (forallb (readable sc) (firstn (4 * q) s)); [|reflexivity]. cbn [bind andb].
  rewrite tail_spec; [|apply bytes_ok_skipn; exact Hs|rewrite skipn_length; lia].
  destruct (forallb (readable sc) (firstn 3 (skipn (4 * q) s))); [|reflexivity]. cbn [bind].
  unfold denoted. change (flat_map _ (?x)) with (value_bits x).
  rewrite (octets_quads_app q); [reflexivity|apply bytes_ok_firstn; exact Hs|].
  rewrite firstn_length; lia.
Qed.

Lemma denoted_value d : denoted d = octets (value_bits d).
Proof. reflexivity. Qed.

Lemma removelast_firstn_len (l : list N) : removelast l = firstn (length l - 1) l.
Proof. rewrite removelast_firstn_len. f_equal. lia. Qed.

Lemma not_dangling_data d n : length d = n -> (n mod 4 <> 1)%nat -> dangling d = false.
Proof. intros <- H. unfold dangling. apply Nat.eqb_neq. exact H. Qed.

Theorem decode_expected sc dbg s : bytes_ok s = true ->
  base64_decode sc dbg s = expected sc dbg s.
Proof.
  intro Hs.
  destruct s as [|c p _] using rev_ind; [reflexivity|].
  assert (Hne : base64_decode sc dbg (p ++ [c]) =
    let str := p ++ [c] in
      let num_quads := Nat.div (length str) 4 in
      p <- (if back_is_eq str then
              if Nat.eqb num_quads 0 then Throw InvalidArgument
              else
                let str := removelast str in
                Ok (Nat.pred num_quads, if back_is_eq str then removelast str else str)
            else Ok (num_quads, str)) ;;
      let '(num_quads, str) := p in
      r <- quad_loop sc dbg num_quads str ;;
      let '(ret, i) := r in
      t <- tail sc dbg i ;;
      Ok (ret ++ t)).
  { destruct p; reflexivity. }
  rewrite Hne. clear Hne. cbv zeta.
  unfold expected. rewrite back_is_eq_app, has_pad_1.
  assert (Hlen : length (p ++ [c]) = S (length p)) by (rewrite app_length; simpl; lia).
  assert (Hp : bytes_ok p = true).
  { rewrite bytes_ok_app in Hs. apply andb_true_iff in Hs. tauto. }
  destruct (c =? pad_char) eqn:Ec.
  - apply N.eqb_eq in Ec. subst c. cbn [andb].
    destruct (Nat.ltb_spec (length (p ++ [pad_char])) 4) as [Hlt|Hge].
    + rewrite (Nat.div_small _ 4) by exact Hlt. reflexivity.
    + assert (Hq : (length (p ++ [pad_char]) / 4 <> 0)%nat).
      { intro E. apply Nat.div_small_iff in E; lia. }
      apply Nat.eqb_neq in Hq. rewrite Hq. cbn [bind]. rewrite removelast_last.
      assert (Hup : (4 * (length (p ++ [pad_char]) / 4) - 1 =
                     4 * Nat.pred (length (p ++ [pad_char]) / 4) + 3)%nat).
      { apply Nat.eqb_neq in Hq. lia. }
      assert (Hdiv : (4 * (length (p ++ [pad_char]) / 4) <= length (p ++ [pad_char]))%nat)
        by (apply Nat.mul_div_le; lia).
      assert (Hdiv2 : (length (p ++ [pad_char]) < 4 * (length (p ++ [pad_char]) / 4) + 4)%nat).
      { pose proof (Nat.mod_upper_bound (length (p ++ [pad_char])) 4).
        pose proof (Nat.div_mod (length (p ++ [pad_char])) 4). lia. }
      apply Nat.eqb_neq in Hq.
      destruct p as [|b p _] using rev_ind; [simpl in Hge; lia|].
      assert (Hlen2 : length (p ++ [b]) = S (length p)) by (rewrite app_length; simpl; lia).
      rewrite back_is_eq_app.
      assert (Hpad2 : has_pad 2 ((p ++ [b]) ++ [pad_char]) = (b =? pad_char)).
      { rewrite <- app_assoc. cbn [app]. rewrite has_pad_2. 
        change (pad_char =? pad_char) with true. apply andb_true_r. }
      unfold data_chars. cbv zeta. rewrite Hpad2, has_pad_1, Hup.
      change (pad_char =? pad_char) with true. cbv iota.
      destruct (b =? pad_char) eqn:Eb.
      * rewrite removelast_last.
        assert (Hfn : firstn (length ((p ++ [b]) ++ [pad_char]) - 2) ((p ++ [b]) ++ [pad_char]) = p).
        { rewrite Hlen, Hlen2. replace (S (S (length p)) - 2)%nat with (length p) by lia.
          rewrite <- app_assoc. rewrite firstn_app, Nat.sub_diag, firstn_all. apply app_nil_r. }
        rewrite Hfn. rewrite loop_tail.
        -- cbv zeta.
           set (q := Nat.pred (length ((p ++ [b]) ++ [pad_char]) / 4)) in *.
           assert (Hdang : dangling (firstn (4 * q + 3) p) = false).
           { apply not_dangling_data with (n := Nat.min (4 * q + 3) (length p)).
             - apply firstn_length.
             - assert (4 * q + 2 <= length p)%nat by lia.
               destruct (Nat.eq_dec (length p) (4 * q + 2)) as [E|E].
               + rewrite Nat.min_r by lia. rewrite E. lia.
               + rewrite Nat.min_l by lia. lia. }
           rewrite Hdang. destruct (forallb _ _); reflexivity.
        -- rewrite bytes_ok_app in Hp. apply andb_true_iff in Hp. tauto.
        -- lia.
      * assert (Hfn : firstn (length ((p ++ [b]) ++ [pad_char]) - 1) ((p ++ [b]) ++ [pad_char]) = p ++ [b]).
        { rewrite Hlen. replace (S (length (p ++ [b])) - 1)%nat with (length (p ++ [b])) by lia.
          rewrite firstn_app, Nat.sub_diag, firstn_all. apply app_nil_r. }
        rewrite Hfn. rewrite loop_tail.
        -- cbv zeta.
           set (q := Nat.pred (length ((p ++ [b]) ++ [pad_char]) / 4)) in *.
           assert (Hdang : dangling (firstn (4 * q + 3) (p ++ [b])) = false).
           { apply not_dangling_data with (n := (4 * q + 3)%nat).
             - rewrite firstn_length. lia.
             - lia. }
           rewrite Hdang. destruct (forallb _ _); reflexivity.
        -- exact Hp.
        -- lia.
  - cbn [andb bind]. 
    assert (Hdata : data_chars (p ++ [c]) = p ++ [c]).
    { unfold data_chars. cbv zeta. rewrite has_pad_1, Ec.
      destruct p as [|b p _] using rev_ind; [reflexivity|].
      rewrite <- app_assoc. cbn [app]. rewrite has_pad_2, Ec, andb_false_r. reflexivity. }
    rewrite Hdata. clear Hdata.
    set (s := p ++ [c]) in *. clearbody s. clear Hlen Hp Ec p c.
    set (q := (length s / 4)%nat).
    assert (Hdm : (length s = 4 * q + length s mod 4)%nat).
    { unfold q. apply Nat.div_mod. lia. }
    assert (Hm : (length s mod 4 < 4)%nat) by (apply Nat.mod_upper_bound; lia).
    remember (length s mod 4)%nat as m eqn:Em.
    destruct (le_lt_dec 2 m) as [H2|H2].
    + rewrite loop_tail; [|exact Hs|lia]. cbv zeta.
      rewrite firstn_all2 by lia.
      rewrite (not_dangling_data s (length s)); [|reflexivity|lia].
      destruct (forallb _ _); reflexivity.
    + rewrite <- (firstn_skipn (4 * q) s) at 1.
      rewrite quad_loop_spec; [|apply bytes_ok_firstn; exact Hs|rewrite firstn_length; lia].
      assert (Hsk : length (skipn (4 * q) s) = m) by (rewrite skipn_length; lia).
      assert (Hm1 : m = 0%nat \/ m = 1%nat) by lia. destruct Hm1 as [Hm1|Hm1].
      * assert (Hall : firstn (4 * q) s = s) by (apply firstn_all2; lia).
        rewrite Hall.
        rewrite (not_dangling_data s (length s)); [|reflexivity|lia].
        destruct (forallb (readable sc) s); [|reflexivity]. cbn [bind].
        rewrite Hm1 in Hsk. apply length_zero_iff_nil in Hsk. rewrite Hsk. cbn [tail bind].
        rewrite app_nil_r. reflexivity.
      * assert (Hdang : dangling s = true).
        { unfold dangling. rewrite <- Em, Hm1. reflexivity. }
        rewrite Hdang.
        assert (Hrl : removelast s = firstn (4 * q) s).
        { rewrite removelast_firstn_len. f_equal. lia. }
        rewrite Hrl.
        destruct (forallb (readable sc) (firstn (4 * q) s)); [|reflexivity]. cbn [bind negb].
        rewrite Hm1 in Hsk. destruct (skipn (4 * q) s) as [|x [|y r]]; try discriminate.
        unfold tail. cbn [length Nat.eqb negb]. unfold assert_. rewrite andb_true_r.
        destruct dbg; reflexivity.
Qed.

(** ** Encoding *)
Definition alpha (v : N) : N := nth (N.to_nat v) alphabet 0.

Lemma alpha_facts v : v < 64 ->
  char_value (alpha v) = v /\ alpha v < 128 /\ alpha v <> pad_char.
Proof.
  intro H.
  pose proof (sweep (fun v => (char_value (alpha v) =? v) && (alpha v <? 128) &&
                              negb (alpha v =? pad_char)) 64 eq_refl v H) as S.
  cbv beta in S. apply andb_true_iff in S. destruct S as [S S3].
  apply andb_true_iff in S. destruct S as [S1 S2].
  apply N.eqb_eq in S1. apply N.ltb_lt in S2. apply negb_true_iff, N.eqb_neq in S3. auto.
Qed.

Lemma of_bits_6_lt a b c d e f : of_bits [a; b; c; d; e; f] < 64.
Proof. rewrite of_bits_6. destruct a, b, c, d, e, f; simpl; lia. Qed.

Lemma bits_of_6 a b c d e f : bits_of 6 (of_bits [a; b; c; d; e; f]) = [a; b; c; d; e; f].
Proof. destruct a, b, c, d, e, f; reflexivity. Qed.

Lemma sextets_lt : forall l, Forall (fun v => v < 64) (sextets l).
Proof.
  fix IH 1. intro l.
  destruct l as [|a [|b [|c [|d [|e [|f l]]]]]]; cbn [sextets length Nat.sub repeat app];
    repeat constructor; try apply of_bits_6_lt.
  apply IH.
Qed.

Lemma bits_of_sextets : forall l, exists k, (k < 6)%nat /\
  flat_map (bits_of 6) (sextets l) = l ++ repeat false k /\
  (length l + k = 6 * length (sextets l))%nat.
Proof.
  fix IH 1. intro l.
  destruct l as [|a [|b [|c [|d [|e [|f l]]]]]]; cbn [sextets length Nat.sub repeat app flat_map].
  - exists 0%nat. cbn. repeat split; lia.
  - exists 5%nat. rewrite bits_of_6. cbn. repeat split; lia.
  - exists 4%nat. rewrite bits_of_6. cbn. repeat split; lia.
  - exists 3%nat. rewrite bits_of_6. cbn. repeat split; lia.
  - exists 2%nat. rewrite bits_of_6. cbn. repeat split; lia.
  - exists 1%nat. rewrite bits_of_6. cbn. repeat split; lia.
  - destruct (IH l) as [k [Hk [E L]]]. exists k. rewrite bits_of_6. cbn [app]. rewrite E.
    repeat split; lia.
Qed.

Lemma of_bits_bits_8 v : v < 256 -> of_bits (bits_of 8 v) = v.
Proof. intro H. rewrite bits8, of_bits_8. symmetry. apply testbit_sum8, H. Qed.

Lemma octets_byte_bits bs k : bytes_ok bs = true -> (k < 8)%nat ->
  octets (byte_bits bs ++ repeat false k) = bs.
Proof.
  intros Hb Hk. induction bs as [|b bs IH].
  - cbn [byte_bits flat_map app].
    do 8 (destruct k as [|k]; [reflexivity|]). lia.
  - apply bytes_ok_cons in Hb. destruct Hb as [Hb Hbs].
    unfold byte_bits. cbn [flat_map]. fold (byte_bits bs).
    pose proof (of_bits_bits_8 b Hb) as E. rewrite bits8 in *.
    cbn [app octets]. rewrite E, IH by assumption. reflexivity.
Qed.

Lemma value_bits_alpha l : Forall (fun v => v < 64) l ->
  value_bits (map alpha l) = flat_map (bits_of 6) l.
Proof.
  induction 1 as [|v l Hv _ IH]; [reflexivity|].
  unfold value_bits in *. cbn [map flat_map]. rewrite (proj1 (alpha_facts v Hv)), IH. reflexivity.
Qed.

Lemma encode_unpadded_alpha bs : encode_unpadded bs = map alpha (sextets (byte_bits bs)).
Proof. reflexivity. Qed.

Lemma denoted_encode bs : bytes_ok bs = true -> denoted (encode_unpadded bs) = bs.
Proof.
  intro H. rewrite denoted_value, encode_unpadded_alpha, value_bits_alpha by apply sextets_lt.
  destruct (bits_of_sextets (byte_bits bs)) as [k [Hk [E _]]]. rewrite E.
  apply octets_byte_bits; [exact H|lia].
Qed.

Lemma byte_bits_length bs : length (byte_bits bs) = (8 * length bs)%nat.
Proof.
  induction bs as [|b bs IH]; [reflexivity|].
  unfold byte_bits in *. cbn [flat_map]. rewrite app_length, IH, bits8. cbn [length]. lia.
Qed.

Lemma encode_unpadded_length bs : exists k, (k < 6)%nat /\
  (8 * length bs + k = 6 * length (encode_unpadded bs))%nat.
Proof.
  destruct (bits_of_sextets (byte_bits bs)) as [k [Hk [_ L]]].
  exists k. rewrite encode_unpadded_alpha, map_length. rewrite byte_bits_length in L. auto.
Qed.

Lemma encode_unpadded_chars bs c : In c (encode_unpadded bs) -> c < 128 /\ c <> pad_char.
Proof.
  rewrite encode_unpadded_alpha, in_map_iff. intros [v [<- Hv]].
  pose proof (sextets_lt (byte_bits bs)) as F. rewrite Forall_forall in F.
  apply alpha_facts, F, Hv.
Qed.

Lemma encode_unpadded_bytes bs : bytes_ok (encode_unpadded bs) = true.
Proof.
  apply forallb_forall. intros c Hc. apply encode_unpadded_chars in Hc.
  apply N.ltb_lt. lia.
Qed.

Lemma encode_unpadded_readable sc bs : forallb (readable sc) (encode_unpadded bs) = true.
Proof.
  apply forallb_forall. intros c Hc. apply encode_unpadded_chars in Hc. unfold readable.
  destruct sc; [|reflexivity]. destruct (N.leb_spec 128 c); [lia|reflexivity].
Qed.

Lemma has_pad_In s : has_pad 1 s = true -> In pad_char s.
Proof.
  destruct s as [|c s _] using rev_ind; [discriminate|].
  rewrite has_pad_1. intro E. apply N.eqb_eq in E. subst c. apply in_or_app. right. left. reflexivity.
Qed.

Lemma has_pad_2_1 s : has_pad 2 s = true -> has_pad 1 s = true.
Proof.
  destruct s as [|c s _] using rev_ind; [discriminate|].
  rewrite has_pad_1. destruct s as [|b s _] using rev_ind; [discriminate|].
  rewrite <- app_assoc. cbn [app]. rewrite has_pad_2. intro E. apply andb_true_iff in E. tauto.
Qed.

Lemma no_pad_encode bs : has_pad 1 (encode_unpadded bs) = false.
Proof.
  destruct (has_pad 1 _) eqn:E; [|reflexivity].
  apply has_pad_In, encode_unpadded_chars in E. tauto.
Qed.

Lemma data_chars_nopad s : has_pad 1 s = false -> data_chars s = s.
Proof.
  intro H. unfold data_chars. cbv zeta. rewrite H.
  destruct (has_pad 2 s) eqn:E; [|reflexivity]. apply has_pad_2_1 in E. congruence.
Qed.

Lemma encode_unpadded_not_dangling bs : dangling (encode_unpadded bs) = false.
Proof.
  destruct (encode_unpadded_length bs) as [k [Hk L]].
  apply not_dangling_data with (n := length (encode_unpadded bs)); [reflexivity|lia].
Qed.

Theorem decode_unpadded sc dbg bs : bytes_ok bs = true ->
  base64_decode sc dbg (encode_unpadded bs) = Ok bs.
Proof.
  intro H. rewrite decode_expected by apply encode_unpadded_bytes.
  unfold expected. rewrite no_pad_encode. cbn [andb].
  rewrite data_chars_nopad by apply no_pad_encode.
  rewrite encode_unpadded_not_dangling, encode_unpadded_readable. cbn [negb].
  rewrite denoted_encode by exact H. reflexivity.
Qed.

Lemma data_chars_encode bs : data_chars (encode bs) = encode_unpadded bs /\
  has_pad 1 (encode bs) && Nat.ltb (length (encode bs)) 4 = false.
Proof.
  unfold encode. destruct (encode_unpadded_length bs) as [k [Hk L]].
  assert (Hm : (length bs mod 3 < 3)%nat) by (apply Nat.mod_upper_bound; lia).
  pose proof (Nat.div_mod (length bs) 3) as D.
  destruct (length bs mod 3)%nat as [|[|[|m]]] eqn:Em; [| | |lia].
  - cbn [repeat]. rewrite app_nil_r. rewrite no_pad_encode. split; [|reflexivity].
    apply data_chars_nopad, no_pad_encode.
  - cbn [repeat]. set (u := encode_unpadded bs) in *.
    assert (Hu : (length u = 4 * (length bs / 3) + 2)%nat) by lia.
    assert (Hl : length (u ++ [pad_char; pad_char]) = (4 * (length bs / 3 + 1))%nat)
      by (rewrite app_length; cbn [length]; lia).
    split.
    + unfold data_chars. cbv zeta. rewrite has_pad_2.
      change ((pad_char =? pad_char) && (pad_char =? pad_char)) with true. cbv iota.
      rewrite Hl. rewrite (Nat.mul_comm 4 (_ + 1)), Nat.div_mul by lia.
      replace ((length bs / 3 + 1) * 4 - 2)%nat with (length u) by lia.
      rewrite (firstn_app (length u)), Nat.sub_diag, firstn_all. cbn [firstn]. rewrite app_nil_r.
      apply firstn_all2. lia.
    + apply andb_false_iff. right. apply Nat.ltb_ge. lia.
  - cbn [repeat]. 
    assert (Hu : (length (encode_unpadded bs) = 4 * (length bs / 3) + 3)%nat) by lia.
    assert (Hne : exists p c, encode_unpadded bs = p ++ [c]).
    { destruct (encode_unpadded bs) as [|c p _] using rev_ind; [simpl in Hu; lia|]. eauto. }
    destruct Hne as [p [c Ep]].
    assert (Hc : c <> pad_char).
    { apply (encode_unpadded_chars bs c). rewrite Ep. apply in_or_app. right. left. reflexivity. }
    set (u := encode_unpadded bs) in *.
    assert (Hl : length (u ++ [pad_char]) = (4 * (length bs / 3 + 1))%nat)
      by (rewrite app_length; cbn [length]; lia).
    split.
    + unfold data_chars. cbv zeta. rewrite has_pad_1.
      assert (H2 : has_pad 2 (u ++ [pad_char]) = false).
      { rewrite Ep, <- app_assoc. cbn [app]. rewrite has_pad_2.
        apply N.eqb_neq in Hc. rewrite Hc. reflexivity. }
      rewrite H2. change (pad_char =? pad_char) with true. cbv iota.
      rewrite Hl. rewrite (Nat.mul_comm 4 (_ + 1)), Nat.div_mul by lia.
      replace ((length bs / 3 + 1) * 4 - 1)%nat with (length u) by lia.
      rewrite (firstn_app (length u)), Nat.sub_diag, firstn_all. cbn [firstn]. rewrite app_nil_r.
      apply firstn_all2. lia.
    + apply andb_false_iff. right. apply Nat.ltb_ge. lia.
Qed.

Lemma encode_bytes bs : bytes_ok (encode bs) = true.
Proof.
  unfold encode. rewrite bytes_ok_app, encode_unpadded_bytes.
  destruct (length bs mod 3)%nat as [|[|[|m]]]; reflexivity.
Qed.

Theorem decode_padded sc dbg bs : bytes_ok bs = true ->
  base64_decode sc dbg (encode bs) = Ok bs.
Proof.
  intro H. rewrite decode_expected by apply encode_bytes.
  destruct (data_chars_encode bs) as [D P]. unfold expected. rewrite P, D.
  rewrite encode_unpadded_not_dangling, encode_unpadded_readable. cbn [negb].
  rewrite denoted_encode by exact H. reflexivity.
Qed.

(** ** Consequences of the functional description *)
Lemma value_bits_length l : length (value_bits l) = (6 * length l)%nat.
Proof.
  induction l as [|b l IH]; [reflexivity|].
  unfold value_bits in *. cbn [flat_map]. rewrite app_length, IH, bits6. cbn [length]. lia.
Qed.

Lemma octets_length : forall l, length (octets l) = (length l / 8)%nat.
Proof.
  fix IH 1. intro l.
  destruct l as [|a [|b [|c [|d [|e [|f [|g [|h l]]]]]]]]; try reflexivity.
  cbn [octets length]. rewrite IH.
  change (S (S (S (S (S (S (S (S (length l))))))))) with (8 + length l)%nat.
  rewrite <- (Nat.mul_1_l 8) at 2. rewrite Nat.div_add_l by lia. lia.
Qed.

Lemma denoted_length d : length (denoted d) = (3 * length d / 4)%nat.
Proof.
  rewrite denoted_value, octets_length, value_bits_length.
  replace (6 * length d)%nat with (2 * (3 * length d))%nat by lia.
  change 8%nat with (2 * 4)%nat. rewrite Nat.div_mul_cancel_l by lia. reflexivity.
Qed.

Lemma of_bits_8_lt a b c d e f g h : of_bits [a; b; c; d; e; f; g; h] < 256.
Proof. rewrite of_bits_8. destruct a, b, c, d, e, f, g, h; simpl; lia. Qed.

Lemma octets_bytes : forall l, bytes_ok (octets l) = true.
Proof.
  fix IH 1. intro l.
  destruct l as [|a [|b [|c [|d [|e [|f [|g [|h l]]]]]]]]; try reflexivity.
  cbn [octets]. unfold bytes_ok. cbn [forallb]. fold (bytes_ok (octets l)). rewrite IH, andb_true_r.
  apply N.ltb_lt, of_bits_8_lt.
Qed.

Lemma neutralize_facts sc c : c < 256 ->
  neutralize c < 256 /\ char_value (neutralize c) = char_value c /\
  readable sc (neutralize c) = readable sc c /\ (neutralize c =? pad_char) = (c =? pad_char).
Proof.
  intro H.
  pose proof (sweep (fun c => (neutralize c <? 256) && (char_value (neutralize c) =? char_value c) &&
     eqb (128 <=? neutralize c) (128 <=? c) &&
     eqb (neutralize c =? pad_char) (c =? pad_char)) 256) as S.
  specialize (S ltac:(vm_compute; reflexivity) c H). cbv beta in S.
  apply andb_true_iff in S. destruct S as [S S4].
  apply andb_true_iff in S. destruct S as [S S3].
  apply andb_true_iff in S. destruct S as [S1 S2].
  apply N.eqb_eq in S2. apply N.ltb_lt in S1. apply eqb_prop in S3. apply eqb_prop in S4.
  unfold readable. rewrite S3. auto.
Qed.

(** Strings that agree character by character in value, readability and being '='. *)
Definition same_char (sc : bool) (c c' : N) : Prop :=
  char_value c = char_value c' /\ readable sc c = readable sc c' /\
  (c =? pad_char) = (c' =? pad_char).

Lemma same_firstn sc n : forall l l', Forall2 (same_char sc) l l' ->
  Forall2 (same_char sc) (firstn n l) (firstn n l').
Proof.
  induction n as [|n IH]; intros l l' H; [constructor|].
  destruct H; cbn [firstn]; constructor; auto.
Qed.

Lemma same_skipn sc n : forall l l', Forall2 (same_char sc) l l' ->
  Forall2 (same_char sc) (skipn n l) (skipn n l').
Proof.
  induction n as [|n IH]; intros l l' H; [exact H|].
  destruct H; cbn [skipn]; [constructor|]; auto.
Qed.

Lemma same_len sc l l' : Forall2 (same_char sc) l l' -> length l = length l'.
Proof. induction 1; simpl; congruence. Qed.

Lemma same_readable sc l l' : Forall2 (same_char sc) l l' ->
  forallb (readable sc) l = forallb (readable sc) l'.
Proof.
  induction 1 as [|c c' l l' H _ IH]; [reflexivity|]. cbn [forallb]. rewrite IH.
  destruct H as [_ [-> _]]. reflexivity.
Qed.

Lemma same_value_bits sc l l' : Forall2 (same_char sc) l l' -> value_bits l = value_bits l'.
Proof.
  induction 1 as [|c c' l l' H _ IH]; [reflexivity|]. unfold value_bits in *. cbn [flat_map].
  rewrite IH. destruct H as [-> _]. reflexivity.
Qed.

Lemma same_has_pad sc k l l' : Forall2 (same_char sc) l l' -> has_pad k l = has_pad k l'.
Proof.
  intro H. unfold has_pad. rewrite (same_len _ _ _ H). f_equal.
  pose proof (same_skipn sc (length l' - k) _ _ H) as S. revert S.
  generalize (skipn (length l' - k) l) (skipn (length l' - k) l'). intros a b S.
  induction S as [|c c' a b Hc _ IH]; [reflexivity|]. cbn [forallb]. rewrite IH.
  destruct Hc as [_ [_ ->]]. reflexivity.
Qed.

Lemma same_data_chars sc l l' : Forall2 (same_char sc) l l' ->
  Forall2 (same_char sc) (data_chars l) (data_chars l').
Proof.
  intro H. unfold data_chars. cbv zeta.
  rewrite (same_has_pad _ 2 _ _ H), (same_has_pad _ 1 _ _ H), (same_len _ _ _ H).
  destruct (has_pad 2 l'); [|destruct (has_pad 1 l')]; try exact H; apply same_firstn, same_firstn, H.
Qed.

Lemma expected_same sc dbg l l' : Forall2 (same_char sc) l l' ->
  expected sc dbg l = expected sc dbg l'.
Proof.
  intro H. unfold expected. cbv zeta.
  rewrite (same_has_pad _ 1 _ _ H), (same_len _ _ _ H).
  pose proof (same_data_chars _ _ _ H) as D.
  assert (Dd : dangling (data_chars l) = dangling (data_chars l')).
  { unfold dangling. rewrite (same_len _ _ _ D). reflexivity. }
  rewrite Dd, !denoted_value, (same_value_bits _ _ _ D).
  destruct (has_pad 1 l' && _); [reflexivity|].
  assert (R : forallb (readable sc) (if dangling (data_chars l') then removelast (data_chars l) else data_chars l)
            = forallb (readable sc) (if dangling (data_chars l') then removelast (data_chars l') else data_chars l')).
  { destruct (dangling (data_chars l')).
    - rewrite !removelast_firstn_len, (same_len _ _ _ D). apply same_readable, same_firstn, D.
    - apply same_readable, D. }
  rewrite R. reflexivity.
Qed.

Theorem decode_neutralize sc dbg s : bytes_ok s = true ->
  base64_decode sc dbg (map neutralize s) = base64_decode sc dbg s.
Proof.
  intro H.
  assert (F : Forall2 (same_char sc) (map neutralize s) s /\ bytes_ok (map neutralize s) = true).
  { induction s as [|c s IH]; [split; constructor|].
    apply bytes_ok_cons in H. destruct H as [Hc Hs]. destruct (IH Hs) as [F B].
    destruct (neutralize_facts sc c Hc) as [N1 [N2 [N3 N4]]].
    split.
    - cbn [map]. constructor; [unfold same_char; auto|exact F].
    - unfold bytes_ok in *. cbn [map forallb]. rewrite B, andb_true_r. apply N.ltb_lt, N1. }
  destruct F as [F B]. rewrite !decode_expected by assumption. apply expected_same, F.
Qed.

Lemma has_pad_1_cons c r : (1 <= length r)%nat -> has_pad 1 (c :: r) = has_pad 1 r.
Proof.
  intro H. destruct r as [|x r _] using rev_ind; [simpl in H; lia|].
  rewrite app_comm_cons, !has_pad_1. reflexivity.
Qed.

Lemma has_pad_app k p r : (k <= length r)%nat -> has_pad k (p ++ r) = has_pad k r.
Proof.
  intro H. unfold has_pad. rewrite app_length.
  replace (length p + length r - k)%nat with (length p + (length r - k))%nat by lia.
  rewrite skipn_app, skipn_all2 by lia.
  replace (length p + (length r - k) - length p)%nat with (length r - k)%nat by lia. cbn [app].
  replace (k <=? length p + length r)%nat with true by (symmetry; apply Nat.leb_le; lia).
  replace (k <=? length r)%nat with true by (symmetry; apply Nat.leb_le; lia).
  reflexivity.
Qed.

(** The characters of a data part are independent of what pads it. *)
Theorem decode_inner_pad sc dbg p r : bytes_ok (p ++ r) = true -> (2 <= length r)%nat ->
  base64_decode sc dbg (p ++ pad_char :: r) = base64_decode sc dbg (p ++ 65 :: r).
Proof.
  intros H Hr.
  assert (HB : bytes_ok (p ++ pad_char :: r) = true /\ bytes_ok (p ++ 65 :: r) = true).
  { rewrite !bytes_ok_app in *. apply andb_true_iff in H. destruct H as [H1 H2]. rewrite H1.
    unfold bytes_ok in *. cbn [forallb]. rewrite H2. split; reflexivity. }
  destruct HB as [B1 B2]. rewrite !decode_expected by assumption.
  unfold expected. cbv zeta.
  assert (P : forall k c, (k <= 2)%nat -> has_pad k (p ++ c :: r) = has_pad k r).
  { intros k c Hk. change (c :: r) with ([c] ++ r). rewrite app_assoc. apply has_pad_app. lia. }
  assert (L : forall c, length (p ++ c :: r) = (length p + S (length r))%nat).
  { intro c. rewrite app_length. reflexivity. }
  assert (G : forall l l', length l = length l' ->
     (forall i, match nth_error l i, nth_error l' i with
                | Some c, Some c' => char_value c = char_value c' /\ readable sc c = readable sc c'
                | None, None => True | _, _ => False end) ->
     forall n, forallb (readable sc) (firstn n l) = forallb (readable sc) (firstn n l') /\
               value_bits (firstn n l) = value_bits (firstn n l')).
  { induction l as [|c l IH]; intros l' Hl Hn n.
    - destruct l'; [|discriminate]. auto.
    - destruct l' as [|c' l']; [discriminate|]. destruct n as [|n]; [auto|].
      injection Hl as Hl. destruct (IH l' Hl (fun i => Hn (S i)) n) as [I1 I2].
      destruct (Hn 0%nat) as [C1 C2]. cbn [firstn]. unfold value_bits in *. cbn [forallb flat_map].
      rewrite I1, I2, C1, C2. auto. }
  assert (N : forall i, match nth_error (p ++ pad_char :: r) i, nth_error (p ++ 65 :: r) i with
                | Some c, Some c' => char_value c = char_value c' /\ readable sc c = readable sc c'
                | None, None => True | _, _ => False end).
  { intro i. destruct (Nat.lt_ge_cases i (length p)) as [Hi|Hi].
    - rewrite !nth_error_app1 by exact Hi. destruct (nth_error p i); auto.
    - rewrite !nth_error_app2 by exact Hi. destruct (i - length p)%nat as [|j]; cbn [nth_error].
      + split; [reflexivity|destruct sc; reflexivity].
      + destruct (nth_error r j); auto. }
  pose proof (G _ _ ltac:(rewrite !L; reflexivity) N) as GG.
  assert (DD : exists m, data_chars (p ++ pad_char :: r) = firstn m (p ++ pad_char :: r) /\
                         data_chars (p ++ 65 :: r) = firstn m (p ++ 65 :: r)).
  { unfold data_chars. cbv zeta. rewrite !P, !L by lia.
    destruct (has_pad 2 r); [|destruct (has_pad 1 r)].
    - eexists. rewrite !firstn_firstn. split; reflexivity.
    - eexists. rewrite !firstn_firstn. split; reflexivity.
    - exists (length p + S (length r))%nat. split; symmetry; apply firstn_all2; rewrite L; lia. }
  destruct DD as [m [D1 D2]]. rewrite D1, D2, !P, !L by lia.
  destruct (has_pad 1 r && _); [reflexivity|].
  assert (E : dangling (firstn m (p ++ pad_char :: r)) = dangling (firstn m (p ++ 65 :: r))).
  { unfold dangling. rewrite !firstn_length, !L. reflexivity. }
  rewrite E, !denoted_value. rewrite (proj2 (GG m)).
  assert (R : forall x, (if dangling (firstn m (p ++ 65 :: r)) then removelast (firstn m (p ++ x :: r)) else firstn m (p ++ x :: r))
     = firstn (if dangling (firstn m (p ++ 65 :: r)) then Nat.min (Nat.min m (length p + S (length r)) - 1) m else m) (p ++ x :: r)).
  { intro x. destruct (dangling (firstn m (p ++ 65 :: r))); [|reflexivity].
    rewrite removelast_firstn_len, firstn_length, L, firstn_firstn. reflexivity. }
  rewrite !R, (proj1 (GG _)). reflexivity.
Qed.

Theorem decode_ignored sc dbg d x : bytes_ok (d ++ x) = true ->
  (length d mod 4 = 3)%nat -> (1 <= length x <= 3)%nat -> forallb (readable sc) d = true ->
  base64_decode sc dbg (d ++ x ++ [pad_char]) = Ok (denoted d).
Proof.
  intros B Hd Hx Hr.
  assert (B' : bytes_ok (d ++ x ++ [pad_char]) = true).
  { rewrite app_assoc, bytes_ok_app, B. reflexivity. }
  rewrite decode_expected by exact B'. unfold expected. cbv zeta.
  assert (L : length (d ++ x ++ [pad_char]) = (length d + length x + 1)%nat)
    by (rewrite !app_length; simpl; lia).
  assert (Hlt : Nat.ltb (length (d ++ x ++ [pad_char])) 4 = false).
  { apply Nat.ltb_ge. rewrite L. pose proof (Nat.mod_le (length d) 4). lia. }
  rewrite Hlt, andb_false_r.
  assert (Hdm : (length d = 4 * (length d / 4) + 3)%nat).
  { pose proof (Nat.div_mod (length d) 4). lia. }
  assert (Hq : ((length d + length x + 1) / 4 = length d / 4 + 1)%nat).
  { symmetry. apply Nat.div_unique with (r := (length x)%nat). lia. lia. }
  assert (D : data_chars (d ++ x ++ [pad_char]) = d).
  { unfold data_chars. cbv zeta. rewrite L, Hq.
    replace (4 * (length d / 4 + 1) - 1)%nat with (length d) by lia.
    assert (H1 : has_pad 1 (d ++ x ++ [pad_char]) = true) by (rewrite app_assoc; apply has_pad_1).
    rewrite H1. 
    assert (F : forall k, (k <= 2)%nat -> firstn (length d) (firstn (length d + length x + 1 - k) (d ++ x ++ [pad_char])) = d).
    { intros k Hk. rewrite firstn_firstn, Nat.min_l by lia.
      rewrite firstn_app, Nat.sub_diag, firstn_all. apply app_nil_r. }
    destruct (has_pad 2 _); apply F; lia. }
  rewrite D. rewrite (not_dangling_data d (length d)); [|reflexivity|lia].
  rewrite Hr. reflexivity.
Qed.

Lemma has_pad_1_iff s : has_pad 1 s = true <-> exists p, s = p ++ [pad_char].
Proof.
  split.
  - destruct s as [|c s _] using rev_ind; [discriminate|]. rewrite has_pad_1. intro E.
    apply N.eqb_eq in E. subst c. eauto.
  - intros [p ->]. apply has_pad_1.
Qed.

Theorem decode_throws sc dbg s e : bytes_ok s = true ->
  (base64_decode sc dbg s = Throw e <->
   e = InvalidArgument /\ (length s < 4)%nat /\ exists p, s = p ++ [pad_char]).
Proof.
  intro B. rewrite decode_expected by exact B. unfold expected. cbv zeta.
  rewrite <- has_pad_1_iff.
  destruct (has_pad 1 s); cbn [andb].
  - destruct (Nat.ltb_spec (length s) 4) as [H|H].
    + split; [intro E; injection E as <-; auto|intros [-> _]; reflexivity].
    + split; [|intros [_ [? _]]; lia].
      destruct (negb _); [discriminate|]. destruct (dangling _); [destruct dbg|]; discriminate.
  - split; [|intros [_ [_ ?]]; discriminate].
    destruct (negb _); [discriminate|]. destruct (dangling _); [destruct dbg|]; discriminate.
Qed.

Lemma padded_not_dangling s : has_pad 1 s = true -> (4 <= length s)%nat ->
  dangling (data_chars s) = false.
Proof.
  intros P L. unfold data_chars. cbv zeta. rewrite P.
  pose proof (Nat.div_mod (length s) 4) as D. pose proof (Nat.mod_upper_bound (length s) 4) as M.
  destruct (has_pad 2 s); apply Nat.eqb_neq; rewrite !firstn_length.
  - lia.
  - lia.
Qed.

Theorem decode_ub sc s : bytes_ok s = true ->
  ((exists r, base64_decode sc false s = UB r) <->
   ((~ exists p, s = p ++ [pad_char]) /\ (length s mod 4 = 1)%nat) \/
   (sc = true /\ ~ ((exists p, s = p ++ [pad_char]) /\ (length s < 4)%nat) /\
    exists c, In c (data_chars s) /\ 128 <= c)).
Proof.
  intro B. rewrite decode_expected by exact B. rewrite <- has_pad_1_iff.
  assert (RD : forall l, forallb (readable sc) l = false <-> sc = true /\ exists c, In c l /\ 128 <= c).
  { intro l. induction l as [|c l IH]; cbn [forallb].
    - split; [discriminate|intros [_ [c [[] _]]]].
    - rewrite andb_false_iff, IH. unfold readable. rewrite negb_false_iff, andb_true_iff, N.leb_le.
      split.
      + intros [[E H]|[E [x [Hx H]]]]; (split; [exact E|]); [exists c|exists x]; simpl; auto.
      + intros [E [x [[->|Hx] H]]]; [left|right]; eauto. }
  unfold expected. cbv zeta.
  destruct (has_pad 1 s) eqn:P.
  - cbn [andb]. destruct (Nat.ltb_spec (length s) 4) as [L|L].
    + split; [intros [r E]; discriminate|].
      intros [[H _]|[_ [H _]]]; exfalso; apply H; auto.
    + rewrite padded_not_dangling by assumption. specialize (RD (data_chars s)).
      split.
      * intros [r E]. destruct (forallb (readable sc) (data_chars s)); [discriminate|].
        destruct (proj1 RD eq_refl) as [H1 H2]. right. split; [exact H1|]. split; [|exact H2].
        intros [_ HH]; lia.
      * intros [[H _]|[H1 [_ H2]]]; [exfalso; apply H; reflexivity|].
        rewrite (proj2 RD (conj H1 H2)). eexists; reflexivity.
  - cbn [andb]. rewrite data_chars_nopad by exact P.
    unfold dangling. destruct (Nat.eqb_spec (length s mod 4) 1) as [D|D].
    + split; [|intros _; destruct (negb _); eexists; reflexivity].
      intros _. left. split; [discriminate|exact D].
    + specialize (RD s). split.
      * intros [r E]. destruct (forallb (readable sc) s); [discriminate|].
        destruct (proj1 RD eq_refl) as [H1 H2]. right. split; [exact H1|]. split; [|exact H2].
        intros [HH _]; discriminate.
      * intros [[_ H]|[H1 [_ H2]]]; [contradiction|].
        rewrite (proj2 RD (conj H1 H2)). eexists; reflexivity.
Qed.

Theorem decode_length sc dbg s bs : bytes_ok s = true -> base64_decode sc dbg s = Ok bs ->
  length bs = (3 * length (data_chars s) / 4)%nat /\ bytes_ok bs = true.
Proof.
  intros B H. rewrite decode_expected in H by exact B. unfold expected in H. cbv zeta in H.
  destruct (has_pad 1 s && _); [discriminate|].
  destruct (negb _); [discriminate|].
  destruct (dangling _); [destruct dbg; discriminate|].
  injection H as <-. split; [apply denoted_length|apply octets_bytes].
Qed.

Lemma data_chars_len s : (has_pad 1 s = false \/ 4 <= length s)%nat ->
  length (data_chars s) =
  if has_pad 1 s then
    Nat.min (4 * (length s / 4) - 1) (length s - if has_pad 2 s then 2 else 1)
  else length s.
Proof.
  intros H. unfold data_chars. cbv zeta.
  destruct (has_pad 1 s) eqn:P1.
  - destruct (has_pad 2 s); rewrite !firstn_length; lia.
  - destruct (has_pad 2 s) eqn:P2; [apply has_pad_2_1 in P2; congruence|reflexivity].
Qed.

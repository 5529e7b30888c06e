From Verif Require Import Base ListLemmas FormatModel StringSpec.
Local Open Scope Z_scope.

Lemma vsnprintf_ok fmt i buf n : Z.of_nat (length buf) = n -> 0 < n ->
  (forall t, fmt i = Some t -> Z.of_nat (length t) < 2 ^ 31) ->
  vsnprintf fmt i buf n VaFresh =
  match fmt i with
  | None => Ok (-1, buf, VaUsed)
  | Some t => Ok (Z.of_nat (length t), (firstn (Z.to_nat (n - 1)) t ++ [0%N]) ++
                    skipn (length (firstn (Z.to_nat (n - 1)) t ++ [0%N])) buf, VaUsed)
  end.
Proof.
  intros L Hn Hi. cbn [vsnprintf]. destruct (fmt i) as [t|]; [|reflexivity].
  specialize (Hi t eq_refl). replace (2 ^ 31 <=? Z.of_nat (length t)) with false by lia.
  replace (n =? 0) with false by lia. cbv zeta.
  pose proof (firstn_le_length (Z.to_nat (n - 1)) t) as F1. pose proof (firstn_length (Z.to_nat (n - 1)) t) as F2.
  replace (Z.of_nat (length (firstn (Z.to_nat (n - 1)) t ++ [0%N])) <=? Z.of_nat (length buf)) with true;
    [reflexivity|]. rewrite app_length. cbn [length]. lia.
Qed.

(** What the loop does in the round [i] when the buffer is large enough. *)
Lemma loop_fits fmt fuel dbg i buf n args t : Z.of_nat (length buf) = n -> fmt i = Some t -> Z.of_nat (length t) < n -> Z.of_nat (length t) < 2 ^ 31 ->
  loop fmt (S fuel) dbg i buf n VaFresh args = Ok (Returned t, S i, VaEnded).
Proof.
  intros L E H Hi. cbn [loop]. rewrite vsnprintf_ok by (try lia; congruence). rewrite E. cbn [bind].
  replace (Z.of_nat (length t) <? 0) with false by lia. replace (n <=? Z.of_nat (length t)) with false by lia.
  rewrite (firstn_all2 t) by lia. unfold std_string.
  match goal with |- context [if ?b then _ else _] => replace b with true end; [|rewrite !app_length; cbn [length]; lia].
  rewrite Nat2Z.id. cbn [bind va_end]. rewrite <- app_assoc, firstn_app_exact. reflexivity.
Qed.

Lemma loop_fails fmt fuel dbg i buf n args : Z.of_nat (length buf) = n -> 0 < n -> fmt i = None ->
  loop fmt (S fuel) dbg i buf n VaFresh args = Ok (Thrown, S i, VaEnded).
Proof. intros L H E. cbn [loop]. rewrite vsnprintf_ok by (try lia; congruence). rewrite E. reflexivity. Qed.

Lemma va_list_ok fmt text fuel dbg garbage : length garbage = kilobyte -> deterministic fmt text ->
  (2 <= fuel)%nat ->
  exists r calls, make_string_va_list fmt fuel dbg garbage VaFresh = Ok (r, calls, VaEnded) /\
    (1 <= calls <= 2)%nat /\ (calls = 2%nat <-> fmt 0%nat <> None /\ (1024 <= length text)%nat) /\
    r = match fmt (pred calls) with Some _ => Returned text | None => Thrown end.
Proof.
  intros G [B D] L. unfold make_string_va_list. cbn [va_copy bind].
  destruct fuel as [|[|fuel]]; [lia|lia|]. unfold kilobyte in *.
  destruct (fmt 0%nat) as [t|] eqn:E0.
  - pose proof (D _ _ E0) as ->. destruct (Z.leb_spec 1024 (Z.of_nat (length text))) as [H|H].
    + set (f := S fuel). cbn [loop]. rewrite vsnprintf_ok by (try lia; congruence). rewrite E0. cbn [bind].
      replace (Z.of_nat (length text) <? 0) with false by lia.
      replace (Z.of_nat 1024 <=? Z.of_nat (length text)) with true by lia.
      cbn [va_end va_copy bind]. unfold assert_. cbn [Nat.ltb Nat.leb negb]. rewrite andb_false_r. cbn [bind].
      rewrite !repeat_length.
      rewrite Nat2Z.id. unfold f.
      destruct (fmt 1%nat) as [t|] eqn:E1.
      * pose proof (D _ _ E1) as ->. exists (Returned text), 2%nat.
        split; [|split; [lia|split; [split; [intros _; split; [discriminate|lia]|lia]|cbn; rewrite E1; reflexivity]]].
        apply loop_fits; auto; [|lia]. rewrite app_length, repeat_length. cbn [length]. lia.
      * exists Thrown, 2%nat. split; [|split; [lia|split; [split; [intros _; split; [discriminate|lia]|lia]|cbn; rewrite E1; reflexivity]]].
        apply loop_fails; auto; [|lia]. rewrite app_length, repeat_length. cbn [length]. lia.
    + exists (Returned text), 1%nat. split; [apply loop_fits; auto; lia|].
      split; [lia|]. split; [lia|]. cbn. rewrite E0. reflexivity.
  - exists Thrown, 1%nat. split; [apply loop_fails; auto; lia|]. split; [lia|]. split; [|cbn; rewrite E0; reflexivity].
    split; [lia|]. intros [X _]. contradiction.
Qed.

Lemma make_string_ok fmt text fuel dbg garbage : length garbage = kilobyte -> deterministic fmt text -> (2 <= fuel)%nat ->
  (exists calls, (1 <= calls <= 2)%nat /\ fmt (pred calls) <> None /\
     make_string fmt fuel dbg garbage = Ok (Returned text, VaEnded)) \/
  (exists calls, (1 <= calls <= 2)%nat /\ fmt (pred calls) = None /\
     make_string fmt fuel dbg garbage = Ok (Thrown, VaFresh)).
Proof.
  intros G D L. destruct (va_list_ok fmt text fuel dbg garbage G D L) as [r [calls [E [C1 [_ R]]]]].
  unfold make_string. rewrite E. cbn [bind]. destruct (fmt (pred calls)) eqn:Ef; subst r; [left|right]; exists calls.
  - split; [exact C1|]. split; [congruence|]. reflexivity.
  - split; [exact C1|]. split; [exact Ef|]. reflexivity.
Qed.

(** An oracle that never fails. *)
Lemma make_string_total text fuel dbg garbage : length garbage = kilobyte -> Z.of_nat (length text) < 2 ^ 31 -> (2 <= fuel)%nat ->
  make_string (fun _ => Some text) fuel dbg garbage = Ok (Returned text, VaEnded).
Proof.
  intros G B L. destruct (make_string_ok (fun _ => Some text) text fuel dbg garbage G) as [[c [_ [_ E]]]|[c [_ [E _]]]]; auto.
  - split; [exact B|]. intros i t E. injection E as <-. reflexivity.
  - discriminate.
Qed.

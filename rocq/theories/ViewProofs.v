(** Proofs about string views in memory. *)
From Verif Require Import Base ListLemmas StringModel ParserModel ParserSpec ParserCallSpec ParserProofs StringSpec StringProofs ViewModel ViewSpec.
Local Open Scope Z_scope.

Lemma piece_all v : piece v 0 (len v) = v.
Proof. destruct v as [[[b o]|] n]; unfold piece; cbn; [rewrite N.add_0_r|]; reflexivity. Qed.
Lemma piece_piece v k n k' n' : piece (piece v k n) k' n' = piece v (k + k') n'.
Proof. destruct v as [[[b o]|] m]; unfold piece; cbn; [rewrite N.add_assoc|]; reflexivity. Qed.
Lemma advance_piece v k n : View (advance (data v) k) n = piece v k n.
Proof. destruct v as [[[b o]|] m]; reflexivity. Qed.

Lemma shows_at h v t i c : shows h v t -> nth_error t (N.to_nat i) = Some c -> vat h v i = Ok c.
Proof.
  intros [L [_ S]] E. assert (B : (N.to_nat i < length t)%nat) by (apply nth_error_Some; rewrite E; discriminate).
  unfold vat. rewrite L. replace (i <? N.of_nat (length t))%N with true by lia.
  destruct S as [->|[b [pre [post [D H]]]]]; [cbn in B; lia|]. rewrite D. cbn. rewrite H.
  replace (N.to_nat (N.of_nat (length pre) + i)) with (length pre + N.to_nat i)%nat by lia.
  rewrite nth_error_app2, Nat.add_comm, Nat.add_sub, nth_error_app1, E by lia. reflexivity.
Qed.

Lemma shows_piece h v t k n : shows h v t -> (k + n <= len v)%N ->
  shows h (piece v k n) (firstn (N.to_nat n) (skipn (N.to_nat k) t)).
Proof.
  intros [L [Z S]] B. split; [cbn; rewrite firstn_length, skipn_length; lia|]. split; [cbn; lia|].
  destruct S as [->|[b [pre [post [D H]]]]]; [left; rewrite skipn_nil, firstn_nil; reflexivity|]. right.
  exists b, (pre ++ firstn (N.to_nat k) t), (skipn (N.to_nat n) (skipn (N.to_nat k) t) ++ post). split.
  - unfold piece. rewrite D. cbn. rewrite app_length, firstn_length. do 2 f_equal. lia.
  - rewrite H. f_equal. rewrite <- !app_assoc. f_equal.
    rewrite (app_assoc (firstn (N.to_nat n) _)), firstn_skipn, app_assoc, firstn_skipn. reflexivity.
Qed.
Lemma shows_rest h v t k : shows h v t -> (k <= len v)%N -> shows h (piece v k (len v - k)) (skipn (N.to_nat k) t).
Proof.
  intros S B. pose proof (shows_piece h v t k (len v - k) S ltac:(lia)) as P.
  rewrite firstn_all2 in P; [exact P|]. destruct S as [L _]. rewrite skipn_length. lia.
Qed.
Lemma shows_length h v t : shows h v t -> len v = N.of_nat (length t).
Proof. intros [L _]. exact L. Qed.

(** ** Operations that follow the operations on texts *)
Definition tracks {A} (h : heap) (v : view) (t : list Z) (m : vop A) (l : op A) : Prop :=
  exists k, (k <= len v)%N /\ fst (m h v) = piece v k (len v - k) /\ l t = (skipn (N.to_nat k) t, snd (m h v)).

Lemma tracks_stay {A} h v t (m : vop A) (l : op A) : fst (m h v) = v -> l t = (t, snd (m h v)) -> tracks h v t m l.
Proof. intros E1 E2. exists 0%N. split; [lia|]. rewrite N.sub_0_r, piece_all. split; assumption. Qed.

Lemma tracks_ret {A} h v t (x : A) : tracks h v t (vret x) (ret x).
Proof. apply tracks_stay; reflexivity. Qed.
Lemma tracks_fail {A} h v t (m : outcome A) : tracks h v t (vfail m) (fail m).
Proof. apply tracks_stay; reflexivity. Qed.

Lemma tracks_then {A B} h v t (m : vop A) (l : op A) (k : A -> vop B) (k' : A -> op B) : shows h v t -> tracks h v t m l ->
  (forall x v' t', shows h v' t' -> tracks h v' t' (k x) (k' x)) -> tracks h v t (vthen m k) (andthen l k').
Proof.
  intros S [i [Bi [E1 E2]]] K. unfold tracks, vthen, andthen. rewrite E2. destruct (m h v) as [v' r]. cbn [fst snd] in *. subst v'.
  pose proof (shows_rest h v t i S Bi) as S'.
  assert (Stop : forall r' : outcome B, exists i0 : N, (i0 <= len v)%N /\ fst (piece v i (len v - i), r') = piece v i0 (len v - i0) /\
    (skipn (N.to_nat i) t, r') = (skipn (N.to_nat i0) t, snd (piece v i (len v - i), r'))).
  { intro r'. exists i. cbn. auto. }
  destruct r as [x|e|u| | |]; try apply Stop.
  destruct (K x _ _ S') as [j [Bj [F1 F2]]]. cbn [piece len] in Bj. exists (i + j)%N. split; [lia|]. split.
  - rewrite F1. rewrite piece_piece. f_equal. cbn [piece len]. lia.
  - rewrite F2. rewrite skipn_skipn. do 2 f_equal. lia.
Qed.
Lemma tracks_get {A} h v t (k : view -> vop A) (k' : list Z -> op A) :
  tracks h v t (k v) (k' t) -> tracks h v t (vthen this_view k) (andthen get_view k').
Proof. intro T. exact T. Qed.
Lemma tracks_this {A} h v t (k : view -> vop A) (l : op A) : tracks h v t (k v) l -> tracks h v t (vthen this_view k) l.
Proof. intro T. exact T. Qed.
Lemma tracks_reading {A B} h v t (f : heap -> outcome A) (x : A) (k : A -> vop B) (l : op B) : f h = Ok x ->
  tracks h v t (k x) l -> tracks h v t (vthen (reading f) k) l.
Proof. intros E T. unfold tracks, vthen, reading in *. rewrite E. exact T. Qed.
Lemma tracks_ext {A} h v t (m : vop A) (l l' : op A) : l t = l' t -> tracks h v t m l -> tracks h v t m l'.
Proof. intros E T. unfold tracks in *. rewrite <- E. exact T. Qed.

Lemma drop_ok h v k : (k <= len v)%N -> (len v < 2 ^ 64)%N -> drop k h v = (piece v k (len v - k), Ok tt).
Proof.
  intros B S. unfold drop, vthen, this_view, vfail, vsubstr, set_this. replace (len v <? k)%N with false by lia.
  rewrite advance_piece. do 2 f_equal. unfold npos. lia.
Qed.
Lemma drop_past h v k : (len v < k)%N -> drop k h v = (v, Throw OutOfRange).
Proof. intros B. unfold drop, vthen, this_view, vfail, vsubstr. replace (len v <? k)%N with true by lia. reflexivity. Qed.
Lemma substr_from_ok t k : (k <= N.of_nat (length t))%N -> substr_from t k = Ok (skipn (N.to_nat k) t).
Proof. intro B. unfold substr_from, size. replace (N.of_nat (length t) <? k)%N with false by lia. reflexivity. Qed.
Lemma substr_from_past t k : (N.of_nat (length t) < k)%N -> substr_from t k = Throw OutOfRange.
Proof. intro B. unfold substr_from, size. replace (N.of_nat (length t) <? k)%N with true by lia. reflexivity. Qed.
Lemma tracks_drop h v t k (l : op unit) : shows h v t -> (k <= len v)%N -> l t = (skipn (N.to_nat k) t, Ok tt) ->
  tracks h v t (drop k) l.
Proof. intros S B E. exists k. destruct S as [L [Z _]]. rewrite drop_ok by assumption. auto. Qed.
Lemma tracks_drop_then {A} h v t k (m : vop A) (l : op A) : shows h v t -> (k <= len v)%N ->
  (forall v', v' = piece v k (len v - k) -> shows h v' (skipn (N.to_nat k) t) ->
     tracks h v' (skipn (N.to_nat k) t) m (fun _ => l t)) ->
  tracks h v t (vthen (drop k) (fun _ => m)) l.
Proof.
  intros S B K. pose proof (shows_rest h v t k S B) as S'. specialize (K _ eq_refl S'). destruct K as [j [Bj [E1 E2]]].
  cbn [piece len] in Bj. exists (k + j)%N. split; [lia|]. unfold vthen. rewrite drop_ok by (destruct S as [L [Z _]]; assumption).
  rewrite E1, piece_piece, E2. split; [f_equal; cbn [piece len]; lia|]. rewrite skipn_skipn. do 2 f_equal. lia.
Qed.

Lemma skipn_cons {A} (t : list A) i : (i < length t)%nat -> exists c, nth_error t i = Some c /\ skipn i t = c :: skipn (S i) t.
Proof.
  revert i. induction t as [|x t IH]; intros i B; [cbn in B; lia|]. destruct i as [|i]; [exists x; auto|].
  cbn in B. destruct (IH i ltac:(lia)) as [c [E1 E2]]. exists c. split; [exact E1|exact E2].
Qed.

Lemma vfind_ok h v t p : shows h v t -> forall n i, (i + n = length t)%nat ->
  vfind h v p n (N.of_nat i) = Ok (N.of_nat i + find_if p (skipn i t))%N.
Proof.
  intros S n. induction n as [|n IH]; intros i E.
  - rewrite skipn_all2 by lia. cbn. f_equal. lia.
  - destruct (skipn_cons t i ltac:(lia)) as [c [E1 E2]]. cbn [vfind]. rewrite (shows_at h v t (N.of_nat i) c S) by (rewrite Nat2N.id; exact E1).
    cbn [bind]. rewrite E2. cbn [find_if]. destruct (p c); [f_equal; lia|].
    replace (N.of_nat i + 1)%N with (N.of_nat (Datatypes.S i)) by lia. rewrite IH by lia. f_equal. lia.
Qed.
Lemma vfind_if_ok h v t p : shows h v t -> vfind_if h v p = Ok (find_if p t).
Proof.
  intros S. unfold vfind_if. rewrite (shows_length h v t S), Nat2N.id. exact (vfind_ok h v t p S (length t) 0 eq_refl).
Qed.
Lemma find_if_le p t : (find_if p t <= N.of_nat (length t))%N.
Proof. induction t as [|c t IH]; cbn [find_if length]; [lia|]. destruct (p c); lia. Qed.

Lemma count_spaces_find t : forall pos, count_spaces t pos = (pos + find_if (fun c => negb (is_space c)) t)%N.
Proof.
  induction t as [|c t IH]; intro pos; cbn [count_spaces find_if]; [lia|]. destruct (negb (is_space c)); [lia|]. rewrite IH. lia.
Qed.
Lemma tracks_skip_whitespaces h v t : shows h v t -> tracks h v t vskip_whitespaces skip_whitespaces.
Proof.
  intro S. unfold vskip_whitespaces. apply tracks_this. eapply tracks_reading; [apply (vfind_if_ok h v t _ S)|].
  pose proof (find_if_le (fun c => negb (is_space c)) t) as B. pose proof (shows_length h v t S) as L.
  apply tracks_drop; [exact S|lia|]. unfold skip_whitespaces. rewrite count_spaces_find, N.add_0_l, substr_from_ok by lia. reflexivity.
Qed.

Lemma vfind_comma_ok h v t : shows h v t -> forall n i b, (i + n = length t)%nat ->
  vfind_comma h v n (N.of_nat i) b = Ok (count_spaces_comma (skipn i t) (N.of_nat i) b).
Proof.
  intros S n. induction n as [|n IH]; intros i b E.
  - rewrite skipn_all2 by lia. reflexivity.
  - destruct (skipn_cons t i ltac:(lia)) as [c [E1 E2]]. cbn [vfind_comma]. rewrite (shows_at h v t (N.of_nat i) c S) by (rewrite Nat2N.id; exact E1).
    cbn [bind]. rewrite E2. cbn [count_spaces_comma]. replace (N.of_nat i + 1)%N with (N.of_nat (Datatypes.S i)) by lia.
    destruct (is_space c); [apply IH; lia|]. destruct (c =? 44); [|reflexivity]. destruct b; [reflexivity|]. apply IH; lia.
Qed.
Lemma count_spaces_comma_le t : forall pos b, (pos <= count_spaces_comma t pos b <= pos + N.of_nat (length t))%N.
Proof.
  induction t as [|c t IH]; intros pos b; cbn [count_spaces_comma length]; [lia|].
  destruct (is_space c); [specialize (IH (pos + 1)%N b); lia|]. destruct (c =? 44); [|lia]. destruct b; [lia|].
  specialize (IH (pos + 1)%N true). lia.
Qed.
Lemma tracks_skip_comma h v t : shows h v t -> tracks h v t vskip_whitespaces_and_comma skip_whitespaces_and_comma.
Proof.
  intro S. unfold vskip_whitespaces_and_comma. apply tracks_this. pose proof (shows_length h v t S) as L.
  eapply tracks_reading; [rewrite L, Nat2N.id; exact (vfind_comma_ok h v t S (length t) 0 false eq_refl)|].
  cbn [N.of_nat skipn]. pose proof (count_spaces_comma_le t 0 false) as B.
  apply tracks_drop; [exact S|lia|]. unfold skip_whitespaces_and_comma. rewrite substr_from_ok by lia. reflexivity.
Qed.

(** The loops that drop one character after the other *)
Fixpoint skip_gen (p : Z -> option Z) (t : list Z) : list Z * outcome (option Z) :=
  match t with
  | [] => ([], Ok None)
  | c :: t => match p c with Some x => (t, Ok (Some x)) | None => skip_gen p t end
  end.
Lemma tracks_skip_loop h p : forall n v t, shows h v t -> (n = length t)%nat -> tracks h v t (vskip_loop p n) (skip_gen p).
Proof.
  induction n as [|n IH]; intros v t S E.
  - destruct t; [|discriminate]. apply tracks_stay; reflexivity.
  - destruct t as [|c t]; [discriminate|]. cbn [vskip_loop]. apply tracks_this.
    pose proof (shows_length h v _ S) as L. cbn [length] in L. unfold vempty. replace (len v =? 0)%N with false by lia.
    eapply tracks_reading; [apply (shows_at h v (c :: t) 0 c S); reflexivity|].
    destruct (p c) as [x|] eqn:P; (apply tracks_drop_then; [exact S|lia|]); cbn [N.to_nat Pos.to_nat Pos.iter_op skipn skip_gen];
      rewrite P; intros v' -> S'.
    + apply tracks_stay; reflexivity.
    + apply tracks_ext with (l := skip_gen p); [reflexivity|]. apply IH; [exact S'|]. injection E as ->. reflexivity.
Qed.
Lemma skip_gen_until c t : skip_inclusive_until c t =
  (fst (skip_gen (fun x => if x =? c then Some x else None) t), Ok tt) /\
  exists r, snd (skip_gen (fun x => if x =? c then Some x else None) t) = Ok r.
Proof.
  induction t as [|x t [IH1 IH2]]; cbn [skip_inclusive_until skip_gen].
  - split; [reflexivity|exists None; reflexivity].
  - destruct (x =? c); [split; [reflexivity|exists (Some x); reflexivity]|]. split; assumption.
Qed.
Lemma skip_gen_one_of cs t : exists r, snd (skip_gen (find_in cs) t) = Ok r /\
  skip_inclusive_until_one_of cs t = (fst (skip_gen (find_in cs) t), Ok (match r with Some c => c | None => 0 end)).
Proof.
  induction t as [|x t IH]; cbn [skip_inclusive_until_one_of skip_gen]; [exists None; auto|].
  destruct (find_in cs x) as [c|]; [exists (Some c); auto|exact IH].
Qed.
Lemma tracks_then_any {A B} h v t (m : vop A) (l : op A) (k : A -> vop B) (l' : op B) : shows h v t -> tracks h v t m l ->
  l' t = andthen l (fun x s => (s, snd (k x h v))) t ->
  (forall x v', k x h v' = (v', snd (k x h v))) -> tracks h v t (vthen m k) l'.
Proof.
  intros S T E K. eapply tracks_ext; [symmetry; exact E|]. apply tracks_then; [exact S|exact T|].
  intros x v' t' S'. apply tracks_stay; rewrite (K x v'); reflexivity.
Qed.
Lemma tracks_until h v t c : shows h v t -> tracks h v t (vskip_inclusive_until c) (skip_inclusive_until c).
Proof.
  intro S. unfold vskip_inclusive_until. apply tracks_this. pose proof (shows_length h v t S) as L.
  eapply tracks_then_any; [exact S| | |reflexivity].
  - apply (tracks_skip_loop h (fun x => if x =? c then Some x else None)); [exact S|lia].
  - destruct (skip_gen_until c t) as [E [r R]]. rewrite E. unfold andthen.
    destruct (skip_gen _ t) as [s o]. cbn in *. subst o. reflexivity.
Qed.
Lemma tracks_one_of h v t cs : shows h v t -> tracks h v t (vskip_inclusive_until_one_of cs) (skip_inclusive_until_one_of cs).
Proof.
  intro S. unfold vskip_inclusive_until_one_of. apply tracks_this. pose proof (shows_length h v t S) as L.
  eapply tracks_then_any; [exact S| | |reflexivity].
  - apply (tracks_skip_loop h (find_in cs)); [exact S|lia].
  - destruct (skip_gen_one_of cs t) as [r [R E]]. rewrite E. unfold andthen.
    destruct (skip_gen _ t) as [s o]. cbn in *. subst o. reflexivity.
Qed.

(** Single characters *)
Lemma tracks_read_char h v t : shows h v t -> tracks h v t vread_char read_char.
Proof.
  intro S. pose proof (shows_length h v t S) as L. destruct t as [|c t]; cbn [length] in L.
  - apply tracks_stay; unfold vread_char, vthrow_if_empty, vthen, this_view, vempty; rewrite L; reflexivity.
  - exists 1%N. split; [lia|].
    unfold vread_char, vthrow_if_empty, vthen, this_view, vempty, reading, vret. replace (len v =? 0)%N with false by lia.
    rewrite (shows_at h v (c :: t) 0 c S eq_refl). rewrite drop_ok by (destruct S as [? [? _]]; lia). cbn [fst snd].
    split; [reflexivity|]. apply read_char_cons.
Qed.
Lemma tracks_peek_char h v t : shows h v t -> tracks h v t vpeek_char peek_char.
Proof.
  intro S. pose proof (shows_length h v t S) as L. destruct t as [|c t]; cbn [length] in L.
  - apply tracks_stay; unfold vpeek_char, vthrow_if_empty, vthen, this_view, vempty; rewrite L; reflexivity.
  - apply tracks_stay; unfold vpeek_char, vthrow_if_empty, vthen, this_view, vempty, reading, vret; replace (len v =? 0)%N with false by lia;
      [reflexivity|]. rewrite (shows_at h v (c :: t) 0 c S eq_refl). apply peek_char_cons.
Qed.
Lemma tracks_peek_char_n h v t n : shows h v t -> tracks h v t (vpeek_char_n n) (peek_char_n n).
Proof.
  intro S. pose proof (shows_length h v t S) as L. unfold vpeek_char_n.
  apply tracks_stay; unfold vthen, this_view, reading, vfail; destruct (len v <=? n)%N eqn:B; try reflexivity; rewrite peek_char_n_spec; cbn [snd].
  - replace (nth_error t (N.to_nat n)) with (@None Z); [reflexivity|]. symmetry. apply nth_error_None. lia.
  - destruct (skipn_cons t (N.to_nat n) ltac:(lia)) as [c [E _]]. rewrite E, (shows_at h v t n c S E). reflexivity.
Qed.

(** Numbers *)
Lemma vtext_from_ok h v t : shows h v t -> forall n i, (i + n = length t)%nat -> vtext_from h v n (N.of_nat i) = Ok (skipn i t).
Proof.
  intros S n. induction n as [|n IH]; intros i E.
  - rewrite skipn_all2 by lia. reflexivity.
  - destruct (skipn_cons t i ltac:(lia)) as [c [E1 E2]]. cbn [vtext_from]. rewrite (shows_at h v t (N.of_nat i) c S) by (rewrite Nat2N.id; exact E1).
    cbn [bind]. replace (N.of_nat i + 1)%N with (N.of_nat (Datatypes.S i)) by lia. rewrite IH by lia. cbn [bind]. rewrite E2. reflexivity.
Qed.
Lemma vtext_ok h v t : shows h v t -> vtext h v = Ok t.
Proof.
  intro S. unfold vtext. rewrite (shows_length h v t S), Nat2N.id. exact (vtext_from_ok h v t S (length t) 0 eq_refl).
Qed.
Lemma tracks_finish {V} h v t dbg (zero : V) res : shows h v t -> tracks h v t (vfinish_number dbg zero res) (finish_number dbg zero res).
Proof.
  intro S. pose proof (shows_length h v t S) as L. unfold vfinish_number, finish_number.
  assert (G : forall (m : vop V) (l : op V), (forall v' t', shows h v' t' -> tracks h v' t' m l) ->
    tracks h v t (vfail (assert_ dbg (0 <? fc_len res)%N) ;;! drop (fc_len res) ;;! m)
      (fail (assert_ dbg (0 <? fc_len res)%N) ;;~ s <~ get_view;; s' <~ fail (substr_from s (fc_len res));; set_view s';;~ l)).
  { intros m l M. apply tracks_then; [exact S|apply tracks_fail|]. intros _ v' t' S'. pose proof (shows_length h v' t' S') as L'.
    destruct (N.leb_spec (fc_len res) (len v')).
    - eapply tracks_ext with (l := fun s => l (skipn (N.to_nat (fc_len res)) t')).
      { unfold andthen, get_view, fail. rewrite substr_from_ok by lia. reflexivity. }
      apply tracks_drop_then; [exact S'|assumption|]. intros v'' _ S''. eapply tracks_ext; [|apply M; exact S'']. reflexivity.
    - apply tracks_stay; unfold vthen; rewrite drop_past by assumption; [reflexivity|]. unfold andthen, get_view, fail.
      rewrite substr_from_past by lia. reflexivity. }
  destruct (fc_ec res).
  - apply G. intros. apply tracks_ret.
  - apply tracks_fail.
  - apply G. intros. apply tracks_ret.
  - apply G. intros. apply tracks_fail.
Qed.
Lemma tracks_detect h v t : shows h v t -> tracks h v t vdetect_base detect_base.
Proof.
  intro S. unfold vdetect_base, detect_base. apply tracks_then; [exact S|apply tracks_peek_char, S|]. clear v t S. intros c v t S.
  destruct (c =? 48); [|apply tracks_ret]. apply tracks_then; [exact S|apply tracks_read_char, S|]. clear v t S. intros _ v t S.
  apply tracks_get. pose proof (shows_length h v t S) as L. unfold vempty.
  destruct t as [|x t]; [cbn in L; rewrite L; apply tracks_ret|].
  replace (len v =? 0)%N with false by (cbn in L; lia). replace (size (x :: t)) with (len v) by (rewrite L; reflexivity).
  generalize dependent (x :: t). clear x t. intros t S L. generalize (len v <? 2)%N. intro small. clear L.
  apply tracks_then; [exact S|apply tracks_peek_char, S|]. clear v t S c. intros c v t S.
  destruct (c =? 120); [|destruct (c =? 98)].
  1, 2: destruct small; [apply tracks_ret|]; (apply tracks_then; [exact S|apply tracks_peek_char_n, S|]); clear v t S c; intros c v t S.
  - destruct (is_hex_digit c); [|apply tracks_ret]. apply tracks_then; [exact S|apply tracks_read_char, S|]. intros. apply tracks_ret.
  - destruct ((c =? 48) || (c =? 49)); [|apply tracks_ret]. apply tracks_then; [exact S|apply tracks_read_char, S|]. intros. apply tracks_ret.
  - destruct ((48 <=? c) && (c <=? 55)); [apply tracks_ret|]. destruct ((c <? 48) || (57 <? c)); apply tracks_ret.
Qed.
Lemma tracks_read_number h v t dbg i : shows h v t -> tracks h v t (vread_number dbg i) (read_number dbg i).
Proof.
  intro S. unfold vread_number, read_number. apply tracks_then; [exact S|apply tracks_skip_whitespaces, S|]. clear v t S. intros _ v t S.
  apply tracks_then; [exact S|destruct (is_signed i); [apply tracks_ret|apply tracks_detect, S]|]. clear v t S. intros b v t S.
  destruct b as [base|]; [|apply tracks_ret]. apply tracks_get. eapply tracks_reading; [apply (vtext_ok h v t S)|]. apply tracks_finish, S.
Qed.
Lemma tracks_read_float {V} h v t dbg (zero : V) fc : shows h v t -> tracks h v t (vread_float dbg zero fc) (read_float dbg zero fc).
Proof.
  intro S. unfold vread_float, read_float. apply tracks_then; [exact S|apply tracks_skip_whitespaces, S|]. clear v t S. intros _ v t S.
  apply tracks_get. eapply tracks_reading; [apply (vtext_ok h v t S)|]. apply tracks_finish, S.
Qed.
(** ** Calls *)
Lemma tracks_step {A} h v t (m : vop A) (l : op A) f g c k : tracks h v t m l -> ~ forgets c ->
  (forall x, matches v k (Ok (f x)) (Ok (g x))) -> (forall x w, f x <> w_view w) ->
  (is_ok (snd (l t)) = true \/ exists e, snd (l t) = Throw e) ->
  exists k w r r', with_vvalue f m h v = (w, r) /\ left_of c v k w /\ with_value g l t = (skipn (N.to_nat k) t, r') /\ matches v k r r'.
Proof.
  intros [i [B [E1 E2]]] F M W K. unfold with_vvalue, with_value, vthen, andthen. rewrite E2 in K |- *. destruct (m h v) as [w r]. cbn [fst snd] in *. subst w.
  assert (Lo : left_of c v i (piece v i (len v - i))) by (split; [exact B|left; split; [reflexivity|tauto]]).
  destruct r as [x|e|u| | |]; try (destruct K as [K|[e K]]; discriminate).
  - exists i, (piece v i (len v - i)), (Ok (f x)), (Ok (g x)). split; [reflexivity|]. split; [exact Lo|]. split; [reflexivity|].
    specialize (M x). specialize (W x). destruct (f x); try exact M. exfalso. eapply W. reflexivity.
  - exists i, (piece v i (len v - i)), (Throw e), (Throw e). repeat split; exact Lo || exact B || (left; split; [reflexivity|tauto]).
Qed.

Lemma vread_until_ok h v t p : shows h v t -> let k := find_if p t in
  vread_until p h v = ((if (k =? len v)%N then View None 0 else piece v k (len v - k)), Ok (piece v 0 k)) /\
  read_until p t = (skipn (N.to_nat k) t, Ok (firstn (N.to_nat k) t)).
Proof.
  intros S k. pose proof (shows_length h v t S) as L. pose proof (find_if_le p t) as B. fold k in B.
  unfold vread_until, vthen, this_view, reading. rewrite (vfind_if_ok h v t p S). fold k. split.
  - destruct (N.eqb_spec k (len v)) as [E|E].
    + cbn. rewrite E, piece_all. reflexivity.
    + unfold vfail, vsubstr. replace (len v <? 0)%N with false by lia. rewrite drop_ok by (destruct S as [? [? _]]; lia).
      rewrite advance_piece. unfold vret. do 3 f_equal. lia.
  - unfold read_until. fold k. unfold size. destruct (N.ltb_spec k (N.of_nat (length t))).
    + unfold substr, substr_from, size. replace (N.of_nat (length t) <? 0)%N with false by lia. replace (N.of_nat (length t) <? k)%N with false by lia.
      cbn [N.to_nat skipn]. do 3 f_equal. lia.
    + rewrite skipn_all2, firstn_all2 by lia. reflexivity.
Qed.
Lemma until_step h v t p c : shows h v t -> forgets c ->
  exists k w r r', with_vvalue w_view (vread_until p) h v = (w, r) /\ left_of c v k w /\
    with_value v_text (read_until p) t = (skipn (N.to_nat k) t, r') /\ matches v k r r'.
Proof.
  intros S F. destruct (vread_until_ok h v t p S) as [E1 E2]. pose proof (shows_length h v t S) as L. pose proof (find_if_le p t) as B.
  set (k := find_if p t) in *. exists k, (if (k =? len v)%N then View None 0 else piece v k (len v - k)), (Ok (w_view (piece v 0 k))),
    (Ok (v_text (firstn (N.to_nat k) t))).
  unfold with_vvalue, with_value, vthen, andthen. rewrite E1, E2. split; [reflexivity|]. split; [|split; [reflexivity|]].
  - split; [lia|]. destruct (N.eqb_spec k (len v)); [right; auto|left]. split; [reflexivity|tauto].
  - cbn. rewrite firstn_length. split; [reflexivity|lia].
Qed.
Lemma chars_step h v t n : shows h v t ->
  exists k w r r', with_vvalue w_view (vread_chars n) h v = (w, r) /\ left_of (c_read_chars n) v k w /\
    with_value v_text (read_chars n) t = (skipn (N.to_nat k) t, r') /\ matches v k r r'.
Proof.
  intros S. pose proof (shows_length h v t S) as L. set (k := N.min n (len v)).
  exists k, (piece v k (len v - k)), (Ok (w_view (piece v 0 k))), (Ok (v_text (firstn (N.to_nat k) t))).
  unfold with_vvalue, with_value, vthen, andthen. rewrite read_chars_spec. unfold vread_chars, vthen, this_view.
  fold k. rewrite drop_ok by (destruct S as [? [? _]]; lia). split; [|split; [|split]].
  - unfold vret. do 3 f_equal. rewrite <- advance_piece. destruct v as [[[b o]|] m]; cbn; [rewrite N.add_0_r|]; reflexivity.
  - split; [lia|]. left. split; [reflexivity|]. intros [[] _].
  - unfold ret. destruct (N.le_gt_cases n (len v)); [replace k with n by lia; reflexivity|].
    rewrite !skipn_all2, !firstn_all2 by lia. reflexivity.
  - cbn. rewrite firstn_length. split; [reflexivity|lia].
Qed.

Lemma perform_value dbg c t : good_call c -> is_ok (snd (perform dbg c t)) = true \/ exists e, snd (perform dbg c t) = Throw e.
Proof.
  intro G. destruct (perform dbg c t) as [s r] eqn:E. destruct (perform_ok dbg c t s r G E) as [taken [_ R]]. cbn.
  destruct r; eauto; contradiction.
Qed.
Lemma with_value_ends {A} (g : A -> value) (l : op A) t :
  (is_ok (snd (with_value g l t)) = true \/ exists e, snd (with_value g l t) = Throw e) ->
  is_ok (snd (l t)) = true \/ exists e, snd (l t) = Throw e.
Proof.
  unfold with_value, andthen. destruct (l t) as [s [x|e|u| | |]]; cbn; try (intros [H|[e0 H]]; discriminate); eauto.
Qed.

Lemma call_step dbg c h v t : good_call c -> shows h v t ->
  exists k w r r', vperform dbg c h v = (w, r) /\ left_of c v k w /\ perform dbg c t = (skipn (N.to_nat k) t, r') /\ matches v k r r'.
Proof.
  intros G S. pose proof (perform_value dbg c t G) as P.
  destruct c; cbn [vperform perform] in *;
    try (apply until_step; [exact S|exact I]); try (apply chars_step; exact S);
    apply with_value_ends in P;
    (eapply tracks_step with (k := 0%N); [|intros []|intros x; cbn; reflexivity || exact I|intros x w; discriminate|exact P]).
  - apply tracks_skip_whitespaces, S.
  - apply tracks_skip_comma, S.
  - apply tracks_until, S.
  - apply tracks_one_of, S.
  - apply tracks_read_number, S.
  - apply tracks_read_float, S.
  - apply tracks_read_char, S.
  - apply tracks_peek_char, S.
  - apply tracks_peek_char_n, S.
Qed.

(** ** Histories *)
Lemma shows_frame h h' v t : shows h v t -> (forall b o, data v = Some (b, o) -> h' b = h b) -> shows h' v t.
Proof.
  intros [L [Z [E|[b [pre [post [D H]]]]]]] F; split; auto; split; auto. right. exists b, pre, post. split; [exact D|]. rewrite (F _ _ D). exact H.
Qed.
Lemma shows_null h : shows h (View None 0) [].
Proof. split; [reflexivity|]. split; [reflexivity|]. left. reflexivity. Qed.

Definition at_place (v0 : view) (k : N) (w : view) : Prop :=
  (k <= len v0)%N /\ (w = piece v0 k (len v0 - k) \/ w = View None 0 /\ k = len v0).
Lemma place_shows h v0 t0 k w : shows h v0 t0 -> at_place v0 k w -> shows h w (skipn (N.to_nat k) t0).
Proof.
  intros S [B [->|[-> ->]]]; [apply shows_rest; assumption|]. rewrite skipn_all2 by (rewrite (shows_length h v0 t0 S); lia). apply shows_null.
Qed.
Lemma place_step c v0 k w k' w' : at_place v0 k w -> left_of c w k' w' -> at_place v0 (k + k') w'.
Proof.
  intros [B [->|[-> ->]]] [B' O]; cbn [piece len] in *.
  - split; [lia|]. destruct O as [[-> _]|[-> [_ ->]]]; [left; rewrite piece_piece; f_equal; lia|right; split; [reflexivity|lia]].
  - assert (k' = 0%N) by lia. subst k'. split; [lia|]. right. split; [|lia]. destruct O as [[-> _]|[-> _]]; reflexivity.
Qed.

Lemma run_ok dbg v0 t0 : forall es h k w, shows h v0 t0 -> (forall b o, data v0 = Some (b, o) -> untouched b es) ->
  Forall good_call (calls es) -> at_place v0 k w ->
  exists h' w' rs rs' e, run dbg es h w = (h', w', rs) /\ shows h' v0 t0 /\ at_place v0 e w' /\
    perform_all dbg (calls es) (skipn (N.to_nat k) t0) = (skipn (N.to_nat e) t0, rs') /\ Forall2 (agrees h') rs rs' /\ handed v0 k rs e.
Proof.
  induction es as [|[c|b s|b] es IH]; intros h k w S U G A.
  - exists h, w, [], [], k. split; [reflexivity|]. split; [exact S|]. split; [exact A|]. split; [reflexivity|]. split; constructor.
  - cbn [calls] in G. inversion G as [|? ? Gc Gs]; subst. pose proof (place_shows h v0 t0 k w S A) as Sw.
    destruct (call_step dbg c h w _ Gc Sw) as [k1 [w1 [r [r' [E1 [Lo [E2 M]]]]]]].
    pose proof (place_step c v0 k w k1 w1 A Lo) as A1.
    destruct (IH h (k + k1)%N w1 S) as [h' [w' [rs [rs' [e [R [S' [A' [P [F H]]]]]]]]]].
    { intros b o D. destruct (U b o D) as [U1 U2]. split; [intros s I; apply (U1 s)|intro I; apply U2]; right; exact I. }
    { exact Gs. } { exact A1. }
    exists h', w', (r :: rs), (r' :: rs'), e. cbn [run]. rewrite E1, R. split; [reflexivity|]. split; [exact S'|]. split; [exact A'|]. split; [|split].
    + cbn [calls perform_all]. rewrite E2, skipn_skipn. replace (N.to_nat k + N.to_nat k1)%nat with (N.to_nat (k + k1)) by lia. rewrite P. reflexivity.
    + constructor; [|exact F]. unfold matches in M. unfold agrees. destruct r as [[| | x |]|?|?| | |], r' as [[| |s|]|?|?| | |]; try exact M; try contradiction.
      destruct M as [-> Ek]. destruct (perform_ok dbg c _ _ _ Gc E2) as [taken [Et [Ew _]]]. specialize (Ew s eq_refl). subst s.
      assert (Es : taken = firstn (N.to_nat k1) (skipn (N.to_nat k) t0)).
      { rewrite Et, Ek, Nat2N.id. symmetry. rewrite skipn_skipn in Et |- *. rewrite firstn_app, Nat.sub_diag, firstn_O, app_nil_r. apply firstn_all. }
      rewrite Es. pose proof (place_shows h' v0 t0 k w S' A) as Sw'.
      pose proof (shows_piece h' w _ 0 k1 Sw' ltac:(destruct Lo as [Lo _]; lia)) as Q. exact Q.
    + unfold matches in M. destruct A as [Ak Aw].
      assert (Other : (forall x, r <> Ok (w_view x)) -> handed v0 k (r :: rs) e) by (intro; eapply handed_other; eassumption).
      destruct r as [[| | x |]|?|?| | |]; try (apply Other; discriminate).
      destruct r' as [[| |s|]|?|?| | |]; try contradiction. destruct M as [-> _]. destruct Aw as [->|[-> ->]].
      * rewrite piece_piece, N.add_0_r. apply handed_view. exact H.
      * destruct Lo as [Lo _]. cbn in Lo. replace k1 with 0%N in * by lia. apply handed_null. rewrite N.add_0_r in H. exact H.
  - cbn [calls run] in *. apply (IH (update h b (Some s))); try assumption.
    + eapply shows_frame; [exact S|]. intros b' o D. unfold update. destruct (Nat.eqb_spec b' b) as [->|]; [|reflexivity].
      exfalso. destruct (U b o D) as [U1 _]. apply (U1 s). left. reflexivity.
    + intros b' o D. destruct (U b' o D) as [U1 U2]. split; [intros s' I; apply (U1 s')|intro I; apply U2]; right; exact I.
  - cbn [calls run] in *. apply (IH (update h b None)); try assumption.
    + eapply shows_frame; [exact S|]. intros b' o D. unfold update. destruct (Nat.eqb_spec b' b) as [->|]; [|reflexivity].
      exfalso. destruct (U b o D) as [_ U2]. apply U2. left. reflexivity.
    + intros b' o D. destruct (U b' o D) as [U1 U2]. split; [intros s' I; apply (U1 s')|intro I; apply U2]; right; exact I.
Qed.

Lemma handed_bounds v k rs e : handed v k rs e -> (k <= e)%N.
Proof. induction 1; lia. Qed.
Lemma handed_inside v k rs e : handed v k rs e -> forall w, In (Ok (w_view w)) rs ->
  w = View None 0 \/ exists i n, w = piece v i n /\ (k <= i)%N /\ (i + n <= e)%N.
Proof.
  induction 1 as [k|k n rs e H IH|rs e H IH|k n r rs e N H IH]; intros w I.
  - destruct I.
  - pose proof (handed_bounds _ _ _ _ H). destruct I as [E|I].
    + injection E as <-. right. exists k, n. repeat split; lia.
    + destruct (IH w I) as [->|[i [m [-> B]]]]; [left; reflexivity|right; exists i, m; repeat split; lia].
  - destruct I as [E|I]; [injection E as <-; left; reflexivity|]. exact (IH w I).
  - destruct I as [E|I]; [exfalso; exact (N w E)|].
    destruct (IH w I) as [->|[i [m [-> B]]]]; [left; reflexivity|right; exists i, m; repeat split; lia].
Qed.

Lemma history dbg es h v t : shows h v t -> (forall b o, data v = Some (b, o) -> untouched b es) -> Forall good_call (calls es) ->
  exists h' w rs e, run dbg es h v = (h', w, rs) /\ (e <= len v)%N /\ (w = piece v e (len v - e) \/ w = View None 0 /\ e = len v) /\
    exists rs', perform_all dbg (calls es) t = (skipn (N.to_nat e) t, rs') /\
    shows h' w (skipn (N.to_nat e) t) /\ Forall2 (agrees h') rs rs' /\ handed v 0 rs e.
Proof.
  intros S U G. destruct (run_ok dbg v t es h 0%N v S U G) as [h' [w [rs [rs' [e [R [S' [A [P [F H]]]]]]]]]].
  { split; [lia|]. left. rewrite N.sub_0_r, piece_all. reflexivity. }
  exists h', w, rs, e. split; [exact R|]. destruct A as [Be Aw]. split; [exact Be|]. split; [exact Aw|]. exists rs'. split; [exact P|].
  split; [apply (place_shows h' v t e w S'); split; assumption|]. split; assumption.
Qed.

(** ** Views of strings that are gone *)
Lemma dangling_at h v i : dangling h v -> (i < len v)%N -> vat h v i = UB UseAfterFree.
Proof.
  intros [_ [b [o [D H]]]] B. unfold vat. replace (i <? len v)%N with true by lia. rewrite D. cbn. rewrite H. reflexivity.
Qed.
Lemma dangling_find h v p : dangling h v -> vfind_if h v p = UB UseAfterFree.
Proof.
  intro D. unfold vfind_if. destruct D as [B D]. destruct (N.to_nat (len v)) as [|n] eqn:E; [lia|]. cbn [vfind].
  rewrite dangling_at; [reflexivity|split; assumption|exact B].
Qed.
Lemma dangling_perform dbg c h v : dangling h v -> (len v < 2 ^ 64)%N -> vperform dbg c h v =
  match c with
  | c_read_chars n => (piece v (N.min n (len v)) (len v - N.min n (len v)), Ok (w_view (piece v 0 (N.min n (len v)))))
  | c_peek_char_n n => (v, if (len v <=? n)%N then Throw InvalidArgument else UB UseAfterFree)
  | _ => (v, UB UseAfterFree)
  end.
Proof.
  intros D Z. assert (B : (0 < len v)%N) by apply D.
  assert (W : vskip_whitespaces h v = (v, UB UseAfterFree)).
  { unfold vskip_whitespaces, vthen, this_view, reading. rewrite dangling_find by exact D. reflexivity. }
  assert (U : forall p, vread_until p h v = (v, UB UseAfterFree)).
  { intro p. unfold vread_until, vthen, this_view, reading. rewrite dangling_find by exact D. reflexivity. }
  assert (K : forall p, vskip_loop p (N.to_nat (len v)) h v = (v, UB UseAfterFree)).
  { intro p. destruct (N.to_nat (len v)) as [|n] eqn:E; [lia|]. cbn [vskip_loop]. unfold vthen, this_view, vempty, reading.
    replace (len v =? 0)%N with false by lia. rewrite (dangling_at h v 0 D B). reflexivity. }
  destruct c; cbn [vperform]; unfold with_vvalue.
  - unfold vthen. rewrite W. reflexivity.
  - unfold vskip_whitespaces_and_comma, vthen, this_view, reading. destruct (N.to_nat (len v)) as [|n] eqn:E; [lia|]. cbn [vfind_comma].
    rewrite (dangling_at h v 0 D B). reflexivity.
  - unfold vskip_inclusive_until, vthen at 1 2, this_view. unfold vthen. rewrite K. reflexivity.
  - unfold vskip_inclusive_until_one_of, vthen at 1 2, this_view. unfold vthen. rewrite K. reflexivity.
  - unfold vread_word, vthen. rewrite U. reflexivity.
  - unfold vread_word_until, vthen. rewrite U. reflexivity.
  - unfold vread_number, vthen. rewrite W. reflexivity.
  - unfold vread_float, vthen. rewrite W. reflexivity.
  - unfold vread_char, vthrow_if_empty, vthen, this_view, vempty, reading, vret. replace (len v =? 0)%N with false by lia.
    rewrite (dangling_at h v 0 D B). reflexivity.
  - unfold vpeek_char, vthrow_if_empty, vthen, this_view, vempty, reading, vret. replace (len v =? 0)%N with false by lia.
    rewrite (dangling_at h v 0 D B). reflexivity.
  - unfold vpeek_char_n, vthen, this_view, vfail, reading. destruct (N.leb_spec (len v) n); [reflexivity|].
    rewrite (dangling_at h v n D) by assumption. reflexivity.
  - unfold vread_chars, vthen, this_view. rewrite drop_ok by lia. unfold vret. do 3 f_equal. rewrite <- advance_piece.
    destruct v as [[[b o]|] m]; cbn; [rewrite N.add_0_r|]; reflexivity.
  - unfold vread_chars_until, vthen. rewrite U. reflexivity.
Qed.

(** ** trim *)
Lemma vfind_back_ok h v t p : shows h v t -> forall n, (n <= length t)%nat ->
  vfind_back h v p n = Ok (N.of_nat n - find_if p (rev (firstn n t)))%N.
Proof.
  intros S n. induction n as [|n IH]; intro B; [reflexivity|].
  destruct (skipn_cons t n ltac:(lia)) as [c [E1 E2]]. cbn [vfind_back]. rewrite (shows_at h v t (N.of_nat n) c S) by (rewrite Nat2N.id; exact E1).
  cbn [bind]. assert (F : firstn (Datatypes.S n) t = firstn n t ++ [c]).
  { clear - E1. revert n E1. induction t as [|x t IHt]; intros [|n] E; cbn in *; try discriminate; [congruence|]. rewrite IHt by exact E. reflexivity. }
  rewrite F, rev_app_distr. cbn [rev app find_if]. destruct (p c); [f_equal; lia|]. rewrite IH by lia. f_equal. lia.
Qed.
Lemma vsubstr_piece v k n : (k + n <= len v)%N -> vsubstr v k n = Ok (piece v k n).
Proof.
  intro B. unfold vsubstr. replace (len v <? k)%N with false by lia. rewrite advance_piece. do 2 f_equal. lia.
Qed.
Lemma vtrim_front_ok h v t : shows h v t -> exists g s, t = g ++ s /\ Forall whitespace g /\ starts_not whitespace s /\
  vtrim_front h v = Ok (piece v (N.of_nat (length g)) (N.of_nat (length s))).
Proof.
  intro S. unfold vtrim_front. rewrite (vfind_if_ok h v t _ S). cbn [bind].
  destruct (find_if_spec (fun c => negb (classic_isspace c)) t) as [a [b [E [L [F B]]]]]. exists a, b. split; [exact E|]. split; [|split].
  - eapply Forall_impl; [|exact F]. cbv beta. intros c Hc. apply negb_false_iff in Hc. apply isspace_spec, Hc.
  - intros c s' E' W. destruct B as [->|[c' [b' [-> Hc]]]]; [discriminate|]. injection E' as -> _.
    apply negb_true_iff in Hc. apply isspace_spec in W. congruence.
  - destruct S as [Ln [Z _]]. rewrite E, app_length in Ln. rewrite L. unfold vsubstr. replace (len v <? N.of_nat (length a))%N with false by lia.
    rewrite advance_piece. do 2 f_equal. unfold npos. lia.
Qed.
Lemma vtrim_back_ok h v t : shows h v t -> exists s g, t = s ++ g /\ Forall whitespace g /\ ends_not whitespace s /\
  vtrim_back h v = Ok (piece v 0 (N.of_nat (length s))).
Proof.
  intro S. pose proof (shows_length h v t S) as Ln. unfold vtrim_back. rewrite Ln, Nat2N.id, (vfind_back_ok h v t _ S) by lia. rewrite firstn_all. cbn [bind].
  destruct (find_if_spec (fun c => negb (classic_isspace c)) (rev t)) as [a [b [E [L [F B]]]]].
  assert (E' : t = rev b ++ rev a) by (rewrite <- rev_app_distr, <- E, rev_involutive; reflexivity).
  exists (rev b), (rev a). split; [exact E'|]. split; [|split].
  - rewrite Forall_forall in *. intros c Hc. apply in_rev in Hc. specialize (F c Hc). cbv beta in F. apply negb_false_iff in F. apply isspace_spec, F.
  - intros c s' Ec W. destruct B as [->|[c' [b' [-> Hc]]]].
    + destruct s'; discriminate.
    + cbn [rev] in Ec. apply app_inj_tail in Ec. destruct Ec as [_ <-]. apply negb_true_iff in Hc. apply isspace_spec in W. congruence.
  - assert (Lt : (length t = length b + length a)%nat) by (rewrite E', app_length, !rev_length; reflexivity).
    rewrite L, rev_length, vsubstr_piece by lia. do 2 f_equal. lia.
Qed.
Lemma vtrim_ok h v t : shows h v t -> exists g s k, t = g ++ s ++ k /\ Forall whitespace g /\ Forall whitespace k /\
  starts_not whitespace s /\ ends_not whitespace s /\
  vtrim h v = Ok (piece v (N.of_nat (length g)) (N.of_nat (length s))).
Proof.
  intro S. destruct (vtrim_back_ok h v t S) as [s1 [k [E1 [Wk [N1 T1]]]]]. unfold vtrim. rewrite T1. cbn [bind].
  assert (Ln := shows_length h v t S). rewrite E1, app_length in Ln.
  assert (S1 : shows h (piece v 0 (N.of_nat (length s1))) s1).
  { pose proof (shows_piece h v t 0 (N.of_nat (length s1)) S ltac:(lia)) as P. rewrite E1, Nat2N.id in P. cbn [N.to_nat skipn] in P.
    rewrite firstn_app, Nat.sub_diag, firstn_O, app_nil_r, firstn_all in P. exact P. }
  destruct (vtrim_front_ok h _ s1 S1) as [g [s [E2 [Wg [N2 T2]]]]]. exists g, s, k. split; [rewrite E1, E2, <- app_assoc; reflexivity|].
  split; [exact Wg|]. split; [exact Wk|]. split; [exact N2|]. split; [intros c s' Ec; apply (N1 c (g ++ s')); rewrite E2, Ec, app_assoc; reflexivity|].
  rewrite T2, piece_piece. reflexivity.
Qed.

(** Reading a piece later: it shows what is there then. *)
Lemma piece_later h v b o s k n : data v = Some (b, o) -> h b = Some s -> (o + k + n <= N.of_nat (length s))%N -> (n < 2 ^ 64)%N ->
  shows h (piece v k n) (firstn (N.to_nat n) (skipn (N.to_nat (o + k)) s)).
Proof.
  intros D H B Z. split; [cbn; rewrite firstn_length, skipn_length; lia|]. split; [exact Z|]. right.
  exists b, (firstn (N.to_nat (o + k)) s), (skipn (N.to_nat n) (skipn (N.to_nat (o + k)) s)). split.
  - unfold piece. rewrite D. cbn. rewrite firstn_length. do 2 f_equal. lia.
  - rewrite H, firstn_skipn, firstn_skipn. reflexivity.
Qed.

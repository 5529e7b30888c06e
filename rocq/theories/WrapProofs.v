From Verif Require Import Base ListLemmas WrapModel WrapSpec.
Local Open Scope N_scope.

(** ** The loop as a machine that consumes one character at a time
    [AFresh]: at the beginning of a line. [AWord sp w]: spaces [sp], then a word [w].
    [ASpaces sp]: spaces only. [AAfter x sp]: at least one word, then spaces.
    [AMid x w]: at least one word, a space, a word [w]. *)
Inductive astate :=
| AFresh
| AWord (sp w : list N)
| ASpaces (sp : list N)
| AAfter (x sp : list N)
| AMid (x w : list N).

Definition text (a : astate) : list N :=
  match a with
  | AFresh => []
  | AWord sp w => sp ++ w
  | ASpaces sp => sp
  | AAfter x sp => x ++ sp
  | AMid x w => x ++ 32 :: w
  end.

(** Wrapping: emitted lines, characters dropped after them, new state. *)
Definition awrap1 (a : astate) : list (list N) * astate :=
  match a with
  | AFresh => ([], AFresh)
  | AWord sp w => ([sp ++ w], AFresh)
  | ASpaces sp => ([], AFresh)
  | AAfter x sp => ([x], ASpaces (tl sp))
  | AMid x w => ([x], AWord [] w)
  end.
Definition awrap (n : nat) (a : astate) (c : N) : list (list N) * astate :=
  if negb (c =? 10) && Nat.eqb (length (text a)) n then awrap1 a else ([], a).
Definition achar (a : astate) (c : N) : list (list N) * astate :=
  if c =? 32 then
    ([], match a with
         | AFresh => ASpaces [32]
         | AWord sp w => AAfter (sp ++ w) [32]
         | ASpaces sp => ASpaces (sp ++ [32])
         | AAfter x sp => AAfter x (sp ++ [32])
         | AMid x w => AAfter (x ++ 32 :: w) [32]
         end)
  else if c =? 10 then ([text a], AFresh)
  else
    ([], match a with
         | AFresh => AWord [] [c]
         | AWord sp w => AWord sp (w ++ [c])
         | ASpaces sp => AWord sp [c]
         | AAfter x sp => AMid (x ++ removelast sp) [c]
         | AMid x w => AMid x (w ++ [c])
         end).
Definition astep (n : nat) (a : astate) (c : N) : list (list N) * astate :=
  let '(e1, a) := awrap n a c in let '(e2, a) := achar a c in (e1 ++ e2, a).
Definition afinish (a : astate) : list (list N) :=
  match a with
  | ASpaces _ => []
  | AAfter x _ => [x]
  | _ => [text a]
  end.
Fixpoint arun (n : nat) (a : astate) (s : list N) : list (list N) :=
  match s with
  | [] => afinish a
  | c :: s => let '(e, a) := astep n a c in e ++ arun n a s
  end.

(** ** Well-formed machine states *)
Definition spaces (l : list N) : Prop := Forall (fun c => c = 32) l.
Definition wordy (l : list N) : Prop := l <> [] /\ Forall (fun c => c <> 32 /\ c <> 10) l.
Definition flat (l : list N) : Prop := Forall (fun c => c <> 10) l.
Definition ainv (a : astate) : Prop :=
  match a with
  | AFresh => True
  | AWord sp w => spaces sp /\ wordy w
  | ASpaces sp => spaces sp
  | AAfter x sp => flat x /\ x <> [] /\ spaces sp /\ sp <> []
  | AMid x w => flat x /\ wordy w
  end.

Lemma spaces_flat l : spaces l -> flat l.
Proof. intro H. eapply Forall_impl; [|exact H]. cbv beta. intros a ->. discriminate. Qed.
Lemma wordy_flat l : wordy l -> flat l.
Proof. intros [_ H]. eapply Forall_impl; [|exact H]. cbv beta. tauto. Qed.
Lemma flat_app a b : flat (a ++ b) <-> flat a /\ flat b.
Proof. apply Forall_app. Qed.
Lemma spaces_app a b : spaces (a ++ b) <-> spaces a /\ spaces b.
Proof. apply Forall_app. Qed.
Lemma snoc_ne {A} (l : list A) x : l ++ [x] <> [].
Proof. destruct l; discriminate. Qed.

Lemma text_flat a : ainv a -> flat (text a).
Proof.
  destruct a as [|sp w|sp|x sp|x w]; cbn [ainv text]; intro H.
  - constructor.
  - apply flat_app. split; [apply spaces_flat|apply wordy_flat]; tauto.
  - apply spaces_flat, H.
  - apply flat_app. split; [tauto|apply spaces_flat; tauto].
  - apply flat_app. split; [tauto|]. constructor; [discriminate|apply wordy_flat; tauto].
Qed.

Lemma spaces_tl l : spaces l -> spaces (tl l).
Proof. destruct l; [auto|]. intro H. inversion H; assumption. Qed.
Lemma spaces_removelast l : spaces l -> spaces (removelast l).
Proof.
  intro H. destruct l as [|a l]; [exact H|]. rewrite (app_removelast_last 0 (l := a :: l)) in H by discriminate.
  apply spaces_app in H. tauto.
Qed.
Lemma spaces_snoc l : spaces l -> l <> [] -> l = removelast l ++ [32].
Proof.
  intros H NE. rewrite (app_removelast_last 0 NE) at 1. f_equal. f_equal.
  unfold spaces in H. rewrite Forall_forall in H. apply H.
  rewrite (app_removelast_last 0 NE) at 2. apply in_or_app. right. left. reflexivity.
Qed.
Lemma wordy_snoc l c : wordy l -> c <> 32 -> c <> 10 -> wordy (l ++ [c]).
Proof. intros [_ H] H1 H2. split; [apply snoc_ne|]. apply Forall_app. split; [exact H|]. repeat constructor; assumption. Qed.
Lemma wordy_one c : c <> 32 -> c <> 10 -> wordy [c].
Proof. intros H1 H2. split; [discriminate|]. repeat constructor; assumption. Qed.

Lemma awrap1_inv a : ainv a -> ainv (snd (awrap1 a)).
Proof.
  destruct a as [|sp w|sp|x sp|x w]; cbn; auto.
  - intros [_ [_ [H _]]]. apply spaces_tl, H.
  - intros [_ H]. split; [constructor|exact H].
Qed.

Lemma achar_inv a c : ainv a -> ainv (snd (achar a c)).
Proof.
  intro H. unfold achar. destruct (N.eqb_spec c 32) as [->|N1]; [|destruct (N.eqb_spec c 10) as [->|N2]; [exact I|]];
    destruct a as [|sp w|sp|x sp|x w]; cbn [ainv snd] in *.
  - repeat constructor.
  - destruct H as [H1 H2]. repeat split; try discriminate.
    + apply flat_app. split; [apply spaces_flat, H1|apply wordy_flat, H2].
    + destruct H2 as [H2 _]. destruct sp; [exact H2|discriminate].
    + repeat constructor.
  - apply spaces_app. split; [exact H|repeat constructor].
  - destruct H as [H1 [H2 [H3 H4]]]. repeat split; auto using snoc_ne. apply spaces_app. split; [exact H3|repeat constructor].
  - destruct H as [H1 H2]. repeat split; try discriminate.
    + apply flat_app. split; [exact H1|]. constructor; [discriminate|apply wordy_flat, H2].
    + destruct x; discriminate.
    + repeat constructor.
  - split; [constructor|apply wordy_one; assumption].
  - destruct H as [H1 H2]. split; [exact H1|apply wordy_snoc; assumption].
  - split; [exact H|apply wordy_one; assumption].
  - destruct H as [H1 [H2 [H3 H4]]]. split; [|apply wordy_one; assumption].
    apply flat_app. split; [exact H1|]. apply spaces_flat, spaces_removelast, H3.
  - destruct H as [H1 H2]. split; [exact H1|apply wordy_snoc; assumption].
Qed.

Lemma awrap_inv n a c : ainv a -> ainv (snd (awrap n a c)).
Proof. intro H. unfold awrap. destruct (_ && _); [apply awrap1_inv, H|exact H]. Qed.

(** ** The model refines the machine *)
Section Refine.
Variable dbg cpp20 : bool.
Variable s : list N.
Variable width : N.
Hypothesis Hs : N.of_nat (length s) < 2 ^ 63.
Hypothesis Hw : 0 < width < 2 ^ 32.
Let n := N.to_nat width.

(** The program state [st] before character [i] corresponds to [a]. *)
Definition rel (st : state) (i : nat) (a : astate) : Prop :=
  exists d rest, s = d ++ text a ++ rest /\ line_begin st = length d /\
    i = (length d + length (text a))%nat /\ (length (text a) <= n)%nat /\ ainv a /\
    match a with
    | AFresh => span_begin st = i /\ word_ended st = false
    | AWord sp w => span_begin st = (length d + length sp)%nat /\ word_ended st = false
    | ASpaces sp =>
        word_ended st = false /\
        ((span_begin st = length d /\ sp <> []) \/
         (exists d', d = d' ++ [32] /\ span_begin st = length d'))
    | AAfter x sp => span_begin st = (length d + length x)%nat /\ word_ended st = true
    | AMid x w => span_begin st = (length d + length x + 1)%nat /\ word_ended st = true
    end.

Lemma emit_ok r a b d l rest : s = d ++ l ++ rest -> a = length d -> b = (length d + length l)%nat ->
  emit s r a b = Ok (r ++ [l]).
Proof.
  intros E -> ->. unfold emit, substr, distance.
  replace (Z.of_nat (length d) - Z.of_nat 0)%Z with (Z.of_nat (length d)) by lia.
  replace (Z.of_nat (length d + length l) - Z.of_nat (length d))%Z with (Z.of_nat (length l)) by lia.
  assert (L : length s = (length d + length l + length rest)%nat) by (rewrite E, !app_length; lia).
  rewrite !Z.mod_small by lia.
  replace (Z.to_N (Z.of_nat (length d))) with (N.of_nat (length d)) by lia.
  replace (Z.to_N (Z.of_nat (length l))) with (N.of_nat (length l)) by lia.
  destruct (N.ltb_spec (N.of_nat (length s)) (N.of_nat (length d))) as [H|H]; [lia|].
  cbn [bind]. do 3 f_equal. f_equal.
  replace (N.to_nat (N.min (N.of_nat (length l)) (N.of_nat (length s) - N.of_nat (length d)))) with (length l) by lia.
  rewrite Nat2N.id. rewrite E, skipn_app_exact, firstn_app_exact. reflexivity.
Qed.

Lemma deref_at d c rest i : s = d ++ c :: rest -> i = length d -> deref s i = Ok c.
Proof.
  intros E ->. unfold deref. rewrite E, nth_error_app2 by lia. rewrite Nat.sub_diag. reflexivity.
Qed.

Lemma next_at d c rest i : s = d ++ c :: rest -> i = length d -> next s i = Ok (S i).
Proof.
  intros E ->. unfold next. rewrite E, app_length. cbn [length].
  replace (Nat.ltb (length d) (length d + S (length rest))) with true by (symmetry; apply Nat.ltb_lt; lia).
  reflexivity.
Qed.

Lemma at_width_ok st i a : rel st i a -> at_width cpp20 width (line_begin st) i = Nat.eqb (length (text a)) n.
Proof.
  intros [d [rest [E [L [-> [B _]]]]]]. unfold at_width, distance. rewrite L.
  replace (Z.of_nat (length d + length (text a)) - Z.of_nat (length d))%Z with (Z.of_nat (length (text a))) by lia.
  assert (Z.of_nat (length (text a)) mod 2 ^ 32 = Z.of_nat (length (text a)))%Z as -> by (apply Z.mod_small; lia).
  assert ((Z.of_nat (length (text a)) =? Z.of_N width)%Z = Nat.eqb (length (text a)) n) as -> by lia.
  destruct cpp20; reflexivity.
Qed.

Lemma assert_true' : assert_ dbg true = Ok tt.
Proof. unfold assert_. rewrite andb_false_r. reflexivity. Qed.

Lemma wrap_step st i a c r : rel st i a -> skipn i s = c :: r ->
  exists st', wrap dbg cpp20 s width st i = Ok st' /\ ret st' = ret st ++ fst (awrap n a c) /\
    rel st' i (snd (awrap n a c)) /\
    (c <> 10 -> (length (text (snd (awrap n a c))) < n)%nat).
Proof.
  intros R Hc. pose proof (at_width_ok st i a R) as AW.
  destruct R as [d [rest [E [L [Hi [B [I M]]]]]]].
  assert (Er : rest = c :: r).
  { rewrite E in Hc. rewrite app_assoc in Hc. subst i. rewrite <- app_length in Hc. rewrite skipn_app_exact in Hc. exact Hc. }
  subst rest.
  assert (Dc : deref s i = Ok c).
  { apply deref_at with (d := d ++ text a) (rest := r); [rewrite <- app_assoc; exact E|rewrite app_length; exact Hi]. }
  unfold wrap.
  assert (A1 : (0 <=? distance (line_begin st) i)%Z = true) by (unfold distance; lia).
  rewrite A1, assert_true'. cbn [bind]. rewrite Dc. cbn [bind]. rewrite AW. unfold awrap.
  change (c =? newline) with (c =? 10).
  destruct (N.eqb_spec c 10) as [->|Nc]; cbn [negb andb].
  { exists st. cbn [fst snd]. rewrite app_nil_r. repeat split; try congruence.
    exists d, (10 :: r). repeat split; assumption. }
  destruct (Nat.eqb_spec (length (text a)) n) as [Ew|Ew].
  2:{ exists st. cbn [fst snd]. rewrite app_nil_r. repeat split; [|lia].
      exists d, (c :: r). repeat split; assumption. }
  assert (Npos : (0 < n)%nat) by lia.
  destruct a as [|sp w|sp|x sp|x w]; cbn [awrap1 fst snd]; cbn [text] in *.
  - cbn in Ew. lia.
  - (* word: cut it *)
    destruct M as [Ms Mw]. rewrite Mw.
    destruct I as [I1 [I2 I3]]. destruct w as [|w0 w]; [contradiction|].
    assert (D : deref s (span_begin st) = Ok w0).
    { apply deref_at with (d := d ++ sp) (rest := w ++ c :: r); [rewrite E, <- !app_assoc; reflexivity|].
      rewrite app_length. exact Ms. }
    rewrite D. cbn [bind]. pose proof (Forall_inv I3) as [W1 _].
    change (w0 =? space) with (w0 =? 32). replace (w0 =? 32) with false by (symmetry; apply N.eqb_neq; exact W1).
    rewrite (emit_ok (ret st) (line_begin st) i d (sp ++ w0 :: w) (c :: r)) by assumption. cbn [bind].
    eexists. split; [reflexivity|]. cbn [ret]. split; [reflexivity|]. split; [|cbn; lia].
    exists (d ++ sp ++ w0 :: w), (c :: r). cbn [text line_begin span_begin word_ended app length].
    rewrite app_length. repeat split; try lia. rewrite <- app_assoc. exact E.
  - (* spaces only: drop them *)
    destruct M as [Mw M]. rewrite Mw.
    assert (D : deref s (span_begin st) = Ok 32).
    { destruct M as [[Ms NE]|[d' [-> Ms]]].
      - destruct sp as [|x sp]; [contradiction|]. pose proof (Forall_inv I) as Hx; cbv beta in Hx; subst x.
        apply deref_at with (d := d) (rest := sp ++ c :: r); [exact E|exact Ms].
      - apply deref_at with (d := d') (rest := sp ++ c :: r); [rewrite E, <- app_assoc; reflexivity|exact Ms]. }
    rewrite D. cbn [bind]. change (32 =? space) with true. cbn iota.
    eexists. split; [reflexivity|]. cbn [ret]. rewrite app_nil_r. split; [reflexivity|]. split; [|cbn; lia].
    exists (d ++ sp), (c :: r). cbn [text line_begin span_begin word_ended app length].
    rewrite app_length. repeat split; try lia. rewrite <- app_assoc. exact E.
  - (* spaces after a word *)
    destruct M as [Ms Mw]. rewrite Mw. destruct I as [I1 [I2 [I3 I4]]].
    destruct sp as [|y sp]; [contradiction|]. pose proof (Forall_inv I3) as Hy; pose proof (Forall_inv_tail I3) as I3'; cbv beta in Hy; subst y.
    assert (E2 : s = (d ++ x) ++ 32 :: sp ++ c :: r) by (rewrite E, <- !app_assoc; reflexivity).
    assert (D : deref s (span_begin st) = Ok 32).
    { apply deref_at with (1 := E2). rewrite app_length. exact Ms. }
    rewrite D. cbn [bind]. change (32 =? space) with true. cbn iota.
    rewrite (emit_ok (ret st) (line_begin st) (span_begin st) d x (32 :: sp ++ c :: r))
      by (try assumption; rewrite E, <- !app_assoc; reflexivity). cbn [bind].
    rewrite (next_at (d ++ x) 32 (sp ++ c :: r)) by (try assumption; rewrite app_length; exact Ms). cbn [bind].
    rewrite app_length in Ew, Hi, B. cbn [length] in Ew, Hi, B.
    eexists. split; [reflexivity|]. cbn [ret tl]. split; [reflexivity|].
    assert (Lx : (1 <= length x)%nat) by (destruct x; [contradiction|cbn; lia]).
    split; [|cbn; lia].
    exists (d ++ x ++ [32]), (c :: r). cbn [text line_begin span_begin word_ended].
    rewrite !app_length. cbn [length]. repeat split; try lia.
    + rewrite E, <- !app_assoc. reflexivity.
    + exact I3'.
    + right. exists (d ++ x). rewrite app_length. split; [rewrite <- app_assoc; reflexivity|exact Ms].
  - (* word after a word *)
    destruct M as [Ms Mw]. rewrite Mw. destruct I as [I1 [I2 I3]].
    destruct w as [|w0 w]; [contradiction|].
    assert (E2 : s = (d ++ x ++ [32]) ++ w0 :: w ++ c :: r) by (rewrite E, <- !app_assoc; reflexivity).
    assert (D : deref s (span_begin st) = Ok w0).
    { apply deref_at with (1 := E2). rewrite !app_length. cbn [length]. lia. }
    rewrite D. cbn [bind]. pose proof (Forall_inv I3) as [W1 _].
    change (w0 =? space) with (w0 =? 32). replace (w0 =? 32) with false by (symmetry; apply N.eqb_neq; exact W1).
    assert (A2 : (1 <=? distance (line_begin st) (span_begin st))%Z = true) by (unfold distance; lia).
    rewrite A2, assert_true'. cbn [bind].
    assert (P : prev (span_begin st) = Ok (length d + length x)%nat)
      by (rewrite Ms, Nat.add_1_r; reflexivity).
    rewrite P. cbn [bind].
    rewrite (emit_ok (ret st) (line_begin st) (length d + length x) d x (32 :: (w0 :: w) ++ c :: r))
      by (try assumption; try reflexivity; rewrite E, <- !app_assoc; reflexivity). cbn [bind].
    rewrite app_length in Ew, Hi, B. cbn [length] in Ew, Hi, B.
    eexists. split; [reflexivity|]. cbn [ret]. split; [reflexivity|].
    split; [|cbn; lia].
    exists (d ++ x ++ [32]), (c :: r). cbn [text line_begin span_begin word_ended app].
    rewrite !app_length. cbn [length]. repeat split; try lia.
    + rewrite E, <- !app_assoc. reflexivity.
    + constructor.
    + discriminate.
    + exact I3.
Qed.

Lemma char_step st i a c r : rel st i a -> skipn i s = c :: r -> (c <> 10 -> (length (text a) < n)%nat) ->
  exists st', classify s st i = Ok st' /\ ret st' = ret st ++ fst (achar a c) /\
    rel st' (S i) (snd (achar a c)).
Proof.
  intros R Hc Hlt.
  destruct R as [d [rest [E [L [Hi [B [I M]]]]]]].
  assert (Er : rest = c :: r).
  { rewrite E in Hc. rewrite app_assoc in Hc. subst i. rewrite <- app_length in Hc. rewrite skipn_app_exact in Hc. exact Hc. }
  subst rest.
  assert (Ei : s = (d ++ text a) ++ c :: r) by (rewrite <- app_assoc; exact E).
  assert (Li : i = length (d ++ text a)) by (rewrite app_length; exact Hi).
  assert (Dc : deref s i = Ok c) by (apply deref_at with (1 := Ei) (2 := Li)).
  unfold classify. rewrite Dc. cbn [bind].
  pose proof (achar_inv a c I) as I'.
  change (c =? space) with (c =? 32). change (c =? newline) with (c =? 10). unfold achar in *.
  destruct (N.eqb_spec c 32) as [->|N1]; [|destruct (N.eqb_spec c 10) as [->|N2]].
  - (* space *)
    specialize (Hlt ltac:(discriminate)). cbn [fst snd] in *.
    destruct a as [|sp w|sp|x sp|x w]; cbn [text] in *.
    + destruct M as [Ms Mw]. rewrite Ms, Dc. cbn [bind]. change (negb (32 =? space)) with false. cbn iota.
      exists st. rewrite app_nil_r. split; [reflexivity|]. split; [reflexivity|].
      exists d, r. cbn [text length] in *. repeat split; try lia; try assumption.
      left. split; [lia|discriminate].
    + destruct M as [Ms Mw]. destruct I as [I1 [I2 I3]]. destruct w as [|w0 w]; [contradiction|].
      assert (D : deref s (span_begin st) = Ok w0).
      { apply deref_at with (d := d ++ sp) (rest := w ++ 32 :: r); [rewrite E, <- !app_assoc; reflexivity|].
        rewrite app_length. exact Ms. }
      rewrite D. cbn [bind]. pose proof (Forall_inv I3) as [W1 _].
      change (w0 =? space) with (w0 =? 32). replace (w0 =? 32) with false by (symmetry; apply N.eqb_neq; exact W1).
      cbn [negb]. eexists. split; [reflexivity|]. cbn [ret]. rewrite app_nil_r. split; [reflexivity|].
      exists d, r. cbn [text line_begin span_begin word_ended].
      split; [rewrite E, <- !app_assoc; reflexivity|]. split; [assumption|].
      rewrite app_length. cbn [length]. split; [lia|]. split; [lia|]. split; [exact I'|]. split; [lia|reflexivity].
    + destruct M as [Mw M].
      assert (D : deref s (span_begin st) = Ok 32).
      { destruct M as [[Ms NE]|[d' [-> Ms]]].
        - destruct sp as [|x sp]; [contradiction|]. pose proof (Forall_inv I) as Hx; cbv beta in Hx; subst x.
          apply deref_at with (d := d) (rest := sp ++ 32 :: r); [exact E|exact Ms].
        - apply deref_at with (d := d') (rest := sp ++ 32 :: r); [rewrite E, <- app_assoc; reflexivity|exact Ms]. }
      rewrite D. cbn [bind]. change (negb (32 =? space)) with false. cbn iota.
      exists st. rewrite app_nil_r. split; [reflexivity|]. split; [reflexivity|].
      exists d, r. cbn [text]. rewrite app_length. cbn [length].
      split; [rewrite E, <- !app_assoc; reflexivity|]. repeat split; try lia; try assumption.
      destruct M as [[Ms NE]|M]; [left|right; exact M]. split; [exact Ms|apply snoc_ne].
    + destruct M as [Ms Mw]. destruct I as [I1 [I2 [I3 I4]]].
      destruct sp as [|y sp]; [contradiction|]. pose proof (Forall_inv I3) as Hy; pose proof (Forall_inv_tail I3) as I3'; cbv beta in Hy; subst y.
      assert (D : deref s (span_begin st) = Ok 32).
      { apply deref_at with (d := d ++ x) (rest := sp ++ 32 :: r); [rewrite E, <- !app_assoc; reflexivity|].
        rewrite app_length. exact Ms. }
      rewrite D. cbn [bind]. change (negb (32 =? space)) with false. cbn iota.
      exists st. rewrite app_nil_r. split; [reflexivity|]. split; [reflexivity|].
      rewrite app_length in Hlt, Hi. cbn [length] in Hlt, Hi.
      exists d, r. cbn [text]. rewrite !app_length. cbn [length].
      split; [rewrite E, <- !app_assoc; reflexivity|]. split; [assumption|].
      rewrite ?app_length. cbn [length]. split; [lia|]. split; [lia|]. split; [exact I'|]. split; assumption.
    + destruct M as [Ms Mw]. destruct I as [I1 [I2 I3]].
      destruct w as [|w0 w]; [contradiction|].
      assert (E2 : s = (d ++ x ++ [32]) ++ w0 :: w ++ 32 :: r) by (rewrite E, <- !app_assoc; reflexivity).
      assert (D : deref s (span_begin st) = Ok w0).
      { apply deref_at with (1 := E2). rewrite !app_length. cbn [length]. lia. }
      rewrite D. cbn [bind]. pose proof (Forall_inv I3) as [W1 _].
      change (w0 =? space) with (w0 =? 32). replace (w0 =? 32) with false by (symmetry; apply N.eqb_neq; exact W1).
      cbn [negb]. eexists. split; [reflexivity|]. cbn [ret]. rewrite app_nil_r. split; [reflexivity|].
      exists d, r. cbn [text line_begin span_begin word_ended].
      split; [rewrite E, <- !app_assoc; reflexivity|]. split; [assumption|].
      rewrite app_length. cbn [length]. split; [lia|]. split; [lia|]. split; [exact I'|]. split; [lia|reflexivity].
  - (* newline *)
    cbn [fst snd].
    rewrite (emit_ok (ret st) (line_begin st) i d (text a) (10 :: r)) by assumption. cbn [bind].
    rewrite (next_at (d ++ text a) 10 r) by assumption. cbn [bind].
    eexists. split; [reflexivity|]. cbn [ret]. split; [reflexivity|].
    exists (d ++ text a ++ [10]), r. cbn [text line_begin span_begin word_ended app length].
    rewrite !app_length. cbn [length]. repeat split; try lia. rewrite E, <- !app_assoc. reflexivity.
  - (* other character *)
    specialize (Hlt N2). cbn [fst snd] in *.
    destruct a as [|sp w|sp|x sp|x w]; cbn [text] in *.
    + destruct M as [Ms Mw]. rewrite Ms, Dc. cbn [bind].
      change (c =? space) with (c =? 32). replace (c =? 32) with false by (symmetry; apply N.eqb_neq; exact N1).
      exists st. rewrite app_nil_r. split; [reflexivity|]. split; [reflexivity|].
      exists d, r. cbn [text length app] in *.
      split; [exact E|]. split; [assumption|]. split; [lia|]. split; [lia|]. split; [exact I'|]. split; [lia|assumption].
    + destruct M as [Ms Mw]. destruct I as [I1 [I2 I3]]. destruct w as [|w0 w]; [contradiction|].
      assert (D : deref s (span_begin st) = Ok w0).
      { apply deref_at with (d := d ++ sp) (rest := w ++ c :: r); [rewrite E, <- !app_assoc; reflexivity|].
        rewrite app_length. exact Ms. }
      rewrite D. cbn [bind]. pose proof (Forall_inv I3) as [W1 _].
      change (w0 =? space) with (w0 =? 32). replace (w0 =? 32) with false by (symmetry; apply N.eqb_neq; exact W1).
      exists st. rewrite app_nil_r. split; [reflexivity|]. split; [reflexivity|].
      rewrite app_length in Hlt, Hi. cbn [length] in Hlt, Hi.
      exists d, r. cbn [text]. rewrite !app_length. cbn [length].
      split; [rewrite E, <- !app_assoc; reflexivity|]. split; [assumption|].
      rewrite ?app_length. cbn [length]. split; [lia|]. split; [lia|]. split; [exact I'|]. split; assumption.
    + destruct M as [Mw M].
      assert (D : deref s (span_begin st) = Ok 32).
      { destruct M as [[Ms NE]|[d' [-> Ms]]].
        - destruct sp as [|x sp]; [contradiction|]. pose proof (Forall_inv I) as Hx; cbv beta in Hx; subst x.
          apply deref_at with (d := d) (rest := sp ++ c :: r); [exact E|exact Ms].
        - apply deref_at with (d := d') (rest := sp ++ c :: r); [rewrite E, <- app_assoc; reflexivity|exact Ms]. }
      rewrite D. cbn [bind]. change (32 =? space) with true. cbn iota.
      eexists. split; [reflexivity|]. cbn [ret]. rewrite app_nil_r. split; [reflexivity|].
      exists d, r. cbn [text line_begin span_begin word_ended]. rewrite app_length. cbn [length].
      split; [rewrite E, <- !app_assoc; reflexivity|]. split; [assumption|].
      split; [lia|]. split; [lia|]. split; [exact I'|]. split; [lia|assumption].
    + destruct M as [Ms Mw]. destruct I as [I1 [I2 [I3 I4]]].
      pose proof (spaces_snoc sp I3 I4) as Esp.
      destruct sp as [|y sp]; [contradiction|]. pose proof (Forall_inv I3) as Hy; pose proof (Forall_inv_tail I3) as I3'; cbv beta in Hy; subst y.
      assert (D : deref s (span_begin st) = Ok 32).
      { apply deref_at with (d := d ++ x) (rest := sp ++ c :: r); [rewrite E, <- !app_assoc; reflexivity|].
        rewrite app_length. exact Ms. }
      rewrite D. cbn [bind]. change (32 =? space) with true. cbn iota.
      eexists. split; [reflexivity|]. cbn [ret]. rewrite app_nil_r. split; [reflexivity|].
      set (sp1 := removelast (32 :: sp)) in *.
      assert (Lsp : length (32 :: sp) = S (length sp1)) by (rewrite Esp, app_length; cbn [length]; lia).
      rewrite app_length, Lsp in Hlt, Hi.
      exists d, r. cbn [text line_begin span_begin word_ended].
      split.
      { rewrite E, Esp. unfold sp1. rewrite <- !app_assoc. reflexivity. }
      split; [assumption|]. rewrite !app_length. cbn [length].
      split; [lia|]. split; [lia|]. split; [exact I'|]. split; [lia|assumption].
    + destruct M as [Ms Mw]. destruct I as [I1 [I2 I3]].
      destruct w as [|w0 w]; [contradiction|].
      assert (E2 : s = (d ++ x ++ [32]) ++ w0 :: w ++ c :: r) by (rewrite E, <- !app_assoc; reflexivity).
      assert (D : deref s (span_begin st) = Ok w0).
      { apply deref_at with (1 := E2). rewrite !app_length. cbn [length]. lia. }
      rewrite D. cbn [bind]. pose proof (Forall_inv I3) as [W1 _].
      change (w0 =? space) with (w0 =? 32). replace (w0 =? 32) with false by (symmetry; apply N.eqb_neq; exact W1).
      exists st. rewrite app_nil_r. split; [reflexivity|]. split; [reflexivity|].
      rewrite app_length in Hlt, Hi. cbn [length] in Hlt, Hi.
      exists d, r. cbn [text].
      split; [rewrite E, <- !app_assoc; cbn [app]; rewrite <- app_assoc; reflexivity|]. split; [assumption|].
      rewrite !app_length. cbn [length]. rewrite !app_length. cbn [length].
      split; [lia|]. split; [lia|]. split; [exact I'|]. split; assumption.
Qed.

Lemma loop_ok : forall r fuel i st a, rel st i a -> skipn i s = r -> (length r < fuel)%nat ->
  exists st' a', loop dbg cpp20 s width fuel i st = Ok st' /\ rel st' (length s) a' /\
    ret st ++ arun n a r = ret st' ++ afinish a'.
Proof.
  induction r as [|c r IH]; intros fuel i st a R Hr Hf; (destruct fuel as [|fuel]; [cbn in Hf; lia|]).
  - assert (Hi : i = length s).
    { destruct R as [d [rest [E [L [Hi _]]]]]. subst i. rewrite E, app_assoc in Hr.
      rewrite <- app_length, skipn_app_exact in Hr. rewrite E, Hr, app_nil_r, app_length. reflexivity. }
    exists st, a. cbn [loop arun]. rewrite Hi, Nat.eqb_refl. subst i. auto.
  - cbn [loop]. assert (Hi : (i < length s)%nat).
    { destruct (Nat.lt_ge_cases i (length s)) as [H|H]; [exact H|]. rewrite skipn_all2 in Hr by lia. discriminate. }
    replace (Nat.eqb i (length s)) with false by (symmetry; apply Nat.eqb_neq; lia).
    destruct (wrap_step st i a c r R Hr) as [st1 [-> [R1 [Rel1 Lt1]]]]. cbn [bind].
    destruct (char_step st1 i _ c r Rel1 Hr Lt1) as [st2 [-> [R2 Rel2]]]. cbn [bind].
    unfold next. apply Nat.ltb_lt in Hi. rewrite Hi. cbn [bind].
    assert (Hr' : skipn (S i) s = r).
    { change (skipn (S i) s) with (skipn (S i) s). replace (S i) with (i + 1)%nat by lia.
      rewrite <- skipn_skipn, Hr. reflexivity. }
    destruct (IH fuel (S i) st2 _ Rel2 Hr' ltac:(cbn in Hf; lia)) as [st' [a' [-> [R' E']]]].
    exists st', a'. split; [reflexivity|]. split; [exact R'|]. rewrite <- E'. cbn [arun]. unfold astep.
    rewrite R2, R1. destruct (awrap n a c) as [e1 a1]. cbn [fst snd] in *. destruct (achar a1 c) as [e2 a2]. cbn [fst snd].
    rewrite <- !app_assoc. reflexivity.
Qed.

Theorem word_wrap_run : word_wrap dbg cpp20 s width = Ok (arun n AFresh s).
Proof.
  unfold word_wrap. replace (width =? 0) with false by (symmetry; apply N.eqb_neq; lia).
  destruct (loop_ok s (S (length s)) 0 (State [] 0 0 false) AFresh) as [st [a [-> [R E]]]].
  - exists [], s. cbn. repeat split; lia.
  - reflexivity.
  - lia.
  - cbn [bind]. cbn [ret app] in E. rewrite E. clear E.
    destruct R as [d [rest [E [L [Hi [B [I M]]]]]]].
    assert (rest = []).
    { assert (H : length s = (length d + length (text a) + length rest)%nat) by (rewrite E at 1; rewrite !app_length; lia).
      destruct rest; [reflexivity|]. cbn in H. lia. }
    subst rest. rewrite app_nil_r in E.
    assert (Full : emit s (ret st) (line_begin st) (length s) = Ok (ret st ++ [text a])).
    { apply emit_ok with (d := d) (rest := []); [rewrite app_nil_r; exact E|exact L|exact Hi]. }
    destruct a as [|sp w|sp|x sp|x w]; cbn [afinish text] in *.
    + destruct M as [-> _]. rewrite Nat.eqb_refl. cbn [negb bind]. exact Full.
    + destruct M as [Ms Mw]. destruct I as [I1 [I2 I3]]. destruct w as [|w0 w]; [contradiction|].
      rewrite app_length in Hi. cbn [length] in Hi.
      replace (Nat.eqb (span_begin st) (length s)) with false by (symmetry; apply Nat.eqb_neq; lia). cbn [negb].
      rewrite (deref_at (d ++ sp) w0 w) by (try (rewrite app_length; lia); rewrite E, <- app_assoc; reflexivity).
      cbn [bind]. pose proof (Forall_inv I3) as [W1 _].
      change (w0 =? space) with (w0 =? 32). replace (w0 =? 32) with false by (symmetry; apply N.eqb_neq; exact W1).
      exact Full.
    + destruct M as [Mw M].
      assert (D : deref s (span_begin st) = Ok 32 /\ (span_begin st < length s)%nat).
      { destruct M as [[Ms NE]|[d' [-> Ms]]].
        - destruct sp as [|x sp]; [contradiction|]. pose proof (Forall_inv I) as Hx; cbv beta in Hx; subst x. split; [|cbn in Hi; lia].
          apply deref_at with (d := d) (rest := sp); [exact E|exact Ms].
        - rewrite app_length in Hi. cbn [length] in Hi. split; [|lia].
          apply deref_at with (d := d') (rest := sp); [rewrite E, <- app_assoc; reflexivity|exact Ms]. }
      destruct D as [D Lt].
      replace (Nat.eqb (span_begin st) (length s)) with false by (symmetry; apply Nat.eqb_neq; lia). cbn [negb].
      rewrite D. cbn [bind]. change (32 =? space) with true. cbn iota. rewrite Mw, app_nil_r. reflexivity.
    + destruct M as [Ms Mw]. destruct I as [I1 [I2 [I3 I4]]].
      destruct sp as [|y sp]; [contradiction|]. pose proof (Forall_inv I3) as Hy; pose proof (Forall_inv_tail I3) as I3'; cbv beta in Hy; subst y.
      rewrite app_length in Hi. cbn [length] in Hi.
      replace (Nat.eqb (span_begin st) (length s)) with false by (symmetry; apply Nat.eqb_neq; lia). cbn [negb].
      rewrite (deref_at (d ++ x) 32 sp) by (try (rewrite app_length; lia); rewrite E, <- app_assoc; reflexivity).
      cbn [bind]. change (32 =? space) with true. cbn iota. rewrite Mw.
      apply emit_ok with (d := d) (rest := 32 :: sp); [exact E|exact L|exact Ms].
    + destruct M as [Ms Mw]. destruct I as [I1 [I2 I3]]. destruct w as [|w0 w]; [contradiction|].
      rewrite app_length in Hi. cbn [length] in Hi.
      replace (Nat.eqb (span_begin st) (length s)) with false by (symmetry; apply Nat.eqb_neq; lia). cbn [negb].
      rewrite (deref_at (d ++ x ++ [32]) w0 w)
        by (try (rewrite !app_length; cbn [length]; lia); rewrite E, <- !app_assoc; reflexivity).
      cbn [bind]. pose proof (Forall_inv I3) as [W1 _].
      change (w0 =? space) with (w0 =? 32). replace (w0 =? 32) with false by (symmetry; apply N.eqb_neq; exact W1).
      exact Full.
Qed.
End Refine.

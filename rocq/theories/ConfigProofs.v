From Coq Require Import String.
From Verif Require Import Base ConfigModel ConfigSpec.
Local Open Scope string_scope.
Local Open Scope Z_scope.

(** *** Environments *)
Lemma lookup_undef_ne e n m : n <> m -> lookup (undef e n) m = lookup e m.
Proof.
  intro NE. induction e as [|[x b] e IH]; [reflexivity|]. cbn.
  destruct (String.eqb n x) eqn:A.
  - apply String.eqb_eq in A. subst x. rewrite IH.
    destruct (String.eqb m n) eqn:B; [apply String.eqb_eq in B; congruence|reflexivity].
  - cbn. destruct (String.eqb m x); [reflexivity|exact IH].
Qed.
Lemma lookup_undef_eq e n : lookup (undef e n) n = None.
Proof.
  induction e as [|[x b] e IH]; [reflexivity|]. cbn.
  destruct (String.eqb n x) eqn:A; [exact IH|]. cbn. rewrite A. exact IH.
Qed.
Lemma lookup_In e n b : lookup e n = Some b -> In n (map fst e).
Proof.
  induction e as [|[x c] e IH]; [discriminate|]. cbn. destruct (String.eqb n x) eqn:A.
  - apply String.eqb_eq in A. auto.
  - auto.
Qed.

(** *** Expansion *)
(** The names on the way. *)
Inductive chain (e : env) : string -> list string -> Z -> Prop :=
| ch_none n : lookup e n = None -> chain e n [n] 0
| ch_int n v : lookup e n = Some (Int v) -> chain e n [n] v
| ch_name n m l v : lookup e n = Some (Name m) -> chain e m l v -> chain e n (n :: l) v.
Lemma stands_chain e n v : stands_for e n v -> exists l, chain e n l v.
Proof. induction 1 as [n H|n v H|n m v H _ [l IH]]; eauto using chain. Qed.
Lemma chain_fun e n l v : chain e n l v -> forall l' v', chain e n l' v' -> l = l' /\ v = v'.
Proof.
  induction 1 as [n H|n v H|n m l v H _ IH]; intros l' v' C; inversion C as [? L|? ? L|? ? ? ? L C']; subst; rewrite H in L;
    try discriminate; [auto|injection L as <-; auto|].
  injection L as <-. destruct (IH _ _ C') as [-> ->]. auto.
Qed.
Lemma chain_suffix e n l v : chain e n l v -> forall r, In r l -> exists l', chain e r l' v /\ (length l' <= length l)%nat.
Proof.
  induction 1 as [n H|n v H|n m l v H C IH]; intros r I; cbn in I.
  - destruct I as [<-|[]]. exists [n]. split; [constructor; exact H|reflexivity].
  - destruct I as [<-|[]]. exists [n]. split; [constructor; exact H|reflexivity].
  - destruct I as [<-|I].
    + exists (n :: l). split; [econstructor; eauto|reflexivity].
    + destruct (IH _ I) as (l' & C' & L). exists l'. split; [exact C'|cbn; lia].
Qed.
Lemma chain_NoDup e n l v : chain e n l v -> NoDup l.
Proof.
  induction 1 as [n H|n v H|n m l v H C IH]; try (repeat constructor; easy).
  constructor; [|exact IH]. intro I. destruct (chain_suffix _ _ _ _ C _ I) as (l' & C' & L).
  destruct (chain_fun _ _ _ _ C' (n :: l) v (ch_name _ _ _ _ _ H C)) as [-> _]. cbn in L. lia.
Qed.
Lemma chain_names e n l v : chain e n l v -> incl (removelast l) (map fst e).
Proof.
  induction 1 as [n H|n v H|n m l v H C IH]; cbn; try (intros x []).
  destruct l as [|y l]; [inversion C|]. intros x [<-|I]; [eapply lookup_In; eauto|]. apply IH. exact I.
Qed.
Lemma chain_length e n l v : chain e n l v -> (length l <= S (length e))%nat.
Proof.
  intro C. pose proof (chain_NoDup _ _ _ _ C) as D. pose proof (chain_names _ _ _ _ C) as I.
  assert (NE : l <> []) by (destruct C; discriminate).
  rewrite (app_removelast_last "" NE) in D |- *. apply NoDup_remove_1 in D. rewrite app_nil_r in D.
  pose proof (NoDup_incl_length D I) as L. rewrite map_length in L. rewrite app_length. cbn. lia.
Qed.
Lemma expand_chain e n l v : chain e n l v -> NoDup l -> forall fuel e', (length l <= fuel)%nat ->
  (forall x, In x l -> lookup e' x = lookup e x) -> expand fuel e' n = Some (Int v).
Proof.
  induction 1 as [n H|n v H|n m l v H C IH]; intros D fuel e' F A; (destruct fuel as [|fuel]; [cbn in F; lia|]); cbn [expand];
    rewrite A by (cbn; auto); rewrite H; try reflexivity.
  apply IH.
  - inversion D; assumption.
  - cbn in F. lia.
  - intros x I. rewrite lookup_undef_ne; [apply A; cbn; auto|]. inversion D; subst. congruence.
Qed.
Lemma expansion_ok e n v : stands_for e n v -> expansion e n = Some (Int v).
Proof.
  intro S. destruct (stands_chain _ _ _ S) as [l C]. unfold expansion. eapply expand_chain; eauto using chain_NoDup, chain_length.
Qed.
Lemma eval_name e n v : stands_for e n v -> eval e (IName n) = Some v.
Proof. intro S. cbn [eval]. rewrite (expansion_ok _ _ _ S). reflexivity. Qed.
Lemma stands_fun e n v w : stands_for e n v -> stands_for e n w -> v = w.
Proof. intros A B. apply expansion_ok in A, B. congruence. Qed.
Lemma number_stands e n v : is_number e n v -> stands_for e n v.
Proof. induction 1; eauto using stands_for. Qed.

(** *** Extension and frame *)
Fixpoint names (p : block) : list string :=
  match p with
  | Done => []
  | Define n _ k => n :: names k
  | Undef n k => n :: names k
  | Include _ k => names k
  | If _ t f k => names t ++ names f ++ names k
  end.
Fixpoint no_undef (p : block) : bool :=
  match p with
  | Done => true
  | Define _ _ k => no_undef k
  | Undef _ _ => false
  | Include _ k => no_undef k
  | If _ t f k => no_undef t && no_undef f && no_undef k
  end.
Notation go := (run sdk_header).
Lemma run_frame p : forall e e' n, go p e = Some e' -> ~ In n (names p) -> lookup e' n = lookup e n.
Proof.
  induction p as [|m b k IH|m k IH|f k IH|c t IHt f IHf k IHk]; intros e e' n R NI; cbn in R, NI.
  - congruence.
  - destruct (lookup e m) eqn:L.
    + destruct (body_eqb b b0); [|discriminate]. eapply IH; eauto.
    + rewrite (IH _ _ n R) by tauto. cbn. destruct (String.eqb n m) eqn:E; [|reflexivity].
      apply String.eqb_eq in E. subst. tauto.
  - rewrite (IH _ _ n R) by tauto. apply lookup_undef_ne. tauto.
  - eapply IH; eauto.
  - rewrite !in_app_iff in NI. destruct (eval e c) as [x|]; [|discriminate].
    destruct (go (if x =? 0 then f else t) e) as [e1|] eqn:B; [|discriminate].
    rewrite (IHk _ _ n R) by tauto. destruct (x =? 0); [apply (IHf _ _ n B)|apply (IHt _ _ n B)]; tauto.
Qed.
Lemma run_mono p : no_undef p = true -> forall e e' n b, go p e = Some e' -> lookup e n = Some b -> lookup e' n = Some b.
Proof.
  induction p as [|m c k IH|m k IH|f k IH|c t IHt f IHf k IHk]; intros NU e e' n b R L; cbn in R, NU.
  - congruence.
  - destruct (lookup e m) eqn:M.
    + destruct (body_eqb c b0); [|discriminate]. eapply IH; eauto.
    + eapply (IH NU); eauto. cbn. destruct (String.eqb n m) eqn:E; [|exact L]. apply String.eqb_eq in E. congruence.
  - discriminate.
  - eapply IH; eauto.
  - apply andb_true_iff in NU as [NU NUk]. apply andb_true_iff in NU as [NUt NUf].
    destruct (eval e c) as [x|]; [|discriminate].
    destruct (go (if x =? 0 then f else t) e) as [e1|] eqn:B; [|discriminate].
    eapply (IHk NUk); eauto. destruct (x =? 0); [eapply (IHf NUf)|eapply (IHt NUt)]; eauto.
Qed.
Lemma mono_number p e e' n v : no_undef p = true -> go p e = Some e' -> is_number e n v -> is_number e' n v.
Proof. intros NU R. induction 1; [apply num_int|eapply num_name; eauto]; eapply run_mono; eauto. Qed.

(** Foreign names keep their meaning while only own names are defined. *)
Definition foreign (e : env) : Prop := forall n m, ~ own n -> lookup e n = Some (Name m) -> ~ own m.
Definition same (e e' : env) : Prop := forall n, ~ own n -> lookup e' n = lookup e n.
Lemma same_refl e : same e e.
Proof. intros n _. reflexivity. Qed.
Lemma same_cons e e' n b : own n -> same e e' -> same e ((n, b) :: e').
Proof. intros O S m NO. cbn. destruct (String.eqb m n) eqn:E; [apply String.eqb_eq in E; congruence|]. apply S; exact NO. Qed.
Lemma same_stands e e' n v : foreign e -> same e e' -> ~ own n -> stands_for e n v -> stands_for e' n v.
Proof.
  intros F S NO H. induction H as [n H|n v H|n m v H _ IH].
  - apply sf_none. rewrite S; auto.
  - apply sf_int. rewrite S; auto.
  - eapply sf_name; [rewrite S; eauto|]. apply IH. eapply F; eauto.
Qed.

(** *** Single steps *)
Lemma run_define n b k e : lookup e n = None -> go (Define n b k) e = go k ((n, b) :: e).
Proof. intro L. cbn. rewrite L. reflexivity. Qed.
Lemma run_include f k e : go (Include f k) e = go k e.
Proof. reflexivity. Qed.
Lemma run_if c t f k e b : eval e c = Some (of_bool b) ->
  go (If c t f k) e = match go (if b then t else f) e with Some e => go k e | None => None end.
Proof. intro E. cbn [run]. rewrite E. destruct b; reflexivity. Qed.
Lemma run_if_done c t f e b : eval e c = Some (of_bool b) -> go (If c t f Done) e = go (if b then t else f) e.
Proof. intro E. rewrite (run_if _ _ _ _ _ _ E). destruct (go _ e); reflexivity. Qed.
Lemma eval_any e ns : eval e (any_defined ns) = Some (of_bool (existsb (defined e) ns)).
Proof.
  induction ns as [|n [|m ns] IH]; [reflexivity|cbn; rewrite orb_false_r; reflexivity|].
  change (any_defined (n :: m :: ns)) with (Or (Defined n) (any_defined (m :: ns))). cbn [eval]. rewrite IH. cbn [lift2].
  do 2 f_equal. cbn [existsb]. destruct (defined e n), (defined e m || existsb (defined e) ns); reflexivity.
Qed.
Lemma eval_eq e a b x y : eval e a = Some x -> eval e b = Some y -> eval e (Eq a b) = Some (of_bool (x =? y)).
Proof. intros A B. cbn [eval]. rewrite A, B. reflexivity. Qed.
Lemma eval_lt e a b x y : eval e a = Some x -> eval e b = Some y -> eval e (Lt a b) = Some (of_bool (x <? y)).
Proof. intros A B. cbn [eval]. rewrite A, B. reflexivity. Qed.
Lemma eval_gt e a b x y : eval e a = Some x -> eval e b = Some y -> eval e (Gt a b) = Some (of_bool (y <? x)).
Proof. intros A B. cbn [eval]. rewrite A, B. reflexivity. Qed.
Lemma eval_or e a b x y : eval e a = Some (of_bool x) -> eval e b = Some (of_bool y) -> eval e (Or a b) = Some (of_bool (x || y)).
Proof. intros A B. cbn [eval]. rewrite A, B. destruct x, y; reflexivity. Qed.
Lemma eval_and e a b x y : eval e a = Some (of_bool x) -> eval e b = Some (of_bool y) -> eval e (And a b) = Some (of_bool (x && y)).
Proof. intros A B. cbn [eval]. rewrite A, B. destruct x, y; reflexivity. Qed.
Lemma defined_cons n b e m : defined ((n, b) :: e) m = String.eqb m n || defined e m.
Proof. unfold defined. cbn. destruct (String.eqb m n); reflexivity. Qed.
Lemma defined_same e e' n : same e e' -> ~ own n -> defined e' n = defined e n.
Proof. intros S NO. unfold defined. rewrite S by exact NO. reflexivity. Qed.
Lemma any_same e e' ns : same e e' -> Forall (fun n => ~ own n) ns -> existsb (defined e') ns = existsb (defined e) ns.
Proof. intros S F. induction F as [|n ns NO F IH]; [reflexivity|]. cbn. rewrite IH, (defined_same _ _ _ S NO). reflexivity. Qed.

Lemma cl_true {A} e ns (a : A) rows d : existsb (defined e) ns = true -> classified e ((ns, a) :: rows) d a.
Proof.
  intro E. apply existsb_exists in E as (n & I & D). eapply cl_here; eauto. unfold present, defined in *. destruct (lookup e n); congruence.
Qed.
Lemma cl_false {A} e ns (a : A) rows d x : existsb (defined e) ns = false -> classified e rows d x -> classified e ((ns, a) :: rows) d x.
Proof.
  intros E C. apply cl_next; [|exact C]. intros n I. unfold absent. destruct (lookup e n) eqn:L; [|reflexivity].
  assert (existsb (defined e) ns = true) by (apply existsb_exists; exists n; split; [exact I|unfold defined; rewrite L; reflexivity]). congruence.
Qed.

Ltac is_own := solve [left; reflexivity | right; left; reflexivity | right; right; reflexivity].
Ltac not_own := let H := fresh in intros [H|[H|H]]; discriminate H.
Ltac all_foreign := repeat constructor; not_own.

(** *** Operating system *)
Definition fresh (p : block) (e : env) : Prop := forall n, In n (names p) -> lookup e n = None.
Definition has (e : env) (l : list (string * Z)) : Prop := forall n v, In (n, v) l -> lookup e n = Some (Int v).
Definition os_list : list (string * Z) :=
  [("CFG_OS_UNKNOWN", 0); ("CFG_OS_LINUX", 1); ("CFG_OS_WINDOWS", 2); ("CFG_OS_MACOSX", 3); ("CFG_OS_UNIX", 4);
   ("CFG_OS_NAME_UNKNOWN", 0); ("CFG_OS_NAME_MACOSX", 1); ("CFG_OS_NAME_IOS", 2); ("CFG_OS_NAME_ANDROID", 3);
   ("CFG_OS_NAME_SOLARIS", 4); ("CFG_OS_NAME_FREEBSD", 5); ("CFG_OS_NAME_EMSCRIPTEN", 6)].

(** Looking up a literal name in an environment that starts with literal names. *)
Ltac look := cbn [lookup String.eqb Ascii.eqb Bool.eqb].
Ltac def F := rewrite run_define by (look; apply F; cbn; tauto).
Ltac num_end H := apply num_int; look; first [reflexivity|apply H; cbn; tauto].
Ltac num H := solve [num_end H | eapply num_name; [look; reflexivity|]; num_end H].
Ltac same_tac := repeat (apply same_cons; [is_own|]); apply same_refl.
Ltac ask e ns E :=
  rewrite (run_if_done _ _ _ _ _ (eval_any _ ns)); rewrite ?(any_same e _ ns) by (same_tac || all_foreign);
  destruct (existsb (defined e) ns) eqn:E.
Ltac classify := repeat first [apply cl_true; assumption | apply cl_false; [assumption|] | apply cl_default].

Lemma os_ok e a b : fresh (os_part Done) e -> has e os_list -> foreign e ->
  stands_for e "TARGET_OS_IPHONE" a -> stands_for e "TARGET_IPHONE_SIMULATOR" b ->
  exists e' os name, go (os_part Done) e = Some e' /\ classified e os_rows 0 os /\ os_name e os name /\
    is_number e' "CFG_OS" os /\ is_number e' "CFG_OS_NAME" name.
Proof.
  intros F H FO A B. unfold os_part, os_is, os_rows.
  ask e ["__linux__"] E1.
  { def F. ask e ["__ANDROID__"] E2; def F; do 3 eexists; (split; [reflexivity|]); (split; [classify|]);
      (split; [left; split; [reflexivity|]; classify|split; num H]). }
  ask e ["_WIN32"; "WIN32"] E2.
  { def F. def F. do 3 eexists. split; [reflexivity|]. split; [classify|]. split; [|split; num H].
    right. left. split; [left|]; reflexivity. }
  ask e ["__APPLE__"] E3.
  { def F. rewrite !run_include.
    assert (A' : stands_for (("CFG_OS", Name "CFG_OS_MACOSX") :: e) "TARGET_OS_IPHONE" a)
      by (eapply same_stands; [exact FO|same_tac|not_own|exact A]).
    assert (B' : stands_for (("CFG_OS", Name "CFG_OS_MACOSX") :: e) "TARGET_IPHONE_SIMULATOR" b)
      by (eapply same_stands; [exact FO|same_tac|not_own|exact B]).
    pose proof (eval_or _ _ _ _ _ (eval_eq _ _ (ILit 1) _ _ (eval_name _ _ _ A') eq_refl) (eval_eq _ _ (ILit 1) _ _ (eval_name _ _ _ B') eq_refl)) as EV.
    rewrite (run_if_done _ _ _ _ _ EV). destruct ((a =? 1) || (b =? 1)) eqn:E4; def F; def F; do 3 eexists; (split; [reflexivity|]);
      (split; [classify|]); (split; [|split; num H]); right; right; left; (split; [reflexivity|]); exists a, b; (split; [exact A|]);
      (split; [exact B|]); split; intros; lia. }
  ask e ["__unix"; "__unix__"] E4.
  { def F. ask e ["sun"; "__sun"] E5; [|ask e ["__FreeBSD__"] E6; [|ask e ["__EMSCRIPTEN__"] E7]]; def F;
      do 3 eexists; (split; [reflexivity|]); (split; [classify|]); (split; [do 3 right; split; [reflexivity|]; classify|split; num H]). }
  def F. def F. do 3 eexists. split; [reflexivity|]. split; [classify|]. split; [|split; num H].
  right. left. split; [right|]; reflexivity.
Qed.

(** *** Compiler *)
Definition compiler_list : list (string * Z) :=
  [("CFG_COMPILER_UNKNOWN", 0); ("CFG_COMPILER_GCC", 1); ("CFG_COMPILER_MSVC", 2); ("CFG_COMPILER_CLANG", 3)].
Ltac less L k := match goal with |- context [run sdk_header _ ?e1] =>
  rewrite (run_if_done _ _ _ _ _ (eval_lt e1 _ (ILit k) _ _ (L e1 ltac:(same_tac)) eq_refl)) end.

Lemma compiler_ok e v : fresh (compiler_part Done) e -> foreign e -> stands_for e "_MSC_VER" v ->
  exists e' c, go (compiler_part Done) e = Some e' /\ classified e compiler_rows 0 c /\
    is_number e' "CFG_COMPILER" c /\ has e' compiler_list /\
    (c = 2 -> exists t, tools_version v t /\ is_number e' "CFG_COMPILER_MSVC_TOOLS_V" t) /\
    (c <> 2 -> lookup e' "CFG_COMPILER_MSVC_TOOLS_V" = None) /\
    (c = 1 -> lookup e' "CFG_COMPILER_VERSION_MAJOR" = Some (Name "__GNUC__") /\
      lookup e' "CFG_COMPILER_VERSION_MINOR" = Some (Name "__GNUC_MINOR__") /\
      lookup e' "CFG_COMPILER_VERSION_PATCH" = Some (Name "__GNUC_PATCHLEVEL__")) /\
    (c <> 1 -> lookup e' "CFG_COMPILER_VERSION_MAJOR" = None /\ lookup e' "CFG_COMPILER_VERSION_MINOR" = None /\
      lookup e' "CFG_COMPILER_VERSION_PATCH" = None).
Proof.
  intros F FO V. unfold compiler_part, compiler_rows. do 4 def F.
  assert (L : forall e', same e e' -> eval e' (IName "_MSC_VER") = Some v).
  { intros e' S. apply eval_name. eapply same_stands; [exact FO|exact S|not_own|exact V]. }
  assert (FR : forall n, In n (names (compiler_part Done)) -> lookup e n = None) by exact F.
  ask e ["_MSC_VER"] E1.
  { def F. less L 1916.
    destruct (v <? 1916) eqn:C1;
      [|less L 1929; destruct (v <? 1929) eqn:C2;
      [|less L 1930; destruct (v <? 1930) eqn:C3]];
      def F; do 2 eexists; (split; [reflexivity|]); (split; [classify|]); (split; [num F|]);
      (split; [intros n x I; cbn in I; repeat (destruct I as [I|I]; [injection I as <- <-; reflexivity|]); destruct I|]);
      (split; [intros _; eexists; split; [|num F]; unfold tools_version; lia|]); (split; [intro; lia|]); (split; [intro; lia|]);
      intros _; repeat split; look; apply F; cbn; tauto. }
  ask e ["__clang__"] E2.
  { def F; do 2 eexists; (split; [reflexivity|]); (split; [classify|]); (split; [num F|]).
      (split; [intros n x I; cbn in I; repeat (destruct I as [I|I]; [injection I as <- <-; reflexivity|]); destruct I|]).
    split; [lia|]. split; [intros _; look; apply F; cbn; tauto|]. split; [lia|].
      intros _; repeat split; look; apply F; cbn; tauto. }
  ask e ["__GNUC__"; "__GNUG__"] E3.
  { do 4 def F; do 2 eexists; (split; [reflexivity|]); (split; [classify|]); (split; [num F|]).
      (split; [intros n x I; cbn in I; repeat (destruct I as [I|I]; [injection I as <- <-; reflexivity|]); destruct I|]).
    split; [lia|]. split; [intros _; look; apply F; cbn; tauto|]. split; [auto|lia]. }
  def F; do 2 eexists; (split; [reflexivity|]); (split; [classify|]); (split; [num F|]).
      (split; [intros n x I; cbn in I; repeat (destruct I as [I|I]; [injection I as <- <-; reflexivity|]); destruct I|]).
    split; [lia|]. split; [intros _; look; apply F; cbn; tauto|]. split; [lia|].
      intros _; repeat split; look; apply F; cbn; tauto.
Qed.

(** *** Standard *)
Lemma edition_ok value c : c = (if 201703 <? value then 20 else if 201402 <? value then 17 else if 201103 <? value then 14
  else if 199711 <? value then 11 else 3) -> edition value c.
Proof.
  intros ->. unfold edition, editions. destruct (201703 <? value) eqn:A; [|destruct (201402 <? value) eqn:B; [|destruct (201103 <? value) eqn:C; [|destruct (199711 <? value) eqn:D]]].
  5: { right. split; [reflexivity|]. intros c' b' I. cbn in I. repeat (destruct I as [I|I]; [injection I as <- <-; lia|]). destruct I. }
  all: left; eexists; (split; [cbn; eauto 10|]); (split; [lia|]); intros c' b' I L; cbn in I;
    repeat (destruct I as [I|I]; [injection I as <- <-; lia|]); destruct I.
Qed.
Lemma standard_ok e c v w : fresh (standard_part Done) e -> foreign e -> is_number e "CFG_COMPILER" c -> has e compiler_list ->
  stands_for e "_MSVC_LANG" v -> stands_for e "__cplusplus" w ->
  exists e' s, go (standard_part Done) e = Some e' /\ edition (if c =? 2 then v else w) s /\ is_number e' "CFG_CPP" s.
Proof.
  intros F FO C H V W. unfold standard_part.
  rewrite (run_if _ _ _ _ _ _ (eval_eq _ _ _ _ _ (eval_name _ _ _ (number_stands _ _ _ C))
    (eval_name _ "CFG_COMPILER_MSVC" 2 (sf_int _ _ _ (H "CFG_COMPILER_MSVC" 2 ltac:(cbn; tauto)))))).
  set (value := if c =? 2 then v else w). set (src := if c =? 2 then "_MSVC_LANG" else "__cplusplus").
  assert (R : go (if c =? 2 then Define "UTKI_CPP_STANDARD" (Name "_MSVC_LANG") Done else Define "UTKI_CPP_STANDARD" (Name "__cplusplus") Done) e =
    Some (("UTKI_CPP_STANDARD", Name src) :: e)).
  { subst src. destruct (c =? 2); def F; reflexivity. }
  rewrite R.
  assert (L : eval (("UTKI_CPP_STANDARD", Name src) :: e) (IName "UTKI_CPP_STANDARD") = Some value).
  { apply eval_name. eapply sf_name; [look; reflexivity|]. subst src value. destruct (c =? 2).
    - eapply same_stands; [exact FO|same_tac|not_own|exact V].
    - eapply same_stands; [exact FO|same_tac|not_own|exact W]. }
  clearbody value.
  rewrite (run_if_done _ _ _ _ _ (eval_gt _ _ (ILit 201703) _ _ L eq_refl)).
  destruct (201703 <? value) eqn:A; [|rewrite (run_if_done _ _ _ _ _ (eval_gt _ _ (ILit 201402) _ _ L eq_refl));
    destruct (201402 <? value) eqn:B; [|rewrite (run_if_done _ _ _ _ _ (eval_gt _ _ (ILit 201103) _ _ L eq_refl));
    destruct (201103 <? value) eqn:D; [|rewrite (run_if_done _ _ _ _ _ (eval_gt _ _ (ILit 199711) _ _ L eq_refl));
    destruct (199711 <? value) eqn:G]]].
  all: def F; do 2 eexists; (split; [reflexivity|]); (split; [apply edition_ok; rewrite ?A, ?B, ?D, ?G; reflexivity|]); num F.
Qed.

(** *** Processor *)
Definition cpu_list : list (string * Z) :=
  [("CFG_CPU_UNKNOWN", 0); ("CFG_CPU_X86", 1); ("CFG_CPU_X86_64", 2); ("CFG_CPU_ARM", 3); ("CFG_CPU_WASM", 4)].
Ltac is l := intros n x I; cbn in I; repeat (destruct I as [I|I]; [injection I as <- <-; look; first [reflexivity|assumption]|]); destruct I.

Ltac absurd_cpu := let X := fresh in intros X; exfalso;
  lazymatch type of X with
  | _ /\ _ => first [discriminate (proj1 X)|discriminate (proj2 X)]
  | _ \/ _ => destruct X as [X|X]; discriminate X
  | _ => discriminate X
  end.
Ltac ver1 := first [absurd_cpu|intros; reflexivity].
Ltac ver := split; [absurd_cpu|split; [absurd_cpu|split; [absurd_cpu|split; [ver1|ver1]]]].

(** What the part for one compiler defines. *)
Definition cpu_result (e e' : env) (c : Z * Z) (v : Z) : Prop :=
  is_number e' "CFG_CPU" (fst c) /\ is_number e' "CFG_CPU_BITS" (snd c) /\ is_number e' "CFG_CPU_VERSION" v.
Definition cpu_names : list string := ["CFG_CPU"; "CFG_CPU_BITS"; "CFG_CPU_VERSION"; "CFG_CPU_ARM_THUMB_VERSION"].

Lemma gcc_cpu_ok e : (forall n, In n cpu_names -> lookup e n = None) -> has e cpu_list ->
  exists e' c v, go gcc_cpu e = Some e' /\ classified e gcc_rows (0, 0) c /\ cpu_version e 1 c v /\ cpu_result e e' c v /\
    ((c = (3, 32) -> exists t, thumb e t /\ lookup e' "CFG_CPU_ARM_THUMB_VERSION" = option_map Int t) /\
     (c <> (3, 32) -> lookup e' "CFG_CPU_ARM_THUMB_VERSION" = None)).
Proof.
  intros F H. unfold gcc_cpu, gcc_rows, cpu_is, version_is, cpu_version, cpu_result.
  ask e ["__i386__"] E1.
  { do 2 def F. ask e ["__i686__"] E2; [|ask e ["__i586__"] E3; [|ask e ["__i486__"] E4]]; def F;
      do 3 eexists; (split; [reflexivity|]); (split; [classify|]);
      (split; [split; [intros _; unfold x86_rows; classify|split; [absurd_cpu|split; [absurd_cpu|split; absurd_cpu]]]|]);
      (split; [repeat split; num H|]); (split; [congruence|]); intros _; look; apply F; cbn; tauto. }
  ask e ["__x86_64__"] E2.
  { do 3 def F.
      do 3 eexists; (split; [reflexivity|]); (split; [classify|]);
      (split; [ver|]);
      (split; [repeat split; num H|]); (split; [congruence|]); intros _; look; apply F; cbn; tauto. }
  ask e ["__arm__"] E3.
  { do 2 def F.
    assert (T : exists t e1, thumb e t /\ go (If (Defined "__thumb2__") (Define "CFG_CPU_ARM_THUMB_VERSION" (Int 2) Done)
      (If (Defined "__thumb__") (Define "CFG_CPU_ARM_THUMB_VERSION" (Int 1) Done) Done Done) Done)
      (("CFG_CPU_BITS", Int 32) :: ("CFG_CPU", Name "CFG_CPU_ARM") :: e) = Some e1 /\
      lookup e1 "CFG_CPU_ARM_THUMB_VERSION" = option_map Int t /\ same e e1 /\
      lookup e1 "CFG_CPU" = Some (Name "CFG_CPU_ARM") /\ lookup e1 "CFG_CPU_BITS" = Some (Int 32) /\ lookup e1 "CFG_CPU_ARM" = Some (Int 3) /\
      lookup e1 "CFG_CPU_VERSION" = None).
    { unfold thumb. ask e ["__thumb2__"] E4; [def F|ask e ["__thumb__"] E5; [def F|]]; do 2 eexists; (split; [classify|]); (split; [reflexivity|]);
        (split; [look; first [reflexivity|apply F; cbn; tauto]|]); (split; [same_tac|]); repeat split; look; first [reflexivity|apply H; cbn; tauto|apply F; cbn; tauto]. }
    destruct T as (t & e1 & TH & R & L & S & L1 & L2 & L3 & L4).
    assert (RR : forall k, go (If (Defined "__thumb2__") (Define "CFG_CPU_ARM_THUMB_VERSION" (Int 2) Done)
      (If (Defined "__thumb__") (Define "CFG_CPU_ARM_THUMB_VERSION" (Int 1) Done) Done Done) k)
      (("CFG_CPU_BITS", Int 32) :: ("CFG_CPU", Name "CFG_CPU_ARM") :: e) = go k e1).
    { intro k. cbn [run] in R |- *. destruct (eval _ (Defined "__thumb2__")); [|discriminate].
      match type of R with match ?m with _ => _ end = _ => destruct m; [|discriminate] end. injection R as ->. reflexivity. }
    rewrite RR. clear R RR.
    assert (AS : forall ns, Forall (fun n => ~ own n) ns -> existsb (defined e1) ns = existsb (defined e) ns) by (intros; apply any_same; assumption).
    unfold arm_rows.
    repeat (rewrite (run_if_done _ _ _ _ _ (eval_any _ _)); rewrite AS by all_foreign;
      match goal with |- context [existsb (defined e) ?ns] => destruct (existsb (defined e) ns) eqn:?E end);
    (rewrite run_define by exact L4); do 3 eexists; (split; [reflexivity|]); (split; [classify|]);
    (split; [split; [intros [X _]; discriminate|]; split; [intros [X _]; discriminate|]; split; [intros _; classify|];
      split; [discriminate|intros [X|X]; discriminate]|]);
    (split; [repeat split; [eapply num_name; [look; exact L1|apply num_int; look; exact L3]|apply num_int; look; exact L2|apply num_int; reflexivity]|]);
    (split; [intros _; exists t; split; [exact TH|look; exact L]|congruence]). }
  ask e ["__aarch64__"] E4; do 3 def F;
      do 3 eexists; (split; [reflexivity|]); (split; [classify|]);
      (split; [ver|]);
      (split; [repeat split; num H|]); (split; [congruence|]); intros _; look; apply F; cbn; tauto.
Qed.

Lemma msvc_cpu_ok e m : (forall n, In n cpu_names -> lookup e n = None) -> has e cpu_list -> foreign e -> stands_for e "_M_IX86" m ->
  exists e' c v, go msvc_cpu e = Some e' /\ classified e msvc_rows (0, 0) c /\ cpu_version e 2 c v /\ cpu_result e e' c v /\
    lookup e' "CFG_CPU_ARM_THUMB_VERSION" = None /\ c <> (3, 32).
Proof.
  intros F H FO M. unfold msvc_cpu, msvc_rows, cpu_is, version_is, cpu_version, cpu_result.
  ask e ["_M_IX86"] E1.
  { do 2 def F.
    assert (L : eval (("CFG_CPU_BITS", Int 32) :: ("CFG_CPU", Name "CFG_CPU_X86") :: e) (IName "_M_IX86") = Some m).
    { apply eval_name. eapply same_stands; [exact FO|same_tac|not_own|exact M]. }
    rewrite (run_if_done _ _ _ _ _ (eval_eq _ _ (ILit 600) _ _ L eq_refl)). destruct (m =? 600) eqn:E2;
      [|rewrite (run_if_done _ _ _ _ _ (eval_eq _ _ (ILit 500) _ _ L eq_refl)); destruct (m =? 500) eqn:E3;
      [|rewrite (run_if_done _ _ _ _ _ (eval_eq _ _ (ILit 400) _ _ L eq_refl)); destruct (m =? 400) eqn:E4]]; def F;
      [exists (("CFG_CPU_VERSION", Int 6) :: ("CFG_CPU_BITS", Int 32) :: ("CFG_CPU", Name "CFG_CPU_X86") :: e), (1, 32), 6
      |exists (("CFG_CPU_VERSION", Int 5) :: ("CFG_CPU_BITS", Int 32) :: ("CFG_CPU", Name "CFG_CPU_X86") :: e), (1, 32), 5
      |exists (("CFG_CPU_VERSION", Int 4) :: ("CFG_CPU_BITS", Int 32) :: ("CFG_CPU", Name "CFG_CPU_X86") :: e), (1, 32), 4
      |exists (("CFG_CPU_VERSION", Int 3) :: ("CFG_CPU_BITS", Int 32) :: ("CFG_CPU", Name "CFG_CPU_X86") :: e), (1, 32), 3];
      (split; [reflexivity|]); (split; [classify|]);
      (split; [split; [absurd_cpu|]; split; [|split; [absurd_cpu|split; absurd_cpu]];
         intros _; exists m; (split; [exact M|]); cbn [In]; lia|]);
      (split; [repeat split; num H|]); (split; [look; apply F; cbn; tauto|congruence]). }
  ask e ["_M_AMD64"; "_M_X64"] E2; do 3 def F; do 3 eexists; (split; [reflexivity|]); (split; [classify|]); (split; [ver|]);
    (split; [repeat split; num H|]); (split; [look; apply F; cbn; tauto|congruence]).
Qed.

(** Classification depends on foreign names only. *)
Definition foreign_rows {A} (rows : list (list string * A)) : Prop := Forall (fun r => Forall (fun n => ~ own n) (fst r)) rows.
Lemma classified_same {A} e e' rows (d x : A) : same e e' -> foreign_rows rows -> classified e' rows d x -> classified e rows d x.
Proof.
  intros S F C. induction C as [d|ns n a rows d I P|ns a rows d x N C IH]; [apply cl_default| |]; inversion F as [|r rs F1 F2]; subst; cbn in F1.
  - eapply cl_here; [exact I|]. unfold present in *. rewrite <- S; [exact P|]. rewrite Forall_forall in F1. auto.
  - apply cl_next; [|apply IH; exact F2]. intros n I. unfold absent in *. rewrite <- S; [auto|]. rewrite Forall_forall in F1. auto.
Qed.
Ltac rows_foreign := repeat constructor; not_own.
Lemma stands_same_back e e' n v : foreign e -> same e e' -> ~ own n -> (exists w, stands_for e n w) -> stands_for e' n v -> stands_for e n v.
Proof. intros F S NO [w W] V. rewrite (stands_fun _ _ _ _ V (same_stands _ _ _ _ F S NO W)). exact W. Qed.
Lemma version_same e e' comp c v : foreign e -> same e e' -> (exists w, stands_for e "_M_IX86" w) -> cpu_version e' comp c v -> cpu_version e comp c v.
Proof.
  intros F S W (A & B & C & D & E). split; [|split; [|split; [|split; assumption]]].
  - intro X. eapply classified_same; [exact S|rows_foreign|exact (A X)].
  - intro X. destruct (B X) as (m & M & R). exists m. split; [|exact R]. eapply stands_same_back; eauto. not_own.
  - intro X. eapply classified_same; [exact S|rows_foreign|exact (C X)].
Qed.

Lemma cpu_ok e comp name m : fresh (cpu_part Done) e -> foreign e -> is_number e "CFG_COMPILER" comp -> is_number e "CFG_OS_NAME" name ->
  has e compiler_list -> has e os_list -> stands_for e "_M_IX86" m ->
  exists e' c, go (cpu_part Done) e = Some e' /\ cpu e comp name c /\
    is_number e' "CFG_CPU" (fst c) /\ is_number e' "CFG_CPU_BITS" (snd c) /\
    (name = 6 -> lookup e' "CFG_CPU_VERSION" = None) /\
    (name <> 6 -> exists v, cpu_version e comp c v /\ is_number e' "CFG_CPU_VERSION" v) /\
    (c = (3, 32) -> exists t, thumb e t /\ lookup e' "CFG_CPU_ARM_THUMB_VERSION" = option_map Int t) /\
    (c <> (3, 32) -> lookup e' "CFG_CPU_ARM_THUMB_VERSION" = None).
Proof.
  intros F FO C N HC HO M. unfold cpu_part. do 5 def F.
  match goal with |- context [run sdk_header _ ?x] => set (e0 := x) end.
  assert (S : same e e0) by (subst e0; same_tac).
  assert (FO0 : foreign e0).
  { intros n k NO L. rewrite S in L by exact NO. eapply FO; eauto. }
  assert (K : forall n, ~ In n (map fst cpu_list) -> lookup e0 n = lookup e n).
  { intros n NI. subst e0. cbn in NI. cbn [lookup].
    repeat match goal with |- context [String.eqb n ?k] => destruct (String.eqb_spec n k) as [->|_]; [tauto|] end. reflexivity. }
  assert (NUM : forall n v, is_number e n v -> is_number e0 n v).
  { intros n v H. induction H as [n v L|n k v L _ IH]; [apply num_int|eapply num_name; [|exact IH]];
      (rewrite K; [exact L|]); intro I; assert (lookup e n = None) by (apply F; cbn in I; cbn; tauto); congruence. }
  assert (N0 : eval e0 (IName "CFG_OS_NAME") = Some name) by (apply eval_name, number_stands, NUM, N).
  assert (C0 : eval e0 (IName "CFG_COMPILER") = Some comp) by (apply eval_name, number_stands, NUM, C).
  assert (G0 : forall k v, In (k, v) compiler_list -> eval e0 (IName k) = Some v).
  { intros k v I. apply eval_name, number_stands, NUM, num_int, HC, I. }
  assert (O0 : forall k v, In (k, v) os_list -> eval e0 (IName k) = Some v).
  { intros k v I. apply eval_name, number_stands, NUM, num_int, HO, I. }
  assert (M0 : stands_for e0 "_M_IX86" m) by (eapply same_stands; [exact FO|exact S|not_own|exact M]).
  assert (H0 : has e0 cpu_list) by (subst e0; is cpu_list).
  assert (F0 : forall n, In n cpu_names -> lookup e0 n = None).
  { intros n I. rewrite K; [apply F|]; cbn in I |- *.
    - destruct I as [<-|[<-|[<-|[<-|[]]]]]; cbn; tauto.
    - destruct I as [<-|[<-|[<-|[<-|[]]]]]; intros X; repeat (destruct X as [X|X]; [discriminate|]); destruct X. }
  clearbody e0.
  rewrite (run_if_done _ _ _ _ _ (eval_eq _ _ _ _ _ N0 (O0 "CFG_OS_NAME_EMSCRIPTEN" 6 ltac:(cbn; tauto)))). unfold cpu.
  destruct (name =? 6) eqn:E1.
  { unfold cpu_is. do 2 def F0. exists (("CFG_CPU_BITS", Int 32) :: ("CFG_CPU", Name "CFG_CPU_WASM") :: e0), (4, 32).
    split; [reflexivity|]. split; [split; [reflexivity|]; split; [lia|]; split; lia|]. split; [num H0|]. split; [num H0|].
    split; [intros _; look; apply F0; cbn; tauto|]. split; [lia|]. split; [discriminate|]. intros _. look. apply F0. cbn. tauto. }
  rewrite (run_if_done _ _ _ _ _ (eval_eq _ _ _ _ _ C0 (G0 "CFG_COMPILER_GCC" 1 ltac:(cbn; tauto)))).
  destruct (comp =? 1) eqn:E2.
  { destruct (gcc_cpu_ok e0 F0 H0) as (e' & c & v & R & CL & V & (A1 & A2 & A3) & T1 & T2). exists e', c. split; [exact R|].
    split; [split; [lia|]; split; [intros _ _; eapply classified_same; [exact S|rows_foreign|exact CL]|]; split; lia|].
    split; [exact A1|]. split; [exact A2|]. split; [lia|]. split.
    { intros _. exists v. split; [|exact A3]. replace comp with 1 by lia. eapply version_same; eauto. }
    split; [|exact T2]. intro X. destruct (T1 X) as (t & TH & L). exists t. split; [|exact L].
    eapply classified_same; [exact S|rows_foreign|exact TH]. }
  rewrite (run_if_done _ _ _ _ _ (eval_eq _ _ _ _ _ C0 (G0 "CFG_COMPILER_MSVC" 2 ltac:(cbn; tauto)))).
  destruct (comp =? 2) eqn:E3.
  { destruct (msvc_cpu_ok e0 m F0 H0 FO0 M0) as (e' & c & v & R & CL & V & (A1 & A2 & A3) & T1 & T2). exists e', c. split; [exact R|].
    split; [split; [lia|]; split; [lia|]; split; [intros _ _; eapply classified_same; [exact S|rows_foreign|exact CL]|lia]|].
    split; [exact A1|]. split; [exact A2|]. split; [lia|]. split.
    { intros _. exists v. split; [|exact A3]. replace comp with 2 by lia. eapply version_same; eauto. }
    split; [contradiction|]. intros _. exact T1. }
  unfold cpu_is, version_is. do 3 def F0. do 2 eexists. split; [reflexivity|]. instantiate (1 := (0, 0)).
  split; [split; [lia|]; split; [lia|]; split; [lia|reflexivity]|]. split; [num H0|]. split; [num H0|].
  split; [lia|]. split; [intros _; exists 0; split; [|num H0]|].
  { unfold cpu_version. split; [absurd_cpu|split; [absurd_cpu|split; [absurd_cpu|split; [absurd_cpu|reflexivity]]]]. }
  split; [discriminate|]. intros _. look. apply F0. cbn. tauto.
Qed.

(** *** Export *)
Lemma export_ok e os comp : fresh (export_part Done) e -> is_number e "CFG_OS" os -> is_number e "CFG_COMPILER" comp ->
  has e compiler_list -> has e os_list -> foreign e ->
  exists e', go (export_part Done) e = Some e' /\
    lookup e' "DLLEXPORT" = Some (if (os =? 2) && (comp =? 2) then Text (if defined e "_USRDLL" then "__declspec(dllexport)" else "__declspec(dllimport)") else Empty).
Proof.
  intros F O C HC HO FO. unfold export_part.
  rewrite (run_if_done _ _ _ _ _ (eval_eq _ _ _ _ _ (eval_name _ _ _ (number_stands _ _ _ O))
    (eval_name _ "CFG_OS_WINDOWS" 2 (sf_int _ _ _ (HO "CFG_OS_WINDOWS" 2 ltac:(cbn; tauto)))))).
  destruct (os =? 2); [|def F; eexists; split; [reflexivity|]; reflexivity].
  rewrite (run_if_done _ _ _ _ _ (eval_eq _ _ _ _ _ (eval_name _ _ _ (number_stands _ _ _ C))
    (eval_name _ "CFG_COMPILER_MSVC" 2 (sf_int _ _ _ (HC "CFG_COMPILER_MSVC" 2 ltac:(cbn; tauto)))))).
  destruct (comp =? 2); [|def F; eexists; split; [reflexivity|]; reflexivity].
  ask e ["_USRDLL"] E; cbn in E; rewrite orb_false_r in E; rewrite E; def F; eexists; (split; [reflexivity|]); reflexivity.
Qed.

(** *** Byte order *)
Definition indicated_b (e : env) (order : string) (o bo fo : Z) (others : list string) : bool :=
  defined e order && ((bo =? o) || (fo =? o)) || existsb (defined e) others.
Lemma indicated_iff e order o bo fo others : stands_for e order o -> stands_for e "__BYTE_ORDER__" bo -> stands_for e "__FLOAT_WORD_ORDER__" fo ->
  indicated_b e order o bo fo others = true <-> indicated e order others.
Proof.
  intros O B F. unfold indicated_b, indicated. rewrite orb_true_iff, andb_true_iff, orb_true_iff, !Z.eqb_eq, existsb_exists.
  assert (D : forall n, defined e n = true <-> present e n).
  { intro n. unfold defined, present. destruct (lookup e n); split; congruence. }
  split.
  - intros [[P Q]|(n & I & P)].
    + left. split; [apply D, P|]. exists o. split; [exact O|]. destruct Q as [<-|<-]; auto.
    + right. exists n. split; [exact I|apply D, P].
  - intros [(P & x & X & Q)|(n & I & P)].
    + left. split; [apply D, P|]. rewrite (stands_fun _ _ _ _ X O) in Q. destruct Q as [Q|Q]; [left|right]; eapply stands_fun; eauto.
    + right. exists n. split; [exact I|apply D, P].
Qed.
Lemma order_eval e order o bo fo others : stands_for e order o -> stands_for e "__BYTE_ORDER__" bo -> stands_for e "__FLOAT_WORD_ORDER__" fo ->
  eval e (order_test order others) = Some (of_bool (indicated_b e order o bo fo others)).
Proof.
  intros O B F. unfold order_test, indicated_b. apply eval_or; [|apply eval_any]. apply eval_and; [reflexivity|].
  apply eval_or; apply eval_eq; apply eval_name; assumption.
Qed.
Definition endianness_list : list (string * Z) := [("CFG_ENDIANNESS_UNKNOWN", 0); ("CFG_ENDIANNESS_LITTLE", 1); ("CFG_ENDIANNESS_BIG", 2)].

Lemma endianness_ok e os name ob ol bo fo : fresh endianness_part e -> foreign e -> is_number e "CFG_OS" os -> is_number e "CFG_OS_NAME" name -> has e os_list ->
  stands_for e "__ORDER_BIG_ENDIAN__" ob -> stands_for e "__ORDER_LITTLE_ENDIAN__" ol ->
  stands_for e "__BYTE_ORDER__" bo -> stands_for e "__FLOAT_WORD_ORDER__" fo ->
  exists e' o, go endianness_part e = Some e' /\ endianness e os name o /\ is_number e' "CFG_ENDIANNESS" o.
Proof.
  intros F FO O N HO OB OL BO FL. unfold endianness_part. do 3 def F.
  match goal with |- context [run sdk_header _ ?x] => set (e0 := x) end.
  assert (S : same e e0) by (subst e0; same_tac).
  assert (K : forall n, ~ In n (map fst endianness_list) -> lookup e0 n = lookup e n).
  { intros n NI. subst e0. cbn in NI. cbn [lookup].
    repeat match goal with |- context [String.eqb n ?k] => destruct (String.eqb_spec n k) as [->|_]; [tauto|] end. reflexivity. }
  assert (NUM : forall n v, is_number e n v -> is_number e0 n v).
  { intros n v H. induction H as [n v L|n k v L _ IH]; [apply num_int|eapply num_name; [|exact IH]];
      (rewrite K; [exact L|]); intro I; assert (lookup e n = None) by (apply F; cbn in I; cbn; tauto); congruence. }
  assert (ST : forall n v, ~ own n -> stands_for e n v -> stands_for e0 n v) by (intros; eapply same_stands; eauto).
  assert (O0 : forall k v, In (k, v) os_list -> eval e0 (IName k) = Some v).
  { intros k v I. apply eval_name, number_stands, NUM, num_int, HO, I. }
  assert (H0 : has e0 endianness_list) by (subst e0; is endianness_list).
  assert (F0 : lookup e0 "CFG_ENDIANNESS" = None).
  { rewrite K; [apply F; cbn; tauto|]. intros X; repeat (destruct X as [X|X]; [discriminate|]); destruct X. }
  assert (D0 : forall n, ~ own n -> defined e0 n = defined e n) by (intros; eapply defined_same; eauto).
  clearbody e0.
  assert (IB : forall order o others, ~ own order -> Forall (fun n => ~ own n) others -> indicated_b e0 order o bo fo others = indicated_b e order o bo fo others).
  { intros order o others NO FA. unfold indicated_b. rewrite (D0 _ NO), (any_same _ _ _ S FA). reflexivity. }
  rewrite (run_if_done _ _ _ _ _ (eval_eq _ _ _ _ _ (eval_name _ _ _ (number_stands _ _ _ (NUM _ _ N))) (O0 "CFG_OS_NAME_EMSCRIPTEN" 6 ltac:(cbn; tauto)))).
  unfold endianness.
  destruct (name =? 6) eqn:E1.
  { rewrite run_define by exact F0. do 2 eexists. split; [reflexivity|]. split; [|num H0]. split; [reflexivity|lia]. }
  rewrite (run_if_done _ _ _ _ _ (eval_eq _ _ _ _ _ (eval_name _ _ _ (number_stands _ _ _ (NUM _ _ O))) (O0 "CFG_OS_WINDOWS" 2 ltac:(cbn; tauto)))).
  destruct (os =? 2) eqn:E2.
  { rewrite run_define by exact F0. do 2 eexists. split; [reflexivity|]. split; [|num H0]. split; [reflexivity|lia]. }
  unfold byte_order.
  assert (IBIG := indicated_iff e "__ORDER_BIG_ENDIAN__" ob bo fo big_macros OB BO FL).
  assert (ILIT := indicated_iff e "__ORDER_LITTLE_ENDIAN__" ol bo fo little_macros OL BO FL).
  rewrite (run_if_done _ _ _ _ _ (order_eval e0 "__ORDER_BIG_ENDIAN__" ob bo fo big_macros ltac:(apply ST; [not_own|exact OB]) ltac:(apply ST; [not_own|exact BO]) ltac:(apply ST; [not_own|exact FL]))).
  rewrite IB by (not_own || all_foreign).
  destruct (indicated_b e "__ORDER_BIG_ENDIAN__" ob bo fo big_macros).
  { rewrite run_define by exact F0. eexists. exists 2. split; [reflexivity|]. split; [|num H0]. split; [lia|]. intros _ _.
    cbn [In]. intuition (try congruence; try lia). }
  rewrite (run_if_done _ _ _ _ _ (order_eval e0 "__ORDER_LITTLE_ENDIAN__" ol bo fo little_macros ltac:(apply ST; [not_own|exact OL]) ltac:(apply ST; [not_own|exact BO]) ltac:(apply ST; [not_own|exact FL]))).
  rewrite IB by (not_own || all_foreign).
  destruct (indicated_b e "__ORDER_LITTLE_ENDIAN__" ol bo fo little_macros); rewrite run_define by exact F0; eexists; [exists 1|exists 0]; (split; [reflexivity|]);
    (split; [|num H0]); (split; [lia|]); intros _ _; cbn [In]; intuition (try congruence; try lia).
Qed.

(** *** All together *)
Fixpoint app (p k : block) : block :=
  match p with
  | Done => k
  | Define n b p => Define n b (app p k)
  | Undef n p => Undef n (app p k)
  | Include f p => Include f (app p k)
  | If c t f p => If c t f (app p k)
  end.
Lemma run_app p k : forall e, go (app p k) e = match go p e with Some e => go k e | None => None end.
Proof.
  induction p as [|n b p IH|n p IH|f p IH|c t _ f _ p IH]; intro e; cbn; auto.
  - destruct (lookup e n) as [b'|]; [destruct (body_eqb b b')|]; auto.
  - destruct (eval e c); [|reflexivity]. destruct (go _ e); auto.
Qed.
Definition disjoint (l m : list string) : bool := forallb (fun n => negb (existsb (String.eqb n) m)) l.
Definition ownb (n : string) : bool := prefix "CFG_" n || String.eqb n "DLLEXPORT" || String.eqb n "UTKI_CPP_STANDARD".
Lemma ownb_iff n : ownb n = true <-> own n.
Proof. unfold ownb, own. rewrite !orb_true_iff, !String.eqb_eq. tauto. Qed.
Lemma keep_fresh p q e e' : go p e = Some e' -> disjoint (names q) (names p) = true -> fresh q e -> fresh q e'.
Proof.
  intros R D F n I. rewrite (run_frame _ _ _ n R); [apply F, I|]. unfold disjoint in D. rewrite forallb_forall in D.
  intro J. specialize (D n I). apply negb_true_iff in D. assert (existsb (String.eqb n) (names p) = true) by (apply existsb_exists; exists n; split; [exact J|apply String.eqb_refl]). congruence.
Qed.
Lemma keep_same p e e' : go p e = Some e' -> forallb ownb (names p) = true -> same e e'.
Proof.
  intros R O n NO. apply (run_frame _ _ _ n R). intro I. rewrite forallb_forall in O. apply NO, ownb_iff, O, I.
Qed.
Lemma same_trans a b c : same a b -> same b c -> same a c.
Proof. intros H K n NO. rewrite K, H; auto. Qed.
Lemma keep_foreign e e' : same e e' -> foreign e -> foreign e'.
Proof. intros S F n m NO L. rewrite S in L by exact NO. eapply F; eauto. Qed.
Lemma keep_has p e e' l : go p e = Some e' -> no_undef p = true -> has e l -> has e' l.
Proof. intros R N H n v I. eapply run_mono; eauto. Qed.

Lemma endianness_same e e' os name o : foreign e -> same e e' ->
  (exists v, stands_for e "__ORDER_BIG_ENDIAN__" v) -> (exists v, stands_for e "__ORDER_LITTLE_ENDIAN__" v) ->
  (exists v, stands_for e "__BYTE_ORDER__" v) -> (exists v, stands_for e "__FLOAT_WORD_ORDER__" v) ->
  endianness e' os name o -> endianness e os name o.
Proof.
  intros FO S OB OL BO FL.
  assert (ST : forall n v, ~ own n -> (exists w, stands_for e n w) -> stands_for e n v <-> stands_for e' n v).
  { intros n v NO W. split; [apply same_stands; assumption|apply stands_same_back; assumption]. }
  assert (IN : forall order others, ~ own order -> (exists v, stands_for e order v) -> Forall (fun n => ~ own n) others ->
    indicated e order others <-> indicated e' order others).
  { intros order others NO OV FA. unfold indicated, present. rewrite (S _ NO). rewrite Forall_forall in FA.
    split; (intros [(P & x & A & B)|(n & I & P)]; [left; split; [exact P|]; exists x|right; exists n; split; [exact I|]]).
    - split; [apply ST; assumption|]. destruct B as [B|B]; [left|right]; (apply ST; [not_own|assumption|exact B]).
    - rewrite S; auto.
    - split; [apply ST; assumption|]. destruct B as [B|B]; [left|right]; (apply ST; [not_own|assumption|exact B]).
    - rewrite <- S; auto. }
  unfold endianness.
  rewrite (IN "__ORDER_BIG_ENDIAN__" big_macros ltac:(not_own) OB ltac:(all_foreign)),
    (IN "__ORDER_LITTLE_ENDIAN__" little_macros ltac:(not_own) OL ltac:(all_foreign)). tauto.
Qed.

Definition numbers : env :=
  [("CFG_OS_NAME_EMSCRIPTEN", Int 6); ("CFG_OS_NAME_FREEBSD", Int 5); ("CFG_OS_NAME_SOLARIS", Int 4); ("CFG_OS_NAME_ANDROID", Int 3);
   ("CFG_OS_NAME_IOS", Int 2); ("CFG_OS_NAME_MACOSX", Int 1); ("CFG_OS_NAME_UNKNOWN", Int 0); ("CFG_OS_UNIX", Int 4);
   ("CFG_OS_MACOSX", Int 3); ("CFG_OS_WINDOWS", Int 2); ("CFG_OS_LINUX", Int 1); ("CFG_OS_UNKNOWN", Int 0)].
Lemma numbers_ok e : fresh (os_numbers Done) e -> go (os_numbers Done) e = Some (numbers ++ e)%list.
Proof. intro F. unfold os_numbers. do 12 def F. reflexivity. Qed.

Record facts (e e' : env) (os name comp std : Z) (c : Z * Z) (o : Z) : Prop := {
  f_same : same e e';
  f_os : classified e os_rows 0 os; f_os_n : is_number e' "CFG_OS" os;
  f_name : os_name e os name; f_name_n : is_number e' "CFG_OS_NAME" name;
  f_comp : classified e compiler_rows 0 comp; f_comp_n : is_number e' "CFG_COMPILER" comp;
  f_tools : (comp = 2 -> exists v t, stands_for e "_MSC_VER" v /\ tools_version v t /\ is_number e' "CFG_COMPILER_MSVC_TOOLS_V" t) /\
            (comp <> 2 -> lookup e' "CFG_COMPILER_MSVC_TOOLS_V" = None);
  f_version : (comp = 1 -> lookup e' "CFG_COMPILER_VERSION_MAJOR" = Some (Name "__GNUC__") /\
      lookup e' "CFG_COMPILER_VERSION_MINOR" = Some (Name "__GNUC_MINOR__") /\
      lookup e' "CFG_COMPILER_VERSION_PATCH" = Some (Name "__GNUC_PATCHLEVEL__")) /\
    (comp <> 1 -> lookup e' "CFG_COMPILER_VERSION_MAJOR" = None /\ lookup e' "CFG_COMPILER_VERSION_MINOR" = None /\
      lookup e' "CFG_COMPILER_VERSION_PATCH" = None);
  f_std : exists v, stands_for e (if comp =? 2 then "_MSVC_LANG" else "__cplusplus") v /\ edition v std;
  f_std_n : is_number e' "CFG_CPP" std;
  f_cpu : cpu e comp name c; f_cpu_n : is_number e' "CFG_CPU" (fst c); f_bits_n : is_number e' "CFG_CPU_BITS" (snd c);
  f_cpu_version : (name = 6 -> lookup e' "CFG_CPU_VERSION" = None) /\
    (name <> 6 -> exists v, cpu_version e comp c v /\ is_number e' "CFG_CPU_VERSION" v);
  f_thumb : (c = (3, 32) -> exists t, thumb e t /\ lookup e' "CFG_CPU_ARM_THUMB_VERSION" = option_map Int t) /\
    (c <> (3, 32) -> lookup e' "CFG_CPU_ARM_THUMB_VERSION" = None);
  f_export : lookup e' "DLLEXPORT" = Some (if (os =? 2) && (comp =? 2) then Text (if defined e "_USRDLL" then "__declspec(dllexport)" else "__declspec(dllimport)") else Empty);
  f_order : endianness e os name o; f_order_n : is_number e' "CFG_ENDIANNESS" o }.

Definition P0 := os_numbers Done. Definition P1 := os_part Done. Definition P2 := compiler_part Done. Definition P3 := standard_part Done.
Definition P4 := cpu_part Done. Definition P5 := export_part Done. Definition P6 := endianness_part.
Lemma config_parts : config = app P0 (app P1 (app P2 (app P3 (app P4 (app P5 P6))))).
Proof. reflexivity. Qed.

Lemma frame_none p e e' n : go p e = Some e' -> existsb (String.eqb n) (names p) = false -> lookup e' n = lookup e n.
Proof.
  intros R X. apply (run_frame _ _ _ n R). intro I.
  assert (existsb (String.eqb n) (names p) = true) by (apply existsb_exists; exists n; split; [exact I|apply String.eqb_refl]). congruence.
Qed.

Ltac adv R F := match type of F with fresh ?q _ => apply (keep_fresh _ q _ _ R eq_refl) in F end.
Theorem process_ok e : predefined e -> exists e' os name comp std c o, process e = Some e' /\ facts e e' os name comp std c o.
Proof.
  intros (OW & NA & CO).
  assert (CO' : forall n, existsb (String.eqb n) compared = true -> exists v, stands_for e n v).
  { intros n X. apply CO. apply existsb_exists in X as (m & I & E). apply String.eqb_eq in E. subst. exact I. }
  assert (FO : foreign e) by (intros n m _ L; exact (NA _ _ L)).
  assert (FR : forall p, forallb ownb (names p) = true -> fresh p e).
  { intros p O n I. apply OW, ownb_iff. rewrite forallb_forall in O. apply O, I. }
  destruct (CO' "TARGET_OS_IPHONE" eq_refl) as [ta TA]. destruct (CO' "TARGET_IPHONE_SIMULATOR" eq_refl) as [tb TB].
  destruct (CO' "_MSC_VER" eq_refl) as [mv MV]. destruct (CO' "_MSVC_LANG" eq_refl) as [ml ML]. destruct (CO' "__cplusplus" eq_refl) as [cp CP].
  destruct (CO' "_M_IX86" eq_refl) as [mi MI]. destruct (CO' "__BYTE_ORDER__" eq_refl) as [bo BO]. destruct (CO' "__FLOAT_WORD_ORDER__" eq_refl) as [fo FL].
  destruct (CO' "__ORDER_BIG_ENDIAN__" eq_refl) as [ob OB]. destruct (CO' "__ORDER_LITTLE_ENDIAN__" eq_refl) as [ol OL].
  assert (F0 : fresh P0 e) by (apply FR; reflexivity). assert (F1 : fresh P1 e) by (apply FR; reflexivity). assert (F2 : fresh P2 e) by (apply FR; reflexivity).
  assert (F3 : fresh P3 e) by (apply FR; reflexivity). assert (F4 : fresh P4 e) by (apply FR; reflexivity). assert (F5 : fresh P5 e) by (apply FR; reflexivity).
  assert (F6 : fresh P6 e) by (apply FR; reflexivity). clear FR.
  pose proof (numbers_ok e F0) as R0. set (e0 := (numbers ++ e)%list) in *.
  assert (H0 : has e0 os_list) by (subst e0; is os_list). clearbody e0. fold P0 in R0.
  adv R0 F1. adv R0 F2. adv R0 F3. adv R0 F4. adv R0 F5. adv R0 F6.
  assert (S0 : same e e0) by (apply (keep_same _ _ _ R0); reflexivity).
  assert (KS : forall x n v, same e x -> ~ own n -> stands_for e n v -> stands_for x n v) by (intros; eapply same_stands; eauto).
  assert (KC : forall A x (rows : list (list string * A)) d y, same e x -> foreign_rows rows -> classified x rows d y -> classified e rows d y) by (intros; eapply classified_same; eauto).
  (* operating system *)
  destruct (os_ok e0 ta tb F1 H0 (keep_foreign _ _ S0 FO) (KS _ "TARGET_OS_IPHONE" _ S0 ltac:(not_own) TA) (KS _ "TARGET_IPHONE_SIMULATOR" _ S0 ltac:(not_own) TB))
    as (e1 & os & name & R1 & OS & NM & OSN & NMN). fold P1 in R1.
  adv R1 F2. adv R1 F3. adv R1 F4. adv R1 F5. adv R1 F6.
  assert (S1 : same e e1) by (eapply same_trans; [exact S0|apply (keep_same _ _ _ R1); reflexivity]).
  (* compiler *)
  destruct (compiler_ok e1 mv F2 (keep_foreign _ _ S1 FO) (KS _ "_MSC_VER" _ S1 ltac:(not_own) MV))
    as (e2 & comp & R2 & CM & CMN & HC & T1 & T2 & V1 & V2). fold P2 in R2.
  adv R2 F3. adv R2 F4. adv R2 F5. adv R2 F6.
  assert (S2 : same e e2) by (eapply same_trans; [exact S1|apply (keep_same _ _ _ R2); reflexivity]).
  (* standard *)
  destruct (standard_ok e2 comp ml cp F3 (keep_foreign _ _ S2 FO) CMN HC
    (KS _ "_MSVC_LANG" _ S2 ltac:(not_own) ML) (KS _ "__cplusplus" _ S2 ltac:(not_own) CP)) as (e3 & std & R3 & ED & EDN). fold P3 in R3.
  adv R3 F4. adv R3 F5. adv R3 F6.
  assert (S3 : same e e3) by (eapply same_trans; [exact S2|apply (keep_same _ _ _ R3); reflexivity]).
  assert (O3 : has e3 os_list).
  { eapply keep_has; [exact R3|reflexivity|]. eapply keep_has; [exact R2|reflexivity|]. eapply keep_has; [exact R1|reflexivity|exact H0]. }
  assert (N2 : forall n v, is_number e1 n v -> is_number e3 n v).
  { intros n v N. eapply mono_number; [|exact R3|eapply mono_number; [|exact R2|exact N]]; reflexivity. }
  assert (N3 : forall n v, is_number e2 n v -> is_number e3 n v) by (intros n v N; eapply mono_number; [|exact R3|exact N]; reflexivity).
  (* processor *)
  destruct (cpu_ok e3 comp name mi F4
    (keep_foreign _ _ S3 FO) (N3 _ _ CMN) (N2 _ _ NMN) (keep_has _ _ _ _ R3 eq_refl HC) O3 (KS _ "_M_IX86" _ S3 ltac:(not_own) MI))
    as (e4 & c & R4 & CPU & CPN & BN & PV1 & PV2 & TH1 & TH2). fold P4 in R4.
  adv R4 F5. adv R4 F6.
  assert (S4 : same e e4) by (eapply same_trans; [exact S3|apply (keep_same _ _ _ R4); reflexivity]).
  assert (N4 : forall n v, is_number e3 n v -> is_number e4 n v) by (intros n v N; eapply mono_number; [|exact R4|exact N]; reflexivity).
  (* export *)
  destruct (export_ok e4 os comp F5
    (N4 _ _ (N2 _ _ OSN)) (N4 _ _ (N3 _ _ CMN)) (keep_has _ _ _ _ R4 eq_refl (keep_has _ _ _ _ R3 eq_refl HC)) (keep_has _ _ _ _ R4 eq_refl O3) (keep_foreign _ _ S4 FO))
    as (e5 & R5 & EX). fold P5 in R5.
  adv R5 F6.
  assert (S5 : same e e5) by (eapply same_trans; [exact S4|apply (keep_same _ _ _ R5); reflexivity]).
  assert (N5 : forall n v, is_number e4 n v -> is_number e5 n v) by (intros n v N; eapply mono_number; [|exact R5|exact N]; reflexivity).
  (* byte order *)
  destruct (endianness_ok e5 os name ob ol bo fo
    F6
    (keep_foreign _ _ S5 FO) (N5 _ _ (N4 _ _ (N2 _ _ OSN))) (N5 _ _ (N4 _ _ (N2 _ _ NMN))) (keep_has _ _ _ _ R5 eq_refl (keep_has _ _ _ _ R4 eq_refl O3))
    (KS _ "__ORDER_BIG_ENDIAN__" _ S5 ltac:(not_own) OB) (KS _ "__ORDER_LITTLE_ENDIAN__" _ S5 ltac:(not_own) OL) (KS _ "__BYTE_ORDER__" _ S5 ltac:(not_own) BO) (KS _ "__FLOAT_WORD_ORDER__" _ S5 ltac:(not_own) FL))
    as (e6 & o & R6 & EN & ENN). fold P6 in R6.
  assert (S6 : same e e6) by (eapply same_trans; [exact S5|apply (keep_same _ _ _ R6); reflexivity]).
  assert (N6 : forall n v, is_number e5 n v -> is_number e6 n v) by (intros n v N; eapply mono_number; [|exact R6|exact N]; reflexivity).
  assert (M2 : forall n b, lookup e2 n = Some b -> lookup e6 n = Some b).
  { intros n b L. eapply (run_mono P6); [reflexivity|exact R6|]. eapply (run_mono P5); [reflexivity|exact R5|].
    eapply (run_mono P4); [reflexivity|exact R4|]. eapply (run_mono P3); [reflexivity|exact R3|exact L]. }
  assert (L2 : forall n, existsb (String.eqb n) (names P6 ++ names P5 ++ names P4 ++ names P3) = false -> lookup e6 n = lookup e2 n).
  { intros n X. rewrite !existsb_app in X. apply orb_false_elim in X as [X1 X]. apply orb_false_elim in X as [X2 X]. apply orb_false_elim in X as [X3 X4].
    rewrite (frame_none _ _ _ n R6 X1), (frame_none _ _ _ n R5 X2), (frame_none _ _ _ n R4 X3). exact (frame_none _ _ _ n R3 X4). }
  assert (L4 : forall n, existsb (String.eqb n) (names P6 ++ names P5) = false -> lookup e6 n = lookup e4 n).
  { intros n X. rewrite existsb_app in X. apply orb_false_elim in X as [X1 X2].
    rewrite (frame_none _ _ _ n R6 X1). exact (frame_none _ _ _ n R5 X2). }
  exists e6, os, name, comp, std, c, o. split.
  { unfold process. rewrite config_parts, run_app, R0, run_app, R1, run_app, R2, run_app, R3, run_app, R4, run_app, R5. exact R6. }
  constructor.
  - exact S6.
  - eapply KC; [exact S0|rows_foreign|exact OS].
  - auto 10.
  - unfold os_name in NM |- *. destruct NM as [[A B]|[A|[(A & a & b & B & C & D & E)|[A B]]]]; [left|right; left|right; right; left|right; right; right]; auto 10.
    + split; [exact A|]. eapply KC; [exact S0|rows_foreign|exact B].
    + split; [exact A|]. exists a, b. split; [eapply (stands_same_back e e0); [exact FO|exact S0|not_own|eauto|exact B]|].
      split; [eapply (stands_same_back e e0); [exact FO|exact S0|not_own|eauto|exact C]|]. auto 10.
    + split; [exact A|]. eapply KC; [exact S0|rows_foreign|exact B].
  - auto 10.
  - eapply KC; [exact S1|rows_foreign|exact CM].
  - auto 10.
  - split.
    + intro X. destruct (T1 X) as (t & A & B). exists mv, t. auto 10.
    + intro X. rewrite L2 by reflexivity. auto 10.
  - split.
    + intro X. destruct (V1 X) as (A & B & C). auto 10.
    + intro X. destruct (V2 X) as (A & B & C). rewrite !L2 by reflexivity. auto 10.
  - exists (if comp =? 2 then ml else cp). split; [destruct (comp =? 2); assumption|exact ED].
  - auto 10.
  - destruct CPU as (A & B & C & D). split; [exact A|]. split; [|split; [|exact D]]; intros X Y.
    + eapply KC; [exact S3|rows_foreign|auto 10].
    + eapply KC; [exact S3|rows_foreign|auto 10].
  - auto 10.
  - auto 10.
  - split.
    + intro X. rewrite L4 by reflexivity. auto 10.
    + intro X. destruct (PV2 X) as (v & A & B). exists v. split; [|auto 10]. apply (version_same e e3); [exact FO|exact S3|exists mi; exact MI|exact A].
  - split.
    + intro X. destruct (TH1 X) as (t & A & B). exists t. split; [eapply KC; [exact S3|rows_foreign|exact A]|]. rewrite L4 by reflexivity. exact B.
    + intro X. rewrite L4 by reflexivity. auto 10.
  - rewrite (frame_none _ _ _ _ R6) by reflexivity. rewrite EX. rewrite (defined_same e e4 "_USRDLL" S4) by not_own. reflexivity.
  - apply (endianness_same e e5); [exact FO|exact S5|exists ob; exact OB|exists ol; exact OL|exists bo; exact BO|exists fo; exact FL|exact EN].
  - exact ENN.
Qed.

(** *** Consequences *)
Lemma classified_in {A} e rows (d x : A) : classified e rows d x -> x = d \/ In x (map snd rows).
Proof. induction 1; cbn; tauto. Qed.
Lemma classified_fun {A} e rows (d x y : A) : classified e rows d x -> classified e rows d y -> x = y.
Proof.
  induction 1 as [d|ns n a rows d I P|ns a rows d x N C IH]; intro Y; inversion Y as [|? m ? ? ? J Q|? ? ? ? ? M D]; subst; try reflexivity.
  - exfalso. apply P. exact (M _ I).
  - exfalso. apply Q. exact (N _ J).
  - auto.
Qed.
Lemma os_values e os : classified e os_rows 0 os -> In os [0; 1; 2; 3; 4].
Proof. intro C. apply classified_in in C. cbn in *. intuition. Qed.
Lemma name_family e os name : classified e os_rows 0 os -> os_name e os name -> family name os /\ In name [0; 1; 2; 3; 4; 5; 6].
Proof.
  intros _ [[O C]|[[O C]|[(O & a & b & _ & _ & A & B)|[O C]]]]; unfold family; cbn [In].
  - apply classified_in in C. cbn in C. lia.
  - lia.
  - assert (name = 1 \/ name = 2) by lia. lia.
  - apply classified_in in C. cbn in C. lia.
Qed.
Lemma compiler_values e c : classified e compiler_rows 0 c -> In c [0; 1; 2; 3].
Proof. intro C. apply classified_in in C. cbn in *. intuition. Qed.
Lemma edition_values v c : edition v c -> In c [3; 11; 14; 17; 20].
Proof.
  intros [(b & I & _)|[-> _]]; [|cbn; auto]. cbn in I. repeat (destruct I as [I|I]; [injection I as <- <-; cbn; auto 10|]). destruct I.
Qed.
Lemma edition_mono v w c d : edition v c -> edition w d -> v <= w -> c <= d.
Proof.
  intros [(b & I & L & M)|[-> N]] E W.
  - destruct E as [(b' & I' & L' & M')|[-> N']]; [apply (M' _ b); [exact I|lia]|]. specialize (N' _ _ I). lia.
  - apply edition_values in E. cbn in E. lia.
Qed.
Lemma edition_fun v c d : edition v c -> edition v d -> c = d.
Proof. intros A B. pose proof (edition_mono _ _ _ _ A B). pose proof (edition_mono _ _ _ _ B A). lia. Qed.
Lemma cpu_values e comp name c : classified e compiler_rows 0 comp -> cpu e comp name c -> In c [(0, 0); (1, 32); (2, 64); (3, 32); (3, 64); (4, 32)].
Proof.
  intros _ (A & B & C & D). destruct (Z.eq_dec name 6) as [N|N]; [rewrite (A N); cbn; auto 10|].
  destruct (Z.eq_dec comp 1) as [X|X]; [specialize (B N X); apply classified_in in B; cbn in *; intuition|].
  destruct (Z.eq_dec comp 2) as [Y|Y]; [specialize (C N Y); apply classified_in in C; cbn in *; intuition|].
  rewrite (D N X Y). cbn. auto.
Qed.

(** Definitions that are made on every way. *)
Fixpoint musts (p : block) : list (string * body) :=
  match p with
  | Done => []
  | Define n b k => (n, b) :: musts k
  | Undef _ k | Include _ k | If _ _ _ k => musts k
  end.
Lemma body_eqb_eq a b : body_eqb a b = true -> a = b.
Proof.
  destruct a, b; cbn; try discriminate; try reflexivity; intro E; try (apply String.eqb_eq in E; congruence). apply Z.eqb_eq in E. congruence.
Qed.
Lemma musts_ok p : no_undef p = true -> forall e e', go p e = Some e' -> forall n b, In (n, b) (musts p) -> lookup e' n = Some b.
Proof.
  induction p as [|m c k IH|m k IH|f k IH|c t IHt f IHf k IHk]; intros NU e e' R n b I; cbn in R, NU, I.
  - destruct I.
  - destruct I as [I|I].
    + injection I as -> ->. destruct (lookup e n) as [b'|] eqn:L.
      * destruct (body_eqb b b') eqn:E; [|discriminate]. apply body_eqb_eq in E. subst b'. eapply run_mono; eauto.
      * eapply run_mono; eauto. cbn. rewrite String.eqb_refl. reflexivity.
    + destruct (lookup e m) as [b'|]; [destruct (body_eqb c b'); [|discriminate]|]; eapply IH; eauto.
  - discriminate.
  - eapply IH; eauto.
  - apply andb_true_iff in NU as [NU NUk]. destruct (eval e c) as [x|]; [|discriminate].
    destruct (go (if x =? 0 then f else t) e) as [e1|]; [|discriminate]. eapply IHk; eauto.
Qed.
Lemma constants_ok e e' n v : process e = Some e' -> In (n, v) constants -> lookup e' n = Some (Int v).
Proof.
  intros R I. apply (musts_ok config eq_refl _ _ R).
  assert (X : forallb (fun x => existsb (fun y => String.eqb (fst x) (fst y) && body_eqb (Int (snd x)) (snd y)) (musts config)) constants = true) by reflexivity.
  rewrite forallb_forall in X. specialize (X _ I). apply existsb_exists in X as ([m b] & J & E). cbn [fst snd] in E.
  apply andb_true_iff in E as [A B]. apply String.eqb_eq in A. apply body_eqb_eq in B. subst. exact J.
Qed.

(** *** windows.hpp *)
Definition restored (b : option body) : option body := match b with Some (Int v) => if v =? 1234567890 then None else b | _ => b end.
Section Windows.
Variable header : string -> env -> option env.
Local Notation rn := (run header).
Lemma rn_if c t f k e b : eval e c = Some (of_bool b) ->
  rn (If c t f k) e = match rn (if b then t else f) e with Some e => rn k e | None => None end.
Proof. intro E. cbn [run]. rewrite E. destruct b; reflexivity. Qed.
Lemma guard_step g k e : exists e', rn (If (Not (Defined g)) (Define g (Int 1234567890) Done) Done k) e = rn k e' /\
  lookup e' g = (match lookup e g with None => Some (Int 1234567890) | b => b end) /\ forall n, n <> g -> lookup e' n = lookup e n.
Proof.
  assert (E : eval e (Not (Defined g)) = Some (of_bool (negb (defined e g)))) by (cbn; destruct (defined e g); reflexivity).
  rewrite (rn_if _ _ _ _ _ _ E). unfold defined. destruct (lookup e g) as [b|] eqn:L; cbn [negb].
  - exists e. auto.
  - cbn [run]. rewrite L. eexists. split; [reflexivity|]. cbn [lookup]. rewrite String.eqb_refl. split; [reflexivity|].
    intros n NE. apply String.eqb_neq in NE. rewrite NE. reflexivity.
Qed.
Lemma expansion_int e n v : lookup e n = Some (Int v) -> expansion e n = Some (Int v).
Proof. intro L. unfold expansion. cbn [expand]. rewrite L. reflexivity. Qed.
Lemma expansion_empty e n : lookup e n = Some Empty -> expansion e n = Some Empty.
Proof. intro L. unfold expansion. cbn [expand]. rewrite L. reflexivity. Qed.
Lemma restore_step g k e : plain e g -> exists e', rn (restore g k) e = rn k e' /\
  lookup e' g = restored (lookup e g) /\ forall n, n <> g -> lookup e' n = lookup e n.
Proof.
  intro P. unfold restore, plain, restored in *. destruct (lookup e g) as [[|v|m|t]|] eqn:L; try contradiction.
  - exists e. cbn [run eval]. rewrite (expansion_empty _ _ L). cbn [Z.eqb run]. rewrite L. auto.
  - cbn [run eval]. rewrite (expansion_int _ _ _ L). cbn [lift2]. destruct (v =? 0) eqn:Z0.
    + cbn [run]. exists e. split; [reflexivity|]. split; [|auto]. rewrite L. destruct (v =? 1234567890) eqn:E; [lia|reflexivity].
    + cbn [run eval]. rewrite (expansion_int _ _ _ L). cbn [lift2]. destruct (v =? 1234567890) eqn:E; cbn [of_bool Z.eqb run].
      * exists (undef e g). split; [reflexivity|]. split; [apply lookup_undef_eq|]. intros n NE. apply lookup_undef_ne. congruence.
      * exists e. split; [reflexivity|]. split; [exact L|auto].
  - exists e. cbn [run eval]. unfold expansion. cbn [expand]. rewrite L. cbn [Z.eqb run]. auto.
Qed.
Lemma drop_step g k e : exists e', rn (drop g k) e = rn k e' /\ lookup e' g = None /\ forall n, n <> g -> lookup e' n = lookup e n.
Proof.
  unfold drop. rewrite (rn_if (Defined g) _ _ _ e (defined e g) eq_refl). unfold defined. destruct (lookup e g) as [b|] eqn:L; cbn [run].
  - exists (undef e g). split; [reflexivity|]. split; [apply lookup_undef_eq|]. intros n NE. apply lookup_undef_ne. congruence.
  - exists e. auto.
Qed.
Lemma windows_ok e : polite header -> (forall g, In g guards -> plain e g) ->
  exists e', rn windows e = Some e' /\ (forall g, In g guards -> lookup e' g = restored (lookup e g)) /\
    forall n, In n ["max"; "min"; "DELETE"] -> lookup e' n = None.
Proof.
  intros P PL. unfold windows.
  destruct (guard_step "_WINSOCKAPI_" (If (Not (Defined "_WINSOCK_H")) (Define "_WINSOCK_H" (Int 1234567890) Done) Done
    (Include "windows.h" (restore "_WINSOCKAPI_" (restore "_WINSOCK_H" (drop "max" (drop "min" (drop "DELETE" Done))))))) e) as (e1 & -> & A1 & B1).
  destruct (guard_step "_WINSOCK_H" (Include "windows.h" (restore "_WINSOCKAPI_" (restore "_WINSOCK_H" (drop "max" (drop "min" (drop "DELETE" Done)))))) e1) as (e2 & -> & A2 & B2).
  assert (G : forall g, In g guards -> lookup e2 g = match lookup e g with None => Some (Int 1234567890) | b => b end).
  { intros g [<-|[<-|[]]].
    - rewrite B2 by discriminate. exact A1.
    - rewrite A2, B1 by discriminate. reflexivity. }
  destruct (P e2) as (e3 & H & K).
  { intros g I. unfold present. rewrite (G g I). destruct (lookup e g); discriminate. }
  cbn [run]. rewrite H.
  assert (PL3 : forall g, In g guards -> plain e3 g).
  { intros g I. specialize (PL g I). unfold plain in *. rewrite (K g I), (G g I). destruct (lookup e g); exact PL || exact Logic.I. }
  destruct (restore_step "_WINSOCKAPI_" (restore "_WINSOCK_H" (drop "max" (drop "min" (drop "DELETE" Done)))) e3 (PL3 "_WINSOCKAPI_" (or_introl eq_refl))) as (e4 & -> & A4 & B4).
  assert (PL4 : plain e4 "_WINSOCK_H") by (unfold plain; rewrite B4 by discriminate; apply PL3; cbn; auto).
  destruct (restore_step "_WINSOCK_H" (drop "max" (drop "min" (drop "DELETE" Done))) e4 PL4) as (e5 & -> & A5 & B5).
  destruct (drop_step "max" (drop "min" (drop "DELETE" Done)) e5) as (e6 & -> & A6 & B6).
  destruct (drop_step "min" (drop "DELETE" Done) e6) as (e7 & -> & A7 & B7).
  destruct (drop_step "DELETE" Done e7) as (e8 & -> & A8 & B8).
  exists e8. split; [reflexivity|]. split.
  - assert (RR : forall g, restored (match lookup e g with None => Some (Int 1234567890) | b => b end) = restored (lookup e g)).
    { intro g. destruct (lookup e g); reflexivity. }
    intros g I. rewrite <- RR, <- (G g I), <- (K g I). destruct I as [<-|[<-|[]]].
    + rewrite B8, B7, B6, B5 by discriminate. exact A4.
    + rewrite B8, B7, B6, A5, B4 by discriminate. reflexivity.
  - intros n [<-|[<-|[<-|[]]]].
    + rewrite B8, B7 by discriminate. exact A6.
    + rewrite B8 by discriminate. exact A7.
    + exact A8.
Qed.
End Windows.

Lemma windows_hpp_ok header e : header "config.hpp" = process -> predefined e -> exists e1 os, process e = Some e1 /\ classified e os_rows 0 os /\
  run header windows_hpp e = if os =? 2 then run header windows e1 else Some e1.
Proof.
  intros H P. destruct (process_ok e P) as (e1 & os & name & comp & std & c & o & R & F).
  exists e1, os. split; [exact R|]. split; [exact (f_os _ _ _ _ _ _ _ _ F)|].
  unfold windows_hpp. cbn [run]. rewrite H, R. cbn [eval].
  rewrite (expansion_ok e1 "CFG_OS" os) by (apply number_stands; exact (f_os_n _ _ _ _ _ _ _ _ F)).
  rewrite (expansion_ok e1 "CFG_OS_WINDOWS" 2) by (apply sf_int; eapply constants_ok; [exact R|cbn; auto]).
  cbn [lift2]. destruct (os =? 2); cbn [of_bool Z.eqb run]; [|reflexivity].
  match goal with |- match ?x with _ => _ end = _ => destruct x; reflexivity end.
Qed.
Lemma standard_below e e1 std k : process e = Some e1 -> is_number e1 "CFG_CPP" std -> In std [3; 11; 14; 17; 20] -> 20 < k ->
  eval e1 (Lt (IName "CFG_CPP") (ILit k)) = Some 1.
Proof.
  intros _ N I K. cbn [eval]. rewrite (expansion_ok _ _ _ (number_stands _ _ _ N)). cbn [lift2].
  assert (X : std <? k = true) by (apply Z.ltb_lt; cbn in I; lia). rewrite X. reflexivity.
Qed.

(** A check for concrete macros. *)
Definition numeric (e : env) (n : string) : bool :=
  match lookup e n with
  | None | Some (Int _) => true
  | Some (Name m) => match lookup e m with None | Some (Int _) => true | _ => false end
  | _ => false
  end.
Definition predefinedb (e : env) : bool :=
  forallb (fun x => negb (ownb (fst x)) && match snd x with Name m => negb (ownb m) | _ => true end) e && forallb (numeric e) compared.
Lemma lookup_pair e n b : lookup e n = Some b -> In (n, b) e.
Proof.
  induction e as [|[x c] e IH]; [discriminate|]. cbn. destruct (String.eqb n x) eqn:A.
  - apply String.eqb_eq in A. intro E. injection E as <-. subst. auto.
  - auto.
Qed.
Lemma predefinedb_ok e : predefinedb e = true -> predefined e.
Proof.
  intro X. apply andb_true_iff in X as [X Y]. rewrite forallb_forall in X, Y.
  assert (Z : forall n b, lookup e n = Some b -> ownb n = false /\ match b with Name m => ownb m = false | _ => True end).
  { intros n b L. apply lookup_pair in L. specialize (X _ L). cbn [fst snd] in X. apply andb_true_iff in X as [X1 X2].
    apply negb_true_iff in X1. split; [exact X1|]. destruct b; try exact I. apply negb_true_iff in X2. exact X2. }
  split; [|split].
  - intros n O. unfold absent. destruct (lookup e n) as [b|] eqn:L; [|reflexivity]. apply Z in L as [L _]. apply ownb_iff in O. congruence.
  - intros n m L O. apply Z in L as [_ L]. cbn in L. apply ownb_iff in O. congruence.
  - intros n I. specialize (Y _ I). unfold numeric in Y. destruct (lookup e n) as [[|v|m|t]|] eqn:L; try discriminate.
    + exists v. apply sf_int. exact L.
    + destruct (lookup e m) as [[|v|m'|t]|] eqn:M; try discriminate.
      * exists v. eapply sf_name; [exact L|]. apply sf_int. exact M.
      * exists 0. eapply sf_name; [exact L|]. apply sf_none. exact M.
    + exists 0. apply sf_none. exact L.
Qed.

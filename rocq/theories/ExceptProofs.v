From Coq Require Import String.
From Verif Require Import Base StrLit ExceptModel ExceptSpec.
Local Open Scope string_scope. Local Open Scope list_scope. Local Open Scope Z_scope.

(** Induction over exception objects *)
Section Ind.
Variable P : exn -> Prop.
Hypothesis HObj : forall c name what base, (forall n, base = Nested n -> P n) -> P (Obj c name what base).
Hypothesis HOwn : forall name what own base, (forall n, base = Nested n -> P n) -> P (Own name what own base).
Hypothesis HStacked : forall name nesting nested base, P nesting -> (forall n, nested = Some n -> P n) ->
  (forall n, base = Nested n -> P n) -> P (Stacked name nesting nested base).
Fixpoint exn_induction (e : exn) : P e :=
  let base_ind (base : nest exn) : forall n, base = Nested n -> P n :=
    match base with
    | Nested m => fun n E => match E in _ = b return match b with Nested k => P k | _ => True end with eq_refl => exn_induction m end
    | NoNested => fun n E => match E in _ = b return match b with Nested k => P k | _ => True end with eq_refl => I end
    | NullNested => fun n E => match E in _ = b return match b with Nested k => P k | _ => True end with eq_refl => I end
    end in
  match e with
  | Obj c name what base => HObj c name what base (base_ind base)
  | Own name what own base => HOwn name what own base (base_ind base)
  | Stacked name nesting nested base =>
      HStacked name nesting nested base (exn_induction nesting)
        (match nested return forall n, nested = Some n -> P n with
         | Some m => fun n E => match E in _ = b return match b with Some k => P k | _ => True end with eq_refl => exn_induction m end
         | None => fun n E => match E in _ = b return match b with Some k => P k | _ => True end with eq_refl => I end
         end)
        (base_ind base)
  end.
End Ind.

(** ** Lines *)
Lemma lines_text_cons l ls : ls <> [] -> lines_text (l :: ls) = line_text l ++ newline ++ lines_text ls.
Proof. change newline with line_feed. destruct ls; [congruence|reflexivity]. Qed.
Lemma lines_text_app a b : a <> [] -> b <> [] -> lines_text (a ++ b) = lines_text a ++ newline ++ lines_text b.
Proof.
  intros Ha Hb. induction a as [|l a IH]; [congruence|]. destruct a as [|l' a].
  - cbn [app]. rewrite lines_text_cons by assumption. reflexivity.
  - cbn [app] in *. rewrite (lines_text_cons l (l' :: a)) by discriminate. rewrite (lines_text_cons l (l' :: a ++ b)) by discriminate. rewrite IH by discriminate. rewrite <- !app_assoc. reflexivity.
Qed.
Lemma entries_app a b : entries (a ++ b) = entries a ++ entries b.
Proof. unfold entries. apply flat_map_app. Qed.

(** The first line of a non-empty list with another prefix in place of an empty one *)
Definition reprefix (ind : text) (l : line) : line :=
  match l with Entry p e => Entry (ind ++ p) e | Header p n => Header (ind ++ p) n end.
Lemma reprefix_text ind l ls : ind ++ lines_text (l :: ls) = lines_text (reprefix ind l :: ls).
Proof.
  destruct ls as [|l' ls].
  - cbn. destruct l; cbn; rewrite <- !app_assoc; reflexivity.
  - rewrite !lines_text_cons by discriminate. rewrite app_assoc. f_equal.
    destruct l; cbn; rewrite <- !app_assoc; reflexivity.
Qed.
Lemma lists_entry ind e : lists ind [e] (ind ++ entry_text e).
Proof.
  exists [Entry ind e]. split; [reflexivity|]. split; [reflexivity|].
  split; [exists (Entry ind e), []; split; reflexivity|]. constructor; [left; reflexivity|constructor].
Qed.
Lemma lists_then ind i2 es es' t t' : lists ind es t -> lists i2 es' t' -> i2 = ind \/ i2 = [] ->
  lists ind (es ++ es') (t ++ newline ++ t').
Proof.
  intros (ls & T & E & (l & ls0 & L & P) & F) (ls' & T' & E' & (l' & ls0' & L' & P') & F') I.
  exists (ls ++ ls'). split; [|split; [|split]].
  - rewrite lines_text_app by (subst; discriminate). congruence.
  - rewrite entries_app. congruence.
  - exists l, (ls0 ++ ls'). subst ls. split; [reflexivity|assumption].
  - apply Forall_app. split; [assumption|]. eapply Forall_impl; [|exact F']. cbn. intros a [A|A]; [|auto].
    rewrite A. destruct I as [->| ->]; auto.
Qed.
Lemma lists_reprefix ind es t : lists [] es t -> lists ind es (ind ++ t).
Proof.
  intros (ls & T & E & (l & ls0 & L & P) & F). subst ls t. rewrite reprefix_text.
  exists (reprefix ind l :: ls0). split; [reflexivity|]. split; [|split].
  - rewrite <- E. destruct l; reflexivity.
  - exists (reprefix ind l), ls0. split; [reflexivity|]. destruct l; cbn in *; subst; apply app_nil_r.
  - inversion F; subst. constructor.
    + left. destruct l; cbn in *; subst; apply app_nil_r.
    + eapply Forall_impl; [|eassumption]. cbn. tauto.
Qed.
Lemma lists_header ind name es t : lists (zstr "- ") es t ->
  lists ind es (ind ++ name ++ zstr ": " ++ zstr "exception stack:" ++ newline ++ t).
Proof.
  intros (ls & T & E & (l & ls0 & L & P) & F). exists (Header ind name :: ls). split; [|split; [|split]].
  - rewrite lines_text_cons by (subst; discriminate). cbn [line_text]. rewrite <- !app_assoc. subst t. reflexivity.
  - exact E.
  - exists (Header ind name), ls. split; reflexivity.
  - constructor; [left; reflexivity|]. eapply Forall_impl; [|exact F]. cbn. tauto.
Qed.

(** ** Complete chains *)
Section Compiler.
Variable gnu : bool.
Local Notation printers_of := (printers_of gnu).
Local Notation members := (members gnu).
Local Notation entry_of := (entry_of gnu).
Local Notation shown := (type_shown gnu).
(** What is known about an object: [es] are the members of its chain. *)
Definition prints (e : exn) (es : list entry) : Prop :=
  (is_std e = true -> forall ind, exists t, to_string_of (printers_of e) ind = Ok t /\ lists ind es t) /\
  (is_utki e = true -> is_own e = false -> forall ind, exists t i, (i = ind \/ i = []) /\ method_of (printers_of e) ind = Ok t /\ lists i es t) /\
  (is_std e = false -> forall ind, exists t, current_of (printers_of e) ind = Ok t /\ lists ind es t) /\
  (is_stacked e = false -> forall ind, exists t, current_of (printers_of e) ind = Ok t /\ lists ind (NameOnly (shown (type_name e)) :: tl es) t).

(** The part after the first entry *)
Definition rest_of (base : nest exn) (ind : text) : outcome text :=
  match base with
  | NoNested => Ok []
  | NullNested => Terminate
  | Nested n =>
      t <- (if is_std n then to_string_of (printers_of n) ind else current_of (printers_of n) ind) ;;
      Ok (newline ++ t)
  end.
Lemma obj_to_string c name what base ind : to_string_of (printers_of (Obj c name what base)) ind
  = (r <- rest_of base ind ;; Ok (ind ++ name ++ zstr ": " ++ what ++ r)).
Proof. reflexivity. Qed.
Lemma obj_current c name what base ind : current_of (printers_of (Obj c name what base)) ind
  = (r <- rest_of base ind ;; Ok (ind ++ shown name ++ r)).
Proof. reflexivity. Qed.
Lemma own_to_string name what own base ind : to_string_of (printers_of (Own name what own base)) ind
  = (r <- rest_of base ind ;; Ok (ind ++ name ++ zstr ": " ++ what ++ r)).
Proof. reflexivity. Qed.
Lemma own_current name what own base ind : current_of (printers_of (Own name what own base)) ind
  = (r <- rest_of base ind ;; Ok (ind ++ shown name ++ r)).
Proof. reflexivity. Qed.
Lemma obj_method c name what base ind : method_of (printers_of (Obj c name what base)) ind
  = to_string_of (printers_of (Obj c name what base)) [].
Proof. reflexivity. Qed.
Definition tail_of (nested : option exn) (ind : text) : outcome text :=
  match nested with
  | None => Terminate
  | Some n =>
      if is_utki n then method_of (printers_of n) ind
      else if is_std n then to_string_of (printers_of n) ind
      else current_of (printers_of n) ind
  end.
Lemma stacked_method name nesting nested base ind : method_of (printers_of (Stacked name nesting nested base)) ind
  = (h <- to_string_of (printers_of nesting) [] ;; t <- tail_of nested ind ;; Ok (ind ++ h ++ newline ++ t)).
Proof. reflexivity. Qed.
Lemma stacked_what name nesting nested base : what_of (printers_of (Stacked name nesting nested base))
  = match (t <- method_of (printers_of (Stacked name nesting nested base)) (zstr "- ") ;; Ok (zstr "exception stack:" ++ newline ++ t)) with
    | Throw BadAlloc => Ok (zstr "std::bad_alloc")
    | Throw _ => Ok (zstr "error")
    | r => r
    end.
Proof. reflexivity. Qed.
Lemma stacked_to_string name nesting nested base ind : to_string_of (printers_of (Stacked name nesting nested base)) ind
  = (w <- what_of (printers_of (Stacked name nesting nested base)) ;; r <- rest_of base ind ;; Ok (ind ++ name ++ zstr ": " ++ w ++ r)).
Proof. reflexivity. Qed.

Lemma rest_ok n es : prints n es -> forall ind, exists t, rest_of (Nested n) ind = Ok (newline ++ t) /\ lists ind es t.
Proof.
  intros (A & _ & C & _) ind. cbn [rest_of]. destruct (is_std n) eqn:S.
  - destruct (A eq_refl ind) as (t & E & L). rewrite E. cbn [bind]. eauto.
  - destruct (C eq_refl ind) as (t & E & L). rewrite E. cbn [bind]. eauto.
Qed.
Lemma tail_ok n es : prints n es -> is_own n = false -> forall ind, exists t i, (i = ind \/ i = []) /\ tail_of (Some n) ind = Ok t /\ lists i es t.
Proof.
  intros (A & B & C & _) O ind. cbn [tail_of]. destruct (is_utki n) eqn:U; [exact (B eq_refl O ind)|].
  destruct (is_std n) eqn:S.
  - destruct (A eq_refl ind) as (t & E & L). exists t, ind. auto.
  - destruct (C eq_refl ind) as (t & E & L). exists t, ind. auto.
Qed.

(** Text of an object of any class with what is known of the remaining part *)
Lemma obj_lists name what ind r (es : list entry) :
  (es = [] /\ r = []) \/ (exists t, r = newline ++ t /\ lists ind es t) ->
  lists ind (Full name what :: es) (ind ++ name ++ zstr ": " ++ what ++ r) /\
  forall name', lists ind (NameOnly name' :: es) (ind ++ name' ++ r).
Proof.
  intros [[-> ->]|(t & -> & L)].
  - split; [|intro name']; rewrite !app_nil_r; [apply (lists_entry ind (Full name what))|apply (lists_entry ind (NameOnly name'))].
  - split; [|intro name'].
    + replace (ind ++ name ++ zstr ": " ++ what ++ newline ++ t) with ((ind ++ entry_text (Full name what)) ++ newline ++ t)
        by (cbn [entry_text]; rewrite <- !app_assoc; reflexivity).
      apply (lists_then ind ind [Full name what]); auto. apply lists_entry.
    + replace (ind ++ name' ++ newline ++ t) with ((ind ++ entry_text (NameOnly name')) ++ newline ++ t)
        by (cbn [entry_text]; rewrite <- !app_assoc; reflexivity).
      apply (lists_then ind ind [NameOnly name']); auto. apply lists_entry.
Qed.

Lemma obj_prints c name what base es :
  (forall ind, exists r, rest_of base ind = Ok r /\ ((es = [] /\ r = []) \/ (exists t, r = newline ++ t /\ lists ind es t))) ->
  prints (Obj c name what base) (entry_of c name what :: es).
Proof.
  intro R.
  assert (TS : c <> Foreign -> forall ind, exists t, to_string_of (printers_of (Obj c name what base)) ind = Ok t /\
    lists ind (entry_of c name what :: es) t).
  { intros N ind. destruct (R ind) as (r & E & C). rewrite obj_to_string, E. cbn [bind].
    eexists. split; [reflexivity|]. destruct c; [congruence| |]; apply (obj_lists name what ind r es C). }
  assert (CU : forall ind, exists t, current_of (printers_of (Obj c name what base)) ind = Ok t /\ lists ind (NameOnly (shown name) :: es) t).
  { intro ind. destruct (R ind) as (r & E & C). rewrite obj_current, E. cbn [bind]. eexists. split; [reflexivity|].
    apply (obj_lists name what ind r es C). }
  split; [|split; [|split]].
  - intros N ind. apply TS. intros ->. discriminate.
  - intros N _ ind. destruct (TS ltac:(intros ->; discriminate) []) as (t & E & L). exists t, []. rewrite obj_method. auto.
  - intros N ind. destruct c; try discriminate. apply CU.
  - intros _ ind. cbn [tl type_name]. apply CU.
Qed.
Lemma own_prints name what own base es :
  (forall ind, exists r, rest_of base ind = Ok r /\ ((es = [] /\ r = []) \/ (exists t, r = newline ++ t /\ lists ind es t))) ->
  prints (Own name what own base) (Full name what :: es).
Proof.
  intro R. split; [|split; [|split]].
  - intros _ ind. destruct (R ind) as (r & E & C). rewrite own_to_string, E. cbn [bind].
    eexists. split; [reflexivity|]. apply (obj_lists name what ind r es C).
  - discriminate.
  - discriminate.
  - intros _ ind. destruct (R ind) as (r & E & C). rewrite own_current, E. cbn [bind tl type_name].
    eexists. split; [reflexivity|]. apply (obj_lists name what ind r es C).
Qed.

Lemma members_prints e es : members e es -> prints e es.
Proof.
  induction 1 as [c name what|c name what e l M IH|name what own|name what own e l M IH|name nesting e l l' S O M IH M' IH'].
  - apply obj_prints. intro ind. exists []. cbn. auto.
  - apply obj_prints. intro ind. destruct (rest_ok _ _ IH ind) as (t & E & L). exists (newline ++ t).
    split; [exact E|]. right. eauto.
  - apply own_prints. intro ind. exists []. cbn. auto.
  - apply own_prints. intro ind. destruct (rest_ok _ _ IH ind) as (t & E & L). exists (newline ++ t).
    split; [exact E|]. right. eauto.
  - assert (MT : forall ind, exists t, method_of (printers_of (Stacked name nesting (Some e) NoNested)) ind = Ok t /\ lists ind (l ++ l') t).
    { intro ind. rewrite stacked_method. destruct IH as (A & _). destruct (A S []) as (h & E & L). rewrite E. cbn [bind].
      destruct (tail_ok _ _ IH' O ind) as (t & i & I & E' & L'). rewrite E'. cbn [bind].
      eexists. split; [reflexivity|]. rewrite app_assoc. eapply lists_then; [apply lists_reprefix; exact L|exact L'|exact I]. }
    split; [|split; [|split]].
    + intros _ ind. rewrite stacked_to_string, stacked_what. destruct (MT (zstr "- ")) as (t & E & L). rewrite E. cbn [bind rest_of].
      eexists. split; [reflexivity|]. rewrite app_nil_r. apply lists_header. exact L.
    + intros _ _ ind. destruct (MT ind) as (t & E & L). exists t, ind. auto.
    + discriminate.
    + discriminate.
Qed.

Lemma to_string_complete e es ind : members e es -> is_std e = true ->
  exists t, to_string_of (printers_of e) ind = Ok t /\ lists ind es t.
Proof. intros M S. apply members_prints in M. destruct M as (A & _). apply A. exact S. Qed.
Lemma current_complete e es ind : is_stacked e = false -> members e es ->
  exists t, current_exception_to_string gnu (Some e) ind = Ok t /\ lists ind (NameOnly (shown (type_name e)) :: tl es) t.
Proof. intros S M. apply members_prints in M. destruct M as (_ & _ & _ & D). cbn [current_exception_to_string]. apply D. exact S. Qed.
Lemma stacked_complete name nesting e es ind : members (Stacked name nesting (Some e) NoNested) es ->
  (exists t, method_of (printers_of (Stacked name nesting (Some e) NoNested)) ind = Ok t /\ lists ind es t) /\
  (exists t, what_of (printers_of (Stacked name nesting (Some e) NoNested)) = Ok (zstr "exception stack:" ++ newline ++ t) /\
     lists (zstr "- ") es t).
Proof.
  intro M. inversion M as [| | | |n ns e' l l' S O M1 M2]; subst. apply members_prints in M1, M2.
  assert (MT : forall ind, exists t, method_of (printers_of (Stacked name nesting (Some e) NoNested)) ind = Ok t /\ lists ind (l ++ l') t).
  { intro i0. rewrite stacked_method. destruct M1 as (A & _). destruct (A S []) as (h & E & L). rewrite E. cbn [bind].
    destruct (tail_ok _ _ M2 O i0) as (t & i & I & E' & L'). rewrite E'. cbn [bind].
    eexists. split; [reflexivity|]. rewrite app_assoc. eapply lists_then; [apply lists_reprefix; exact L|exact L'|exact I]. }
  split; [apply MT|]. destruct (MT (zstr "- ")) as (t & E & L). exists t. rewrite stacked_what, E. auto.
Qed.

(** ** Broken chains *)
Lemma chain_cases e : chain e -> broken e \/ exists es, members e es.
Proof.
  induction e as [c name what base IH|name what own base IH|name nesting nested base IHn IHd IHb] using exn_induction; intro C.
  - destruct base as [| |n].
    + right. eexists. constructor.
    + left. constructor.
    + destruct (IH n eq_refl C) as [K|[es K]]; [left; constructor; exact K|right; eexists; constructor; exact K].
  - destruct base as [| |n].
    + right. eexists. constructor.
    + left. constructor.
    + destruct (IH n eq_refl C) as [K|[es K]]; [left; constructor; exact K|right; eexists; constructor; exact K].
  - cbn [chain] in C. destruct C as (-> & S & Cn & Cd). destruct nested as [n|]; [|left; constructor].
    destruct (IHn Cn) as [K|[es K]]; [left; apply broken_nesting; exact K|].
    destruct Cd as [O Cd]. destruct (IHd n eq_refl Cd) as [K'|[es' K']]; [left; apply broken_stacked; exact K'|].
    right. eexists. econstructor; eassumption.
Qed.

Lemma broken_terminates e : chain e -> broken e ->
  (is_std e = true -> forall ind, to_string_of (printers_of e) ind = Terminate) /\
  (is_utki e = true -> is_own e = false -> forall ind, method_of (printers_of e) ind = Terminate) /\
  (is_stacked e = false -> forall ind, current_of (printers_of e) ind = Terminate).
Proof.
  induction e as [c name what base IH|name what own base IH|name nesting nested base IHn IHd IHb] using exn_induction; intros C B.
  - assert (R : forall ind, rest_of base ind = Terminate).
    { intro ind. inversion B; subst; [reflexivity|]. cbn [chain] in C.
      destruct (IH e eq_refl) as (A & _ & D); auto. cbn [rest_of]. destruct (is_std e) eqn:S.
      - rewrite A; reflexivity.
      - destruct e as [c' n' w' b'| |]; try discriminate. rewrite D; reflexivity. }
    split; [|split].
    + intros _ ind. rewrite obj_to_string, R. reflexivity.
    + intros _ _ ind. rewrite obj_method, obj_to_string, R. reflexivity.
    + intros _ ind. rewrite obj_current, R. reflexivity.
  - assert (R : forall ind, rest_of base ind = Terminate).
    { intro ind. inversion B; subst; [reflexivity|]. cbn [chain] in C.
      destruct (IH e eq_refl) as (A & _ & D); auto. cbn [rest_of]. destruct (is_std e) eqn:S.
      - rewrite A; reflexivity.
      - destruct e as [c' n' w' b'| |]; try discriminate. rewrite D; reflexivity. }
    split; [|split].
    + intros _ ind. rewrite own_to_string, R. reflexivity.
    + discriminate.
    + intros _ ind. rewrite own_current, R. reflexivity.
  - cbn [chain] in C. destruct C as (-> & S & Cn & Cd).
    assert (M : forall ind, method_of (printers_of (Stacked name nesting nested NoNested)) ind = Terminate).
    { intro ind. rewrite stacked_method. destruct (chain_cases nesting Cn) as [Bn|[es Mn]].
      - destruct (IHn Cn Bn) as (A & _). rewrite A by exact S. reflexivity.
      - destruct (to_string_complete nesting es [] Mn S) as (h & E & _). rewrite E. cbn [bind].
        destruct nested as [n|]; [|reflexivity]. cbn [tail_of]. destruct Cd as [O Cd].
        destruct (chain_cases n Cd) as [Bd|[es' Md]].
        + destruct (IHd n eq_refl Cd Bd) as (A & B' & D).
          destruct (is_utki n) eqn:U; [rewrite B' by auto; reflexivity|]. destruct (is_std n) eqn:Sn; [rewrite A by reflexivity; reflexivity|].
          destruct n; try discriminate. rewrite D; reflexivity.
        + exfalso. assert (X : forall e es, members e es -> ~ broken e).
          { clear. induction 1; intro B; inversion B; subst; auto. }
          inversion B; subst; [eapply X; [exact Mn|assumption]|eapply X; [exact Md|assumption]]. }
    split; [|split; [|discriminate]].
    + intros _ ind. rewrite stacked_to_string, stacked_what, M. reflexivity.
    + intros _ _ ind. apply M.
Qed.

(** ** Uniform indentation *)
Lemma lists_indented_cons ind e es t : es <> [] -> lists_indented ind es t ->
  lists_indented ind (e :: es) (ind ++ entry_text e ++ newline ++ t).
Proof.
  intros N ->. unfold lists_indented. cbn [map]. rewrite lines_text_cons by (destruct es; [congruence|discriminate]).
  cbn [line_text]. rewrite <- !app_assoc. reflexivity.
Qed.
Lemma members_nonempty e es : members e es -> es <> [].
Proof. induction 1; try discriminate. destruct l; [congruence|discriminate]. Qed.

Lemma plain_indented e : plain e -> exists es, members e es /\ forall ind,
  (is_std e = true -> exists t, to_string_of (printers_of e) ind = Ok t /\ lists_indented ind es t) /\
  (exists t, current_of (printers_of e) ind = Ok t /\ lists_indented ind (NameOnly (shown (type_name e)) :: tl es) t) /\
  (is_std e = false -> es = NameOnly (shown (type_name e)) :: tl es).
Proof.
  induction 1 as [c name what|c name what e P IH].
  - eexists. split; [constructor|]. intro ind. rewrite obj_to_string, obj_current. cbn [rest_of bind type_name tl].
    split; [|split].
    + intro S. eexists. split; [reflexivity|]. rewrite app_nil_r. destruct c; [discriminate| |]; reflexivity.
    + eexists. split; [reflexivity|]. rewrite app_nil_r. reflexivity.
    + destruct c; try discriminate. reflexivity.
  - destruct IH as (es & M & IH). exists (entry_of c name what :: es). split; [constructor; exact M|]. intro ind.
    assert (R : exists t, rest_of (Nested e) ind = Ok (newline ++ t) /\ lists_indented ind es t).
    { destruct (IH ind) as (A & (t & E & L) & D). cbn [rest_of]. destruct (is_std e) eqn:S.
      - destruct (A eq_refl) as (t' & E' & L'). rewrite E'. cbn [bind]. eauto.
      - rewrite E. cbn [bind]. exists t. split; [reflexivity|]. rewrite D; auto. }
    destruct R as (t & E & L). pose proof (members_nonempty _ _ M) as N.
    rewrite obj_to_string, obj_current, E. cbn [bind type_name tl]. split; [|split].
    + intro S. eexists. split; [reflexivity|].
      replace (ind ++ name ++ zstr ": " ++ what ++ newline ++ t) with (ind ++ entry_text (Full name what) ++ newline ++ t)
        by (cbn [entry_text]; rewrite <- !app_assoc; reflexivity).
      destruct c; [discriminate| |]; apply lists_indented_cons; assumption.
    + eexists. split; [reflexivity|]. apply (lists_indented_cons ind (NameOnly (shown name))); assumption.
    + destruct c; try discriminate. reflexivity.
Qed.

Lemma single_members g : single g -> members g [full_entry g] /\ is_std g = true.
Proof.
  intro S. destruct g as [c n w [| |]|n w own [| |]|]; try contradiction.
  - split; [|destruct c; [contradiction S| |]; reflexivity].
    replace (full_entry (Obj c n w NoNested)) with (entry_of c n w) by (destruct c; [contradiction S| |]; reflexivity). constructor.
  - split; [constructor|reflexivity].
Qed.
Lemma single_to_string g ind : single g -> to_string_of (printers_of g) ind = Ok (ind ++ entry_text (full_entry g)).
Proof.
  intro S. destruct g as [c n w [| |]|n w own [| |]|]; try contradiction; [rewrite obj_to_string|rewrite own_to_string];
    cbn [rest_of bind full_entry entry_text]; rewrite app_nil_r; reflexivity.
Qed.
Lemma stack_indented e : stack e -> exists es, members e es /\ forall ind,
  exists t, method_of (printers_of e) ind = Ok t /\ lists_indented ind es t.
Proof.
  assert (H : forall name g e es ind t, single g -> members e es -> tail_of (Some e) ind = Ok t -> lists_indented ind es t ->
    exists t', method_of (printers_of (Stacked name g (Some e) NoNested)) ind = Ok t' /\
      lists_indented ind (full_entry g :: es) t').
  { intros name g x es ind t S M T L. rewrite stacked_method, single_to_string by exact S. cbn [bind app]. rewrite T. cbn [bind].
    eexists. split; [reflexivity|]. apply lists_indented_cons; [eapply members_nonempty; exact M|exact L]. }
  induction 1 as [name g e G U P|name g e G S IH].
  - destruct (plain_indented e P) as (es & M & K). exists (full_entry g :: es). destruct (single_members g G) as [Mg Sg]. split.
    + apply (members_stacked gnu name g e [full_entry g] es); [exact Sg|destruct P; reflexivity|exact Mg|exact M].
    + intro ind. destruct (K ind) as (A & (t & E & L) & D). destruct (is_std e) eqn:S.
      * destruct (A eq_refl) as (t' & E' & L'). eapply H; [exact G|exact M| |exact L']. cbn [tail_of]. rewrite U, S. exact E'.
      * eapply H; [exact G|exact M| |rewrite D by reflexivity; exact L]. cbn [tail_of]. rewrite U, S. exact E.
  - destruct IH as (es & M & K). exists (full_entry g :: es). destruct (single_members g G) as [Mg Sg]. split.
    + apply (members_stacked gnu name g e [full_entry g] es); [exact Sg|destruct S; reflexivity|exact Mg|exact M].
    + intro ind. destruct (K ind) as (t & E & L). eapply H; [exact G|exact M| |exact L]. cbn [tail_of].
      destruct S; exact E.
Qed.

Lemma stacked_what_cases name nesting nested base :
  let m := method_of (printers_of (Stacked name nesting nested base)) (zstr "- ") in
  (forall t, m = Ok t -> what_of (printers_of (Stacked name nesting nested base)) = Ok (zstr "exception stack:" ++ newline ++ t)) /\
  (m = Throw BadAlloc -> what_of (printers_of (Stacked name nesting nested base)) = Ok (zstr "std::bad_alloc")) /\
  (forall x, m = Throw x -> x <> BadAlloc -> what_of (printers_of (Stacked name nesting nested base)) = Ok (zstr "error")).
Proof.
  cbn zeta. rewrite stacked_what. split; [|split].
  - intros t ->. reflexivity.
  - intros ->. reflexivity.
  - intros x -> N. destruct x; try reflexivity. congruence.
Qed.
Lemma what_noexcept e x : what_of (printers_of e) <> Throw x.
Proof.
  destruct e; try discriminate. rewrite stacked_what.
  destruct (t <- _ ;; _) as [t|[]| | | |]; discriminate.
Qed.
Lemma over_method o e l : over gnu o e l -> forall ind,
  exists t, lists ind l t /\ method_of (printers_of e) ind = (r <- tail_of (Some o) ind ;; Ok (t ++ newline ++ r)).
Proof.
  induction 1 as [name nesting l S M|name nesting l e l' S M V IH]; intro ind.
  - destruct (to_string_complete nesting l [] M S) as (h & E & L). exists (ind ++ h).
    split; [apply lists_reprefix; exact L|]. rewrite stacked_method, E. cbn [bind].
    destruct (tail_of (Some o) ind); cbn [bind]; try reflexivity. rewrite <- app_assoc. reflexivity.
  - destruct (to_string_complete nesting l [] M S) as (h & E & L). destruct (IH ind) as (t & Lt & Et).
    exists ((ind ++ h) ++ newline ++ t). split; [eapply lists_then; [apply lists_reprefix; exact L|exact Lt|auto]|].
    rewrite stacked_method, E. cbn [bind].
    replace (tail_of (Some e) ind) with (method_of (printers_of e) ind) by (destruct V; reflexivity). rewrite Et.
    destruct (tail_of (Some o) ind); cbn [bind]; try reflexivity. rewrite <- !app_assoc. reflexivity.
Qed.
Lemma over_own name what own base e l : over gnu (Own name what own base) e l -> forall ind,
  exists t, lists ind l t /\ method_of (printers_of e) ind = (r <- own ind ;; Ok (t ++ newline ++ r)).
Proof. intros V ind. exact (over_method _ _ _ V ind). Qed.
Lemma over_what name what own base e l : over gnu (Own name what own base) e l ->
  (forall r, own (zstr "- ") = Ok r -> exists t, lists (zstr "- ") l t /\
     what_of (printers_of e) = Ok (zstr "exception stack:" ++ newline ++ t ++ newline ++ r)) /\
  (own (zstr "- ") = Throw BadAlloc -> what_of (printers_of e) = Ok (zstr "std::bad_alloc")) /\
  (forall x, own (zstr "- ") = Throw x -> x <> BadAlloc -> what_of (printers_of e) = Ok (zstr "error")).
Proof.
  intro V. destruct (over_own _ _ _ _ _ _ V (zstr "- ")) as (t & L & E).
  assert (X : exists n g d b, e = Stacked n g d b) by (destruct V; eauto 6). destruct X as (n & g & d & b & ->).
  destruct (stacked_what_cases n g d b) as (A & B & C). split; [|split].
  - intros r R. rewrite R in E. exists t. split; [exact L|]. apply A. exact E.
  - intro R. rewrite R in E. apply B. exact E.
  - intros x R N. rewrite R in E. eapply C; [exact E|exact N].
Qed.

Section Throwing.
Variable stacked_name : text -> text.
Local Notation throw_with_nested := (throw_with_nested stacked_name).
Local Notation rethrow := (rethrow stacked_name).
Lemma throw_single dbg e x : single x -> exists name, throw_with_nested dbg (Some e) x = Ok (Stacked name x (Some e) NoNested).
Proof.
  intro S. unfold ExceptModel.throw_with_nested, assert_. cbn [negb]. rewrite Bool.andb_false_r. cbn [bind].
  destruct x as [c n w [| |]|n w own [| |]|]; try contradiction; eauto.
Qed.
Lemma rethrow_members dbg : forall es e l, members e l -> is_own e = false -> Forall single es ->
  exists e', rethrow dbg e es = Ok e' /\ members e' (rev (map full_entry es) ++ l).
Proof.
  induction es as [|x es IH]; intros e l M O S.
  - exists e. split; [reflexivity|exact M].
  - inversion S as [|y ys Sx Ss]; subst. cbn [ExceptModel.rethrow]. destruct (throw_single dbg e x Sx) as (n & ->). cbn [bind map rev].
    rewrite <- app_assoc. destruct (single_members x Sx) as [Mx Dx]. apply IH; [|reflexivity|exact Ss].
    apply (members_stacked gnu n x e [full_entry x] l); assumption.
Qed.
Lemma rethrow_over dbg o : forall es, Forall single es -> es <> [] ->
  exists e, rethrow dbg o es = Ok e /\ over gnu o e (rev (map full_entry es)).
Proof.
  assert (G : forall es e l, over gnu o e l -> Forall single es ->
    exists e', rethrow dbg e es = Ok e' /\ over gnu o e' (rev (map full_entry es) ++ l)).
  { induction es as [|x es IH]; intros e l V S; [exists e; split; [reflexivity|exact V]|].
    inversion S as [|y ys Sx Ss]; subst. cbn [ExceptModel.rethrow]. destruct (throw_single dbg e x Sx) as (n & ->). cbn [bind map rev].
    rewrite <- app_assoc. destruct (single_members x Sx) as [Mx Dx]. apply IH; [|exact Ss].
    apply (over_more gnu o n x [full_entry x] e l); assumption. }
  intros es S N. destruct es as [|x es]; [congruence|].
  inversion S as [|y ys Sx Ss]; subst. cbn [ExceptModel.rethrow]. destruct (throw_single dbg o x Sx) as (n & ->). cbn [bind map rev].
  destruct (single_members x Sx) as [Mx Dx]. apply G; [|exact Ss]. constructor; assumption.
Qed.
Lemma rethrow_stack dbg e : is_utki e = false -> plain e -> forall es, Forall single es -> es <> [] ->
  exists e', rethrow dbg e es = Ok e' /\ stack e'.
Proof.
  intros U P.
  assert (G : forall es e, stack e -> Forall single es -> exists e', rethrow dbg e es = Ok e' /\ stack e').
  { induction es as [|x es IH]; intros e0 K S; [exists e0; split; [reflexivity|exact K]|].
    inversion S as [|y ys Sx Ss]; subst. cbn [ExceptModel.rethrow]. destruct (throw_single dbg e0 x Sx) as (n & ->). cbn [bind].
    apply IH; [|exact Ss]. apply stack_more; assumption. }
  intros es S N. destruct es as [|x es]; [congruence|].
  inversion S as [|y ys Sx Ss]; subst. cbn [ExceptModel.rethrow]. destruct (throw_single dbg e x Sx) as (n & ->). cbn [bind].
  apply G; [|exact Ss]. apply stack_top; assumption.
Qed.
Lemma throw_outside e : single e ->
  throw_with_nested true None e = Abort /\
  exists e', throw_with_nested false None e = Ok e' /\ what_of (printers_of e') = Terminate /\ forall ind, method_of (printers_of e') ind = Terminate.
Proof.
  intro S. split; [reflexivity|].
  assert (M : forall n ind, method_of (printers_of (Stacked n e None NoNested)) ind = Terminate).
  { intros n ind. rewrite stacked_method, single_to_string by exact S. reflexivity. }
  assert (X : exists n, throw_with_nested false None e = Ok (Stacked n e None NoNested))
    by (destruct e as [c n w [| |]|n w own [| |]|]; try contradiction; eexists; reflexivity).
  destruct X as (n & ->). eexists. split; [reflexivity|]. split; [rewrite stacked_what, M; reflexivity|apply M].
Qed.
End Throwing.
End Compiler.

(** The parsers of Parser.v and Comments.v follow the grammar of the tags
    (GrammarText.v). *)

From Coq Require Import ZArith List String Ascii Bool Lia.
From Verif Require Import Base F64 Text Lexer Numeral Grammar Parser Comments GrammarText.
Import ListNotations.
Open Scope nat_scope.
Open Scope string_scope.
Open Scope list_scope.

(** ** Readings *)

Definition rest_of (o : outcome) : list token := match o with Took r => r | Missed r => r end.

Lemma committed_stop ts r : committed ts r <-> stop ts r = true.
Proof. unfold committed, stop. rewrite Nat.ltb_lt. lia. Qed.
Lemma not_committed ts r : ~ committed ts r <-> stop ts r = false.
Proof. rewrite committed_stop. destruct (stop ts r); split; congruence. Qed.
Lemma committed_same ts : ~ committed ts ts.
Proof. unfold committed. lia. Qed.

(** What is left is an end of what was there. *)
Lemma reads_suffix g ts o : reads g ts o -> exists p, ts = p ++ rest_of o.
Proof.
  induction 1; cbn [rest_of] in *;
    repeat match goal with H : exists _, _ |- _ => destruct H as (? & ?) end; subst;
    try (now exists []); try (now (eexists [_])); eauto.
  - eexists. now rewrite app_assoc.
  - eexists. now rewrite app_assoc.
Qed.

(** There is one reading. *)
Lemma reads_once g ts o : reads g ts o -> forall o', reads g ts o' -> o = o'.
Proof.
  induction 1; intros o' R; inversion R; subst; try reflexivity; try congruence;
    try (exfalso; match goal with H : forall _ _, _ = _ -> _ |- _ => now eapply H end);
    repeat match goal with
    | E : grammar_of ?s = Some ?n, E' : grammar_of ?s = Some ?m |- _ =>
        first [constr_eq n m; fail 1 | assert (n = m) by congruence; subst]
    | IH : forall o', reads ?g ?ts o' -> _ = o', Q : reads ?g ?ts _ |- _ =>
        lazymatch goal with
        | _ => apply IH in Q
        end
    end; try congruence; auto;
    try match goal with Q : _ = _ |- _ => injection Q as <- end; auto; contradiction.
Qed.

Lemma all_app a b ts o :
  reads (NAll (a ++ b)) ts o ->
  (exists r, reads (NAll a) ts (Took r) /\ reads (NAll b) r o) \/
  (exists r, reads (NAll a) ts (Missed r) /\ o = Missed r).
Proof.
  revert ts. induction a as [|n a IH]; intros ts R.
  - left. exists ts. split; [constructor|exact R].
  - cbn [app] in R. inversion R; subst.
    + apply IH in H4 as [(r' & A & B)|(r' & A & ->)].
      * left. exists r'. split; [eapply R_all; eauto|exact B].
      * right. exists r'. split; [eapply R_all; eauto|reflexivity].
    + right. exists r. split; [now apply R_all_fails|reflexivity].
Qed.
Lemma any_app_took a b ts r : reads (NAny a) ts (Took r) -> reads (NAny (a ++ b)) ts (Took r).
Proof.
  induction a as [|n a IH]; intro R; inversion R; subst; cbn [app].
  - now apply R_this.
  - eapply R_other; eauto.
Qed.
Lemma any_app_fails a b ts r : committed ts r -> reads (NAny a) ts (Missed r) -> reads (NAny (a ++ b)) ts (Missed r).
Proof.
  intro C. induction a as [|n a IH]; intro R; inversion R; subst; cbn [app].
  - now apply committed_same in C.
  - eapply R_other; eauto.
  - now apply R_any_fails.
Qed.
Lemma any_app_next a b ts o : reads (NAny a) ts (Missed ts) -> reads (NAny b) ts o -> reads (NAny (a ++ b)) ts o.
Proof.
  intros R Q. induction a as [|n a IH]; inversion R; subst; cbn [app].
  - exact Q.
  - eapply R_other; eauto.
  - now apply committed_same in H4.
Qed.

(** ** Following a grammar *)

(** On texts that satisfy Q, p does what the grammar says. *)
Definition follows {A} (Q : list token -> Prop) (p : parser A) (g : node) : Prop :=
  forall ts, Q ts ->
    match p ts with
    | POk _ r => reads g ts (Took r)
    | PFail r => reads g ts (Missed r)
    | PFuel => True
    end.
(** The same for what is one of several alternatives. *)
Definition among {A} (Q : list token -> Prop) (p : parser A) (gs : list node) : Prop :=
  forall ts, Q ts ->
    match p ts with
    | POk _ r => reads (NAny gs) ts (Took r)
    | PFail r => reads (NAny gs) ts (Missed (if stop ts r then r else ts))
    | PFuel => True
    end.

Section Follow.
  Variable Q : list token -> Prop.
  Hypothesis ends_too : forall p ts, Q (p ++ ts) -> Q ts.

  Lemma left_too g ts o : reads g ts o -> Q ts -> Q (rest_of o).
  Proof. intros R H. apply reads_suffix in R as (p & ->). eauto. Qed.
  Lemma took_too g ts r : reads g ts (Took r) -> Q ts -> Q r.
  Proof. apply left_too. Qed.

  Lemma f_tok t : follows Q (ptok t) (NToken t).
  Proof.
    intros ts _. unfold ptok. destruct ts as [|x r].
    - constructor. discriminate.
    - destruct (ttype_beq (tt x) t) eqn:E.
      + constructor. now apply internal_ttype_dec_bl.
      + constructor. intros y s [= <- <-] K. apply internal_ttype_dec_lb in K. congruence.
  Qed.
  Lemma f_lit v : follows Q (plit v) (NText v).
  Proof.
    intros ts _. unfold plit. destruct ts as [|x r].
    - constructor. discriminate.
    - destruct (String.eqb_spec (tv x) v) as [<-|N]; [constructor|].
      constructor. intros y s [= <- <-]. exact N.
  Qed.
  Lemma f_ret {A} (a : A) : follows Q (pret a) (NAll []).
  Proof. intros ts _. constructor. Qed.
  Lemma f_bind {A B} (p : parser A) (f : A -> parser B) g gs :
    follows Q p g -> (forall a, follows Q (f a) (NAll gs)) -> follows Q (pbind p f) (NAll (g :: gs)).
  Proof.
    intros P F ts H. unfold pbind. specialize (P ts H). destruct (p ts) as [a r|r|]; [|now apply R_all_fails|exact I].
    specialize (F a r (took_too _ _ _ P H)). destruct (f a r); [eapply R_all; eauto|eapply R_all; eauto|exact I].
  Qed.
  Lemma f_last {A} (p : parser A) g : follows Q p g -> follows Q p (NAll [g]).
  Proof.
    intros P ts H. specialize (P ts H). destruct (p ts) as [a r|r|]; [|now apply R_all_fails|exact I].
    eapply R_all; [exact P|constructor].
  Qed.
  Lemma f_map {A B} (p : parser A) (h : A -> B) g : follows Q p g -> follows Q (pbind p (fun a => pret (h a))) g.
  Proof. intros P ts H. specialize (P ts H). unfold pbind. destruct (p ts); exact P. Qed.
  Lemma f_struct {A} (p : parser A) s n : grammar_of s = Some n -> follows Q p n -> follows Q p (NStruct s).
  Proof. intros G P ts H. specialize (P ts H). destruct (p ts); [econstructor; eauto..|exact I]. Qed.
  Lemma f_keep {A} (p : parser A) f n : follows Q p n -> follows Q p (NKeep f n).
  Proof. intros P ts H. specialize (P ts H). destruct (p ts); [econstructor; eauto..|exact I]. Qed.
  Lemma f_opt {A} (p : parser A) g : follows Q p g -> follows Q (popt p) (NMaybe g).
  Proof.
    intros P ts H. specialize (P ts H). unfold popt. destruct (p ts) as [a r|r|]; [now constructor| |exact I].
    destruct (stop ts r) eqn:E.
    - apply R_maybe_fails; [exact P|]. now apply committed_stop.
    - eapply R_maybe_not; [exact P|]. now apply not_committed.
  Qed.
  Lemma f_star {A} (p : parser A) g : follows Q p g -> follows Q (pstar p) (NMany g).
  Proof.
    intros P. unfold pstar. intros ts. generalize (S (List.length ts)). intro n. revert ts.
    induction n as [|n IH]; intros ts H; [exact I|]. cbn [pstar_n].
    specialize (P ts H) as P'. destruct (p ts) as [a r|r|]; [| |exact I].
    - specialize (IH r (took_too _ _ _ P' H)). destruct (pstar_n n p r); [eapply R_more; eauto..|exact I].
    - destruct (stop ts r) eqn:E.
      + apply R_many_fails; [exact P'|]. now apply committed_stop.
      + eapply R_no_more; [exact P'|]. now apply not_committed.
  Qed.
  (** [{ g }] *)
  Lemma f_opt_star {A} (p : parser A) g : follows Q p (NMany g) -> follows Q p (NMaybe (NMany g)).
  Proof.
    intros P ts H. specialize (P ts H). destruct (p ts) as [a r|r|]; [now constructor| |exact I].
    apply R_maybe_fails; [exact P|]. revert P. clear. intro R.
    remember (NMany g) as m. remember (Missed r) as o. induction R; try discriminate; subst.
    - injection Heqm as ->. specialize (IHR2 eq_refl eq_refl).
      apply reads_suffix in R1 as (p & ->). unfold committed in *. cbn [rest_of]. rewrite app_length. lia.
    - injection Heqo as ->. assumption.
  Qed.
  Lemma f_inline {A} (p : parser A) hs gs : follows Q p (NAll (hs ++ gs)) -> follows Q p (NAll (NAll hs :: gs)).
  Proof.
    intros P ts H. specialize (P ts H).
    destruct (p ts) as [a r|r|]; [| |exact I]; apply all_app in P as [(m & X & Y)|(m & X & E)]; try discriminate.
    - eapply R_all; eauto.
    - eapply R_all; eauto.
    - injection E as ->. now apply R_all_fails.
  Qed.
  Lemma f_inline_struct {A} (p : parser A) f s hs gs :
    grammar_of s = Some (NAll hs) -> follows Q p (NAll (hs ++ gs)) -> follows Q p (NAll (NKeep f (NStruct s) :: gs)).
  Proof.
    intros G P ts H. specialize (P ts H).
    destruct (p ts) as [a r|r|]; [| |exact I]; apply all_app in P as [(m & X & Y)|(m & X & E)]; try discriminate.
    - eapply R_all; [apply R_keep; econstructor; eauto|eauto].
    - eapply R_all; [apply R_keep; econstructor; eauto|eauto].
    - injection E as ->. apply R_all_fails, R_keep. econstructor; eauto.
  Qed.

  Lemma a_one {A} (p : parser A) g : follows Q p g -> among Q p [g].
  Proof.
    intros P ts H. specialize (P ts H). destruct (p ts) as [a r|r|]; [now constructor| |exact I].
    destruct (stop ts r) eqn:E.
    - apply R_any_fails; [exact P|]. now apply committed_stop.
    - eapply R_other; [exact P|now apply not_committed|constructor].
  Qed.
  Lemma a_app {A} (p q : parser A) gs hs : among Q p gs -> among Q q hs -> among Q (alt p q) (gs ++ hs).
  Proof.
    intros P P' ts H. specialize (P ts H). specialize (P' ts H). unfold alt.
    destruct (p ts) as [a r|r|]; [now apply any_app_took| |exact I].
    destruct (stop ts r) eqn:E.
    - rewrite E. apply any_app_fails; [now apply committed_stop|exact P].
    - destruct (q ts) as [a s|s|]; [now apply any_app_next| |exact I].
      destruct (stop ts s) eqn:E'.
      + rewrite E'. now apply any_app_next.
      + replace (if stop ts ts then ts else ts) with ts by now destruct (stop ts ts). now apply any_app_next.
  Qed.
  Lemma a_cons {A} (p q : parser A) g hs : follows Q p g -> among Q q hs -> among Q (alt p q) (g :: hs).
  Proof. intros P P'. apply (a_app p q [g] hs); [now apply a_one|exact P']. Qed.
  Lemma f_alt {A} (p q : parser A) gs : among Q (alt p q) gs -> follows Q (alt p q) (NAny gs).
  Proof.
    intros P ts H. specialize (P ts H). destruct (alt p q ts) as [a r|r|] eqn:E; try exact P.
    unfold alt in E. destruct (stop ts r) eqn:S; [exact P|].
    destruct (p ts) as [a s|s|]; [discriminate| |discriminate].
    destruct (stop ts s) eqn:S'; [congruence|].
    destruct (q ts) as [a u|u|]; [discriminate| |discriminate].
    destruct (stop ts u) eqn:S''; [congruence|]. injection E as <-. exact P.
  Qed.
  Lemma f_list {A} (p : parser A) g :
    follows Q p g -> follows Q (plist p) (NMaybe (NAll [g; NMany (NAll [NText ","; g])])).
  Proof.
    intro P. unfold plist. apply f_map, f_opt. apply f_bind; [exact P|]. intro a. apply f_bind; [|intro; apply f_ret].
    apply f_star. apply f_bind; [apply f_lit|]. intros _. now apply f_last.
  Qed.
  Lemma f_limit : follows Q plimit (NAll [NToken T_LIMIT; NKeep "Limit" (NInt64 T_Number)]).
  Proof.
    intros ts H. unfold plimit, pbind. pose proof (f_tok T_LIMIT ts H) as P.
    destruct (ptok T_LIMIT ts) as [a r|r|]; [|now apply R_all_fails|exact I].
    pose proof (f_tok T_Number r (took_too _ _ _ P H)) as P'. unfold ptok in *.
    destruct r as [|x r].
    - eapply R_all; [exact P|]. apply R_all_fails, R_keep. constructor. discriminate.
    - destruct (ttype_beq (tt x) T_Number) eqn:E.
      + apply internal_ttype_dec_bl in E. destruct (parse_int (tv x)) eqn:Z.
        * eapply R_all; [exact P|]. eapply R_all; [apply R_keep; now econstructor; eauto|constructor].
        * eapply R_all; [exact P|]. apply R_all_fails, R_keep. now apply R_not_int64.
      + eapply R_all; [exact P|]. apply R_all_fails, R_keep. constructor.
        intros y s [= <- <-] K. apply internal_ttype_dec_lb in K. congruence.
  Qed.
End Follow.

Lemma f_assoc {A B C} Q (p : parser A) (f : A -> parser B) (h : B -> parser C) g :
  follows Q (a <~ p ;; b <~ f a ;; h b) g -> follows Q (pbind (pbind p f) h) g.
Proof.
  intros P ts H. specialize (P ts H). unfold pbind in *. destruct (p ts); exact P.
Qed.
Lemma f_ret_bind {A B} Q (a : A) (f : A -> parser B) g : follows Q (f a) g -> follows Q (pbind (pret a) f) g.
Proof. intros P ts H. exact (P ts H). Qed.

(** ** Without comments *)

(** No comment is there. *)
Definition plain (ts : list token) : Prop := Forall (fun t => is_comment t = false) ts.
Lemma plain_ends p ts : plain (p ++ ts) -> plain ts.
Proof. unfold plain. rewrite Forall_app. tauto. Qed.

Lemma no_comment ts : plain ts -> reads (NStruct "_Comment") ts (Missed ts).
Proof.
  intro P. eapply R_struct; [vm_compute; reflexivity|].
  assert (K : forall t, is_comment (Tok t "") = true -> reads (NToken t) ts (Missed ts)).
  { intros t T. constructor. intros x r -> <-. inversion P; subst. unfold is_comment in *. cbn in T. congruence. }
  repeat (eapply R_other; [apply R_keep, K; reflexivity|apply committed_same|]). constructor.
Qed.
Lemma f_skip {A} (p : parser A) f gs :
  follows plain p (NAll gs) -> follows plain p (NAll (NMaybe (NKeep f (NStruct "_Comment")) :: gs)).
Proof.
  intros P ts H. specialize (P ts H).
  destruct (p ts); [| |exact I]; (eapply R_all; [eapply R_maybe_not; [now apply R_keep, no_comment|apply committed_same]|exact P]).
Qed.
Lemma f_skips {A} (p : parser A) f gs :
  follows plain p (NAll gs) -> follows plain p (NAll (NMany (NKeep f (NStruct "_Comment")) :: gs)).
Proof.
  intros P ts H. specialize (P ts H).
  destruct (p ts); [| |exact I]; (eapply R_all; [eapply R_no_more; [now apply R_keep, no_comment|apply committed_same]|exact P]).
Qed.

(** One step along the grammar. *)
Ltac unroll s :=
  let b := eval vm_compute in (grammar_of s) in
  lazymatch b with
  | Some ?n => apply (f_struct _ _ s n); [vm_compute; reflexivity|]
  end.
Ltac unroll_into s :=
  let b := eval vm_compute in (grammar_of s) in
  lazymatch b with
  | Some (NAll ?n) => apply (f_inline_struct _ _ _ s n); [vm_compute; reflexivity|cbn [app]]
  end.
Ltac fw closed :=
  lazymatch goal with
  | |- follows _ ?p ?g =>
    first
    [ assumption
    | match goal with H : forall f : string, follows _ p _ |- _ => apply H end
    | apply f_map; assumption
    | lazymatch p with
      | pbind (pbind _ _) _ => apply f_assoc
      | pbind (pret _) _ => apply f_ret_bind
      end
    | lazymatch g with
      | NStruct ?s => unroll s
      | NKeep _ _ => apply f_keep
      | NAll (NAll _ :: _) => apply f_inline; cbn [app]
      | NAll (NKeep _ (NStruct "_SelectExpression") :: _) => unroll_into "_SelectExpression"
      | NAll [] => lazymatch p with pret _ => apply f_ret end
      | NAll (NMaybe (NKeep _ (NStruct "_Comment")) :: _) =>
          first [apply f_skip | apply f_bind; [exact closed| |intro]]
      | NAll (NMany (NKeep _ (NStruct "_Comment")) :: _) =>
          first [apply f_skips | apply f_bind; [exact closed| |intro]]
      | NAll (_ :: _) => lazymatch p with pbind _ _ => apply f_bind; [exact closed| |intro] | _ => apply f_last end
      | NAny _ => lazymatch p with alt _ _ => apply f_alt end
      | NMaybe (NMany _) => apply f_opt_star
      | NMaybe (NAll [NToken T_LIMIT; _]) => apply f_opt, f_limit; exact closed
      | NMaybe _ =>
          lazymatch p with
          | popt _ => apply f_opt
          | plist _ => apply f_list; [exact closed|]
          end
      | NMany _ => lazymatch p with pstar _ => apply f_star; [exact closed|] end
      | NToken _ => lazymatch p with ptok _ => apply f_tok end
      | NText _ => lazymatch p with plit _ => apply f_lit end
      end
    | lazymatch p with pbind _ (fun a => pret _) => apply f_map end ]
  | |- among _ (alt _ _) (_ :: _) => apply a_cons
  | |- among _ _ [_] => apply a_one
  end.

Section Expressions.
  Variable pv : parser gvalue.
  Hypothesis PV : follows plain pv (NStruct "_Value").
  Local Ltac go := repeat fw plain_ends.

  Lemma f_mterm : follows plain (pmterm pv) (NStruct "_OpMembershipTerm").
  Proof. unfold pmterm. go. Qed.
  Lemma f_member : follows plain (pmember pv) (NStruct "_MemberExpression").
  Proof. pose proof f_mterm. unfold pmember. go. Qed.
  Lemma f_mul : follows plain (pmul pv) (NStruct "_MultiplicationExpression").
  Proof. pose proof f_member. unfold pmul. go. Qed.
  Lemma f_add : follows plain (padd pv) (NStruct "_AdditionExpression").
  Proof. pose proof f_mul. unfold padd. go. Qed.
  Lemma f_cmpop Q : follows Q pcmpop
    (NAny [NText "<>"; NText "<="; NText ">="; NText "="; NText "<"; NText ">"; NText "!="; NToken T_IN; NText "=~"]).
  Proof.
    unfold pcmpop. apply f_alt.
    apply (a_app Q _ _ [NText "<>"; NText "<="; NText ">="; NText "="; NText "<"; NText ">"; NText "!="]
                       [NToken T_IN; NText "=~"]).
    - cbn [plits]. repeat (apply a_cons; [apply f_lit|]). apply a_one, f_lit.
    - apply a_cons; [apply f_tok|]. apply a_one, f_lit.
  Qed.
  Lemma f_cond n : follows plain (pcond pv n) (NStruct "_ConditionOperand").
  Proof.
    pose proof f_add. pose proof (f_cmpop plain). induction n as [|n IH]; [intros ts _; exact I|]. cbn [pcond]. go.
  Qed.
  Lemma f_or n : follows plain (por pv n) (NStruct "_OrExpression").
  Proof. pose proof (f_cond n). unfold por. go. Qed.
  Lemma f_and n : follows plain (pand pv n) (NStruct "_AndExpression").
  Proof. pose proof (f_or n). unfold pand. go. Qed.
  Lemma f_comma n : follows plain (pcomma pv n) (NStruct "_CommaExpression").
  Proof. pose proof (f_and n). unfold pcomma. go. Qed.
End Expressions.

Section Knot.
  Variable n : nat.
  Variable pv : parser gvalue.
  Variable ps : parser gselect.
  Hypothesis PV : follows plain pv (NStruct "_Value").
  Hypothesis PS : follows plain ps (NStruct "_Select").
  Local Ltac go :=
    pose proof (f_and pv PV n); pose proof (f_comma pv PV n); repeat fw plain_ends.

  Lemma f_arg : follows plain (parg n pv ps) (NStruct "_Args").
  Proof. unfold parg. go. Qed.
  Lemma f_symref : follows plain (psymref n pv ps) (NStruct "_SymbolRef").
  Proof. pose proof f_arg. unfold psymref, ppath. go. Qed.
  Lemma f_value_step : follows plain (pvalue_step n pv ps) (NStruct "_Value").
  Proof. pose proof f_symref. unfold pvalue_step. go. Qed.
  Lemma f_col : follows plain (pcol n pv ps) (NStruct "_AliasedExpression").
  Proof. unfold pcol, palias. go. Qed.
  Lemma f_plugin : follows plain (pplugin n pv ps) (NStruct "Plugin").
  Proof. pose proof f_arg. unfold pplugin, ppath. go. Qed.
  Lemma f_select_step : follows plain (pselect_step n pv ps) (NStruct "_Select").
  Proof. pose proof f_col. pose proof f_plugin. unfold pselect_step. go. Qed.
  Lemma f_param : follows plain (pparam n pv ps) (NStruct "LetParameter").
  Proof. pose proof f_arg. unfold pparam. go. Qed.
  Lemma f_vql_step : follows plain (pvql_step n pv ps) (NStruct "VQL").
  Proof. pose proof f_param. unfold pvql_step. go. Qed.
End Knot.

Lemma f_knot n : follows plain (pvalue n) (NStruct "_Value") /\ follows plain (pselect n) (NStruct "_Select").
Proof.
  unfold pvalue, pselect. induction n as [|n (V & S)]; [split; intros ts _; exact I|].
  cbn [pknot]. destruct (pknot n) as (pv, ps). cbn [fst snd] in *.
  split; [now apply f_value_step|now apply f_select_step].
Qed.
Lemma f_vql n : follows plain (pvql n) (NStruct "VQL").
Proof. apply f_vql_step; apply f_knot. Qed.
Lemma f_multi n k : follows plain (pmulti k n) (NStruct "MultiVQL").
Proof.
  pose proof (f_vql n). induction k as [|k IH]; [intros ts _; exact I|]. cbn [pmulti].
  repeat fw plain_ends.
Qed.

(** ** With comments *)

Definition anything (ts : list token) : Prop := True.
Lemma anything_ends p ts : anything (p ++ ts) -> anything ts.
Proof. trivial. Qed.

Lemma f_comment : follows anything pcomment (NStruct "_Comment").
Proof. unfold pcomment. repeat fw anything_ends. Qed.
Lemma f_com1 f : follows anything pcom1 (NMaybe (NKeep f (NStruct "_Comment"))).
Proof. unfold pcom1. apply f_map, f_opt, f_keep, f_comment. Qed.
Lemma f_coms f : follows anything pcoms (NMany (NKeep f (NStruct "_Comment"))).
Proof. unfold pcoms. apply f_star; [exact anything_ends|apply f_keep, f_comment]. Qed.

Section KExpressions.
  Variable pv : parser kvalue.
  Hypothesis PV : follows anything pv (NStruct "_Value").
  Local Ltac go := pose proof f_com1; pose proof f_coms; repeat fw anything_ends.

  Lemma f_kmterm : follows anything (pkmterm pv) (NStruct "_OpMembershipTerm").
  Proof. unfold pkmterm. go. Qed.
  Lemma f_kmember : follows anything (pkmember pv) (NStruct "_MemberExpression").
  Proof. pose proof f_kmterm. unfold pkmember. go. Qed.
  Lemma f_kmul : follows anything (pkmul pv) (NStruct "_MultiplicationExpression").
  Proof. pose proof f_kmember. unfold pkmul. go. Qed.
  Lemma f_kadd : follows anything (pkadd pv) (NStruct "_AdditionExpression").
  Proof. pose proof f_kmul. unfold pkadd. go. Qed.
  Lemma f_kcond n : follows anything (pkcond pv n) (NStruct "_ConditionOperand").
  Proof.
    pose proof f_kadd. pose proof (f_cmpop anything).
    induction n as [|n IH]; [intros ts _; exact I|]. cbn [pkcond]. go.
  Qed.
  Lemma f_kor n : follows anything (pkor pv n) (NStruct "_OrExpression").
  Proof. pose proof (f_kcond n). unfold pkor. go. Qed.
  Lemma f_kand n : follows anything (pkand pv n) (NStruct "_AndExpression").
  Proof. pose proof (f_kor n). unfold pkand. go. Qed.
  Lemma f_kterm n : follows anything (pkterm pv n) (NStruct "_OpArrayTerm").
  Proof. pose proof (f_kand n). unfold pkterm. go. Qed.
  Lemma f_kcomma n : follows anything (pkcomma pv n) (NStruct "_CommaExpression").
  Proof. pose proof (f_kand n). pose proof (f_kterm n). unfold pkcomma. go. Qed.
End KExpressions.

Section KKnot.
  Variable n : nat.
  Variable pv : parser kvalue.
  Variable ps : parser kselect.
  Hypothesis PV : follows anything pv (NStruct "_Value").
  Hypothesis PS : follows anything ps (NStruct "_Select").
  Local Ltac go :=
    pose proof f_com1; pose proof f_coms;
    pose proof (f_kand pv PV n); pose proof (f_kcomma pv PV n); repeat fw anything_ends.

  Lemma f_karg : follows anything (pkarg n pv ps) (NStruct "_Args").
  Proof. unfold pkarg. go. Qed.
  Lemma f_ksymref : follows anything (pksymref n pv ps) (NStruct "_SymbolRef").
  Proof. pose proof f_karg. unfold pksymref, ppath. go. Qed.
  Lemma f_kvalue_step : follows anything (pkvalue_step n pv ps) (NStruct "_Value").
  Proof. pose proof f_ksymref. unfold pkvalue_step. go. Qed.
  Lemma f_kcol : follows anything (pkcol n pv ps) (NStruct "_AliasedExpression").
  Proof. unfold pkcol, palias. go. Qed.
  Lemma f_kplugin : follows anything (pkplugin n pv ps) (NStruct "Plugin").
  Proof. pose proof f_karg. unfold pkplugin, ppath. go. Qed.
  Lemma f_kselect_step : follows anything (pkselect_step n pv ps) (NStruct "_Select").
  Proof. pose proof f_kcol. pose proof f_kplugin. unfold pkselect_step. go. Qed.
  Lemma f_kparam : follows anything (pkparam n pv ps) (NStruct "LetParameter").
  Proof. pose proof f_karg. unfold pkparam. go. Qed.
  Lemma f_kvql_step : follows anything (pkvql_step n pv ps) (NStruct "VQL").
  Proof. pose proof f_kparam. unfold pkvql_step. go. Qed.
End KKnot.

Lemma f_kknot n : follows anything (pkvalue n) (NStruct "_Value") /\ follows anything (pkselect n) (NStruct "_Select").
Proof.
  unfold pkvalue, pkselect. induction n as [|n (V & S)]; [split; intros ts _; exact I|].
  cbn [pkknot]. destruct (pkknot n) as (pv, ps). cbn [fst snd] in *.
  split; [now apply f_kvalue_step|now apply f_kselect_step].
Qed.
Lemma f_kvql n : follows anything (pkvql n) (NStruct "VQL").
Proof. apply f_kvql_step; apply f_kknot. Qed.
Lemma f_kmulti n k : follows anything (pkmulti k n) (NStruct "MultiVQL").
Proof.
  pose proof (f_kvql n). pose proof f_coms. induction k as [|k IH]; [intros ts _; exact I|]. cbn [pkmulti].
  repeat fw anything_ends.
Qed.

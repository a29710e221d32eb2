(** C100: the laws of scripts whose queries may group. *)

From Coq Require Import ZArith List String Bool Lia PeanoNat.
From Verif Require Import Base Value Protocols Monad Range Flatten Syntax Eval Runs PureSpec PureEval PureSelect
  SelectProps Laws Laws2 Demo Para GroupSpec GroupEval GroupProps ScriptProps ScriptLawsProps ScriptGroupProps.
Import ListNotations.
Open Scope nat_scope.
Open Scope list_scope.

(** ** Specification *)

(** The variables that a query mentions, its GROUP BY included. *)
Definition any_query_names (depth : nat) (q : select) : list string :=
  match q with
  | Select _ cols from w (Some g) _ _ =>
      from_names (query_names depth) from ++
      flat_map (fun c => column_names (query_names depth) (snd c)) cols ++
      match w with Some w => names w | None => [] end ++ names g
  | _ => query_names depth q
  end.
Definition any_stmt_names (depth : nat) (q : stmt) : list string :=
  match q with
  | SLet _ _ _ (LExpr e) => names e
  | SLet _ _ _ (LSelect q) | SQuery _ q => any_query_names depth q
  end.
Definition any_script_names (depth : nat) (l : list stmt) : list string := flat_map (any_stmt_names depth) l.

(** Both scripts run, with these results for their queries, and no effect that
    could be observed. *)
Definition both_do (E : env) (sc : scope) (s : st) (l l' : list stmt) (outs : list (list dict)) : Prop :=
  (exists sc1 s1, evaluates (fun n => run_stmts (ev E n) sc l) s s1 (sc1, map (map VDict) outs) /\ trace s1 = trace s) /\
  (exists sc2 s2, evaluates (fun n => run_stmts (ev E n) sc l') s s2 (sc2, map (map VDict) outs) /\ trace s2 = trace s).

Section C100.
  Variables (E : env) (funs : string -> option (dict -> option val)) (owner : nat -> string).
  Hypothesis FOK : funs_ok E funs.

  (** ** Proofs *)

  Lemma item_names : forall e row fr fr', agree (names e) fr fr' -> item E funs fr e row = item E funs fr' e row.
  Proof. intros e row fr fr' A. unfold item. now rewrite (den_names E funs e (row :: fr) (row :: fr') (agree_cons _ _ _ _ A)). Qed.

  Lemma over_names : forall e rows fr fr', agree (names e) fr fr' -> over E funs fr rows e = over E funs fr' rows e.
  Proof.
    intros e. induction e using expr_ind'; intros rows fr fr' A.
    - cbn [over agg_call]. apply den_names. now apply agree_cons.
    - destruct (agg_call (ESym node neg path called params)) as [[[nd a] x]|] eqn:EA.
      + cbn [over]. rewrite EA. f_equal. f_equal. apply map_ext. intros r. apply item_names.
        apply agg_call_inv in EA as (ps & EQ & [(-> & -> & ->)| -> ]); injection EQ as -> -> -> -> ->.
        * intros y [].
        * intros y HY. apply A. cbn. now rewrite app_nil_r.
      + cbn [over]. rewrite EA. 
        assert (DN : den E funs (List.last rows [] :: fr) (ESym node neg path called params) =
                     den E funs (List.last rows [] :: fr') (ESym node neg path called params))
          by (apply den_names, agree_cons; exact A).
        destruct neg; [exact DN|]. destruct path as [|f [|? ?]]; try exact DN. destruct called; try exact DN.
        clear DN. cbn [names] in A. apply agree_app in A as [_ A].
        destruct (funs f) as [F|]; [|reflexivity]. cbn [obind]. f_equal. f_equal.
        eapply map_same; [exact H|]. intros [name a] I HP. cbn [snd on_arg] in HP.
        pose proof (agree_flat _ _ _ _ _ A _ I) as AA. cbn beta iota in AA.
        destruct a; cbn in HP; try reflexivity; f_equal; [|now apply HP].
        apply den_names, agree_cons. exact AA.
    - cbn [over agg_call names] in *. apply agree_app in A as [A1 A2]. rewrite (IHe rows fr fr' A1).
      destruct (over E funs fr' rows e); [|reflexivity]. cbn [obind]. f_equal. f_equal.
      eapply map_same; [exact H|]. intros [e'|] I HP; [|reflexivity]. f_equal. apply HP.
      exact (agree_flat _ _ _ _ _ A2 _ I).
    - cbn [over agg_call names] in *. apply agree_app in A as [A1 A2]. rewrite (IHe rows fr fr' A1).
      destruct (over E funs fr' rows e); [|reflexivity]. cbn [obind]. apply den_names, agree_cons. exact A2.
    - cbn [over agg_call names] in *. apply agree_app in A as [A1 A2]. rewrite (IHe rows fr fr' A1).
      destruct (over E funs fr' rows e); [|reflexivity]. cbn [obind]. apply den_names, agree_cons. exact A2.
    - cbn [over agg_call names] in *. apply agree_app in A as [A1 A2]. rewrite (IHe rows fr fr' A1).
      destruct (over E funs fr' rows e); [|reflexivity]. cbn [obind]. f_equal. f_equal.
      eapply map_same; [exact H|]. intros oe I HP. f_equal. apply HP. exact (agree_flat _ _ _ _ _ A2 _ I).
    - cbn [over agg_call names] in *. apply agree_app in A as [A1 A2]. rewrite (IHe rows fr fr' A1).
      destruct (over E funs fr' rows e); [|reflexivity]. cbn [obind]. f_equal. f_equal.
      eapply map_same; [exact H|]. intros oe I HP. f_equal. apply HP. exact (agree_flat _ _ _ _ _ A2 _ I).
    - cbn [over agg_call names] in *. now rewrite (IHe rows fr fr' A).
    - cbn [over agg_call names] in *. apply agree_app in A as [A1 A2]. rewrite (IHe1 rows fr fr' A1).
      now rewrite (IHe2 rows fr fr' A2).
    - cbn [over agg_call names] in *. apply agree_app in A as [A1 A2]. rewrite (IHe rows fr fr' A1).
      destruct (over E funs fr' rows e); [|reflexivity]. cbn [obind]. apply den_names, agree_cons. exact A2.
  Qed.

  Section Query.
    Variable inner : select -> list string.
    Variables (fr fr' : list dict) (star : bool) (cols : list (string * colbody)) (where_ : option expr) (g : expr).
    Hypothesis AC : agree (flat_map (fun c => column_names inner (snd c)) cols) fr fr'.
    Hypothesis AW : agree (match where_ with Some w => names w | None => [] end) fr fr'.
    Hypothesis AG : agree (names g) fr fr'.

    Lemma shown_names : forall row, shown E funs fr star cols row = shown E funs fr' star cols row.
    Proof.
      intros row. unfold shown. revert AC. generalize (if star then fields row else []) as acc. clear.
      induction cols as [|[k b] l IH]; intros acc A; [reflexivity|]. cbn [flat_map snd] in A. apply agree_app in A as [A1 A2].
      cbn [columns_of]. rewrite IH by exact A2. f_equal. destruct (String.eqb k "*"); [reflexivity|]. f_equal.
      unfold col_val, column. destruct b as [|q|e]; try reflexivity. cbn [column_names] in A1.
      now rewrite (den_names E funs e (row :: fr) (row :: fr') (agree_cons _ _ _ _ A1)).
    Qed.

    Lemma keyed_names : forall rows, keyed E funs fr star cols where_ g rows = keyed E funs fr' star cols where_ g rows.
    Proof.
      induction rows as [|row rows IH]; [reflexivity|]. cbn [keyed]. rewrite IH, shown_names.
      replace (holds E funs fr (shown E funs fr' star cols row) row where_)
        with (holds E funs fr' (shown E funs fr' star cols row) row where_).
      - rewrite (den_names E funs g (shown E funs fr' star cols row :: row :: fr) (shown E funs fr' star cols row :: row :: fr'));
          [reflexivity|]. now do 2 apply agree_cons.
      - unfold holds. destruct where_ as [w|]; [|reflexivity]. f_equal. symmetry. apply den_names. now do 2 apply agree_cons.
    Qed.

    Lemma result_names : forall rows, result_row E funs fr star cols rows = result_row E funs fr' star cols rows.
    Proof.
      intros rows. unfold result_row. revert AC. generalize (if star then fields (List.last rows []) else []) as acc. clear.
      induction cols as [|[k b] l IH]; intros acc A; [reflexivity|]. cbn [flat_map snd] in A. apply agree_app in A as [A1 A2].
      cbn [group_columns]. replace (group_value E funs fr rows b) with (group_value E funs fr' rows b).
      - destruct (group_value E funs fr' rows b); [|reflexivity]. cbn [obind]. now apply IH.
      - unfold group_value. destruct b as [|q|e]; try reflexivity. cbn [column_names] in A1. now rewrite (over_names e rows fr fr' A1).
    Qed.

    Lemma group_names : forall rows, group_select E funs fr star cols where_ g rows = group_select E funs fr' star cols where_ g rows.
    Proof.
      intros rows. unfold group_select. rewrite keyed_names. destruct (keyed E funs fr' star cols where_ g rows); [|reflexivity].
      cbn [obind]. f_equal. apply map_ext. intros k. apply result_names.
    Qed.

    Lemma defined_names : forall l pre, all_defined E funs fr star cols pre l -> all_defined E funs fr' star cols pre l.
    Proof.
      induction l as [|[k row] l IH]; intros pre H; [exact I|]. cbn [all_defined] in *.
      rewrite <- result_names. destruct H as [H1 H2]. auto.
    Qed.
  End Query.

  Variable depth : nat.

  Lemma means_agree : forall q fr fr' out, agree (any_query_names depth q) fr fr' ->
    query_means E funs owner depth fr q out -> query_means E funs owner depth fr' q out.
  Proof.
    intros q fr fr' out A H. destruct H as [q rows LQ HQ|star cols from where_ g orderby limit rows l groups sorted out
      AQ LW LG LF HS HK AD HG HO HL].
    - apply QM_plain; [exact LQ|]. eapply query_agree; [apply le_n| |exact HQ].
      destruct q as [star cols from where_ [g|] orderby limit]; [destruct depth; discriminate|]. exact A.
    - cbn [any_query_names] in A. apply agree_app in A as [A1 A]. apply agree_app in A as [A2 A].
      apply agree_app in A as [A3 A4].
      apply (QM_group E funs owner depth fr' star cols from where_ g orderby limit rows l groups sorted out); auto.
      + eapply (source_agree E funs (query_names depth) (query_rows E funs depth)); [|exact A1|exact HS].
        intros f f' q r AG Q. exact (query_agree E funs depth depth f f' q r (le_n _) AG Q).
      + rewrite <- (keyed_names (query_names depth) fr fr'); auto.
      + eapply defined_names; eauto.
      + rewrite <- (group_names (query_names depth) fr fr'); auto.
  Qed.

  Lemma does_agree : forall l fr fr' fr1 outs, agree (any_script_names depth l) fr fr' ->
    script_does E funs owner depth fr l fr1 outs -> exists fr2, script_does E funs owner depth fr' l fr2 outs.
  Proof.
    intros l fr fr' fr1 outs A H. revert fr' A.
    induction H as [fr|fr x params e v rest fr1 outs LE HE D IH|fr x params q rows rest fr1 outs QM D IH
                   |fr text q rows rest fr1 outs QM D IH]; intros fr' A;
      try (unfold any_script_names in A; cbn [flat_map any_stmt_names] in A; apply agree_app in A as [A1 A2]).
    - exists fr'. apply SD_end.
    - destruct (IH ([(x, v)] :: fr')) as (f2 & H2); [now apply agree_cons|]. exists f2.
      eapply SD_expr; [exact LE| |exact H2]. now rewrite <- (den_names E funs e fr fr' A1).
    - destruct (IH ([(x, VQuery (map VDict rows))] :: fr')) as (f2 & H2); [now apply agree_cons|]. exists f2.
      eapply SD_assign; [|exact H2]. eapply means_agree; eauto.
    - destruct (IH fr' A2) as (f2 & H2). exists f2.
      eapply SD_query; [|exact H2]. eapply means_agree; [|exact QM]. now apply agree_cons.
  Qed.

  Let follows (l l' : list stmt) : Prop :=
    forall fr fr1 outs, script_does E funs owner depth fr l fr1 outs ->
      exists fr2, script_does E funs owner depth fr l' fr2 outs.

  Lemma does_after : forall pre l l', follows l l' -> follows (pre ++ l) (pre ++ l').
  Proof.
    intros pre l l' F. induction pre as [|q pre IH]; [exact F|]. intros fr fr1 outs H. cbn [app] in *.
    inversion H; subst.
    - match goal with H : script_does _ _ _ _ _ (pre ++ l) _ _ |- _ => destruct (IH _ _ _ H) as (f2 & SM2) end.
      exists f2. eapply SD_expr; eauto.
    - match goal with H : script_does _ _ _ _ _ (pre ++ l) _ _ |- _ => destruct (IH _ _ _ H) as (f2 & SM2) end.
      exists f2. eapply SD_assign; eauto.
    - match goal with H : script_does _ _ _ _ _ (pre ++ l) _ _ |- _ => destruct (IH _ _ _ H) as (f2 & SM2) end.
      exists f2. eapply SD_query; eauto.
  Qed.

  (** What an assignment assigns. *)
  Let assigns (body : letbody) (fr : list dict) (v : val) : Prop :=
    match body with
    | LExpr e => labelled owner e /\ den E funs fr e = Some v
    | LSelect q => exists rows, query_means E funs owner depth fr q rows /\ v = VQuery (map VDict rows)
    end.

  Lemma does_assign : forall z p body l fr fr1 outs,
    script_does E funs owner depth fr (SLet z p false body :: l) fr1 outs <->
    exists v, assigns body fr v /\ script_does E funs owner depth ([(z, v)] :: fr) l fr1 outs.
  Proof.
    intros z p body l fr fr1 outs. split.
    - intros H. inversion H; subst; eexists; split; try eassumption; cbn [assigns]; eauto.
    - intros (v & A & H). destruct body as [e|q]; cbn [assigns] in A.
      + destruct A. eapply SD_expr; eauto.
      + destruct A as (rows & QM & ->). eapply SD_assign; eauto.
  Qed.

  Lemma assigns_agree : forall z p body f f' v, agree (any_stmt_names depth (SLet z p false body)) f f' ->
    assigns body f v -> assigns body f' v.
  Proof.
    intros z p body f f' v A V. cbn [any_stmt_names] in A. destruct body as [e|q]; cbn [assigns] in *.
    - destruct V as [L V]. split; [exact L|]. now rewrite <- (den_names E funs e f f' A).
    - destruct V as (rows & QM & ->). exists rows. split; [|reflexivity]. eapply means_agree; eauto.
  Qed.

  Lemma both_follow : forall l l' sc fr fr1 outs s, follows l l' ->
    frames sc fr -> room_for (S depth) sc -> calls_ok E owner s -> ids_ok s ->
    script_does E funs owner depth fr l fr1 outs -> both_do E sc s l l' outs.
  Proof.
    intros l l' sc fr fr1 outs s F FR RM CO ID H. destruct (F fr fr1 outs H) as (fr2 & H'). split.
    - destruct (C101_script_does E funs owner FOK depth l sc fr fr1 outs s H FR RM CO ID) as (sc1 & s1 & EV & _ & T). eauto.
    - destruct (C101_script_does E funs owner FOK depth l' sc fr fr2 outs s H' FR RM CO ID) as (sc1 & s1 & EV & _ & T). eauto.
  Qed.

  (** The laws of ScriptLawsProps.v for the scripts of C101. *)
  Theorem C100_unused_assignment_group : forall sc fr fr1 pre x params body l outs s,
    frames sc fr -> room_for (S depth) sc -> calls_ok E owner s -> ids_ok s ->
    ~ In x (any_script_names depth l) ->
    script_does E funs owner depth fr (pre ++ SLet x params false body :: l) fr1 outs ->
    both_do E sc s (pre ++ SLet x params false body :: l) (pre ++ l) outs.
  Proof.
    intros sc fr fr1 pre x params body l outs s FR RM CO ID NI H.
    apply (both_follow _ _ _ fr fr1); auto. apply does_after. intros f f1 o SM.
    apply does_assign in SM as (v & _ & SM). eapply does_agree; [|exact SM]. now apply agree_without.
  Qed.

  Theorem C100_replaced_assignment_group : forall sc fr fr1 pre x params params' a b l outs s,
    frames sc fr -> room_for (S depth) sc -> calls_ok E owner s -> ids_ok s ->
    ~ In x (any_stmt_names depth (SLet x params' false b)) ->
    script_does E funs owner depth fr (pre ++ SLet x params false a :: SLet x params' false b :: l) fr1 outs ->
    both_do E sc s (pre ++ SLet x params false a :: SLet x params' false b :: l)
                   (pre ++ SLet x params' false b :: l) outs.
  Proof.
    intros sc fr fr1 pre x params params' a b l outs s FR RM CO ID NI H.
    apply (both_follow _ _ _ fr fr1); auto. apply does_after. intros f f1 o SM.
    apply does_assign in SM as (v & _ & SM). apply does_assign in SM as (w & AB & SM).
    destruct (does_agree l ([(x, w)] :: [(x, v)] :: f) ([(x, w)] :: f) f1 o) with (2 := SM) as (f2 & SM').
    - intros z _. destruct (String.string_dec z x) as [->|N].
      + cbn [lookup assoc]. now rewrite String.eqb_refl.
      + rewrite !lookup_other by congruence. reflexivity.
    - exists f2. apply does_assign. exists w. split; [|exact SM'].
      eapply (assigns_agree x params'); [|exact AB]. now apply agree_without.
  Qed.

  Theorem C100_exchange_assignments_group : forall sc fr fr1 pre x y params params' a b l outs s,
    frames sc fr -> room_for (S depth) sc -> calls_ok E owner s -> ids_ok s ->
    x <> y -> ~ In x (any_stmt_names depth (SLet y params' false b)) ->
    ~ In y (any_stmt_names depth (SLet x params false a)) ->
    script_does E funs owner depth fr (pre ++ SLet x params false a :: SLet y params' false b :: l) fr1 outs ->
    both_do E sc s (pre ++ SLet x params false a :: SLet y params' false b :: l)
                   (pre ++ SLet y params' false b :: SLet x params false a :: l) outs.
  Proof.
    intros sc fr fr1 pre x y params params' a b l outs s FR RM CO ID NE NX NY H.
    apply (both_follow _ _ _ fr fr1); auto. apply does_after. intros f f1 o SM.
    apply does_assign in SM as (v & VA & SM). apply does_assign in SM as (w & VB & SM).
    destruct (does_agree l ([(y, w)] :: [(x, v)] :: f) ([(x, v)] :: [(y, w)] :: f) f1 o) with (2 := SM) as (f2 & SM').
    - intros z _. destruct (String.string_dec z y) as [->|Ny].
      + rewrite (lookup_other x y) by exact NE. cbn [lookup assoc]. now rewrite String.eqb_refl.
      + rewrite (lookup_other y z) by congruence. destruct (String.string_dec z x) as [->|Nx].
        * cbn [lookup assoc]. now rewrite String.eqb_refl.
        * rewrite !lookup_other by congruence. reflexivity.
    - exists f2. apply does_assign. exists w. split.
      + eapply (assigns_agree y params'); [|exact VB]. now apply agree_without.
      + apply does_assign. exists v. split; [|exact SM'].
        eapply (assigns_agree x params); [|exact VA]. intros z HZ. symmetry. now apply (agree_without (any_stmt_names depth (SLet x params false a))).
  Qed.
End C100.

(** ** Concrete cases *)

Import Demo.
Open Scope string_scope.

(** The report of ScriptGroupProps.v with LET best <= … GROUP BY k, which
    nobody reads. *)
Definition best : stmt :=
  SLet "best" [] false (LSelect (Select false top_cols (from_var "t") None (Some (sym 20 "k")) (Some ("groups", true)) (Some 1%Z))).

Lemma demo_calls : calls_ok demo_env group_owner st0.
Proof. intros node f id H. vm_compute in H. discriminate. Qed.

Example C100_unused_group_demo : both_do demo_env group_scope st0 (best :: report) report report_results.
Proof.
  assert (SD : exists fr', script_does demo_env demo_funs group_owner 3 group_frames (best :: report) fr' report_results).
  { eexists. eapply SD_assign; [grouped|]. eapply SD_assign; [grouped|].
    eapply SD_query; [apply QM_plain; [repeat (constructor; cbn)|vm_compute; reflexivity]|].
    eapply SD_query; [grouped|]. apply SD_end. }
  destruct SD as (fr' & SD).
  apply (C100_unused_assignment_group demo_env demo_funs group_owner demo_funs_ok 3 group_scope group_frames fr' []); auto.
  - reflexivity.
  - unfold room_for. cbn. lia.
  - apply demo_calls.
  - apply fresh_ids.
  - cbn. intuition discriminate.
Qed.

Example C100_exchange_group_demo :
  exists sums rest, report = sums :: rest /\
  both_do demo_env group_scope st0 (best :: sums :: rest) (sums :: best :: rest) report_results.
Proof.
  eexists _, _. split; [reflexivity|].
  assert (SD : exists fr', script_does demo_env demo_funs group_owner 3 group_frames (best :: report) fr' report_results).
  { eexists. eapply SD_assign; [grouped|]. eapply SD_assign; [grouped|].
    eapply SD_query; [apply QM_plain; [repeat (constructor; cbn)|vm_compute; reflexivity]|].
    eapply SD_query; [grouped|]. apply SD_end. }
  destruct SD as (fr' & SD).
  apply (C100_exchange_assignments_group demo_env demo_funs group_owner demo_funs_ok 3 group_scope group_frames fr' []); auto.
  - reflexivity.
  - unfold room_for. cbn. lia.
  - apply demo_calls.
  - apply fresh_ids.
  - discriminate.
  - cbn. intuition discriminate.
  - cbn. intuition discriminate.
Qed.

Example C100_replaced_group_demo :
  exists sums rest, report = sums :: rest /\
  both_do demo_env group_scope st0 (SLet "sums" [] false (LExpr (lit 1)) :: sums :: rest) (sums :: rest) report_results.
Proof.
  eexists _, _. split; [reflexivity|].
  assert (SD : exists fr', script_does demo_env demo_funs group_owner 3 group_frames
                 (SLet "sums" [] false (LExpr (lit 1)) :: report) fr' report_results).
  { eexists. eapply SD_expr; [exact I|reflexivity|]. eapply SD_assign; [grouped|].
    eapply SD_query; [apply QM_plain; [repeat (constructor; cbn)|vm_compute; reflexivity]|].
    eapply SD_query; [grouped|]. apply SD_end. }
  destruct SD as (fr' & SD).
  apply (C100_replaced_assignment_group demo_env demo_funs group_owner demo_funs_ok 3 group_scope group_frames fr' [])
    with (params := []) (params' := []) (a := LExpr (lit 1)); auto.
  - reflexivity.
  - unfold room_for. cbn. lia.
  - apply demo_calls.
  - apply fresh_ids.
  - cbn. intuition discriminate.
Qed.

Print Assumptions C100_unused_assignment_group.
Print Assumptions C100_replaced_assignment_group.
Print Assumptions C100_exchange_assignments_group.

(** C101: scripts whose queries may group, order and limit. *)

From Coq Require Import ZArith List String Bool Lia PeanoNat.
From Verif Require Import Response ResponseProps Pipeline PipelineProofs PipelineProps.
From Verif Require Import Base Value Protocols Monad Range Flatten Syntax Eval Runs PureSpec PureEval PureSelect
  SelectProps SchedProps EndProps Demo Para GroupSpec GroupEval GroupProps ScriptProps Parser Elab.
Import ListNotations.
Open Scope nat_scope.
Open Scope list_scope.

(** ** Specification *)

Section Spec.
  Variables (E : env) (funs : string -> option (dict -> option val)) (owner : nat -> string) (depth : nat).

  (** ORDER BY: the host's sorter gets the rows with their keys. *)
  Definition in_order (orderby : option (string * bool)) (rows : list dict) : option (list dict) :=
    match orderby with
    | None => Some rows
    | Some (key, desc) =>
        dicts (map snd (env_sort E (sort_less E desc) (map (fun r => (found_key key r, VDict r)) rows)))
    end.

  (** LIMIT *)
  Definition first_of (limit : option Z) (rows : list dict) : option (list dict) :=
    match limit with
    | None => Some rows
    | Some n => if Z.leb 1 n then Some (firstn (Z.to_nat n) rows) else None
    end.

  (** The rows of a query: without GROUP BY those of [query_rows], with it one
      per group, which are then put in order and limited. *)
  Inductive query_means (fr : list dict) : select -> list dict -> Prop :=
  | QM_plain : forall q rows,
      label_query owner depth q -> query_rows E funs depth fr q = Some rows -> query_means fr q rows
  | QM_group : forall star cols from where_ g orderby limit rows l groups sorted out,
      aggregate_query E owner star cols rows -> label_where owner where_ -> labelled owner g ->
      label_from owner (label_query owner depth) from ->
      source E funs (query_rows E funs depth) fr from = Some rows ->
      keyed E funs fr star cols where_ g rows = Some l -> all_defined E funs fr star cols [] l ->
      group_select E funs fr star cols where_ g rows = Some groups ->
      in_order orderby groups = Some sorted -> first_of limit sorted = Some out ->
      query_means fr (Select star cols from where_ (Some g) orderby limit) out.

  (** A script: the variables it leaves, the newest first, and the rows of each
      query. *)
  Inductive script_does : list dict -> list stmt -> list dict -> list (list dict) -> Prop :=
  | SD_end : forall fr, script_does fr [] fr []
  | SD_expr : forall fr x params e v rest fr' outs,
      labelled owner e -> den E funs fr e = Some v ->
      script_does ([(x, v)] :: fr) rest fr' outs ->
      script_does fr (SLet x params false (LExpr e) :: rest) fr' outs
  | SD_assign : forall fr x params q rows rest fr' outs,
      query_means fr q rows ->
      script_does ([(x, VQuery (map VDict rows))] :: fr) rest fr' outs ->
      script_does fr (SLet x params false (LSelect q) :: rest) fr' outs
  | SD_query : forall fr text q rows rest fr' outs,
      query_means ([("$Query"%string, VStr text)] :: fr) q rows ->
      script_does fr rest fr' outs ->
      script_does fr (SQuery text q :: rest) fr' (rows :: outs).

  (** The goroutines of a query (vfilter.go:604-715 _Select.Eval,
      vfilter_group.go:84-122 EvalGroupBy): grouper, sorter and limit one after
      the other. *)
  Definition any_layout (fr : list dict) (q : select) : query dict :=
    match q with
    | Select star cols from where_ (Some g) orderby limit =>
        QSelect
          (Clauses Some (Some (fun rows => or_none (group_select E funs fr star cols where_ g rows)))
             (match orderby with Some (key, desc) => Some (sorted E key desc) | None => None end) limit)
          (from_layout E funs (layout E funs depth) (query_rows E funs depth) fr from)
    | _ => layout E funs depth fr q
    end.
End Spec.

Section C101.
  Variables (E : env) (funs : string -> option (dict -> option val)) (owner : nat -> string).
  Hypothesis FOK : funs_ok E funs.
  Variable depth : nat.

  (** ** Proofs *)

  Lemma group_columns_row : forall fr rows cols acc d,
    NoDup (keys acc) -> plain (VDict acc) = true ->
    group_columns E funs fr rows cols acc = Some d -> row_ok d.
  Proof.
    intros fr rows cols. induction cols as [|[k b] cols IH]; intros acc d ND PA H; cbn [group_columns] in H.
    - injection H as <-. now split.
    - apply obind_some in H as (v & Hv & H). eapply IH; [| |exact H].
      + now apply nodup_dict_set.
      + apply plain_dict_set; [|exact PA]. unfold group_value in Hv. destruct b; try discriminate.
        apply omap_some in Hv as (x & Hx & <-). apply plain_expand. eapply over_plain; eauto.
  Qed.

  Lemma keyed_rows : forall fr star cols where_ g rows l k row,
    keyed E funs fr star cols where_ g rows = Some l -> In (k, row) l -> In row rows.
  Proof.
    intros fr star cols where_ g rows. induction rows as [|r rows IH]; intros l k row H HI; cbn [keyed] in H.
    - injection H as <-. contradiction.
    - apply obind_some in H as (keep & _ & H). destruct keep; [|right; eapply IH; eauto].
      apply obind_some in H as (v & _ & H). apply omap_some in H as (t & HT & <-).
      destruct HI as [HI|HI]; [left; congruence|right; eapply IH; eauto].
  Qed.

  Lemma group_rows_rows : forall fr star cols where_ g rows out, Forall row_ok rows ->
    group_select E funs fr star cols where_ g rows = Some out -> Forall row_ok out.
  Proof.
    intros fr star cols where_ g rows out RO H. unfold group_select in H. apply obind_some in H as (l & HK & H).
    assert (LR : forall k, row_ok (last (group k l) [])).
    { intros k. assert (A : Forall row_ok (group k l)).
      { apply Forall_forall. intros r HI. unfold group in HI. apply in_map_iff in HI as ([k' r'] & <- & HI).
        apply filter_In in HI as [HI _]. rewrite Forall_forall in RO. apply RO. cbn.
        exact (keyed_rows _ _ _ _ _ _ _ _ _ HK HI). }
      destruct (group k l) as [|r g'] eqn:EG; [split; [constructor|reflexivity]|].
      clear EG. revert r A. induction g' as [|r' g' IH]; intros r A; [now inversion A|].
      inversion A; subst. exact (IH r' ltac:(assumption)). }
    apply sequence_forall2 in H. clear HK. induction H as [|k d ks ds HD _ IH]; [constructor|].
    constructor; [|exact IH]. unfold result_row in HD. eapply group_columns_row; [| |exact HD].
    - destruct star; [rewrite keys_fields; apply LR|constructor].
    - destruct star; [apply plain_fields, LR|reflexivity].
  Qed.

  Definition leaves (s s2 : st) : Prop := calls_ok E owner s2 /\ ids_ok s2 /\ trace s2 = trace s.

  Lemma query_means_ok : forall q sc fr rows s, query_means E funs owner depth fr q rows ->
    frames sc fr -> 2 * depth + (sc_depth sc + 3) < 1000 -> calls_ok E owner s -> ids_ok s ->
    exists s2, evaluates (fun n => r_select (ev E n) sc q) s s2 (map VDict rows) /\ leaves s s2.
  Proof.
    intros q sc fr rows s QM FR RM CO ID.
    assert (SC : scope_ok E owner no_world sc fr) by (apply frames_scope; [exact FR|lia]).
    destruct QM as [q rows LQ HQ|star cols from where_ g orderby limit rows l groups sorted out AQ LW LG LF HS HK AD HG HO HL].
    - destruct (query_rows_ok E funs owner FOK depth no_world sc fr q rows HQ LQ SC ltac:(lia)
                  no_world s (wle_refl _) (calls_stok _ _ _ CO)) as (W1 & s1 & _ & ST & Q & EV).
      exists s1. split; [exact EV|]. split; [exact (so_funs _ _ _ _ ST)|]. split; [|apply Q].
      eapply evaluates_ids; [|exact EV|exact ID]. intros n. apply (evaluation_keeps_ids E n).
    - destruct (source_ok E funs owner FOK (query_rows E funs depth) (label_query owner depth) (2 * depth) (query_rows_rows E funs depth)
                (query_rows_ok E funs owner FOK depth) no_world sc fr from rows HS LF SC ltac:(lia)
                no_world s (wle_refl _) (calls_stok _ _ _ CO)) as (W1 & s1 & _ & ST1 & Q & EV).
      assert (ID1 : ids_ok s1).
      { eapply evaluates_ids; [|exact EV|exact ID]. intros m.
        apply (pa_plugin_eval _ keeps_ids_closed _ _ _ _ _ (evaluation_keeps_ids E m)).
        intros a b c s0 H. destruct (range_rows m a b c); exact H. }
      assert (RO : Forall row_ok rows) by exact (source_rows _ _ _ (query_rows_rows E funs depth) _ _ _ HS).
      assert (GO : Forall row_ok groups) by (eapply group_rows_rows; eauto).
      destruct AQ as [AL AS AN AN2 AR AF].
      assert (SC2 : scope_ok E owner W1 (copy sc) fr).
      { apply frames_scope; [exact FR|]. cbn [copy sc_depth]. lia. }
      destruct (group_rows_ok E funs owner FOK cols AS AN AN2 AL AR fr star where_ g LW LG
                W1 (copy sc) SC2 ltac:(unfold room; cbn [copy sc_depth]; lia) rows l RO AF HK
                W1 s1 [] [] (wle_refl _) ST1 ID1)
        as (W2 & s2 & bins & _ & ST2 & ID2 & TR & HB & EV2).
      { constructor; constructor. }
      { exact AD. }
      destruct (bins_out _ _ _ _ _ _ _ _ HB) as (gs & HGS & EO).
      assert (gs = groups) as ->.
      { unfold group_select in HG. rewrite HK in HG. cbn [obind] in HG. cbn [app] in HGS. congruence. }
      assert (PK : exists s3, evaluates (fun n => r_select (ev E n) sc (Select star cols from where_ (Some g) orderby None))
                     s s3 (map VDict sorted) /\ leaves s s3).
      { assert (DONE : leaves s s2).
        { split; [exact (so_funs _ _ _ _ ST2)|]. split; [exact ID2|]. rewrite TR. apply Q. }
        destruct orderby as [[key desc]|]; cbn [in_order] in HO.
        - destruct (pr_found_keys E owner W2 sc key groups (rows_plain _ GO) W2 s2 (wle_refl _) ST2)
            as (W3 & s3 & _ & ST3 & Q3 & EV3).
          exists s3. split.
          + apply ev_select. cbn [select_step]. eapply ev_bind; [exact EV|].
            eapply ev_bind; [exact EV2|]. cbn zeta. rewrite EO. unfold sort_rows.
            eapply ev_bind; [exact EV3|].
            replace (combine (map (found_key key) groups) (map VDict groups))
              with (map (fun r => (found_key key r, VDict r)) groups)
              by (clear; induction groups as [|r out IH]; [reflexivity|]; cbn; now rewrite IH).
            apply dicts_inv in HO as [-> _]. apply ev_ret.
          + destruct DONE as (D1 & D2 & D3). split; [exact (so_funs _ _ _ _ ST3)|]. split.
            * eapply evaluates_ids; [|exact EV3|exact D2]. intros n.
              apply (pa_mmap _ keeps_ids_closed). intros. apply (evaluation_keeps_ids E n).
            * rewrite <- D3. apply Q3.
        - injection HO as <-. exists s2. split; [|exact DONE].
          apply ev_select. cbn [select_step]. eapply ev_bind; [exact EV|].
          eapply ev_bind; [exact EV2|]. cbn zeta. rewrite EO. apply ev_ret. }
      destruct PK as (s3 & EV3 & L3). exists s3. split; [|exact L3].
      destruct limit as [n|]; cbn [first_of] in HL; [|injection HL as <-; exact EV3].
      destruct (Z.leb 1 n) eqn:EN; [|discriminate]. injection HL as <-. apply Z.leb_le in EN.
      apply ev_select. cbn [select_step]. eapply ev_bind; [exact EV3|].
      replace (Z.max 1 n) with n by lia. rewrite firstn_map. apply ev_ret.
  Qed.

  Lemma stmt_first : forall q rest sc rows s s1 s2 sc1 r,
    evaluates (fun n => stmt_eval (ev E n) sc q) s s1 (sc1, rows) ->
    evaluates (fun n => run_stmts (ev E n) sc1 rest) s1 s2 r ->
    evaluates (fun n => run_stmts (ev E n) sc (q :: rest)) s s2
      (fst r, match q with SQuery _ _ => rows :: snd r | _ => snd r end).
  Proof.
    intros q rest sc rows s s1 s2 sc1 [sc2 out] H1 H2. cbn [run_stmts].
    eapply ev_bind; [exact H1|]. cbn beta iota. eapply ev_bind; [exact H2|]. apply ev_ret.
  Qed.

  Lemma expr_stmt : forall x params e sc fr v s,
    frames sc fr -> room_for (S depth) sc -> calls_ok E owner s -> ids_ok s ->
    labelled owner e -> den E funs fr e = Some v ->
    exists s1, evaluates (fun n => stmt_eval (ev E n) sc (SLet x params false (LExpr e))) s s1
                 (append_vars (VDict [(x, v)]) sc, []) /\ leaves s s1.
  Proof.
    intros x params e sc fr v s FR RM CO ID LE HE. unfold room_for in RM.
    assert (P : promises E owner no_world (fun n => stmt_eval (ev E n) sc (SLet x params false (LExpr e)))
                  (append_vars (VDict [(x, v)]) sc, [])).
    { cbn [stmt_eval]. eapply (pr_bind E owner _ _ _ _ _ v); [|apply pr_ret].
      eapply (pr_bind E owner _ _ _ _ _ v).
      { apply (pure_eval E funs owner FOK e _ sc fr v); [|exact HE|exact LE]. apply frames_scope; [exact FR|lia]. }
      eapply (pr_bind E owner _ _ _ _ _ None); [apply pr_obj_of; eapply den_plain; eauto|].
      rewrite is_query_none. destruct v; try apply pr_ret. unfold materialize, materialize_rows.
      eapply pr_bind; [apply pr_query_plain|apply pr_ret]. }
    destruct (P no_world s (wle_refl _) (calls_stok _ _ _ CO)) as (W1 & s1 & _ & ST & Q & EV).
    exists s1. split; [exact EV|]. split; [exact (so_funs _ _ _ _ ST)|]. split; [|apply Q].
    eapply evaluates_ids; [|exact EV|exact ID]. intros n.
    apply (pa_stmt_eval _ keeps_ids_closed _ _ (evaluation_keeps_ids E n)).
  Qed.

  (** Every script does what it says, statement by statement, and nothing that
      could be observed besides. *)
  Theorem C101_script_does : forall l sc fr fr' outs s,
    script_does E funs owner depth fr l fr' outs ->
    frames sc fr -> room_for (S depth) sc -> calls_ok E owner s -> ids_ok s ->
    exists sc' s2,
      evaluates (fun n => run_stmts (ev E n) sc l) s s2 (sc', map (map VDict) outs) /\
      frames sc' fr' /\ trace s2 = trace s.
  Proof.
    intros l sc fr fr' outs s D. revert sc s.
    induction D as [fr|fr x params e v rest fr' outs LE HE D IH|fr x params q rows rest fr' outs QM D IH
                   |fr text q rows rest fr' outs QM D IH]; intros sc s FR RM CO ID; unfold room_for in RM.
    - exists sc, s. split; [apply ev_ret|]. auto.
    - destruct (expr_stmt x params e sc fr v s FR ltac:(unfold room_for; lia) CO ID LE HE) as (s1 & EV & C1 & I1 & T1).
      destruct (IH (append_vars (VDict [(x, v)]) sc) s1 (frames_append _ _ _ FR) RM C1 I1) as (sc2 & s2 & EV2 & F2 & T2).
      exists sc2, s2. split; [|split; [exact F2|congruence]]. exact (stmt_first _ _ _ _ _ _ _ _ _ EV EV2).
    - set (o := OSelect q). set (n0 := List.length (heap s)). set (s0 := set_heap (heap s ++ [o]) s).
      destruct (query_means_ok q (copy sc) fr rows s0 QM FR ltac:(cbn; lia) CO (ids_ext s s0 eq_refl eq_refl ID)) as (s1 & EV & C1 & I1 & T1).
      destruct (IH (append_vars (VDict [(x, VQuery (map VDict rows))]) sc) s1 (frames_append _ _ _ FR) RM C1 I1)
        as (sc2 & s2 & EV2 & F2 & T2).
      exists sc2, s2. split; [|split; [exact F2|rewrite T2, T1; reflexivity]].
      refine (stmt_first _ _ _ _ _ _ _ _ _ _ EV2). cbn [stmt_eval].
      eapply ev_bind; [|apply ev_ret].
      eapply ev_bind with (a := VOpaque n0) (s1 := s0); [apply ev_now; reflexivity|].
      unfold materialize, materialize_rows. eapply ev_bind; [|apply ev_ret].
      apply ev_query. unfold query_step. eapply ev_bind with (a := Some o) (s1 := s0).
      + apply ev_now. unfold obj_of, s0, n0. cbn. now rewrite nth_error_snoc.
      + exact EV.
    - destruct (query_means_ok q (append_vars (VDict [("$Query"%string, VStr text)]) (copy sc)) _ rows s QM
                  (frames_append (copy sc) _ _ FR) ltac:(cbn; lia) CO ID) as (s1 & EV & C1 & I1 & T1).
      destruct (IH sc s1 FR RM C1 I1) as (sc2 & s2 & EV2 & F2 & T2).
      exists sc2, s2. split; [|split; [exact F2|congruence]].
      refine (stmt_first _ _ _ (map VDict rows) _ _ _ _ _ _ EV2). cbn [stmt_eval].
      eapply ev_bind; [exact EV|apply ev_ret].
  Qed.

  Lemma any_layout_answer : forall fr q out, query_means E funs owner depth fr q out ->
    answer (any_layout E funs depth fr q) = out.
  Proof.
    intros fr q out H. destruct H as [q rows LQ HQ|star cols from where_ g orderby limit rows l groups sorted out
      AQ LW LG LF HS HK AD HG HO HL].
    - destruct q as [star cols from where_ [g|] orderby limit]; [destruct depth; discriminate|].
      exact (layout_answer E funs depth fr _ rows HQ).
    - cbn [any_layout answer]. rewrite (from_answer E funs depth fr from rows (layout_answer E funs depth) HS).
      unfold select_answer. cbn [c_group c_order c_limit]. rewrite HG. cbn [or_none].
      assert (optional (match orderby with Some (key, desc) => Some (SchedProps.sorted E key desc) | None => None end) groups
              = sorted) as ->.
      { destruct orderby as [[key desc]|]; cbn [optional in_order] in *; [|now injection HO].
        unfold SchedProps.sorted. now rewrite HO. }
      destruct limit as [n|]; cbn [first_of] in HL; [|now injection HL].
      destruct (Z.leb 1 n) eqn:LE; [|discriminate]. injection HL as <-. apply Z.leb_le in LE. now rewrite Z.max_r by lia.
  Qed.

  Lemma does_split : forall before tag q after fr fr' outs,
    script_does E funs owner depth fr (before ++ SQuery tag q :: after) fr' outs ->
    exists fr1 outs1 out outs2, script_does E funs owner depth fr before fr1 outs1 /\
      query_means E funs owner depth ([("$Query"%string, VStr tag)] :: fr1) q out /\
      script_does E funs owner depth fr1 after fr' outs2 /\ outs = outs1 ++ out :: outs2.
  Proof.
    intros before tag q after. induction before as [|p before IH]; intros fr fr' outs H.
    - cbn [app] in H. inversion H; subst. exists fr, [], rows, outs0. split; [apply SD_end|]. auto.
    - cbn [app] in H. inversion H; subst.
      + match goal with H : script_does _ _ _ _ _ _ _ _ |- _ => destruct (IH _ _ _ H) as (f & o1 & o & o2 & A & B & C & D) end.
        exists f, o1, o, o2. split; [eapply SD_expr; eauto|]. auto.
      + match goal with H : script_does _ _ _ _ _ _ _ _ |- _ => destruct (IH _ _ _ H) as (f & o1 & o & o2 & A & B & C & D) end.
        exists f, o1, o, o2. split; [eapply SD_assign; eauto|]. auto.
      + match goal with H : script_does _ _ _ _ _ _ _ _ |- _ => destruct (IH _ _ _ H) as (f & o1 & o & o2 & A & B & C & D) end.
        exists f, (rows :: o1), o, o2. split; [eapply SD_query; eauto|]. subst. auto.
  Qed.

  (** From the text of the script to the parts that each of its queries sends,
      under every schedule of the goroutines. *)
  Theorem C101_text_to_results : forall text script before tag q after sc fr fr' outs s
      (Bytes : Type) (encoder : nat -> list dict -> option Bytes) members maxrows,
    frames sc fr -> room_for (S depth) sc -> calls_ok E owner s -> ids_ok s ->
    (1 <= maxrows)%Z -> (forall n b, encoder n b <> None) ->
    parse_multi text = Some script -> elab_script script = before ++ SQuery tag q :: after ->
    script_does E funs owner depth fr (elab_script script) fr' outs ->
    (exists m sc' s2, (forall n, run_text (ev E n) sc text = Some (m n)) /\
       evaluates m s s2 (sc', map (map VDict) outs) /\ frames sc' fr' /\ trace s2 = trace s) /\
    exists fr1 outs1 out outs2,
      script_does E funs owner depth fr before fr1 outs1 /\ script_does E funs owner depth fr1 after fr' outs2 /\
      outs = outs1 ++ out :: outs2 /\
      forall t done es,
        exec (started (any_layout E funs depth ([("$Query"%string, VStr tag)] :: fr1) q)) t done ->
        uncancelled t -> finished false done -> sees t es ->
        exists s' batches,
          respond dict Bytes encoder members maxrows (resp0 dict Bytes) es = Some s' /\
          parts dict Bytes encoder members 0 batches (sent _ _ s') /\
          List.concat batches = out /\ batches <> [] /\
          Forall (fun b => (Z.of_nat (List.length b) <= maxrows)%Z) batches.
  Proof.
    intros text script before tag q after sc fr fr' outs s Bytes encoder members maxrows
      FR RM CO ID POS ENC HP HE H. split.
    - destruct (C101_script_does _ sc fr fr' outs s H FR RM CO ID) as (sc' & s2 & EV & F' & T).
      exists (fun n => run_script (ev E n) sc script), sc', s2. split; [|split; [exact EV|auto]].
      intros n. unfold run_text. now rewrite HP.
    - rewrite HE in H. destruct (does_split _ _ _ _ _ _ _ H) as (fr1 & outs1 & out & outs2 & H1 & QM & H2 & ->).
      exists fr1, outs1, out, outs2. split; [exact H1|]. split; [exact H2|]. split; [reflexivity|].
      intros t done es X U F SE.
      destruct (answer_delivers _ _ (any_layout_answer _ _ _ QM)) as [D _].
      destruct (D t done X U) as [_ D2]. destruct (D2 F) as [O C]. subst out.
      destruct (sees_schedule _ _ _ SE _ _ X) as (es1 & es2 & -> & S).
      { eapply C39_closed_only_by_close; eauto. }
      destruct (C41_parts_are_the_rows_partial dict Bytes encoder members maxrows _ _ POS ENC S) as (s' & b & R & P).
      exists s', b. split; [now apply respond_app|exact P].
  Qed.

  (** A script means one thing only. *)
  Lemma query_means_unique : forall fr q a b,
    query_means E funs owner depth fr q a -> query_means E funs owner depth fr q b -> a = b.
  Proof.
    assert (NG : forall fr star cols from w g ob lim rows,
      query_rows E funs depth fr (Select star cols from w (Some g) ob lim) = Some rows -> False)
      by (intros; destruct depth; discriminate).
    intros fr q a b HA HB. destruct HA as [q a LA QA|]; inversion HB; subst.
    - congruence.
    - now apply NG in QA.
    - match goal with H : query_rows _ _ _ _ _ = _ |- _ => now apply NG in H end.
    - congruence.
  Qed.

  Theorem C101_one_meaning : forall l fr fr1 fr2 a b,
    script_does E funs owner depth fr l fr1 a -> script_does E funs owner depth fr l fr2 b -> fr1 = fr2 /\ a = b.
  Proof.
    intros l fr fr1 fr2 a b HA. revert fr2 b.
    induction HA as [fr|fr x params e v rest fr' outs LE HE D IH|fr x params q rows rest fr' outs QM D IH
                    |fr text q rows rest fr' outs QM D IH]; intros fr2 b HB; inversion HB; subst.
    - auto.
    - match goal with H : den _ _ _ _ = _ |- _ => rewrite HE in H; injection H as <- end. auto.
    - match goal with H : query_means _ _ _ _ _ _ _ |- _ => rewrite (query_means_unique _ _ _ _ QM H) in * end. auto.
    - match goal with H : query_means _ _ _ _ _ _ _ |- _ => rewrite (query_means_unique _ _ _ _ QM H) in * end.
      match goal with H : script_does _ _ _ _ _ _ _ _ |- _ => destruct (IH _ _ H) as [-> ->] end. auto.
  Qed.
End C101.

(** ** A concrete case *)

Import Demo.
Open Scope string_scope.

(** LET sums <= SELECT k, count() AS c, sum(item=n) AS s FROM t GROUP BY k ORDER BY s
    SELECT k, s FROM sums WHERE s > 3
    SELECT count() AS groups, max(item=s) AS top FROM sums GROUP BY 1 ORDER BY top DESC LIMIT 1 *)
Definition sums_cols : list (string * colbody) :=
  [("k", CExpr (sym 10 "k")); ("c", CExpr (call 1 "count" []));
   ("s", CExpr (call 2 "sum" [("item", AExpr (sym 11 "n"))]))].
Definition top_cols : list (string * colbody) :=
  [("groups", CExpr (call 6 "count" [])); ("top", CExpr (call 3 "max" [("item", AExpr (sym 12 "s"))]))].
Definition report : list stmt :=
  [SLet "sums" [] false (LSelect (Select false sums_cols (from_var "t") None (Some (sym 13 "k")) (Some ("s", false)) None));
   SQuery "q" (Select false [("k", CExpr (sym 14 "k")); ("s", CExpr (sym 15 "s"))] (from_var "sums")
                 (Some (ECmp (sym 16 "s") Chains.OpGt (lit 3))) None None None);
   SQuery "r" (Select false top_cols (from_var "sums") None (Some (lit 1)) (Some ("top", true)) (Some 1%Z))].

Ltac aggregate_columns :=
  constructor;
  [ repeat constructor | repeat constructor | repeat constructor; cbn; intuition discriminate
  | repeat constructor; cbn; intuition discriminate
  | intros name b HI node a e HA; cbn in HI;
    repeat (destruct HI as [HI|HI]; [injection HI as <- <-; cbn in HA;
      repeat (destruct HA as [HA|HA]; [injection HA as <- <- <-; reflexivity|]); contradiction|]); contradiction
  | discriminate ].

Ltac grouped :=
  eapply QM_group;
  [ aggregate_columns | exact I | exact I | cbn; repeat constructor | vm_compute; reflexivity | vm_compute; reflexivity
  | repeat split; eexists; vm_compute; reflexivity | vm_compute; reflexivity | vm_compute; reflexivity
  | vm_compute; reflexivity ].

Definition report_results : list (list (list (string * val))) :=
  [[row [("k", VStr "b"); ("s", i 8)]]; [row [("groups", cnt 2); ("top", i 8)]]].

Lemma report_does : exists fr', script_does demo_env demo_funs group_owner 3 group_frames report fr' report_results.
Proof.
  eexists. unfold report. eapply SD_assign; [grouped|].
  eapply SD_query; [apply QM_plain; [repeat (constructor; cbn)|vm_compute; reflexivity]|].
  eapply SD_query; [grouped|]. apply SD_end.
Qed.

Example C101_demo : exists sc' s2,
  evaluates (fun n => run_stmts (ev demo_env n) group_scope report) st0 s2 (sc', map (map VDict) report_results) /\
  trace s2 = [].
Proof.
  destruct report_does as (fr' & SD).
  destruct (C101_script_does demo_env demo_funs group_owner demo_funs_ok 3 report group_scope group_frames fr'
    report_results st0 SD) as (sc' & s2 & EV & _ & T).
  - reflexivity.
  - unfold room_for. cbn. lia.
  - intros node f id H. vm_compute in H. discriminate.
  - apply fresh_ids.
  - exists sc', s2. split; [exact EV|exact T].
Qed.

(** The same script as text. *)
Definition report_text : string :=
  "LET sums <= SELECT k, count() AS c, sum(item=n) AS s FROM t GROUP BY k ORDER BY s SELECT k, s FROM sums WHERE s > 3 SELECT count() AS groups, max(item=s) AS top FROM sums GROUP BY 1 ORDER BY top DESC LIMIT 1".

Ltac grouped_text :=
  eapply QM_group;
  [ aggregate_columns | exact I | repeat constructor | cbn; repeat constructor | vm_compute; reflexivity | vm_compute; reflexivity
  | repeat split; eexists; vm_compute; reflexivity | vm_compute; reflexivity | vm_compute; reflexivity
  | vm_compute; reflexivity ].

(** For its last query. *)
Example C101_text_demo : forall (encoder : nat -> list dict -> option string) members,
  (forall n b, encoder n b <> None) ->
  (exists m sc' s2, (forall n, run_text (ev demo_env n) group_scope report_text = Some (m n)) /\
     evaluates m st0 s2 (sc', map (map VDict) report_results)) /\
  exists script before tag q fr1,
    parse_multi report_text = Some script /\ elab_script script = (before ++ [SQuery tag q])%list /\
    List.length before = 2 /\
    forall t done es,
      exec (started (any_layout demo_env demo_funs 3 ([("$Query", VStr tag)] :: fr1) q)) t done ->
      uncancelled t -> finished false done -> sees t es ->
      exists s' batches,
        respond dict string encoder members 1 (resp0 dict string) es = Some s' /\
        parts dict string encoder members 0 batches (sent _ _ s') /\
        List.concat batches = [row [("groups", cnt 2); ("top", i 8)]].
Proof.
  intros encoder members ENC.
  destruct (parse_multi report_text) as [script|] eqn:HP; [|vm_compute in HP; discriminate].
  assert (HE : exists before tag q fr', elab_script script = (before ++ [SQuery tag q])%list /\ List.length before = 2 /\
    script_does demo_env demo_funs group_owner 3 group_frames (elab_script script) fr' report_results).
  { vm_compute in HP. injection HP as <-.
    match goal with |- context [elab_script ?l] =>
      let x := eval vm_compute in (elab_script l) in change (elab_script l) with x end.
    match goal with |- context [?a :: ?b :: SQuery ?c ?d :: []] => exists [a; b], c, d end.
    eexists. split; [reflexivity|]. split; [reflexivity|].
    eapply SD_assign; [grouped_text|].
    eapply SD_query; [apply QM_plain; [repeat (constructor; cbn)|vm_compute; reflexivity]|].
    eapply SD_query; [grouped_text|]. apply SD_end. }
  destruct HE as (before & tag & q & fr' & HE & LEN & SD).
  destruct (C101_text_to_results demo_env demo_funs group_owner demo_funs_ok 3 report_text script before tag q []
    group_scope group_frames fr' report_results st0 string encoder members 1 eq_refl
    ltac:(unfold room_for; cbn; lia) ltac:(intros node f id H; vm_compute in H; discriminate) fresh_ids ltac:(lia) ENC HP HE SD)
    as ((m & sc' & s2 & R1 & R2 & _) & fr1 & outs1 & out & outs2 & H1 & HA & H2 & H3).
  split; [exists m, sc', s2; auto|].
  exists script, before, tag, q, fr1. split; [reflexivity|]. split; [exact HE|]. split; [exact LEN|].
  intros t done es X U F SE. destruct (H3 t done es X U F SE) as (s' & b & A & B & C & _).
  exists s', b. split; [exact A|]. split; [exact B|]. rewrite C.
  inversion HA; subst outs2.
  change report_results with ([[row [("k", VStr "b"); ("s", i 8)]]] ++ [[row [("groups", cnt 2); ("top", i 8)]]])%list in H2.
  apply app_inj_tail in H2 as [_ ->]. reflexivity.
Qed.

Print Assumptions C101_script_does.
Print Assumptions C101_one_meaning.
Print Assumptions C101_text_to_results.

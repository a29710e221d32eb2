(** C96: the rows of a query do not depend on how its goroutines are scheduled.

    Eval.v runs a query in one thread.  Here the same query is laid out as the
    goroutines of Pipeline.v, and every schedule of them delivers the rows that
    Eval.v yields. *)

From Coq Require Import ZArith List String Bool Lia PeanoNat Permutation.
From Verif Require Foreach ForeachProps.
From Verif Require Import Pipeline PipelineProofs PipelineProps.
From Verif Require Import Base Value Protocols Monad Flatten Syntax Eval Runs PureSpec PureEval PureSelect
  SelectProps GroupSpec GroupEval GroupProps Demo.
Import ListNotations.
Open Scope list_scope.

(** * The goroutines of a query *)

Section Layout.
  Variable E : env.
  Variable funs : string -> option (dict -> option val).

  (** Where there is no meaning (PureSpec.v) the layout does not matter: the
      theorems are about queries that have one. No counterpart in /repo. *)
  Definition or_none {A} (o : option (list A)) : list A := match o with Some l => l | None => [] end.

  (** vfilter.go:718-770 processSingleRow: the result row if WHERE accepts it.
      Simplified: subqueries among the columns are their meaning. *)
  Definition row_of (subq : list dict -> select -> option (list dict)) (fr : list dict) (star : bool)
    (cols : list (string * colbody)) (where_ : option expr) (row : dict) : option dict :=
    match project E funs subq fr star cols row with
    | Some out => match holds E funs fr out row where_ with Some true => Some out | _ => None end
    | None => None
    end.

  (** sort/sort.go:25-58 Sort *)
  Definition sorted (key : string) (desc : bool) (l : list dict) : list dict :=
    or_none (dicts (map snd (env_sort E (sort_less E desc) (map (fun r => (found_key key r, VDict r)) l)))).

  (** The goroutines of a FROM clause, vfilter.go:1174-1346 Plugin.Eval: chain()
      (plugins/chain.go:21-62), flatten() (plugins/flatten.go:16-55) and if()
      (plugins/if.go:20-42, which returns the channel of the branch) run the
      queries they are given; a variable and range() send rows. Simplified:
      foreach() is a plugin that sends its rows; its own goroutines are those of
      Foreach.v (C36). *)
  Definition from_layout (lay : list dict -> select -> query dict)
    (subq : list dict -> select -> option (list dict)) (fr : list dict) (from : plugin) : query dict :=
    let rows := QPlugin (or_none (source E funs subq fr from)) in
    match from with
    | Plugin [name] true args =>
        match assoc name (env_plugs E) with
        | Some PlChain =>
            QChain (map (fun na => match snd na with ASelect q => lay fr q | _ => QPlugin [] end) args)
        | Some PlFlatten =>
            match assoc "query" args with
            | Some (ASelect q) => QFlatten (flatten_row (env_iter E)) (lay fr q)
            | _ => rows
            end
        | Some PlIf =>
            match assoc "condition" args, assoc "then" args with
            | Some c, Some (ASelect q) =>
                match arg_value E funs fr c with
                | Some c =>
                    if truthy E c then lay fr q
                    else match assoc "else" args with Some (ASelect q) => lay fr q | _ => rows end
                | None => rows
                end
            | _, _ => rows
            end
        | _ => rows
        end
    | _ => rows
    end.

  (** The goroutines of vfilter.go:604-716 _Select.Eval over those of the FROM
      clause. *)
  Fixpoint layout (depth : nat) (fr : list dict) (q : select) : query dict :=
    match depth, q with
    | S depth, Select star cols from where_ None orderby limit =>
        QSelect
          (Clauses (row_of (query_rows E funs depth) fr star cols where_) None
             (match orderby with Some (key, desc) => Some (sorted key desc) | None => None end) limit)
          (from_layout (layout depth) (query_rows E funs depth) fr from)
    | _, _ => QPlugin []
    end.

  (** GROUP BY: vfilter_group.go:84-122 EvalGroupBy and
      grouper/grouper.go:19-92 Group, which sends the groups at the end. *)
  Definition group_layout (depth : nat) (fr : list dict) (star : bool) (cols : list (string * colbody))
    (from : plugin) (where_ : option expr) (g : expr) : query dict :=
    QSelect
      (Clauses Some (Some (fun rows => or_none (group_select E funs fr star cols where_ g rows))) None None)
      (from_layout (layout depth) (query_rows E funs depth) fr from).

  (** vfilter.go:415-528 VQL.Eval *)
  Definition started (q : query dict) : sys dict := query_sys (QStatement q).

  (** Every schedule of the goroutines delivers these rows and ends. *)
  Definition delivers (q : query dict) (out : list dict) : Prop :=
    (forall t s, exec (started q) t s -> uncancelled t ->
       (exists rest, out = outputs t ++ rest) /\
       (finished false s -> outputs t = out /\ is_closed s = true)) /\
    ~ exists f : nat -> sys dict, f 0 = started q /\ forall n, exists c l, Pipeline.step c (f n) l (f (S n)).

  (** * Proofs *)

  Lemma select_rows_answer : forall subq fr star cols where_ rows out,
    PureSpec.select_rows E funs subq fr star cols where_ rows = Some out ->
    flat_map (fun r => match row_of subq fr star cols where_ r with Some x => [x] | None => [] end) rows = out.
  Proof.
    intros subq fr star cols w rows. induction rows as [|r rows IH]; intros out H; cbn [PureSpec.select_rows flat_map] in *.
    - now injection H as <-.
    - unfold row_of at 1. destruct (project E funs subq fr star cols r) as [o|]; [|discriminate]. cbn [obind] in H.
      destruct (holds E funs fr o r w) as [k|]; [|discriminate]. cbn [obind] in H.
      destruct (PureSpec.select_rows E funs subq fr star cols w rows) as [l|]; [|discriminate].
      injection H as <-. rewrite (IH l eq_refl). now destruct k.
  Qed.

  Lemma dicts_map : forall l l', dicts (map VDict l) = Some l' -> l' = l.
  Proof.
    induction l as [|d l IH]; intros l' H; cbn [map dicts] in H; [now injection H|].
    destruct (distinct (keys d) && plain (VDict d)); [|discriminate].
    destruct (dicts (map VDict l)) as [r|]; [|discriminate]. injection H as <-. now rewrite (IH r eq_refl).
  Qed.

  Lemma from_answer : forall depth fr from rows,
    (forall fr q out, query_rows E funs depth fr q = Some out -> answer (layout depth fr q) = out) ->
    source E funs (query_rows E funs depth) fr from = Some rows ->
    answer (from_layout (layout depth) (query_rows E funs depth) fr from) = rows.
  Proof.
    intros depth fr from rows IH S. unfold from_layout. rewrite S. cbn [or_none].
    destruct from as [[|name [|n2 path]] [|] args]; try reflexivity.
    cbn [source] in S. destruct (negb (distinct (keys args))); [discriminate|].
    destruct (assoc name (env_plugs E)) as [[]|]; try reflexivity.
    - destruct (given _ _ args) in S; [|discriminate]. destruct (assoc "condition" args) as [c|]; [|reflexivity].
      destruct (assoc "then" args) as [[e|q|e|]|]; try reflexivity.
      destruct (arg_value E funs fr c) as [v|]; [|reflexivity]. cbn [obind] in S.
      destruct (assoc "else" args) as [[e|q'|e|]|]; try discriminate; cbn [obind] in S;
        (destruct v; try discriminate); destruct (truthy E _); try reflexivity; now apply IH.
    - unfold all_rows in S. revert rows S.
      induction args as [|[n a] args IHa]; intros rows S; cbn [map sequence option_map List.concat answer flat_map snd] in *.
      + now injection S as <-.
      + destruct a as [e|q|e|]; try discriminate. destruct (query_rows E funs depth fr q) as [r|] eqn:Q; [|discriminate].
        destruct (sequence _) as [rs|]; [|discriminate]. injection S as <-. cbn [List.concat].
        rewrite (IH _ _ _ Q). f_equal. now apply IHa.
    - destruct (given _ _ args) in S; [|discriminate]. destruct (assoc "query" args) as [[e|q|e|]|]; try reflexivity.
      destruct (query_rows E funs depth fr q) as [r|] eqn:Q; [|discriminate]. cbn [obind] in S. cbn [answer].
      rewrite (IH _ _ _ Q), flat_map_concat_map. symmetry. now apply dicts_map.
  Qed.

  Lemma layout_answer : forall depth fr q out, query_rows E funs depth fr q = Some out ->
    answer (layout depth fr q) = out.
  Proof.
    induction depth as [|depth IH]; intros fr q out H; [discriminate|].
    destruct q as [star cols from where_ [g|] orderby limit]; [discriminate|].
    cbn [query_rows layout answer] in *.
    destruct (source E funs (query_rows E funs depth) fr from) as [rows|] eqn:S; [|discriminate].
    cbn [obind] in *. rewrite (from_answer depth fr from rows IH S).
    destruct (PureSpec.select_rows E funs (query_rows E funs depth) fr star cols where_ rows) as [sel|] eqn:SR; [|discriminate].
    cbn [obind] in H. apply select_rows_answer in SR.
    unfold select_answer. cbn [c_group c_row c_order c_limit]. rewrite SR.
    destruct orderby as [[key desc]|]; cbn [optional obind] in *; [unfold sorted; destruct (dicts _) as [o|]; [|discriminate]; cbn [obind or_none] in *|].
    all: destruct limit as [n|]; [|now injection H].
    all: destruct (Z.leb 1 n) eqn:LE; [|discriminate]; injection H as <-; apply Z.leb_le in LE; now rewrite Z.max_r by lia.
  Qed.

  Lemma answer_delivers : forall q out, answer q = out -> delivers q out.
  Proof.
    intros q out <-. split.
    - intros t s X U. split; [exact (C39_prefix_until_cancelled (QStatement q) t s X U)|].
      intros F. exact (C39_complete (QStatement q) t s X U F).
    - exact (C39_every_execution_ends (QStatement q)).
  Qed.
End Layout.

(** ** Cancellation *)

(** No GROUP BY, ORDER BY or LIMIT, neither in the query nor in those it is
    given as arguments of plugins. *)
Fixpoint one_by_one (depth : nat) (q : select) : Prop :=
  match depth, q with
  | S depth, Select _ _ (Plugin _ _ args) _ None None None =>
      Forall (fun na => match snd na with ASelect q => one_by_one depth q | _ => True end) args
  | S _, _ => False
  | O, _ => True
  end.

Lemma assoc_one : forall depth x (args : list (string * argval)) q,
  Forall (fun na => match snd na with ASelect q => one_by_one depth q | _ => True end) args ->
  assoc x args = Some (ASelect q) -> one_by_one depth q.
Proof.
  intros depth x args q F H. induction F as [|[k a] args A _ IH]; [discriminate|]. cbn [assoc] in H.
  destruct (String.eqb x k); [|now apply IH]. injection H as ->. exact A.
Qed.

Lemma layout_one_by_one : forall E funs depth fr q, one_by_one depth q ->
  row_by_row (layout E funs depth fr q) /\ unlimited_answer (layout E funs depth fr q) = answer (layout E funs depth fr q).
Proof.
  intros E funs. induction depth as [|depth IH]; intros fr q ON; [now split|].
  destruct q as [star cols from where_ [g|] [ob|] [lim|]]; try (destruct from; contradiction).
  cbn [layout row_by_row unlimited_answer answer c_group c_order c_row].
  assert (A : row_by_row (from_layout E funs (layout E funs depth) (query_rows E funs depth) fr from) /\
              unlimited_answer (from_layout E funs (layout E funs depth) (query_rows E funs depth) fr from) =
              answer (from_layout E funs (layout E funs depth) (query_rows E funs depth) fr from)).
  { destruct from as [path called args]. cbn [one_by_one] in ON. unfold from_layout.
    assert (R : forall l : list dict, row_by_row (QPlugin l) /\ unlimited_answer (QPlugin l) = answer (QPlugin l)) by now split.
    destruct path as [|name [|]]; try apply R. destruct called; try apply R.
    destruct (assoc name (env_plugs E)) as [[]|]; try apply R.
    - destruct (assoc "condition" args) as [c|]; try apply R.
      destruct (assoc "then" args) as [[e|q|e|]|] eqn:AT; try apply R.
      destruct (arg_value E funs fr c); try apply R. destruct (truthy E _).
      + apply IH. eapply assoc_one; eauto.
      + destruct (assoc "else" args) as [[e|q'|e|]|] eqn:AE; try apply R. apply IH. eapply assoc_one; eauto.
    - clear R. cbn [row_by_row unlimited_answer answer].
      induction ON as [|[k a] args A _ IHa]; [now split|]. cbn [map snd fold_right flat_map] in *.
      destruct IHa as [I1 I2]. destruct a as [e|q|e|].
      2: destruct (IH fr q A) as [B1 B2].
      all: split; [split; [try exact B1; exact I|exact I1]|]; try rewrite B2; now rewrite I2.
    - destruct (assoc "query" args) as [[e|q|e|]|] eqn:AQ; try apply R. cbn [row_by_row unlimited_answer answer].
      destruct (IH fr q ltac:(eapply assoc_one; eauto)) as [B1 B2]. split; [exact B1|now rewrite B2]. }
  destruct A as [A1 A2]. split; [auto|]. rewrite A2. reflexivity.
Qed.

(** * Theorems *)

Section C96.
  Variables (E : env) (funs : string -> option (dict -> option val)) (owner : nat -> string).
  Hypothesis FOK : funs_ok E funs.
  Variables (sc : scope) (fr : list dict) (s : Eval.st).
  Hypothesis FR : frames sc fr.
  Hypothesis CO : calls_ok E owner s.

  (** Whatever one thread yields for the query (Eval.v), its goroutines
      deliver, in that order, however they are scheduled. *)
  Theorem C96_every_schedule : forall depth q out,
    room_for depth sc -> label_query owner depth q ->
    query_rows E funs depth fr q = Some out ->
    (exists s2, query_yields E sc q s s2 (map VDict out) /\ quiet s s2) /\
    delivers (layout E funs depth fr q) out.
  Proof.
    intros depth q out RM LQ H. split.
    - now apply (C14_query_yields_its_rows E funs owner FOK depth sc fr q s out).
    - apply answer_delivers. now apply layout_answer.
  Qed.

  (** The same with GROUP BY. *)
  Theorem C96_every_schedule_group_by : forall depth star cols from where_ g rows l,
    room_for depth sc -> sc_depth sc + 3 < 1000 ->
    aggregate_query E owner star cols rows -> label_where owner where_ -> labelled owner g ->
    label_from owner (label_query owner depth) from -> ids_ok s ->
    source E funs (query_rows E funs depth) fr from = Some rows ->
    keyed E funs fr star cols where_ g rows = Some l -> all_defined E funs fr star cols [] l ->
    exists out s2,
      group_select E funs fr star cols where_ g rows = Some out /\
      query_yields E sc (Select star cols from where_ (Some g) None None) s s2 (map VDict out) /\
      trace s2 = trace s /\
      delivers (group_layout E funs depth fr star cols from where_ g) out.
  Proof.
    intros depth star cols from where_ g rows l RM DP AQ LW LG LF ID S HK DL. unfold room_for in RM.
    assert (SC : scope_ok E owner no_world sc fr) by (apply frames_scope; [exact FR|lia]).
    destruct (source_ok E funs owner FOK (query_rows E funs depth) (label_query owner depth) (2 * depth) (query_rows_rows E funs depth)
                (query_rows_ok E funs owner FOK depth) no_world sc fr from rows S LF SC ltac:(lia)
                no_world s (wle_refl _) (calls_stok _ _ _ CO)) as (W1 & s1 & _ & HS1 & Q & EV).
    destruct (C17_group_by_partial E funs owner FOK sc fr star cols from where_ g s s1 rows l) as (out & s2 & G & Y & T); auto.
    { exact (so_funs _ _ _ _ HS1). }
    { exact (source_rows _ _ _ (query_rows_rows E funs depth) _ _ _ S). }
    exists out, s2. split; [exact G|]. split; [exact Y|]. split.
    - rewrite T. apply Q.
    - apply answer_delivers. unfold group_layout. cbn [answer].
      rewrite (from_answer E funs depth fr from rows (layout_answer E funs depth) S).
      unfold select_answer. cbn [c_group c_order c_limit optional]. now rewrite G.
  Qed.

  (** Whatever is cancelled and whenever: no row is invented, repeated or
      overtaken by a later one. *)
  Theorem C96_cancelled : forall depth q out t now,
    one_by_one depth q -> query_rows E funs depth fr q = Some out ->
    exec (started (layout E funs depth fr q)) t now -> subsequence (outputs t) out.
  Proof.
    intros depth q out t now ON H X. destruct (layout_one_by_one E funs depth fr q ON) as [R A].
    rewrite <- (layout_answer E funs depth fr q out H), <- A.
    exact (C39_subsequence_partial (QStatement (layout E funs depth fr q)) t now R X).
  Qed.

  (** foreach() with any number of workers: when all have returned, the rows
      that were delivered are those of the plugin evaluated in one thread, in
      some order; with one worker in that order. *)
  Theorem C96_foreach_workers : forall depth name q0 q rows0 rows n t now,
    assoc name (env_plugs E) = Some PlForeach -> room_for depth sc ->
    label_query owner depth q0 -> label_query owner depth q ->
    query_rows E funs depth fr q0 = Some rows0 ->
    all_rows (map (fun row => query_rows E funs depth (row :: fr) q) rows0) = Some rows ->
    1 <= n ->
    Foreach.fexec (fun row => or_none (query_rows E funs depth (row :: fr) q)) (Foreach.foreach_init n rows0) t now ->
    ForeachProps.uncancelled t ->
    ForeachProps.finished (fun row => or_none (query_rows E funs depth (row :: fr) q)) false now ->
    plugin_yields E sc s name [("row"%string, ASelect q0); ("query"%string, ASelect q)] rows /\
    Permutation (map snd (ForeachProps.seen t)) rows /\
    (n = 1 -> map snd (ForeachProps.seen t) = rows).
  Proof.
    intros depth name q0 q rows0 rows n t now HP RM L0 LQ H0 HA NZ X U F.
    assert (FM : rows = flat_map (fun row => or_none (query_rows E funs depth (row :: fr) q)) rows0 /\
                 exists parts, Forall2 (fun row rows => query_rows E funs depth (row :: fr) q = Some rows) rows0 parts /\
                               rows = List.concat parts).
    { clear - HA. unfold all_rows in HA. revert rows HA. induction rows0 as [|r l IH]; intros rows HA; cbn in HA.
      - injection HA as <-. split; [reflexivity|]. exists []. split; [constructor|reflexivity].
      - destruct (query_rows E funs depth (r :: fr) q) as [p|] eqn:Q; [|discriminate].
        destruct (sequence _) as [ps|]; [|discriminate]. injection HA as <-.
        destruct (IH _ eq_refl) as (I1 & parts & I2 & I3). split.
        + cbn [flat_map List.concat]. rewrite Q. cbn [or_none]. now rewrite I1.
        + exists (p :: parts). split; [now constructor|]. cbn [List.concat]. now rewrite I3. }
    destruct FM as (FM & parts & F2 & PC). split; [|split].
    - rewrite PC. now apply (C36_foreach_runs_the_query_for_each_row E funs owner FOK depth sc fr s name FR RM CO q0 q rows0).
    - rewrite FM. eapply ForeachProps.C36_permutation; eauto.
    - intros ->. rewrite FM. eapply ForeachProps.C36_one_worker_in_order; eauto.
  Qed.
End C96.

(** * Examples *)

(** SELECT * FROM chain(a={SELECT k, n FROM t WHERE n},
                        b={SELECT * FROM flatten(query={SELECT k, (1, 7) AS n FROM t LIMIT 1})})
    ORDER BY n DESC LIMIT 3 *)
Definition chained : select :=
  Select true []
    (Plugin ["chain"] true
       [("a", ASelect some_rows);
        ("b", ASelect (Select true [] (Plugin ["flatten"] true
                [("query", ASelect (Select false [("k", CExpr (sym 0 "k"));
                                                  ("n", CExpr (EComma (lit 1) [Some (lit 7)]))] (from_var "t") None None None (Some 1%Z)))])
                None None None None))])%string
    None None (Some ("n"%string, true)) (Some 3%Z).

Example C96_demo : exists out,
  List.length out = 3 /\
  (exists s2, query_yields demo_env demo_scope chained st0 s2 (map VDict out) /\ quiet st0 s2) /\
  delivers (layout demo_env demo_funs 4 demo_frames chained) out.
Proof.
  eexists. split; [|apply (C96_every_schedule demo_env demo_funs demo_owner demo_funs_ok demo_scope demo_frames st0)].
  6: vm_compute; reflexivity.
  - reflexivity.
  - reflexivity.
  - discriminate.
  - unfold room_for. cbn. lia.
  - cbn. repeat (constructor; cbn).
Qed.

(** chained without ORDER BY and LIMIT may also be cancelled. *)
Example C96_cancelled_demo :
  exists out, query_rows demo_env demo_funs 4 demo_frames (Select true [] (Plugin ["chain"%string] true
    [("a"%string, ASelect some_rows); ("b"%string, ASelect some_rows)]) None None None None) = Some out /\
    List.length out = 6 /\
    one_by_one 4 (Select true [] (Plugin ["chain"%string] true
      [("a"%string, ASelect some_rows); ("b"%string, ASelect some_rows)]) None None None None).
Proof. eexists. split; [vm_compute; reflexivity|]. split; [reflexivity|]. cbn. repeat (constructor; cbn). Qed.

(** The queries of foreach_query (SelectProps.v) have such rows, and three
    workers have an execution on them. *)
Example C96_foreach_demo : exists rows0 rows t now,
  query_rows demo_env demo_funs 4 demo_frames some_rows = Some rows0 /\ List.length rows0 = 3 /\
  all_rows (map (fun row => query_rows demo_env demo_funs 4 (row :: demo_frames) counted) rows0) = Some rows /\
  List.length rows = 6 /\
  Foreach.fexec (fun row => or_none (query_rows demo_env demo_funs 4 (row :: demo_frames) counted))
    (Foreach.foreach_init 3 rows0) t now /\ ForeachProps.uncancelled t /\ List.length (ForeachProps.seen t) = 1.
Proof.
  do 2 eexists. exists [(false, Foreach.Internal); (false, Foreach.Handed 0); (false, Foreach.Internal);
    (false, Foreach.Internal); (false, Foreach.Handed 1);
    (false, Foreach.Emit 0 [("k", VStr "b"); ("v", vint 0)]%string)]. eexists.
  split; [vm_compute; reflexivity|]. split; [reflexivity|]. split; [vm_compute; reflexivity|]. split; [reflexivity|].
  split; [|split; [repeat constructor|reflexivity]].
  eapply Foreach.FCons; [apply Foreach.FRecv|].
  eapply Foreach.FCons; [apply (Foreach.FHand _ _ _ _ _ [])|].
  match goal with |- Foreach.fexec ?f (Foreach.State ?p ([] ++ Foreach.WRun 0 ?e :: ?b)) _ _ =>
    replace e with [[("k", VStr "b"); ("v", vint 0)]; [("k", VStr "b"); ("v", vint 1)]; [("k", VStr "b"); ("v", vint 2)]]%string
      by (vm_compute; reflexivity) end.
  eapply Foreach.FCons; [apply (Foreach.WNext _ _ _ [])|].
  eapply Foreach.FCons; [apply Foreach.FRecv|].
  eapply Foreach.FCons; [apply (Foreach.FHand _ _ _ _ _ [_])|].
  eapply Foreach.FCons; [apply (Foreach.WEmit _ _ _ [])|]. apply Foreach.FNil.
Qed.

Example C96_group_demo : exists out s2,
  group_select demo_env demo_funs group_frames false group_cols (Some (sym 13 "n")) (sym 14 "k") group_rows_demo = Some out /\
  query_yields demo_env group_scope
    (Select false group_cols (from_var "t") (Some (sym 13 "n")) (Some (sym 14 "k")) None None) st0 s2 (map VDict out) /\
  trace s2 = trace st0 /\
  delivers (group_layout demo_env demo_funs 1 group_frames false group_cols (from_var "t") (Some (sym 13 "n")) (sym 14 "k")) out.
Proof.
  apply (C96_every_schedule_group_by demo_env demo_funs group_owner demo_funs_ok group_scope group_frames st0 eq_refl)
    with (rows := group_rows_demo)
         (l := [("b", row [("k", VStr "b"); ("n", i 3)]); ("a", row [("k", VStr "a"); ("n", i 1)]);
                ("a", row [("k", VStr "a"); ("n", i 2)]); ("b", row [("k", VStr "b"); ("n", i 5)])]%string).
  - discriminate.
  - unfold room_for. cbn. lia.
  - cbn. lia.
  - apply demo_aggregate_query.
  - exact I.
  - exact I.
  - cbn. repeat constructor.
  - apply fresh_ids.
  - vm_compute. reflexivity.
  - vm_compute. reflexivity.
  - repeat split; eexists; vm_compute; reflexivity.
Qed.

Print Assumptions C96_every_schedule.
Print Assumptions C96_every_schedule_group_by.
Print Assumptions C96_cancelled.
Print Assumptions C96_foreach_workers.

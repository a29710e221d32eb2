(** SELECT, WHERE, LIMIT, ORDER BY and [*]: C14, C15, C16, C20.

    The meaning of a query is given in PureSpec.v ([select_rows], [project],
    [holds], [den]), without the evaluator.  The theorems say that the
    evaluator of Eval.v, started in any state, yields those rows for every
    sufficiently large amount of fuel. *)

From Coq Require Import ZArith List String Bool Lia PeanoNat Permutation Sorted.
From Verif Require Import Base BaseProofs F64 Value Protocols OpsProofs Monad Chains Range Flatten
  ArgParser Syntax Eval Runs Para GoSort PureSpec PureEval PureSelect Demo.
Import ListNotations.
Open Scope nat_scope.
Open Scope list_scope.

(** ** Vocabulary *)

(** The query, run in this scope and state, yields these rows. *)
Definition query_yields (E : env) (sc : scope) (q : select) (s s' : st) (rows : list val) : Prop :=
  evaluates (fun n => r_select (ev E n) sc q) s s' rows.

(** The FROM clause yields these rows. *)
Definition from_yields (E : env) (sc : scope) (from : plugin) (s s' : st) (rows : list val) : Prop :=
  evaluates (fun n => plugin_eval E (ev E n) n sc from) s s' rows.

(** Functions objects kept by call nodes are those registered under the name
    of the node.  True of a fresh state, kept by evaluation. *)
Definition calls_ok (E : env) (owner : nat -> string) (s : st) : Prop :=
  forall node f id, nassoc node (node_funs s) = Some (f, id) ->
    assoc (owner node) (env_funs E) = Some f.

(** The scope holds these frames, innermost first. *)
Definition frames (sc : scope) (fr : list dict) : Prop := sc_vars sc = map VDict fr.

Definition no_world : world := fun _ => None.

Lemma calls_stok : forall E owner s, calls_ok E owner s -> stok E owner no_world s.
Proof. intros E owner s H. constructor; [discriminate|exact H]. Qed.

Lemma frames_scope : forall E owner W sc fr, frames sc fr -> sc_depth sc < 1000 -> scope_ok E owner W sc fr.
Proof.
  intros E owner W sc fr H D. split.
  - rewrite H. clear H. induction fr as [|d fr IH]; simpl; constructor; auto. now left.
  - unfold overflow. apply Nat.leb_gt. exact D.
Qed.

(** ** C14: SELECT ... WHERE is filter and projection in order *)

(** There is room for this many nested scopes. *)
Definition room_for (depth : nat) (sc : scope) : Prop := 2 * depth + (sc_depth sc + 2) < 1000.

Section C14.
  Variables (E : env) (funs : string -> option (dict -> option val)) (owner : nat -> string).
  Hypothesis FOK : funs_ok E funs.

  (** For each input row in order, one output row exactly if the condition
      holds, with the selected columns evaluated with the row in scope; no
      effect on the host and on aggregators besides those of FROM.  Columns
      may be subqueries, nested to any depth. *)
  Theorem C14_select_is_filter_and_projection :
    forall depth sc fr star cols from where_ s s1 rows out,
    frames sc fr -> room_for depth sc ->
    label_columns owner (label_query owner depth) cols -> label_where owner where_ ->
    from_yields E sc from s s1 (map VDict rows) -> calls_ok E owner s1 ->
    Forall row_ok rows ->
    select_rows E funs (query_rows E funs depth) fr star cols where_ rows = Some out ->
    exists s2, query_yields E sc (Select star cols from where_ None None None) s s2 (map VDict out)
               /\ quiet s1 s2.
  Proof.
    intros depth sc fr star cols from where_ s s1 rows out FR RM LC LW HF CO RO HO.
    unfold room_for in RM.
    assert (SC : scope_ok E owner no_world sc fr) by (apply frames_scope; [exact FR|lia]).
    destruct (rows_ok E funs owner FOK (query_rows E funs depth) (label_query owner depth) (2 * depth)
                (query_rows_plain E funs depth) (query_rows_ok E funs owner FOK depth)
                no_world sc fr star cols where_ SC RM LC LW rows out RO HO
                no_world s1 (wle_refl _) (calls_stok _ _ _ CO)) as (W2 & s2 & _ & _ & Q & EV).
    exists s2. split; [|exact Q]. apply ev_select. cbn [select_step].
    eapply ev_bind; [exact HF|]. exact EV.
  Qed.

  (** A query over a list, a dictionary or a materialised query held in a
      variable, or over foreach(), chain(), if(), flatten() or range(), with
      WHERE, ORDER BY, LIMIT and subqueries among the columns and the
      arguments of the plugin: nothing is left to assume about FROM. *)
  Theorem C14_query_yields_its_rows :
    forall depth sc fr q s out,
    frames sc fr -> room_for depth sc -> label_query owner depth q -> calls_ok E owner s ->
    query_rows E funs depth fr q = Some out ->
    exists s2, query_yields E sc q s s2 (map VDict out) /\ quiet s s2.
  Proof.
    intros depth sc fr q s out FR RM LQ CO HO. unfold room_for in RM.
    assert (SC : scope_ok E owner no_world sc fr) by (apply frames_scope; [exact FR|lia]).
    destruct (query_rows_ok E funs owner FOK depth no_world sc fr q out HO LQ SC ltac:(lia)
                no_world s (wle_refl _) (calls_stok _ _ _ CO)) as (W2 & s2 & _ & _ & Q & EV).
    exists s2. split; [exact EV|exact Q].
  Qed.

  (** The same, without ORDER BY and LIMIT, in terms of the rows. *)
  Theorem C14_select_from_variable :
    forall depth sc fr star cols x where_ s rows out,
    frames sc fr -> room_for depth sc ->
    label_columns owner (label_query owner depth) cols -> label_where owner where_ ->
    calls_ok E owner s -> Forall row_ok rows ->
    lookup fr x = VArr (map VDict rows) \/ lookup fr x = VQuery (map VDict rows) \/
    (exists d, lookup fr x = VDict d /\ rows = [d]) ->
    select_rows E funs (query_rows E funs depth) fr star cols where_ rows = Some out ->
    exists s2, query_yields E sc (Select star cols (Plugin [x] false []) where_ None None None)
                 s s2 (map VDict out) /\ quiet s s2.
  Proof.
    intros depth sc fr star cols x where_ s rows out FR RM LC LW CO RO HX HO.
    assert (SC : scope_ok E owner no_world sc fr).
    { apply frames_scope; [exact FR|]. unfold room_for in RM. lia. }
    destruct (from_var_ok E owner no_world sc fr x rows SC RO HX no_world s (wle_refl _)
                (calls_stok _ _ _ CO)) as (W1 & s1 & _ & HS1 & Q1 & EV1).
    destruct (C14_select_is_filter_and_projection depth sc fr star cols (Plugin [x] false []) where_
                s s1 rows out FR RM LC LW EV1) as (s2 & HY & Q2); auto.
    { exact (so_funs _ _ _ _ HS1). }
    exists s2. split; [exact HY|]. eapply quiet_trans; eauto.
  Qed.
End C14.

(** ** C33 to C36, C38: plugins whose arguments are queries *)

Section FromPlugins.
  Variables (E : env) (funs : string -> option (dict -> option val)) (owner : nat -> string).
  Hypothesis FOK : funs_ok E funs.
  Variables (depth : nat) (sc : scope) (fr : list dict) (s : st) (name : string).
  Hypothesis FR : frames sc fr.
  Hypothesis RM : room_for depth sc.
  Hypothesis CO : calls_ok E owner s.
  Notation rows_of := (query_rows E funs depth).
  Notation labelled_query := (label_query owner depth).

  (** The plugin called with the arguments yields these rows and has no
      effects. *)
  Definition plugin_yields (args : list (string * argval)) (rows : list dict) : Prop :=
    exists s2, from_yields E sc (Plugin [name] true args) s s2 (map VDict rows) /\ quiet s s2.

  Lemma source_yields : forall args rows, label_args owner labelled_query args ->
    source E funs rows_of fr (Plugin [name] true args) = Some rows -> plugin_yields args rows.
  Proof.
    intros args rows LA H. unfold room_for in RM.
    assert (SC : scope_ok E owner no_world sc fr) by (apply frames_scope; [exact FR|lia]).
    destruct (source_ok E funs owner FOK rows_of labelled_query (2 * depth) (query_rows_rows E funs depth)
                (query_rows_ok E funs owner FOK depth) no_world sc fr _ rows H LA SC ltac:(lia)
                no_world s (wle_refl _) (calls_stok _ _ _ CO)) as (W2 & s2 & _ & _ & Q & EV).
    exists s2. split; [exact EV|exact Q].
  Qed.

  (** chain(a={q1}, b={q2}, ...): the rows of the first query, then those of
      the second, and so on. *)
  Theorem C34_chain_yields_the_rows_of_its_queries : forall args parts,
    assoc name (env_plugs E) = Some PlChain -> distinct (keys args) = true ->
    Forall2 (fun na rows => exists q, snd na = ASelect q /\ labelled_query q /\ rows_of fr q = Some rows)
      args parts ->
    plugin_yields args (List.concat parts).
  Proof.
    intros args parts HP ND H. apply source_yields.
    - clear - H. induction H as [|[n a] r args parts (q & HQ & LQ & _) _ IH]; constructor; [|exact IH].
      cbn [snd] in *. subst a. exact LQ.
    - cbn [source]. rewrite ND, HP. cbn [negb]. unfold all_rows. clear - H.
      assert (SQ : sequence (map (fun na => match snd na with ASelect q => rows_of fr q | _ => None end) args)
                   = Some parts).
      { induction H as [|[n a] r args parts (q & HQ & _ & HR) _ IH]; [reflexivity|].
        cbn [map sequence snd] in *. subst a. rewrite HR, IH. reflexivity. }
      rewrite SQ. reflexivity.
  Qed.

  (** foreach(row={q0}, query={q}): the rows of [q] for the first row of [q0]
      with that row in scope, then those for the second, and so on. *)
  Theorem C36_foreach_runs_the_query_for_each_row : forall q0 q rows0 parts,
    assoc name (env_plugs E) = Some PlForeach -> labelled_query q0 -> labelled_query q ->
    rows_of fr q0 = Some rows0 ->
    Forall2 (fun row rows => rows_of (row :: fr) q = Some rows) rows0 parts ->
    plugin_yields [("row"%string, ASelect q0); ("query"%string, ASelect q)] (List.concat parts).
  Proof.
    intros q0 q rows0 parts HP L0 LQ H0 H. apply source_yields.
    - constructor; [exact L0|]. constructor; [exact LQ|constructor].
    - cbn -[query_rows]. rewrite HP. cbn -[query_rows]. rewrite H0. cbn [obind]. unfold all_rows.
      assert (SQ : sequence (map (fun row => rows_of (row :: fr) q) rows0) = Some parts).
      { clear - H. induction H as [|r l rows0 parts HR _ IH]; [reflexivity|].
        cbn [map sequence] in *. rewrite HR, IH. reflexivity. }
      rewrite SQ. reflexivity.
  Qed.

  (** foreach(row=e, query={q}) for a list of rows. *)
  Theorem C36_foreach_over_a_list : forall e q rows0 parts,
    assoc name (env_plugs E) = Some PlForeach -> labelled owner e -> labelled_query q ->
    den E funs fr e = Some (VArr (map VDict rows0)) -> Forall row_ok rows0 ->
    Forall2 (fun row rows => rows_of (row :: fr) q = Some rows) rows0 parts ->
    plugin_yields [("row"%string, AExpr e); ("query"%string, ASelect q)] (List.concat parts).
  Proof.
    intros e q rows0 parts HP L0 LQ H0 RO H. apply source_yields.
    - constructor; [exact L0|]. constructor; [exact LQ|constructor].
    - assert (D : dicts (map VDict rows0) = Some rows0) by now apply rows_dicts.
      assert (IT : iterate (env_iter E) (VArr (map VDict rows0)) = map VDict rows0).
      { cbn [iterate arr_elems]. clear. induction rows0 as [|r rows IH]; [reflexivity|].
        cbn [map]. cbn. now rewrite IH. }
      cbn -[query_rows iterate]. rewrite HP. cbn -[query_rows iterate]. rewrite H0. cbn [obind].
      rewrite IT, D. cbn [obind]. unfold all_rows.
      assert (SQ : sequence (map (fun row => rows_of (row :: fr) q) rows0) = Some parts).
      { clear - H. induction H as [|r l rows0 parts HR _ IH]; [reflexivity|].
        cbn [map sequence] in *. rewrite HR, IH. reflexivity. }
      rewrite SQ. reflexivity.
  Qed.

  (** if(condition=e, then={q}, else={q'}) as a plugin. *)
  Theorem C38_if_as_a_plugin : forall e q q' v rows,
    assoc name (env_plugs E) = Some PlIf -> labelled owner e -> labelled_query q -> labelled_query q' ->
    den E funs fr e = Some v -> v <> VNil ->
    (if truthy E v then rows_of fr q else rows_of fr q') = Some rows ->
    plugin_yields [("condition"%string, AExpr e); ("then"%string, ASelect q); ("else"%string, ASelect q')] rows.
  Proof.
    intros e q q' v rows HP LE LQ LQ' HV NV H. apply source_yields.
    - constructor; [exact LE|]. constructor; [exact LQ|]. constructor; [exact LQ'|constructor].
    - cbn -[query_rows]. rewrite HP. cbn -[query_rows]. rewrite HV. cbn [obind].
      replace (match v with VNil => true | _ => false end) with false by (destruct v; congruence).
      exact H.
  Qed.

  (** flatten(query={q}): the rows of [q], each flattened, in order. *)
  Theorem C35_flatten_of_a_query : forall q rows0,
    assoc name (env_plugs E) = Some PlFlatten -> labelled_query q -> rows_of fr q = Some rows0 ->
    Forall row_ok (List.concat (map (flatten_row (env_iter E)) rows0)) ->
    plugin_yields [("query"%string, ASelect q)] (List.concat (map (flatten_row (env_iter E)) rows0)).
  Proof.
    intros q rows0 HP LQ H0 RO. apply source_yields.
    - constructor; [exact LQ|constructor].
    - cbn -[query_rows]. rewrite HP. cbn -[query_rows]. rewrite H0. cbn [obind]. now apply rows_dicts.
  Qed.

  (** range(start=a, end=b, step=c) with computed arguments: start, start+step, ...
      below the end. *)
  Theorem C33_range_in_a_query : forall a b c va vb vc start stop step,
    assoc name (env_plugs E) = Some PlRange -> labelled owner a -> labelled owner b -> labelled owner c ->
    den E funs fr a = Some va -> den E funs fr b = Some vb -> den E funs fr c = Some vc ->
    to_int64 va = Some start -> to_int64 vb = Some stop -> to_int64 vc = Some step ->
    (0 < step)%Z -> is_int64 start -> is_int64 stop -> (stop + step <= two63)%Z ->
    exists l,
      plugin_yields [("start"%string, AExpr a); ("end"%string, AExpr b); ("step"%string, AExpr c)]
        (map (fun z => [("_value"%string, vint z)]) l) /\
      (forall k z, nth_error l k = Some z -> z = start + Z.of_nat k * step)%Z /\
      (forall z, In z l <-> exists k, z = start + Z.of_nat k * step /\ z < stop)%Z.
  Proof.
    intros a b c va vb vc start stop step HP LA LB LC HA HB HC TA TB TC S1 I1 I2 S2.
    unfold is_int64 in *.
    set (n := Z.to_nat ((stop - start + step - 1) / step)).
    exists (map (fun k => start + Z.of_nat k * step)%Z (seq 0 n)). split; [|split].
    - apply source_yields.
      + constructor; [exact LA|]. constructor; [exact LB|]. constructor; [exact LC|constructor].
      + cbn -[range_values]. rewrite HP. cbn -[range_values]. unfold whole_arg. cbn -[range_values].
        rewrite HA, HB, HC. cbn -[range_values]. rewrite TA, TB, TC. cbn -[range_values].
        unfold range_values. replace (Z.eqb step 0) with false by (symmetry; apply Z.eqb_neq; lia).
        replace ((0 <? step)%Z && (stop + step <=? two63)%Z && (- two63 <=? start)%Z && (start <? two63)%Z &&
                 (- two63 <=? stop)%Z) with true; [reflexivity|].
        symmetry. rewrite !andb_true_iff, ?Z.ltb_lt, ?Z.leb_le. repeat split; lia.
    - intros k z HN. destruct (Nat.lt_ge_cases k n) as [L|L].
      + rewrite (map_nth_error _ k (seq 0 n) (d := k)) in HN; [congruence|].
        rewrite (nth_error_nth' _ 0) by (rewrite seq_length; exact L). now rewrite seq_nth.
      + rewrite (proj2 (nth_error_None _ k)) in HN; [discriminate|]. now rewrite map_length, seq_length.
    - assert (BOUND : forall k, (k < n)%nat <-> (start + Z.of_nat k * step < stop)%Z).
      { intros k. unfold n. rewrite <- Nat2Z.id with (n := k) at 1.
        split; intros L.
        - assert (A : (Z.of_nat k < (stop - start + step - 1) / step)%Z) by lia.
          assert (B : (Z.of_nat k + 1 <= (stop - start + step - 1) / step)%Z) by lia.
          pose proof (Z.mul_div_le (stop - start + step - 1) step ltac:(lia)). nia.
        - apply Z2Nat.inj_lt; [lia| |].
          + apply Z.div_pos; nia.
          + apply Z.lt_le_trans with (m := (Z.of_nat k + 1)%Z); [lia|].
            apply Z.div_le_lower_bound; [lia|]. nia. }
      intros z. rewrite in_map_iff. split.
      + intros (k & <- & HI). apply in_seq in HI. exists k. split; [reflexivity|]. apply BOUND. lia.
      + intros (k & -> & L). exists k. split; [reflexivity|]. apply in_seq. apply BOUND in L. lia.
  Qed.
End FromPlugins.

Section Subquery.
  Variables (E : env) (sc : scope) (q : select).

  (** For every subquery used as a column, of any kind: no rows show as a nil
      list, which is equal to NULL; one row as that row; several as the list
      of them.  A row with one field shows as the value of the field. *)
  Theorem C14_subquery_column_of_any_query : forall s s' rows,
    query_yields E sc q s s' (map VDict rows) ->
    evaluates (fun n => col_reduce (ev E n) sc (CSelect q)) s s'
      (match map cell rows with
       | [] => VNilArr
       | [v] => v
       | l => VArr l
       end).
  Proof.
    intros s s' rows H. cbn [col_reduce]. eapply ev_bind; [exact H|].
    eapply (ev_bind _ _ _ _ _ s' _ (map (fun r => [cell r]) rows)).
    2: { replace (List.concat (map (fun r => [cell r]) rows)) with (map cell rows)
           by (clear; induction rows as [|r rows IH]; [reflexivity|]; cbn; now rewrite IH).
         apply ev_ret. }
    exists 1. intros n Hn. destruct n as [|n]; [lia|]. clear H.
    induction rows as [|row rows IH]; [reflexivity|]. cbn [map mmap].
    assert (A : subselect_item (ev E (S n)) sc (VDict row) s' = (s', RVal [cell row])).
    { unfold subselect_item, mbind at 1, members. cbn [members_of].
      destruct row as [|[k v] [|kv row]]; cbn [keys map fst]; try reflexivity.
      cbn [ev step r_assoc]. unfold assoc_step. cbn [is_nil key_string].
      unfold mbind, obj_of, mret. simpl. rewrite String.eqb_refl. reflexivity. }
    unfold mbind at 1. rewrite A. unfold mbind at 1. rewrite IH. reflexivity.
  Qed.
End Subquery.

(** For expressions of every kind (with effects on the host, calls of stored
    functions, aggregates): rows are handled one after the other, each in the
    state the previous one left, and gives at most one output row. *)
Section AnyExpression.
  Variables (E : env) (sc : scope) (star : bool) (cols : list (string * colbody)) (where_ : option expr).

  (** The decision about one row; [t] is the lazy result row. *)
  Definition decides (t row : val) (s s' : st) (keep : bool) : Prop :=
    match where_ with
    | None => s' = s /\ keep = true
    | Some w => exists s1 v,
        evaluates (fun n => r_expr (ev E n) (append_vars t (append_vars row (copy (copy sc)))) w) s s1 v /\
        evaluates (fun n => accepts E (ev E n) sc v) s1 s' keep
    end.

  Inductive handled : list val -> st -> st -> list val -> Prop :=
  | handled_nil : forall s, handled [] s s []
  | handled_kept : forall row rows s s1 s2 s3 s' t r out,
      evaluates (fun n => transform (ev E n) (copy sc) star cols row) s s1 t ->
      decides t row s1 s2 true ->
      evaluates (fun n => materialize_row (ev E n) t) s2 s3 r ->
      handled rows s3 s' out ->
      handled (row :: rows) s s' (r :: out)
  | handled_dropped : forall row rows s s1 s2 s' t out,
      evaluates (fun n => transform (ev E n) (copy sc) star cols row) s s1 t ->
      decides t row s1 s2 false ->
      handled rows s2 s' out ->
      handled (row :: rows) s s' out.

  Lemma handled_mmap : forall rows s s' out, handled rows s s' out ->
    evaluates (fun n => o <- mmap (process_row E (ev E n) sc star cols where_) rows ;;
                        mret (List.concat o)) s s' out.
  Proof.
    intros rows s s' out H.
    assert (G : exists outs, evaluates (fun n => mmap (process_row E (ev E n) sc star cols where_) rows) s s' outs
              /\ List.concat outs = out).
    { induction H as [s|row rows s s1 s2 s3 s' t r out HT HD HM _ (outs & IH & <-)
                     |row rows s s1 s2 s' t out HT HD _ (outs & IH & <-)].
      - exists []. split; [apply ev_ret|reflexivity].
      - exists ([r] :: outs). split; [|reflexivity]. cbn [mmap].
        eapply ev_bind; [|eapply ev_bind; [exact IH|apply ev_ret]].
        unfold process_row. eapply ev_bind; [exact HT|]. unfold decides in HD.
        destruct where_ as [w|].
        + destruct HD as (sa & v & H1 & H2). eapply ev_bind; [exact H1|]. eapply ev_bind; [exact H2|].
          cbv beta iota. eapply ev_bind; [exact HM|apply ev_ret].
        + destruct HD as [-> _]. eapply ev_bind; [exact HM|apply ev_ret].
      - exists ([] :: outs). split; [|reflexivity]. cbn [mmap].
        eapply ev_bind; [|eapply ev_bind; [exact IH|apply ev_ret]].
        unfold process_row. eapply ev_bind; [exact HT|]. unfold decides in HD.
        destruct where_ as [w|].
        + destruct HD as (sa & v & H1 & H2). eapply ev_bind; [exact H1|]. eapply ev_bind; [exact H2|].
          apply ev_ret.
        + destruct HD as [_ H]. discriminate. }
    destruct G as (outs & HE & <-). eapply ev_bind; [exact HE|apply ev_ret].
  Qed.

  Theorem C14_rows_in_order_any_expression : forall from s s1 s' rows out,
    from_yields E sc from s s1 rows -> handled rows s1 s' out ->
    query_yields E sc (Select star cols from where_ None None None) s s' out.
  Proof.
    intros from s s1 s' rows out HF HH. apply ev_select. cbn [select_step].
    eapply ev_bind; [exact HF|]. now apply handled_mmap.
  Qed.
End AnyExpression.

(** ** C15: LIMIT *)

(** For every query, of any kind: LIMIT n keeps the first n rows. *)
Theorem C15_limit_keeps_the_first_rows_partial :
  forall E sc star cols from where_ groupby orderby n s s' rows,
  (1 <= n)%Z ->
  query_yields E sc (Select star cols from where_ groupby orderby None) s s' rows ->
  query_yields E sc (Select star cols from where_ groupby orderby (Some n)) s s'
    (firstn (Z.to_nat n) rows).
Proof.
  intros E sc star cols from where_ groupby orderby n s s' rows Hn H.
  apply ev_select. cbn [select_step]. eapply ev_bind; [exact H|].
  replace (Z.max 1 n) with n by lia. apply ev_ret.
Qed.

(** A query with LIMIT yields something only if it does without. *)
Theorem C15_limit_yields_only_those :
  forall E sc star cols from where_ groupby orderby n s s' s'' rows out,
  (1 <= n)%Z ->
  query_yields E sc (Select star cols from where_ groupby orderby (Some n)) s s' out ->
  query_yields E sc (Select star cols from where_ groupby orderby None) s s'' rows ->
  out = firstn (Z.to_nat n) rows /\ List.length out = min (Z.to_nat n) (List.length rows).
Proof.
  intros E sc star cols from where_ groupby orderby n s s' s'' rows out Hn H1 H2.
  pose proof (C15_limit_keeps_the_first_rows_partial E sc star cols from where_ groupby orderby n s s'' rows Hn H2) as H3.
  destruct (evaluates_unique _ _ _ _ _ _ _ H1 H3) as [_ ->].
  split; [reflexivity|]. apply firstn_length.
Qed.

(** ** C20: [*] *)

(** In the specification: with a leading star every field of the row is kept
    in order, except those a column replaces; a column has its own value. *)
Lemma assoc_app : forall A k (a b : list (string * A)),
  assoc k (a ++ b) = match assoc k a with Some v => Some v | None => assoc k b end.
Proof.
  intros A k a b. induction a as [|[k' v] a IH]; simpl; [reflexivity|].
  destruct (String.eqb k k'); auto.
Qed.

Definition not_in (names : list string) (kv : string * val) : bool := negb (mem_str (fst kv) names).

Lemma filter_fields : forall names row,
  filter (not_in names) (fields row) =
  map (fun kv => (fst kv, or_null (snd kv))) (filter (not_in names) row).
Proof.
  intros names row. unfold fields. induction row as [|[k v] row IH]; [reflexivity|].
  cbn [map filter]. change (not_in names (fst (k, v), or_null (snd (k, v)))) with (not_in names (k, v)).
  destruct (not_in names (k, v)); cbn [map]; rewrite IH; reflexivity.
Qed.

Lemma filter_remove : forall k names (d : dict),
  mem_str k names = true -> filter (not_in names) (remove_key k d) = filter (not_in names) d.
Proof.
  intros k names d H. induction d as [|[k' v] d IH]; simpl; [reflexivity|].
  destruct (String.eqb k k') eqn:EK; simpl.
  - apply String.eqb_eq in EK as <-. unfold not_in at 2. simpl. rewrite H. simpl. exact IH.
  - destruct (not_in names (k', v)); [f_equal|]; exact IH.
Qed.

Lemma columns_keep : forall E funs subq fr row cols acc out names,
  no_star cols -> (forall c, In c (keys cols) -> mem_str c names = true) ->
  columns E funs subq fr row cols acc = Some out ->
  filter (not_in names) out = filter (not_in names) acc.
Proof.
  intros E funs subq fr row cols. induction cols as [|[name body] cols IH]; intros acc out names NS IN H;
    cbn [columns] in H; [congruence|].
  inversion NS as [|? ? N1 N2]; subst. simpl in N1. rewrite N1 in H.
  apply obind_some in H as (v & Hv & H).
  rewrite (IH _ _ names N2 (fun c HC => IN c (or_intror HC)) H).
  assert (MN : mem_str name names = true) by (apply IN; now left).
  unfold dict_set. rewrite filter_app, (filter_remove name names acc MN). simpl.
  replace (not_in names (name, v)) with false; [apply app_nil_r|].
  unfold not_in. simpl. now rewrite MN.
Qed.

Lemma columns_value : forall E funs subq fr row cols acc out,
  no_star cols -> NoDup (keys cols) ->
  columns E funs subq fr row cols acc = Some out ->
  forall name body, In (name, body) cols ->
  exists v, column E funs subq fr row body = Some v /\ assoc name out = Some v.
Proof.
  intros E funs subq fr row cols. induction cols as [|[name body] cols IH]; intros acc out NS ND H n e HI;
    cbn [columns] in H; [contradiction|].
  inversion NS as [|? ? N1 N2]; subst. inversion ND as [|? ? D1 D2]; subst. simpl in N1. rewrite N1 in H.
  apply obind_some in H as (v & Hv & H).
  destruct HI as [[= <- <-]|HI]; [|eapply IH; eauto].
  exists v. split; [exact Hv|].
  assert (K : forall cols acc out, no_star cols -> ~ In name (keys cols) ->
    columns E funs subq fr row cols acc = Some out -> assoc name out = assoc name acc).
  { clear. induction cols as [|[n b] cols IH]; intros acc out NS NI H; cbn [columns] in H; [congruence|].
    inversion NS as [|? ? N1 N2]; subst. simpl in N1. rewrite N1 in H.
    apply obind_some in H as (v & Hv & H).
    rewrite (IH _ _ N2 (fun HC => NI (or_intror HC)) H). rewrite assoc_dict_set.
    destruct (String.eqb name n) eqn:EN; [|reflexivity].
    apply String.eqb_eq in EN as ->. exfalso. apply NI. now left. }
  rewrite (K _ _ _ N2 D1 H), assoc_dict_set, String.eqb_refl. reflexivity.
Qed.

Section C20.
  Variables (E : env) (funs : string -> option (dict -> option val)) (owner : nat -> string).
  Hypothesis FOK : funs_ok E funs.

  (** [SELECT *, e1 AS X1, ...]: the fields of the row that are not
      overridden, all and in order, NULL in place of nil; every X has the
      value of its expression. *)
  Theorem C20_star_then_columns :
    forall depth sc fr cols from s s1 row out,
    frames sc fr -> room_for depth sc -> label_columns owner (label_query owner depth) cols -> no_star cols -> NoDup (keys cols) ->
    from_yields E sc from s s1 [VDict row] -> calls_ok E owner s1 -> row_ok row ->
    project E funs (query_rows E funs depth) fr true cols row = Some out ->
    (exists s2, query_yields E sc (Select true cols from None None None None) s s2 [VDict out]) /\
    filter (not_in (keys cols)) out =
      map (fun kv => (fst kv, or_null (snd kv))) (filter (not_in (keys cols)) row) /\
    (forall name body, In (name, body) cols ->
       exists v, column E funs (query_rows E funs depth) fr row body = Some v /\ assoc name out = Some v).
  Proof.
    intros depth sc fr cols from s s1 row out FR RM LC NS ND HF CO RO HP.
    split; [|split].
    - destruct (C14_select_is_filter_and_projection E funs owner FOK depth sc fr true cols from None s s1
                  [row] [out] FR RM LC I HF CO) as (s2 & HY & _).
      + constructor; [exact RO|constructor].
      + cbn [select_rows]. rewrite HP. reflexivity.
      + exists s2. exact HY.
    - unfold project in HP. rewrite (columns_keep _ _ _ _ _ _ _ _ (keys cols) NS) with (2 := HP).
      + apply filter_fields.
      + intros c HI. unfold mem_str. apply existsb_exists. exists c. split; [exact HI|apply String.eqb_refl].
    - intros name body HI. eapply columns_value; eauto.
  Qed.

  (** [SELECT e1 AS X1, ..., *]: the columns first, then the fields of the row
      that are not among them. *)
  Theorem C20_columns_then_star :
    forall depth sc fr cols from s s1 row out,
    frames sc fr -> room_for depth sc -> label_columns owner (label_query owner depth) cols -> no_star cols -> NoDup (keys cols) ->
    from_yields E sc from s s1 [VDict row] -> calls_ok E owner s1 -> row_ok row ->
    project E funs (query_rows E funs depth) fr false cols row = Some out ->
    (exists s2, query_yields E sc (Select false (cols ++ [("*"%string, CStar)]) from None None None None)
       s s2 [VDict (out ++ map (fun kv => (fst kv, or_null (snd kv))) (filter (not_in (keys cols)) row))]) /\
    keys out = keys cols /\
    (forall name body, In (name, body) cols ->
       exists v, column E funs (query_rows E funs depth) fr row body = Some v /\ assoc name out = Some v).
  Proof.
    intros depth sc fr cols from s s1 row out FR RM LC NS ND HF CO RO HP.
    assert (KO : keys out = keys cols).
    { unfold project in HP. change (keys cols) with (keys (@nil (string * val)) ++ keys cols).
      assert (AB : forall c, In c (keys cols) -> assoc c (@nil (string * val)) = None) by reflexivity.
      revert HP AB. generalize (@nil (string * val)) as acc. clear - NS ND. revert out.
      induction cols as [|[name body] cols IH]; intros out acc HP AB; cbn [columns] in HP.
      - injection HP as <-. now rewrite app_nil_r.
      - inversion NS as [|? ? N1 N2]; subst. inversion ND as [|? ? D1 D2]; subst.
        simpl in N1. rewrite N1 in HP.
        apply obind_some in HP as (v & Hv & HP).
        rewrite dict_set_absent in HP by (apply AB; now left).
        rewrite (IH N2 D2 _ _ HP).
        + unfold keys. rewrite map_app, <- app_assoc. reflexivity.
        + intros c HC. rewrite assoc_app, (AB c (or_intror HC)). simpl.
          destruct (String.eqb c name) eqn:EC; [|reflexivity].
          apply String.eqb_eq in EC as ->. contradiction. }
    split; [|split].
    - destruct (C14_select_is_filter_and_projection E funs owner FOK depth sc fr false
                  (cols ++ [("*"%string, CStar)]) from None s s1
                  [row] [out ++ map (fun kv => (fst kv, or_null (snd kv))) (filter (not_in (keys cols)) row)]
                  FR RM) as (s2 & HY & _); auto.
      + apply Forall_app. split; [exact LC|]. constructor; [exact I|constructor].
      + exact I.
      + cbn [select_rows]. unfold project in *.
        assert (C : columns E funs (query_rows E funs depth) fr row (cols ++ [("*"%string, CStar)]) [] =
          Some (out ++ map (fun kv => (fst kv, or_null (snd kv))) (filter (not_in (keys cols)) row))).
        { rewrite <- KO. clear - NS HP. revert NS HP. generalize (@nil (string * val)) as acc.
          induction cols as [|[name body] cols IH]; intros acc NS HP; cbn [columns app] in *.
          - injection HP as ->. cbn [String.eqb Ascii.eqb Bool.eqb]. f_equal. f_equal.
            apply filter_fields.
          - inversion NS as [|? ? N1 N2]; subst. simpl in N1. rewrite N1 in *.
            apply obind_some in HP as (v & Hv & HP). rewrite Hv. cbn [obind]. auto. }
        rewrite C. reflexivity.
      + exists s2. exact HY.
    - exact KO.
    - intros name body HI. unfold project in HP. eapply columns_value; eauto.
  Qed.
End C20.

(** ** C16: ORDER BY *)

(** ORDER BY is the query without it, sorted. *)
Lemma ordered : forall E sc star cols from where_ groupby key desc s s1 s2 rows out,
  query_yields E sc (Select star cols from where_ groupby None None) s s1 rows ->
  evaluates (fun n => sort_rows E (ev E n) sc key desc rows) s1 s2 out ->
  query_yields E sc (Select star cols from where_ groupby (Some (key, desc)) None) s s2 out.
Proof.
  intros E sc star cols from where_ groupby key desc s s1 s2 rows out H HS.
  apply ev_select. destruct groupby as [g|].
  - assert (HU : evaluates (fun n => select_step E (ev E n) n sc
                    (Select star cols from where_ (Some g) None None)) s s1 rows).
    { apply (ev_unshift _ (fun n => r_select (ev E n) sc (Select star cols from where_ (Some g) None None)));
        [reflexivity|exact H]. }
    pose proof (ev_bind _ _ _ (fun n rows => sort_rows E (ev E n) sc key desc rows) _ _ _ _ _ HU HS) as B.
    eapply ev_ext; [|exact B]. intros n. cbn [select_step].
    unfold mbind. destruct (plugin_eval E (ev E n) n sc from s) as [sa [a| |]]; try reflexivity.
    destruct (group_rows E (ev E n) (copy sc) star cols where_ g a [] sa) as [sb [b| |]]; reflexivity.
  - cbn [select_step]. eapply ev_bind; [exact H|exact HS].
Qed.

Lemma sort_rows_yields : forall E sc key desc rows s,
  evaluates (fun n => sort_rows E (ev E n) sc key desc (map VDict rows)) s s
    (map snd (env_sort E (sort_less E desc) (map (fun r => (found_key key r, VDict r)) rows))).
Proof.
  intros E sc key desc rows s.
  assert (K : evaluates (fun n => mmap (fun r => r_assoc (ev E n) sc r (KVal (VStr key))) (map VDict rows)) s s
                (map (found_key key) rows)).
  { exists 1. intros n Hn. destruct n as [|n]; [lia|].
    assert (A : forall row, r_assoc (ev E (S n)) sc (VDict row) (KVal (VStr key)) s
                            = (s, RVal (found_key key row))).
    { intros row. cbn [ev step r_assoc]. unfold assoc_step. cbn [is_nil key_string].
      unfold mbind, obj_of, mret, found_key. simpl. destruct (assoc key row); reflexivity. }
    induction rows as [|row rows IH]; [reflexivity|]. cbn [map mmap].
    unfold mbind at 1. rewrite A. unfold mbind at 1. rewrite IH. reflexivity. }
  unfold sort_rows. eapply ev_bind; [exact K|].
  replace (combine (map (found_key key) rows) (map VDict rows))
    with (map (fun r => (found_key key r, VDict r)) rows); [apply ev_ret|].
  clear. induction rows as [|r rows IH]; simpl; [reflexivity|]. now rewrite IH.
Qed.

Section C16.
  Variable E : env.
  Hypothesis SORT : sort_contract (env_sort E).

  Lemma sorted_rows : forall key desc rows,
    exists out, map snd (env_sort E (sort_less E desc) (map (fun r => (found_key key r, VDict r)) rows))
                = map VDict out /\ Permutation out rows /\
                env_sort E (sort_less E desc) (map (fun r => (found_key key r, VDict r)) rows)
                = map (fun r => (found_key key r, VDict r)) out.
  Proof.
    intros key desc rows.
    pose proof (sc_perm _ SORT (sort_less E desc) (map (fun r => (found_key key r, VDict r)) rows)) as P.
    apply Permutation_map_inv in P as (out & EQ & P).
    exists out. rewrite EQ. split; [rewrite map_map; reflexivity|]. split; [now symmetry|reflexivity].
  Qed.

  (** No row is lost, duplicated or changed, whatever the key. *)
  Theorem C16_order_by_permutes :
    forall sc star cols from where_ groupby key desc s s1 rows,
    query_yields E sc (Select star cols from where_ groupby None None) s s1 (map VDict rows) ->
    exists out,
      query_yields E sc (Select star cols from where_ groupby (Some (key, desc)) None) s s1 (map VDict out)
      /\ Permutation out rows.
  Proof.
    intros sc star cols from where_ groupby key desc s s1 rows H.
    destruct (sorted_rows key desc rows) as (out & EQ & P & _).
    exists out. split; [|exact P]. eapply ordered; [exact H|]. rewrite <- EQ. apply sort_rows_yields.
  Qed.

  (** Keys that are integers (of a signed type, or unsigned ones that fit an
      int64) or NULL, and keys that are strings or NULL. *)
  Inductive int_key : val -> option Z -> Prop :=
  | ik_null : int_key VNull None
  | ik_int : forall k z, k <> KUint -> wrap64 z = z -> int_key (VInt k z) (Some z).
  Inductive str_key : val -> string -> Prop :=
  | sk_null : str_key VNull EmptyString
  | sk_str : forall s, str_key (VStr s) s.

  (** NULL before every number *)
  Definition int_le (a b : option Z) : Prop :=
    match a, b with
    | None, _ => True
    | Some _, None => False
    | Some x, Some y => (x <= y)%Z
    end.
  (** bytewise; NULL counts as the empty string *)
  Definition str_le (a b : string) : Prop := str_ltb b a = false.

  Lemma int_key_lt : forall a x b y, int_key a x -> int_key b y ->
    lt_disp (p_lt (env_protos E)) (if is_nil a then VStr "" else a) (if is_nil b then VStr "" else b)
    = match x, y with
      | _, None => false
      | None, Some _ => true
      | Some x, Some y => Z.ltb x y
      end.
  Proof.
    intros a x b y Ha Hb. destruct Ha as [|k z HK HZ], Hb as [|k' z' HK' HZ']; cbn [is_nil].
    - reflexivity.
    - destruct k'; try congruence; reflexivity.
    - destruct k; try congruence; reflexivity.
    - rewrite lt_int by assumption. now rewrite HZ, HZ'.
  Qed.

  Lemma str_key_lt : forall a x b y, str_key a x -> str_key b y ->
    lt_disp (p_lt (env_protos E)) (if is_nil a then VStr "" else a) (if is_nil b then VStr "" else b)
    = str_ltb x y.
  Proof. intros a x b y Ha Hb. destruct Ha, Hb; reflexivity. Qed.

  (** Sorting with keys that have a rank. *)
  Lemma sorted_by_rank : forall (T : Type) (kind : val -> T -> Prop) (ltT : T -> T -> bool) key desc rows out,
    (forall a x b y, kind a x -> kind b y ->
       lt_disp (p_lt (env_protos E)) (if is_nil a then VStr "" else a) (if is_nil b then VStr "" else b)
       = ltT x y) ->
    (forall x y, ltT x y = true -> ltT y x = false) ->
    (forall x y z, ltT x y = true -> ltT x z = true \/ ltT z y = true) ->
    Forall (fun r : dict => exists v x, assoc key r = Some v /\ kind (or_null v) x) rows ->
    env_sort E (sort_less E desc) (map (fun r => (found_key key r, VDict r)) rows)
      = map (fun r => (found_key key r, VDict r)) out ->
    Permutation out rows ->
    StronglySorted (fun a b : dict => forall va x vb y, assoc key a = Some va -> kind (or_null va) x ->
        assoc key b = Some vb -> kind (or_null vb) y ->
        if desc then ltT x y = false else ltT y x = false) out.
  Proof.
    intros T kind ltT key desc rows out LT AS NT HK EQ PM.
    set (dec := fun r : dict => (found_key key r, VDict r)) in *.
    set (lt := fun a b : skey => lt_disp (p_lt (env_protos E)) (sort_elem (fst a)) (sort_elem (fst b))).
    assert (KEY : forall e, In e (map dec rows) -> exists v x, fst e = (or_null v, true) /\ kind (or_null v) x).
    { intros e HI. apply in_map_iff in HI as (r & <- & HI). rewrite Forall_forall in HK.
      destruct (HK _ HI) as (v & x & Hv & Hx). exists v, x. unfold dec, found_key. simpl. rewrite Hv. auto. }
    assert (LTE : forall a b va x vb y, fst a = (va, true) -> kind va x -> fst b = (vb, true) -> kind vb y ->
      lt a b = ltT x y).
    { intros a b va x vb y Ha Hx Hb Hy. unfold lt, sort_elem. rewrite Ha, Hb. simpl. now apply LT. }
    assert (WO : weak_order_on lt (map dec rows)).
    { split.
      - intros a b Ha Hb. destruct (KEY _ Ha) as (va & x & Fa & Kx). destruct (KEY _ Hb) as (vb & y & Fb & Ky).
        rewrite (LTE a b _ _ _ _ Fa Kx Fb Ky), (LTE b a _ _ _ _ Fb Ky Fa Kx). apply AS.
      - intros a b c Ha Hb Hc. destruct (KEY _ Ha) as (va & x & Fa & Kx).
        destruct (KEY _ Hb) as (vb & y & Fb & Ky). destruct (KEY _ Hc) as (vc & z & Fc & Kz).
        rewrite (LTE a b _ _ _ _ Fa Kx Fb Ky), (LTE a c _ _ _ _ Fa Kx Fc Kz), (LTE c b _ _ _ _ Fc Kz Fb Ky).
        apply NT. }
    assert (SO : StronglySorted (fun a b => if desc then lt a b = false else lt b a = false) (map dec out)).
    { rewrite <- EQ. destruct desc.
      - apply (sc_desc _ SORT) with (lt := lt); [|exact WO].
        intros a b Ha Hb. unfold sort_less, lt.
        destruct (KEY _ Ha) as (va & x & Fa & _). destruct (KEY _ Hb) as (vb & y & Fb & _).
        rewrite Fa, Fb. reflexivity.
      - assert (LE : forall a b, In a (map dec rows) -> In b (map dec rows) -> sort_less E false a b = lt a b).
        { intros a b Ha Hb. unfold sort_less, lt.
          destruct (KEY _ Ha) as (va & x & Fa & _). destruct (KEY _ Hb) as (vb & y & Fb & _).
          rewrite Fa, Fb. reflexivity. }
        assert (WO2 : weak_order_on (sort_less E false) (map dec rows)).
        { destruct WO as [W1 W2]. split.
          - intros a b Ha Hb. rewrite !LE by assumption. auto.
          - intros a b c Ha Hb Hc. rewrite !LE by assumption. auto. }
        pose proof (sc_asc _ SORT _ _ WO2) as S0. rewrite EQ in *.
        assert (INO : forall e, In e (map dec out) -> In e (map dec rows)).
        { intros e HI. eapply Permutation_in; [|exact HI]. now apply Permutation_map. }
        clear - S0 LE INO. induction S0 as [|a l S0 IH F]; constructor.
        + apply IH. intros e HI. apply INO. now right.
        + rewrite Forall_forall in *. intros b HB.
          rewrite <- LE; [auto|apply INO; now right|apply INO; now left]. }
    clear EQ WO. induction out as [|r out IH]; [constructor|].
    cbn [map] in SO. inversion SO as [|? ? S1 S2]; subst.
    assert (GEN : forall out', StronglySorted (fun a b => if desc then lt a b = false else lt b a = false) (map dec out') ->
      StronglySorted (fun a b : dict => forall va x vb y, assoc key a = Some va -> kind (or_null va) x ->
        assoc key b = Some vb -> kind (or_null vb) y ->
        if desc then ltT x y = false else ltT y x = false) out').
    { clear - LTE. induction out' as [|r out IH]; intros SO; [constructor|].
      cbn [map] in SO. inversion SO as [|? ? S1 S2]; subst. constructor; [auto|].
      rewrite Forall_forall in *. intros b HB va x vb y Ha Kx Hb Ky.
      specialize (S2 (dec b) (in_map dec _ _ HB)).
      assert (Fa : fst (dec r) = (or_null va, true)) by (unfold dec, found_key; simpl; now rewrite Ha).
      assert (Fb : fst (dec b) = (or_null vb, true)) by (unfold dec, found_key; simpl; now rewrite Hb).
      destruct desc.
      - now rewrite <- (LTE (dec r) (dec b) _ _ _ _ Fa Kx Fb Ky).
      - now rewrite <- (LTE (dec b) (dec r) _ _ _ _ Fb Ky Fa Kx). }
    apply GEN. exact SO.
  Qed.

  (** A column of integers: ascending with NULL first, or descending. *)
  Theorem C16_order_by_integers_partial :
    forall sc star cols from where_ groupby key desc s s1 rows,
    query_yields E sc (Select star cols from where_ groupby None None) s s1 (map VDict rows) ->
    Forall (fun r : dict => exists v x, assoc key r = Some v /\ int_key (or_null v) x) rows ->
    exists out,
      query_yields E sc (Select star cols from where_ groupby (Some (key, desc)) None) s s1 (map VDict out)
      /\ Permutation out rows
      /\ StronglySorted (fun a b : dict => forall va x vb y,
           assoc key a = Some va -> int_key (or_null va) x ->
           assoc key b = Some vb -> int_key (or_null vb) y ->
           if desc then int_le y x else int_le x y) out.
  Proof.
    intros sc star cols from where_ groupby key desc s s1 rows H HK.
    destruct (sorted_rows key desc rows) as (out & EQ & P & EQ2).
    exists out. split; [|split; [exact P|]].
    { eapply ordered; [exact H|]. rewrite <- EQ. apply sort_rows_yields. }
    set (ltT := fun x y : option Z =>
      match x, y with _, None => false | None, Some _ => true | Some x, Some y => Z.ltb x y end).
    pose proof (sorted_by_rank (option Z) int_key ltT key desc rows out) as S0.
    assert (SS := S0 ltac:(intros; now apply int_key_lt)
      ltac:(intros [x|] [y|]; simpl; try reflexivity; try discriminate;
            rewrite Z.ltb_lt, Z.ltb_ge; lia)
      ltac:(intros [x|] [y|] [z|]; simpl; auto; try discriminate;
            rewrite !Z.ltb_lt; lia) HK EQ2 P). clear S0.
    clear - SS. induction SS as [|a l SS IH F]; [constructor|constructor; [exact IH|]].
    rewrite Forall_forall in *. intros b HB va x vb y Ha Kx Hb Ky.
    specialize (F b HB va x vb y Ha Kx Hb Ky). unfold ltT in F.
    destruct desc; destruct x as [x|], y as [y|]; simpl in *; try exact I; try discriminate;
      try (apply Z.ltb_ge; exact F).
  Qed.

  (** A column of strings: ascending, or descending, NULL like "". *)
  Theorem C16_order_by_strings_partial :
    forall sc star cols from where_ groupby key desc s s1 rows,
    query_yields E sc (Select star cols from where_ groupby None None) s s1 (map VDict rows) ->
    Forall (fun r : dict => exists v x, assoc key r = Some v /\ str_key (or_null v) x) rows ->
    exists out,
      query_yields E sc (Select star cols from where_ groupby (Some (key, desc)) None) s s1 (map VDict out)
      /\ Permutation out rows
      /\ StronglySorted (fun a b : dict => forall va x vb y,
           assoc key a = Some va -> str_key (or_null va) x ->
           assoc key b = Some vb -> str_key (or_null vb) y ->
           if desc then str_le y x else str_le x y) out.
  Proof.
    intros sc star cols from where_ groupby key desc s s1 rows H HK.
    destruct (sorted_rows key desc rows) as (out & EQ & P & EQ2).
    exists out. split; [|split; [exact P|]].
    { eapply ordered; [exact H|]. rewrite <- EQ. apply sort_rows_yields. }
    eapply (sorted_by_rank string str_key str_ltb key desc rows out); eauto.
    - intros; now apply str_key_lt.
    - intros x y. apply str_ltb_asym.
    - intros x y z Hxy. destruct (str_ltb_total x z) as [L|[->|L]]; auto.
      right. eapply str_ltb_trans; eauto.
  Qed.
End C16.

(** ** Cases that meet the hypotheses *)

Import Demo.
Open Scope string_scope.

Definition demo_funs (f : string) : option (dict -> option val) :=
  if String.eqb f "twice" then Some (fun args => Some (twice_of (arg args "x")))
  else match assoc f builtin_funs with
       | Some fn => if is_builtin fn then Some (builtin_value demo_env fn) else None
       | None => None
       end.

Lemma demo_funs_ok : funs_ok demo_env demo_funs.
Proof.
  intros f F H. unfold demo_funs in H. destruct (String.eqb f "twice") eqn:EF.
  2: { destruct (assoc f builtin_funs) as [fn|] eqn:EA; [|discriminate].
       destruct (is_builtin fn) eqn:EB; [|discriminate]. injection H as <-.
       exists fn. split.
       - cbn [env_funs demo_env]. clear - EA. revert EA. generalize builtin_funs. intros l.
         induction l as [|[k v] l IH]; cbn [assoc List.app]; [discriminate|].
         destruct (String.eqb f k); auto.
       - destruct fn; try discriminate; cbn [function_ok]; auto. }
  apply String.eqb_eq in EF as ->. injection H as <-.
  exists (FHost twice_host). split; [reflexivity|].
  intros rho args vals v RHO HA HV. injection HV as <-. unfold twice_host.
  assert (A : rho (arg args "x") = Some (arg vals "x")).
  { induction HA as [|[k a] [k' b] args vals [HK HR] HA IH]; [now apply RHO|].
    cbn in HK, HR. subst k'. unfold arg in *. cbn [assoc] in *.
    destruct (String.eqb "x" k); [exact HR|exact IH]. }
  eapply PD_reduce; [exact A|]. constructor.
Qed.

Definition demo_owner (n : nat) : string := "twice".

(** SELECT k, twice(x=n) + base AS m FROM t WHERE m > 12 *)
Definition demo_cols : list (string * colbody) :=
  [("k", CExpr (sym 1 "k")); ("m", CExpr (EAdd (call 2 "twice" [("x", AExpr (sym 3 "n"))]) [("+", sym 4 "base")]))].
Definition demo_where : option expr := Some (ECmp (sym 5 "m") OpGt (lit 12)).

Example C14_demo :
  exists s2, query_yields demo_env demo_scope
    (Select false demo_cols (from_var "t") demo_where None None None) st0 s2
    (map VDict [[("k", VStr "b"); ("m", i 16)]; [("k", VStr "a"); ("m", i 14)]]) /\ quiet st0 s2.
Proof.
  apply (C14_select_from_variable demo_env demo_funs demo_owner demo_funs_ok
           0 demo_scope demo_frames false demo_cols "t" demo_where st0 table_rows).
  - reflexivity.
  - unfold room_for. cbn. lia.
  - repeat constructor.
  - repeat constructor.
  - discriminate.
  - repeat constructor; cbn; intuition discriminate.
  - left. reflexivity.
  - vm_compute. reflexivity.
Qed.

(** Built in functions are part of the fragment:
    SELECT len(list=split(string=k, sep_string="b")) AS parts, get(item=dict(a=n), member="a") AS m,
    if(condition=n, then=n, else="none") AS c FROM t WHERE parts = 2 *)
Definition builtin_owner (n : nat) : string :=
  match n with 1 => "len" | 2 => "split" | 4 => "get" | 5 => "dict" | 7 => "if" | _ => "" end.
Definition builtin_cols : list (string * colbody) :=
  [("parts", CExpr (call 1 "len" [("list", AExpr (call 2 "split"
      [("string", AExpr (sym 3 "k")); ("sep_string", AExpr (ELit (VStr "b")))]))]));
   ("m", CExpr (call 4 "get" [("item", AExpr (call 5 "dict" [("a", AExpr (sym 6 "n"))]));
                              ("member", AExpr (ELit (VStr "a")))]));
   ("c", CExpr (call 7 "if" [("condition", AExpr (sym 8 "n")); ("then", AExpr (sym 9 "n"));
                             ("else", AExpr (ELit (VStr "none")))]))].
Example C14_builtin_demo :
  exists s2, query_yields demo_env demo_scope
    (Select false builtin_cols (from_var "t") (Some (ECmp (sym 10 "parts") OpEq (lit 2))) None None None)
    st0 s2
    (map VDict [[("parts", VInt KInt 2); ("m", i 3); ("c", i 3)];
                [("parts", VInt KInt 2); ("m", VNull); ("c", VStr "none")]]) /\ quiet st0 s2.
Proof.
  apply (C14_select_from_variable demo_env demo_funs builtin_owner demo_funs_ok
           0 demo_scope demo_frames false builtin_cols "t" _ st0 table_rows).
  - reflexivity.
  - unfold room_for. cbn. lia.
  - repeat constructor.
  - repeat constructor.
  - discriminate.
  - repeat constructor; cbn; intuition discriminate.
  - left. reflexivity.
  - vm_compute. reflexivity.
Qed.

(** Subqueries over a column of the row, that see the other columns:
    SELECT id, { SELECT p + id AS q, { SELECT base FROM t LIMIT 1 } AS b
                 FROM items ORDER BY q DESC LIMIT 1 } AS top,
               { SELECT p FROM items } AS all FROM orders WHERE id > 1 *)
Definition order (id : Z) (ps : list Z) : val :=
  VDict [("id", i id); ("items", VArr (map (fun p => VDict [("p", i p)]) ps))].
Definition order_frames : list dict :=
  [("orders", VArr [order 1 [4; 5]%Z; order 2 [7; 9; 8]%Z]); ("one", VArr [VDict []])] :: demo_frames.
Definition order_scope : scope := {| sc_vars := map VDict order_frames; sc_depth := 0; sc_cell := 0 |}.
Definition order_query : select :=
  Select false
    [("id", CExpr (sym 1 "id"));
     ("top", CSelect (Select false
        [("q", CExpr (EAdd (sym 2 "p") [("+", sym 3 "id")]));
         ("b", CSelect (Select false [("base", CExpr (sym 4 "base"))] (from_var "t") None None None (Some 1%Z)))]
        (from_var "items") None None (Some ("q", true)) (Some 1%Z)));
     ("all", CSelect (Select true [] (from_var "items") None None None None))]
    (from_var "orders") (Some (ECmp (sym 5 "id") OpGt (lit 1))) None None None.
Example C14_subquery_demo :
  exists s2, query_yields demo_env order_scope order_query st0 s2
    (map VDict [[("id", i 2); ("top", VDict [("q", i 11); ("b", i 10)]); ("all", VArr [i 7; i 9; i 8])]])
    /\ quiet st0 s2.
Proof.
  apply (C14_query_yields_its_rows demo_env demo_funs demo_owner demo_funs_ok 3 order_scope order_frames).
  - reflexivity.
  - unfold room_for. cbn. lia.
  - cbn. repeat (constructor; cbn).
  - discriminate.
  - vm_compute. reflexivity.
Qed.

(** [SELECT k, v + base AS m FROM foreach(
       row={SELECT k, n FROM t WHERE n},
       query={SELECT k, _value AS v FROM range(end=n)})
     ORDER BY m], a chain of two queries, if() and flatten() *)
Definition some_rows : select :=
  Select false [("k", CExpr (sym 0 "k")); ("n", CExpr (sym 0 "n"))] (from_var "t") (Some (sym 0 "n")) None None None.
Definition counted : select :=
  Select false [("k", CExpr (sym 0 "k")); ("v", CExpr (sym 0 "_value"))]
    (Plugin ["range"] true [("end", AExpr (sym 0 "n"))]) None None None None.
Definition foreach_query : select :=
  Select false [("k", CExpr (sym 0 "k")); ("m", CExpr (EAdd (sym 0 "v") [("+", sym 0 "base")]))]
    (Plugin ["foreach"] true [("row", ASelect some_rows); ("query", ASelect counted)]) None None None None.

Example C36_query_demo :
  exists s2, query_yields demo_env demo_scope foreach_query st0 s2
    (map VDict [[("k", VStr "b"); ("m", i 10)]; [("k", VStr "b"); ("m", i 11)]; [("k", VStr "b"); ("m", i 12)];
                [("k", VStr "a"); ("m", i 10)]; [("k", VStr "a"); ("m", i 10)]; [("k", VStr "a"); ("m", i 11)]])
    /\ quiet st0 s2.
Proof.
  apply (C14_query_yields_its_rows demo_env demo_funs demo_owner demo_funs_ok 4 demo_scope demo_frames).
  - reflexivity.
  - unfold room_for. cbn. lia.
  - cbn. repeat (constructor; cbn).
  - discriminate.
  - vm_compute. reflexivity.
Qed.

Example C34_query_demo :
  plugin_yields demo_env demo_scope st0 "chain"
    [("a", ASelect some_rows); ("b", ASelect foreach_query)]
    (List.concat [[[("k", VStr "b"); ("n", i 3)]; [("k", VStr "a"); ("n", i 1)]; [("k", VStr "a"); ("n", i 2)]];
       [[("k", VStr "b"); ("m", i 10)]; [("k", VStr "b"); ("m", i 11)]; [("k", VStr "b"); ("m", i 12)];
        [("k", VStr "a"); ("m", i 10)]; [("k", VStr "a"); ("m", i 10)]; [("k", VStr "a"); ("m", i 11)]]]).
Proof.
  apply (C34_chain_yields_the_rows_of_its_queries demo_env demo_funs demo_owner demo_funs_ok 4 demo_scope
           demo_frames).
  - reflexivity.
  - unfold room_for. cbn. lia.
  - discriminate.
  - reflexivity.
  - reflexivity.
  - constructor; [|constructor; [|constructor]].
    + exists some_rows. split; [reflexivity|]. split; [cbn; repeat (constructor; cbn)|]. vm_compute. reflexivity.
    + exists foreach_query. split; [reflexivity|]. split; [cbn; repeat (constructor; cbn)|]. vm_compute. reflexivity.
Qed.

Example C38_query_demo :
  plugin_yields demo_env demo_scope st0 "if"
    [("condition", AExpr (ECmp (sym 0 "base") OpGt (lit 12))); ("then", ASelect foreach_query);
     ("else", ASelect some_rows)]
    [[("k", VStr "b"); ("n", i 3)]; [("k", VStr "a"); ("n", i 1)]; [("k", VStr "a"); ("n", i 2)]].
Proof.
  apply (C38_if_as_a_plugin demo_env demo_funs demo_owner demo_funs_ok 4 demo_scope demo_frames st0 "if"
           eq_refl ltac:(unfold room_for; cbn; lia) ltac:(discriminate) _ foreach_query some_rows (VBool false)).
  - reflexivity.
  - cbn. repeat (constructor; cbn).
  - cbn. repeat (constructor; cbn).
  - cbn. repeat (constructor; cbn).
  - vm_compute. reflexivity.
  - discriminate.
  - vm_compute. reflexivity.
Qed.

Definition nested : select :=
  Select false [("k", CExpr (sym 0 "k")); ("l", CExpr (EComma (sym 0 "n") [Some (lit 7)]))] (from_var "t") (Some (sym 0 "n"))
    None None None.
Example C35_query_demo :
  plugin_yields demo_env demo_scope st0 "flatten" [("query", ASelect nested)]
    [[("k", VStr "b"); ("l", i 3)]; [("k", VStr "b"); ("l", i 7)]; [("k", VStr "a"); ("l", i 1)];
     [("k", VStr "a"); ("l", i 7)]; [("k", VStr "a"); ("l", i 2)]; [("k", VStr "a"); ("l", i 7)]].
Proof.
  set (rows0 := [[("k", VStr "b"); ("l", VArr [i 3; i 7])]; [("k", VStr "a"); ("l", VArr [i 1; i 7])];
                 [("k", VStr "a"); ("l", VArr [i 2; i 7])]]).
  match goal with |- plugin_yields _ _ _ _ _ ?r =>
    replace r with (List.concat (map (flatten_row (env_iter demo_env)) rows0)) by (vm_compute; reflexivity) end.
  apply (C35_flatten_of_a_query demo_env demo_funs demo_owner demo_funs_ok 4 demo_scope demo_frames st0 "flatten"
           eq_refl ltac:(unfold room_for; cbn; lia) ltac:(discriminate) nested rows0).
  - reflexivity.
  - cbn. repeat (constructor; cbn).
  - vm_compute. reflexivity.
  - vm_compute. repeat (constructor; [split; [repeat (constructor; [cbn; intuition discriminate|]); constructor|reflexivity]|]).
    constructor.
Qed.

Example C33_query_demo :
  exists l,
    plugin_yields demo_env demo_scope st0 "range"
      [("start", AExpr (lit 2)); ("end", AExpr (sym 0 "base")); ("step", AExpr (lit 3))]
      (map (fun z => [("_value", vint z)]) l) /\
    (forall k z, nth_error l k = Some z -> z = 2 + Z.of_nat k * 3)%Z /\
    (forall z, In z l <-> exists k, z = 2 + Z.of_nat k * 3 /\ z < 10)%Z.
Proof.
  apply (C33_range_in_a_query demo_env demo_funs demo_owner demo_funs_ok 4 demo_scope demo_frames st0 "range"
           eq_refl ltac:(unfold room_for; cbn; lia) ltac:(discriminate) (lit 2) (sym 0 "base") (lit 3)
           (i 2) (i 10) (i 3) 2%Z 10%Z 3%Z); try reflexivity; try (vm_compute; intuition discriminate);
    cbn; repeat (constructor; cbn).
Qed.

Example C15_demo :
  exists s2, query_yields demo_env demo_scope
    (Select false demo_cols (from_var "t") demo_where None None (Some 1%Z)) st0 s2
    [VDict [("k", VStr "b"); ("m", i 16)]].
Proof.
  destruct C14_demo as (s2 & H & _). exists s2.
  apply (C15_limit_keeps_the_first_rows_partial demo_env demo_scope false demo_cols (from_var "t") demo_where
           None None 1 st0 s2 _ ltac:(lia) H).
Qed.

(** LIMIT 0 does not mean no rows: vfilter.go:632-646 counts after emitting. *)
Theorem C15_limit_zero_refuted :
  exists E sc star cols from s s' row,
    query_yields E sc (Select star cols from None None None (Some 0%Z)) s s' [row].
Proof.
  exists demo_env, demo_scope, true, [], (from_var "t"), st0.
  do 2 eexists. apply (select_enough demo_env 20). vm_compute. reflexivity.
Qed.

(** ORDER BY n and ORDER BY k DESC *)
Definition ordered_demo (key : string) (desc : bool) : select :=
  Select true [] (from_var "t") None None (Some (key, desc)) None.

Lemma demo_all : exists s1, query_yields demo_env demo_scope
  (Select true [] (from_var "t") None None None None) st0 s1 (map VDict table_rows).
Proof. eexists. apply (select_enough demo_env 20). vm_compute. reflexivity. Qed.

Example C16_demo_integers :
  exists s1 out, query_yields demo_env demo_scope (ordered_demo "n" false) st0 s1 (map VDict out)
    /\ Permutation out table_rows.
Proof.
  destruct demo_all as [s1 H]. exists s1.
  destruct (C16_order_by_integers_partial demo_env demo_sort demo_scope true [] (from_var "t") None None
              "n" false st0 s1 table_rows H) as (out & Q & P & _).
  - unfold table_rows, row, i, vint.
    repeat constructor; do 2 eexists; (split; [reflexivity|]); cbn [or_null is_nil];
      constructor; try discriminate; reflexivity.
  - exists out. auto.
Qed.

Example C16_demo_strings :
  exists s1 out, query_yields demo_env demo_scope (ordered_demo "k" true) st0 s1 (map VDict out)
    /\ Permutation out table_rows.
Proof.
  destruct demo_all as [s1 H]. exists s1.
  destruct (C16_order_by_strings_partial demo_env demo_sort demo_scope true [] (from_var "t") None None
              "k" true st0 s1 table_rows H) as (out & Q & P & _).
  - unfold table_rows, row, i, vint.
    repeat constructor; do 2 eexists; (split; [reflexivity|]); constructor.
  - exists out. auto.
Qed.

Example C16_demo_result :
  exists s1, query_yields demo_env demo_scope (ordered_demo "n" false) st0 s1
    (map VDict [row [("k", VStr "b"); ("n", VNull)]; row [("k", VStr "a"); ("n", i 1)];
                row [("k", VStr "a"); ("n", i 2)]; row [("k", VStr "b"); ("n", i 3)]]).
Proof. eexists. apply (select_enough demo_env 20). vm_compute. reflexivity. Qed.

(** NULL is not before the empty string (both are "" for the comparison), and
    integers of the Go type uint do not compare at all. *)
Definition tricky_scope (x y : val) : scope :=
  {| sc_vars := [VDict [("t", VArr [VDict [("n", x)]; VDict [("n", y)]])]]; sc_depth := 0; sc_cell := 0 |}.

Theorem C16_nulls_first_refuted :
  exists s1, query_yields demo_env (tricky_scope (VStr "") VNull) (ordered_demo "n" false) st0 s1
    [VDict [("n", VStr "")]; VDict [("n", VNull)]].
Proof. eexists. apply (select_enough demo_env 20). vm_compute. reflexivity. Qed.

Theorem C16_uint_column_refuted :
  exists s1, query_yields demo_env (tricky_scope (VInt KUint 2) (VInt KUint 1)) (ordered_demo "n" false) st0 s1
    [VDict [("n", VInt KUint 2)]; VDict [("n", VInt KUint 1)]].
Proof. eexists. apply (select_enough demo_env 20). vm_compute. reflexivity. Qed.

(** SELECT *, 7 AS n FROM probe(x=1) *)
Example C20_demo :
  exists s2, query_yields demo_env demo_scope
    (Select true [("n", CExpr (lit 7))] (Plugin ["probe"] true [("x", AExpr (lit 1))]) None None None None)
    st0 s2 [VDict [("p", i 1); ("n", i 7)]].
Proof.
  destruct (C20_star_then_columns demo_env demo_funs demo_owner demo_funs_ok 0 demo_scope demo_frames
    [("n", CExpr (lit 7))] (Plugin ["probe"] true [("x", AExpr (lit 1))]) st0
    (fst (plugin_eval demo_env (ev demo_env 20) 20 demo_scope
            (Plugin ["probe"] true [("x", AExpr (lit 1))]) st0))
    [("p", i 1)] [("p", i 1); ("n", i 7)]) as [H _].
  - reflexivity.
  - unfold room_for. cbn. lia.
  - repeat constructor.
  - repeat constructor.
  - repeat constructor. intros [].
  - apply (from_enough demo_env 20). vm_compute. reflexivity.
  - intros node f id H. vm_compute in H. discriminate.
  - repeat constructor; cbn; intuition.
  - reflexivity.
  - exact H.
Qed.

Print Assumptions C14_select_is_filter_and_projection.
Print Assumptions C14_select_from_variable.
Print Assumptions C14_rows_in_order_any_expression.
Print Assumptions C15_limit_keeps_the_first_rows_partial.
Print Assumptions C15_limit_yields_only_those.
Print Assumptions C15_limit_zero_refuted.
Print Assumptions C16_order_by_permutes.
Print Assumptions C16_order_by_integers_partial.
Print Assumptions C16_order_by_strings_partial.
Print Assumptions C20_star_then_columns.
Print Assumptions C20_columns_then_star.
Print Assumptions C14_query_yields_its_rows.
Print Assumptions C14_subquery_column_of_any_query.
Print Assumptions C34_chain_yields_the_rows_of_its_queries.
Print Assumptions C36_foreach_runs_the_query_for_each_row.
Print Assumptions C36_foreach_over_a_list.
Print Assumptions C38_if_as_a_plugin.
Print Assumptions C35_flatten_of_a_query.
Print Assumptions C33_range_in_a_query.

(** LET definitions: C13 (negated symbols), C22 (lazy and materialised
    definitions), C23 (calls), C24 (defaults), C53 (lambdas), C55
    (materialised queries).

    Specification: LetSpec.v.  The statements are about expressions, scopes
    and definitions of any kind; [later] (LazyProps.v) is any history of uses
    of the evaluator. *)

From Coq Require Import ZArith List String Bool Lia PeanoNat Permutation.
From Verif Require Import Base BaseProofs F64 Value Protocols Monad Chains Range Flatten ArgParser Syntax
  Eval Runs Para Evolve LazyProps LetSpec Demo.
Import ListNotations.
Open Scope nat_scope.
Open Scope string_scope.
Open Scope list_scope.

(** The value of a reference to a name, and the rows of a FROM clause. *)
Definition reads (E : env) (sc : scope) (e : expr) (s s' : st) (v : val) : Prop :=
  evaluates (fun n => r_expr (ev E n) sc e) s s' v.
Definition yields (E : env) (sc : scope) (p : plugin) (s s' : st) (rows : list val) : Prop :=
  evaluates (fun n => plugin_eval E (ev E n) n sc p) s s' rows.
Definition runs (E : env) (sc : scope) (q : select) (s s' : st) (rows : list val) : Prop :=
  evaluates (fun n => r_select (ev E n) sc q) s s' rows.
Definition executes (E : env) (sc : scope) (q : stmt) (s s' : st) (r : scope * list val) : Prop :=
  evaluates (fun n => stmt_eval (ev E n) sc q) s s' r.

(** ** Frames *)

Lemma empty_frame : forall s x v fr, bound s x v (VDict [] :: fr) <-> bound s x v fr.
Proof.
  intros. split; intros H; [|now apply bound_outer].
  inversion H; subst; [discriminate|assumption].
Qed.

Lemma definition_stays : forall s s' n o, evolves s s' -> nth_error (heap s) n = Some o ->
  match o with OExprDef _ | OQuery _ => True | _ => False end -> nth_error (heap s') n = Some o.
Proof.
  intros s s' n o EV H D. destruct (evo_heap _ _ EV _ _ H) as (o' & H' & SO).
  inversion SO; subst; auto; contradiction.
Qed.

(** ** C22: LET = and LET <= *)

Definition definition (params : list (string * option argval)) (body : letbody) : obj :=
  match body with
  | LExpr e => OExprDef {| e_expr := e; e_defaults := param_defaults params |}
  | LSelect q => OQuery {| q_select := q; q_defaults := param_defaults params |}
  end.

(** LET x = ... stores the definition: nothing is evaluated (whatever the
    evaluator is), nothing else changes, no rows. *)
Theorem C22_let_evaluates_nothing : forall R sc x params body s,
  stmt_eval R sc (SLet x params true body) s =
  (set_heap (heap s ++ [definition params body]) s,
   RVal (append_vars (VDict [(x, VOpaque (List.length (heap s)))]) sc, [])).
Proof. intros R sc x params [e|q] s; reflexivity. Qed.

(** Every reference, however much later, is the evaluation of the body, at
    that time, in the scope of the reference (with one more, empty, frame). *)
Theorem C22_every_reference_evaluates_the_body : forall E s0 s sc node x n e s' v,
  nth_error (heap s0) n = Some (OExprDef {| e_expr := e; e_defaults := [] |}) -> later E s0 s ->
  bound s x (VOpaque n) (sc_vars sc) -> S (sc_depth sc) < 1000 ->
  (reads E sc (ESym node false [x] false []) s s' v <->
   reads E (body_scope sc [] (sc_cell sc)) e (touched node s) s' v).
Proof.
  intros E s0 s sc node x n e s' v D L B DP. apply later_evolves in L.
  pose proof (definition_stays _ _ _ _ L D I) as D'. unfold reads.
  rewrite (reference_iff E sc node x s n _ B D' DP). cbn [e_defaults e_expr]. split.
  - intros (s1 & args & HD & H). inversion HD; subst. exact H.
  - intros H. do 2 eexists. split; [constructor|exact H].
Qed.

Theorem C22_the_body_sees_the_referrers_names : forall s sc c y v,
  bound s y v (sc_vars (body_scope sc [] c)) <-> bound s y v (sc_vars sc).
Proof. intros. apply empty_frame. Qed.

(** The same for a stored query. *)
Theorem C22_every_reference_runs_the_query : forall E s0 s sc x n q ds s' rows,
  nth_error (heap s0) n = Some (OQuery {| q_select := q; q_defaults := ds |}) -> later E s0 s ->
  bound s x (VOpaque n) (sc_vars sc) -> sc_depth sc < 1000 ->
  (yields E sc (Plugin [x] false []) s s' rows <-> runs E (copy sc) q s s' rows).
Proof.
  intros E s0 s sc x n q ds s' rows D L B DP. apply later_evolves in L.
  pose proof (definition_stays _ _ _ _ L D I) as D'.
  apply (from_reference_iff E sc x s n _ B D' DP).
Qed.

(** ** C08: a stored query as a condition *)

Lemma truth_of_query : forall E sc n s s' b d,
  nth_error (heap s) n = Some (OQuery d) ->
  (evaluates (fun m => truth E (ev E m) sc (VOpaque n)) s s' b <->
   exists rows, runs E (copy (copy sc)) (q_select d) s s' rows /\
                b = match rows with [] => false | _ => true end).
Proof.
  intros E sc n s s' b d D. unfold truth, runs.
  rewrite (ev_prefix _ _ (fun m => r_reduce (ev E m) (VOpaque n)) _ s s s' (VOpaque n)).
  2: { intros m Hm. destruct m as [|m]; [lia|]. cbn [ev step r_reduce]. unfold reduce_step, mbind, obj_of.
       rewrite D. reflexivity. }
  rewrite (ev_prefix _ _ (fun _ => obj_of (VOpaque n)) _ s s s' (Some (OQuery d)))
    by (intros; unfold obj_of; now rewrite D).
  cbv beta iota. cbn [is_query].
  assert (RQ : forall rows, evaluates (fun m => r_query (ev E m) (copy sc) (VOpaque n)) s s' rows <->
                  evaluates (fun m => r_select (ev E m) (copy (copy sc)) (q_select d)) s s' rows).
  { intros rows. rewrite ev_query_iff. unfold query_step.
    rewrite (ev_prefix _ _ (fun _ => obj_of (VOpaque n)) _ s s s' (Some (OQuery d)))
      by (intros; unfold obj_of; now rewrite D). reflexivity. }
  rewrite ev_bind_iff by (intros a c L; apply (re_query _ _ _ (fuel_enough_is_enough E a c L))).
  split.
  - intros (s1 & rows & H1 & H2). apply evaluates_ret in H2 as [-> ->]. exists rows.
    split; [now apply RQ|reflexivity].
  - intros (rows & H & ->). exists s', rows. split; [now apply RQ|apply ev_ret].
Qed.

Lemma query_symbol : forall E sc node x s n d,
  nth_error (heap s) n = Some (OQuery d) -> bound s x (VOpaque n) (sc_vars sc) -> sc_depth sc < 1000 ->
  reads E sc (ESym node false [x] false []) s (touched node s) (VOpaque n).
Proof.
  intros E sc node x s n d D B DP. unfold reads. rewrite ev_expr_iff. cbn [expr_step]. unfold sym_reduce.
  rewrite (ev_prefix _ _ (fun _ => split_symbol node false) _ s (touched node s) _ false)
    by (intros; apply split_symbol_false).
  cbv beta iota.
  rewrite (ev_prefix _ _ (fun m => lookup_path (ev E m) sc [x]) _ _ (touched node s) _ (VOpaque n, true)).
  2:{ intros m Hm. destruct m as [|m]; [lia|]. apply bound_lookup; [now apply bound_touched|lia]. }
  cbv beta iota. cbn [negb].
  rewrite (ev_prefix _ _ (fun _ => obj_of (VOpaque n)) _ _ (touched node s) _ (Some (OQuery d)))
    by (intros; unfold obj_of; now rewrite touched_heap, D).
  apply ev_ret.
Qed.

(** [NOT q], where q is a stored query, runs the query: false if it has rows,
    true if not. *)
Theorem C08_not_of_a_stored_query_partial : forall E s0 s sc node x n q ds s' v,
  nth_error (heap s0) n = Some (OQuery {| q_select := q; q_defaults := ds |}) -> later E s0 s ->
  bound s x (VOpaque n) (sc_vars sc) -> sc_depth sc < 1000 ->
  (reads E sc (ENot (ESym node false [x] false [])) s s' v <->
   exists rows, runs E (copy (copy sc)) q (touched node s) s' rows /\
                v = VBool (match rows with [] => true | _ => false end)).
Proof.
  intros E s0 s sc node x n q ds s' v D L B DP. apply later_evolves in L.
  pose proof (definition_stays _ _ _ _ L D I) as D'.
  assert (DT : nth_error (heap (touched node s)) n = Some (OQuery {| q_select := q; q_defaults := ds |}))
    by now rewrite touched_heap.
  pose proof (query_symbol E sc node x s n _ D' B DP) as SYM.
  unfold reads at 1. rewrite ev_expr_iff. cbn [expr_step]. unfold not_reduce.
  rewrite ev_bind_iff by apply mono_expr.
  assert (T : forall b s2, evaluates (fun m => truth E (ev E m) sc (VOpaque n)) (touched node s) s2 b <->
            exists rows, runs E (copy (copy sc)) q (touched node s) s2 rows /\
                         b = match rows with [] => false | _ => true end)
    by (intros; apply (truth_of_query E sc n (touched node s) _ _ _ DT)).
  split.
  - intros (s1 & w & H1 & H2). destruct (evaluates_unique _ _ _ _ _ _ _ H1 SYM) as [-> ->].
    apply ev_bind_inv in H2 as (s2 & b & H2 & H3);
      [|intros a c L'; apply (pa_truth _ mle_closed _ _ _ (fuel_enough_is_enough E a c L'))].
    apply evaluates_ret in H3 as [-> ->]. apply T in H2 as (rows & H2 & ->). exists rows.
    split; [exact H2|]. destruct rows; reflexivity.
  - intros (rows & H & ->). exists (touched node s), (VOpaque n). split; [exact SYM|].
    eapply ev_bind; [apply T; eauto|]. destruct rows; apply ev_ret.
Qed.

(** [WHERE q] keeps a row exactly if the query has rows. *)
Theorem C08_where_a_stored_query_partial : forall E sc n q ds s s' b,
  nth_error (heap s) n = Some (OQuery {| q_select := q; q_defaults := ds |}) ->
  (evaluates (fun m => accepts E (ev E m) sc (VOpaque n)) s s' b <->
   exists rows, runs E (copy (copy sc)) q s s' rows /\
                b = match rows with [] => false | _ => true end).
Proof. intros E sc n q ds s s' b D. apply (truth_of_query E sc n s s' b _ D). Qed.

(** LET x <= e evaluates e once (and, if that is a query, runs it once); no
    rows. *)
Theorem C22_materialised_at_definition : forall E sc x params e s s' sc' rows,
  executes E sc (SLet x params false (LExpr e)) s s' (sc', rows) <->
  rows = [] /\ exists s1 v, reads E sc e s s1 v /\
    ((is_query v (match v with VOpaque n => nth_error (heap s1) n | _ => None end) = false /\
      s' = s1 /\ sc' = append_vars (VDict [(x, v)]) sc) \/
     (is_query v (match v with VOpaque n => nth_error (heap s1) n | _ => None end) = true /\
      exists rows', evaluates (fun n => r_query (ev E n) (copy sc) v) s1 s' rows' /\
                    sc' = append_vars (VDict [(x, VQuery rows')]) sc)).
Proof.
  intros E sc x params e s s' sc' rows. unfold executes, reads. cbn [stmt_eval].
  set (m := fun n => (x0 <- r_expr (ev E n) sc e;;
     o <- obj_of x0;; (if is_query x0 o then materialize (ev E n) sc x0 else mret x0))).
  assert (MM : forall a b, a <= b -> mle val (m a) (m b)).
  { intros a b L. unfold m. apply mle_bind; [now apply mono_expr|]. intros v.
    apply mle_bind; [apply mle_refl|]. intros o. destruct (is_query v o); [|apply mle_refl].
    apply (pa_materialize _ mle_closed _ _ (fuel_enough_is_enough E a b L)). }
  etransitivity; [apply (ev_bind_iff _ _ m (fun _ v => mret (append_vars (VDict [(x, v)]) sc, [])) _ _ _ MM)|].
  split.
  - intros (s1 & v & H1 & H2). apply evaluates_ret in H2 as [<- H2]. injection H2 as -> ->.
    split; [reflexivity|]. unfold m in H1.
    apply ev_bind_inv in H1 as (s2 & w & H1 & H2); [|apply mono_expr].
    exists s2, w. split; [exact H1|].
    apply (proj1 (ev_prefix _ _ (fun _ => obj_of w) _ s2 s2 _ _ _ ltac:(reflexivity))) in H2.
    set (o := match w with VOpaque n => nth_error (heap s2) n | _ => None end) in *.
    cbv beta in H2. destruct (is_query w o) eqn:EQ.
    + right. split; [reflexivity|]. unfold materialize, materialize_rows in H2.
      apply ev_bind_inv in H2 as (s3 & rows' & H2 & H3);
        [|intros a b L; apply (re_query _ _ _ (fuel_enough_is_enough E a b L))].
      apply evaluates_ret in H3 as [-> ->]. eauto.
    + left. apply evaluates_ret in H2 as [-> ->]. auto.
  - intros (-> & s1 & v & H1 & [(EQ & -> & ->)|(EQ & rows' & H2 & ->)]).
    + exists s1, v. split; [|apply ev_ret]. unfold m. eapply ev_bind; [exact H1|].
      eapply ev_bind; [apply ev_now; reflexivity|]. cbv beta. rewrite EQ. apply ev_ret.
    + exists s', (VQuery rows'). split; [|apply ev_ret]. unfold m. eapply ev_bind; [exact H1|].
      eapply ev_bind; [apply ev_now; reflexivity|]. cbv beta. rewrite EQ.
      eapply ev_bind; [exact H2|apply ev_ret].
Qed.

Theorem C22_query_materialised_at_definition : forall E sc x params q s s' sc' rows,
  executes E sc (SLet x params false (LSelect q)) s s' (sc', rows) <->
  rows = [] /\ exists rows', runs E (copy sc) q (set_heap (heap s ++ [OSelect q]) s) s' rows' /\
    sc' = append_vars (VDict [(x, VQuery rows')]) sc.
Proof.
  intros E sc x params q s s' sc' rows. unfold executes, runs. cbn [stmt_eval].
  set (s1 := set_heap (heap s ++ [OSelect q]) s).
  assert (RQ : forall rows', evaluates (fun n => r_query (ev E n) (copy sc) (VOpaque (List.length (heap s)))) s1 s' rows' <->
                  evaluates (fun n => r_select (ev E n) (copy sc) q) s1 s' rows').
  { intros rows'. rewrite ev_query_iff. unfold query_step.
    rewrite (ev_prefix _ _ (fun _ => obj_of _) _ s1 s1 s' (Some (OSelect q))); [reflexivity|].
    intros. unfold obj_of, s1. cbn [heap set_heap]. rewrite nth_error_app2, Nat.sub_diag by lia. reflexivity. }
  set (m := fun n => (q0 <- alloc (OSelect q) ;; materialize (ev E n) sc q0)).
  assert (MM : forall a b, a <= b -> mle val (m a) (m b)).
  { intros a b L. apply mle_bind; [apply mle_refl|]. intros v.
    apply (pa_materialize _ mle_closed _ _ (fuel_enough_is_enough E a b L)). }
  assert (HM : forall s2 v, evaluates m s s2 v <->
     exists rows', v = VQuery rows' /\ evaluates (fun n => r_query (ev E n) (copy sc) (VOpaque (List.length (heap s)))) s1 s2 rows').
  { intros s2 v. unfold m.
    rewrite (ev_prefix _ _ (fun _ => alloc (OSelect q)) _ s s1 s2 (VOpaque (List.length (heap s)))) by reflexivity.
    unfold materialize, materialize_rows.
    rewrite ev_bind_iff by (intros a b L; apply (re_query _ _ _ (fuel_enough_is_enough E a b L))). split.
    - intros (s3 & rows' & H1 & H2). apply evaluates_ret in H2 as [-> ->]. eauto.
    - intros (rows' & -> & H). do 2 eexists. split; [exact H|apply ev_ret]. }
  etransitivity; [apply (ev_bind_iff _ _ m (fun _ v => mret (append_vars (VDict [(x, v)]) sc, [])) _ _ _ MM)|].
  split.
  - intros (s2 & v & H1 & H2). apply evaluates_ret in H2 as [<- H2]. injection H2 as -> ->.
    apply HM in H1 as (rows' & -> & H1). split; [reflexivity|]. exists rows'. split; [now apply RQ|reflexivity].
  - intros (-> & rows' & H & ->). exists s', (VQuery rows'). split; [|apply ev_ret].
    apply HM. exists rows'. split; [reflexivity|]. now apply RQ.
Qed.

(** A later reference to a name bound to a value gives the value and evaluates
    nothing: it only marks its own node.  Excluded: a value that is itself a
    stored expression. *)
Theorem C22_later_references_see_the_value_partial : forall E s sc node x v,
  bound s x v (sc_vars sc) -> sc_depth sc < 1000 ->
  match v with VOpaque n => forall d, nth_error (heap s) n <> Some (OExprDef d) | _ => True end ->
  reads E sc (ESym node false [x] false []) s (touched node s) v.
Proof.
  intros E s sc node x v B DP ND. pose proof (bound_not_nil _ _ _ _ B) as NN.
  apply ev_expr. cbn [expr_step]. unfold sym_reduce.
  apply (proj2 (ev_prefix _ _ (fun _ => split_symbol node false) _ s (touched node s) _ false _
           ltac:(intros; apply split_symbol_false))).
  cbv beta iota.
  apply (proj2 (ev_prefix _ _ (fun m => lookup_path (ev E m) sc [x]) _ _ (touched node s) _ (v, true) _
    ltac:(intros m Hm; destruct m as [|m]; [lia|]; apply bound_lookup; [now apply bound_touched|exact DP]))).
  cbv beta iota. cbn [negb]. destruct v; try (now contradiction NN);
    try (eapply ev_bind; [apply ev_now; reflexivity|]; apply ev_ret).
  eapply ev_bind; [apply ev_now; reflexivity|]. cbv beta. rewrite touched_heap.
  destruct (nth_error (heap s) n) as [[]|] eqn:EH; try apply ev_ret. now contradiction (ND d).
Qed.

Theorem C22_later_references_see_the_rows : forall E s sc x rows,
  bound s x (VQuery rows) (sc_vars sc) -> sc_depth sc < 1000 ->
  yields E sc (Plugin [x] false []) s s rows.
Proof.
  intros E s sc x rows B DP. unfold yields, plugin_eval.
  apply (proj2 (ev_prefix _ _ (fun m => lookup_path (ev E m) sc [x]) _ _ s _ (VQuery rows, true) _
    ltac:(intros m Hm; destruct m as [|m]; [lia|]; now apply bound_lookup))).
  cbn [negb]. apply ev_evalsym. unfold evalsym_step, overflow. rewrite (proj2 (Nat.leb_gt 1000 _) DP).
  eapply ev_bind; [apply ev_now; reflexivity|]. cbn [is_query]. apply ev_query. unfold query_step.
  eapply ev_bind; [apply ev_now; reflexivity|]. apply ev_ret.
Qed.

(** The excluded case: LET Y = hit(x=1), LET X <= scope().Y binds X to the
    stored expression, so that the reference to X runs it. *)
Definition scope_y : expr := EMember (call 9 "scope" []) [MField "Y"].
Theorem C22_stored_expression_refuted : exists sc s1 s2 sc' s3,
  executes demo_env demo_scope (SLet "Y" [] true (LExpr (call 1 "hit" [("x", AExpr (lit 1))]))) st0 s1 (sc, []) /\
  executes demo_env sc (SLet "X" [] false (LExpr scope_y)) s1 s2 (sc', []) /\
  trace s2 = [] /\
  reads demo_env sc' (EAdd (sym 2 "X") [("+", sym 3 "X")]) s2 s3 (i 2) /\
  trace s3 = [i 1; i 1].
Proof.
  do 5 eexists. split; [exists 0; intros; reflexivity|]. split; [|split; [|split]].
  - refine (ex_intro _ 14 _). intros n Hn.
    rewrite (pa_stmt_eval _ mle_closed _ _ (fuel_enough_is_enough demo_env 14 n Hn));
      vm_compute; [reflexivity|discriminate].
  - vm_compute. reflexivity.
  - apply (expr_enough demo_env 14). vm_compute. reflexivity.
  - vm_compute. reflexivity.
Qed.

(** LET X = hit(x=1): seen at each reference; LET X <= hit(x=1): once. *)
Example C22_demo :
  demo_run 20 [SLet "X" [] true (LExpr (call 1 "hit" [("x", AExpr (lit 1))]));
               SQuery "" (Select false [("a", CExpr (EAdd (sym 2 "X") [("+", sym 3 "X")]))]
                            (Plugin ["range"] true [("end", AExpr (lit 2))]) None None None None)] =
    Some ([[VDict [("a", i 2)]; VDict [("a", i 2)]]], [i 1; i 1; i 1; i 1]) /\
  demo_run 20 [SLet "X" [] false (LExpr (call 1 "hit" [("x", AExpr (lit 1))]));
               SQuery "" (Select false [("a", CExpr (EAdd (sym 2 "X") [("+", sym 3 "X")]))]
                            (Plugin ["range"] true [("end", AExpr (lit 2))]) None None None None)] =
    Some ([[VDict [("a", i 2)]; VDict [("a", i 2)]]], [i 1]).
Proof. split; vm_compute; reflexivity. Qed.

(** The hypotheses are met: after LET Y = base + 1, in any later state. *)
Example C22_reference_demo : forall s s' v, 
  let s0 := set_heap [OExprDef {| e_expr := EAdd (sym 1 "base") [("+", lit 1)]; e_defaults := [] |}] st0 in
  let sc := append_vars (VDict [("Y", VOpaque 0)]) demo_scope in
  later demo_env s0 s ->
  (reads demo_env sc (sym 2 "Y") s s' v <->
   reads demo_env (body_scope sc [] 0) (EAdd (sym 1 "base") [("+", lit 1)]) (touched 2 s) s' v).
Proof.
  intros s s' v s0 sc L.
  apply (C22_every_reference_evaluates_the_body demo_env s0 s sc 2 "Y" 0); [reflexivity|exact L| |cbn; lia].
  eapply bound_here; reflexivity.
Qed.

(** LET Q = SELECT k FROM t WHERE n > 2, used as a condition: its one row
    makes it true.  The hypotheses are met in any later state. *)
Definition demo_q (least : Z) : select :=
  Select false [("k", CExpr (sym 1 "k"))] (from_var "t") (Some (ECmp (sym 2 "n") OpGt (lit least))) None None None.
Example C08_demo : forall s s' v,
  let s0 := set_heap [OQuery {| q_select := demo_q 2; q_defaults := [] |}] st0 in
  let sc := append_vars (VDict [("Q", VOpaque 0)]) demo_scope in
  later demo_env s0 s ->
  (reads demo_env sc (ENot (sym 3 "Q")) s s' v <->
   exists rows, runs demo_env (copy (copy sc)) (demo_q 2) (touched 3 s) s' rows /\
                v = VBool (match rows with [] => true | _ => false end)).
Proof.
  intros s s' v s0 sc L.
  apply (C08_not_of_a_stored_query_partial demo_env s0 s sc 3 "Q" 0 (demo_q 2) []); [reflexivity|exact L| |cbn; lia].
  eapply bound_here; reflexivity.
Qed.
Example C08_demo_run :
  demo_run 20 [SLet "Q" [] true (LSelect (demo_q 2)); SLet "N" [] true (LSelect (demo_q 3));
               SQuery "" (Select false [("a", CExpr (ENot (sym 3 "Q"))); ("b", CExpr (ENot (sym 4 "N")))]
                            (Plugin ["range"] true [("end", AExpr (lit 1))]) (Some (sym 5 "Q")) None None None);
               SQuery "" (Select true [] (Plugin ["range"] true [("end", AExpr (lit 1))]) (Some (sym 6 "N"))
                            None None None)] =
    Some ([[VDict [("a", VBool false); ("b", VBool true)]]; []], []).
Proof. vm_compute. reflexivity. Qed.

(** ** C23: calls *)


(** Calling an expression: the arguments are evaluated in the scope of the
    caller, in order ([passed]), then the defaults of the missing ones
    ([defaulted]), then the body, with the parameters over the frames of the
    caller. *)
Theorem C23_call_of_an_expression_partial : forall E sc node f s n body ds params s' v,
  assoc f (env_funs E) = None -> bound s f (VOpaque n) (sc_vars sc) ->
  nth_error (heap s) n = Some (OExprDef {| e_expr := body; e_defaults := ds |}) ->
  S (sc_depth sc) < 1000 ->
  (reads E sc (ESym node false [f] true params) s s' v <->
   exists s1 args s2 args' cell,
     passed E sc params [] (fresh_aggregators (touched node s)) s1 args /\
     defaulted E sc ds args s1 s2 args' /\
     cell = List.length (cells s) /\
     reads E (body_scope sc args' cell) body s2 s' v).
Proof.
  intros E sc node f s n body ds params s' v NF B D DP. unfold reads.
  rewrite (call_iff E sc node f s n _ B D DP params s' v NF). cbn [e_defaults e_expr]. split.
  - intros (s1 & args & s2 & args' & H1 & H2 & H3). exists s1, args, s2, args'. eexists. eauto.
  - intros (s1 & args & s2 & args' & c & H1 & H2 & -> & H3). exists s1, args, s2, args'. auto.
Qed.

(** Calling a query in a FROM clause; arguments that are queries are run
    ([expanded]). *)
Theorem C23_call_of_a_query_partial : forall E sc f s n q ds params s' rows,
  assoc f (env_plugs E) = None -> bound s f (VOpaque n) (sc_vars sc) ->
  nth_error (heap s) n = Some (OQuery {| q_select := q; q_defaults := ds |}) ->
  sc_depth sc < 1000 ->
  (yields E sc (Plugin [f] true params) s s' rows <->
   exists s1 args s2 args' s3 vars cell,
     passed E sc params [] s s1 args /\
     defaulted E sc ds args s1 s2 args' /\
     cell = List.length (cells s2) /\
     expanded E {| sc_vars := sc_vars sc; sc_depth := S (sc_depth sc); sc_cell := cell |}
       args' [] (fresh_aggregators s2) s3 vars /\
     runs E (copy (body_scope sc vars cell)) q s3 s' rows).
Proof.
  intros E sc f s n q ds params s' rows NP B D DP. unfold yields, runs.
  rewrite (from_call_iff E sc f s n _ B D DP params s' rows NP). cbn [q_defaults q_select]. split.
  - intros (s1 & args & s2 & args' & s3 & vars & H1 & H2 & H3 & H4).
    exists s1, args, s2, args', s3, vars. eexists. eauto.
  - intros (s1 & args & s2 & args' & s3 & vars & c & H1 & H2 & -> & H3 & H4).
    exists s1, args, s2, args', s3, vars. auto.
Qed.

(** Calling a query in an expression, with arguments: the arguments and
    defaults are evaluated at the call, the query is not run yet. *)
Theorem C23_call_of_a_query_in_an_expression_partial :
  forall E sc node f s n q ds p params s' v,
  assoc f (env_funs E) = None -> bound s f (VOpaque n) (sc_vars sc) ->
  nth_error (heap s) n = Some (OQuery {| q_select := q; q_defaults := ds |}) ->
  S (sc_depth sc) < 1000 ->
  (reads E sc (ESym node false [f] true (p :: params)) s s' v <->
   exists s1 args s2 args' cell,
     passed E sc (p :: params) [] (fresh_aggregators (touched node s)) s1 args /\
     defaulted E sc ds args s1 s2 args' /\
     cell = List.length (cells s) /\
     s' = set_heap (heap s2 ++ [OCallSite (VOpaque n) (body_scope sc args' cell)]) s2 /\
     v = VOpaque (List.length (heap s2))).
Proof.
  intros E sc node f s n q ds p params s' v NF B D DP. unfold reads.
  rewrite ev_expr_iff. cbn [expr_step]. unfold sym_reduce.
  rewrite (ev_prefix _ _ (fun _ => split_symbol node false) _ s (touched node s) s' false)
    by (intros; apply split_symbol_false).
  cbv beta iota. rewrite NF.
  rewrite (ev_prefix _ _ (fun m => lookup_path (ev E m) sc [f]) _ _ (touched node s) s' (VOpaque n, true)).
  2:{ intros m Hm. destruct m as [|m]; [lia|]. apply bound_lookup; [now apply bound_touched|lia]. }
  cbv beta iota. cbn [negb].
  rewrite (ev_prefix _ _ (fun _ => obj_of (VOpaque n)) _ _ (touched node s) s'
             (Some (OQuery {| q_select := q; q_defaults := ds |})))
    by (intros; unfold obj_of; now rewrite touched_heap, D).
  cbv beta iota. cbn [is_query q_defaults].
  rewrite (ev_prefix _ _ (fun _ => fresh_agg (copy sc)) _ _ (fresh_aggregators (touched node s)) s' _)
    by (intros; apply fresh_agg_run).
  unfold overflow at 1. cbn [copy sc_depth sc_vars]. rewrite (proj2 (Nat.leb_gt 1000 _) DP).
  rewrite touched_cells. rewrite ev_bind_iff by (apply mono_build).
  split.
  - intros (s1 & args & H1 & H). apply passed_iff in H1.
    apply ev_bind_inv in H as (s2 & args' & H2 & H); [|apply mono_defaults]. apply defaulted_iff in H2.
    apply (proj1 (ev_prefix _ _ (fun _ => alloc _) _ s2 _ _ _ _ ltac:(reflexivity))) in H.
    apply evaluates_ret in H as [-> ->].
    exists s1, args, s2, args'. eexists. eauto 6.
  - intros (s1 & args & s2 & args' & c & H1 & H2 & -> & -> & ->).
    exists s1, args. split; [now apply passed_iff|].
    eapply ev_bind; [apply defaulted_iff; exact H2|].
    eapply ev_bind; [apply ev_now; reflexivity|]. apply ev_ret.
Qed.

(** Running it, from wherever: the query, with the arguments of the call over
    the frames of the caller. *)
Theorem C23_called_query_runs_at_the_call : forall E s0 s sc m n q ds csc s' rows,
  nth_error (heap s0) n = Some (OQuery {| q_select := q; q_defaults := ds |}) ->
  nth_error (heap s0) m = Some (OCallSite (VOpaque n) csc) -> later E s0 s ->
  (evaluates (fun k => r_query (ev E k) sc (VOpaque m)) s s' rows <-> runs E (copy csc) q s s' rows).
Proof.
  intros E s0 s sc m n q ds csc s' rows D C L. apply later_evolves in L.
  pose proof (definition_stays _ _ _ _ L D I) as D'. 
  assert (C' : nth_error (heap s) m = Some (OCallSite (VOpaque n) csc)).
  { destruct (evo_heap _ _ L _ _ C) as (o & Ho & SO). inversion SO; subst. exact Ho. }
  unfold runs. rewrite ev_query_iff. unfold query_step.
  rewrite (ev_prefix _ _ (fun _ => obj_of (VOpaque m)) _ s s s' (Some (OCallSite (VOpaque n) csc)))
    by (intros; unfold obj_of; now rewrite C').
  cbv beta iota. rewrite ev_query_iff. unfold query_step.
  rewrite (ev_prefix _ _ (fun _ => obj_of (VOpaque n)) _ s s s'
             (Some (OQuery {| q_select := q; q_defaults := ds |})))
    by (intros; unfold obj_of; now rewrite D').
  reflexivity.
Qed.

(** LET Q(least) = SELECT k FROM t WHERE n > least, stored as Q(least=1) and
    run where least is 5. *)
Definition least_q : select :=
  Select false [("k", CExpr (sym 1 "k"))] (from_var "t") (Some (ECmp (sym 2 "n") OpGt (sym 3 "least"))) None None None.
Example C23_query_demo :
  demo_run 24 [SLet "Q" [("least", None)] true (LSelect least_q);
               SLet "P" [] true (LExpr (call 4 "Q" [("least", AExpr (call 5 "hit" [("x", AExpr (lit 1))]))]));
               SLet "least" [] true (LExpr (lit 5));
               SQuery "" (Select true [] (Plugin ["foreach"] true [("row", AExpr (sym 6 "P"))]) None None None None)] =
    Some ([[VDict [("k", VStr "b")]; VDict [("k", VStr "a")]]], [i 1]).
Proof. vm_compute. reflexivity. Qed.
Example C23_query_demo_hypotheses : forall s sc s' rows,
  let csc := body_scope demo_scope [("least", i 1)] 0 in
  let s0 := set_heap [OQuery {| q_select := least_q; q_defaults := [] |}; OCallSite (VOpaque 0) csc] st0 in
  later demo_env s0 s ->
  (evaluates (fun k => r_query (ev demo_env k) sc (VOpaque 1)) s s' rows <->
   runs demo_env (copy csc) least_q s s' rows).
Proof.
  intros s sc s' rows csc s0 L.
  exact (C23_called_query_runs_at_the_call demo_env s0 s sc 1 0 least_q [] csc s' rows eq_refl eq_refl L).
Qed.

(** What [passed] binds: exactly the names of the arguments, each to the value
    of the last argument of that name. *)
Lemma passed_names : forall E sc params a0 s s' args y, passed E sc params a0 s s' args ->
  (assoc y args <> None <-> In y (map fst params) \/ assoc y a0 <> None).
Proof.
  intros E sc params a0 s s' args y H. induction H as [|x a rest a0 s s1 s2 v args' HA _ IH]; cbn [map In].
  - tauto.
  - rewrite IH, BaseProofs.assoc_dict_set. cbn [fst]. destruct (String.eqb_spec y x) as [->|NE].
    + split; [intros _; left; now left|]. intros _. right. discriminate.
    + split; [intros [H|H]; auto|intros [[H|H]|H]; auto; congruence].
Qed.

Theorem C23_parameters_are_the_names_passed : forall E sc params s s' args y,
  passed E sc params [] s s' args -> (assoc y args <> None <-> In y (map fst params)).
Proof.
  intros E sc params s s' args y H. rewrite (passed_names _ _ _ _ _ _ _ y H). cbn. tauto.
Qed.

Lemma passed_keeps : forall E sc params a0 s s' args y, passed E sc params a0 s s' args ->
  ~ In y (map fst params) -> assoc y args = assoc y a0.
Proof.
  intros E sc params a0 s s' args y H. induction H as [|x a rest a0 s s1 s2 v args' HA _ IH]; cbn [map In fst].
  - reflexivity.
  - intros NI. rewrite IH by tauto. rewrite BaseProofs.assoc_dict_set.
    destruct (String.eqb_spec y x) as [->|]; [tauto|reflexivity].
Qed.

Lemma passed_app : forall E sc p1 p2 a0 s s' args, passed E sc (p1 ++ p2) a0 s s' args <->
  exists s1 a1, passed E sc p1 a0 s s1 a1 /\ passed E sc p2 a1 s1 s' args.
Proof.
  intros E sc p1. induction p1 as [|[x a] p1 IH]; intros p2 a0 s s' args; cbn [app].
  - split.
    + intros H. exists s, a0. split; [constructor|exact H].
    + intros (s1 & a1 & H1 & H2). inversion H1; subst. exact H2.
  - split.
    + intros H. inversion H; subst.
      match goal with K : passed _ _ (p1 ++ p2) _ _ _ _ |- _ => apply IH in K as (s3 & a3 & K1 & K2) end.
      exists s3, a3. split; [econstructor; eauto|exact K2].
    + intros (s1 & a1 & H1 & H2). inversion H1; subst. econstructor; [eassumption|]. apply IH. eauto.
Qed.

Theorem C23_parameters_have_the_values_passed : forall E sc before x a after s s' args,
  passed E sc (before ++ (x, a) :: after) [] s s' args -> ~ In x (map fst after) ->
  exists s1 s2 v, arg_value E sc a s1 s2 v /\ assoc x args = Some v.
Proof.
  intros E sc before x a after s s' args H NI. apply passed_app in H as (s1 & a1 & _ & H).
  inversion H; subst. do 3 eexists. split; [eassumption|].
  erewrite passed_keeps by eassumption. rewrite BaseProofs.assoc_dict_set, String.eqb_refl. reflexivity.
Qed.

(** A parameter hides a variable of the caller; other names are the
    caller's. *)
Theorem C23_parameters_shadow : forall s sc args cell p v w,
  assoc p args = Some v -> (bound s p w (sc_vars (body_scope sc args cell)) <-> w = seen v).
Proof.
  intros s sc args cell p v w H. cbn [body_scope sc_vars]. split.
  - intros B. inversion B; subst; congruence.
  - intros ->. eapply bound_here; eauto.
Qed.

Theorem C23_other_names_are_the_callers : forall s sc args cell y w,
  assoc y args = None -> (bound s y w (sc_vars (body_scope sc args cell)) <-> bound s y w (sc_vars sc)).
Proof.
  intros s sc args cell y w H. cbn [body_scope sc_vars]. split.
  - intros B. inversion B; subst; [congruence|assumption].
  - intros B. now apply bound_outer.
Qed.

(** A call, like anything else, leaves the variables of the caller as they
    are. *)
Theorem C23_callers_variables_unchanged : forall E s s' sc y w,
  later E s s' -> bound s y w (sc_vars sc) -> bound s' y w (sc_vars sc).
Proof. intros E s s' sc y w L. apply bound_evolves. now apply later_evolves in L. Qed.

(** A registered function of the same name is called instead. *)
Theorem C23_registered_function_wins_refuted : exists sc s1 s2,
  executes demo_env demo_scope (SLet "len" [("list", None)] true (LExpr (lit 42))) st0 s1 (sc, []) /\
  reads demo_env sc (call 1 "len" [("list", AExpr (ELit (VStr "abc")))]) s1 s2 (VInt KInt 3).
Proof.
  do 3 eexists. split; [exists 0; intros; reflexivity|].
  apply (expr_enough demo_env 14). vm_compute. reflexivity.
Qed.

(** LET F(a, base) = a + base, called where base is 10 as
    F(a=base, base=hit(x=2)). *)
Definition demo_f : obj :=
  OExprDef {| e_expr := EAdd (sym 1 "a") [("+", sym 2 "base")]; e_defaults := [] |}.
Example C23_demo :
  let s := set_heap [demo_f] st0 in
  let sc := append_vars (VDict [("F", VOpaque 0)]) demo_scope in
  (exists s', reads demo_env sc
     (call 3 "F" [("a", AExpr (sym 4 "base")); ("base", AExpr (call 5 "hit" [("x", AExpr (lit 2))]))])
     s s' (i 12) /\ trace s' = [i 2] /\ bound s' "base" (i 10) (sc_vars sc)) /\
  (forall params s' v, reads demo_env sc (call 3 "F" params) s s' v <->
   exists s1 args s2 args' cell,
     passed demo_env sc params [] (fresh_aggregators (touched 3 s)) s1 args /\
     defaulted demo_env sc [] args s1 s2 args' /\ cell = 1 /\
     reads demo_env (body_scope sc args' cell) (EAdd (sym 1 "a") [("+", sym 2 "base")]) s2 s' v).
Proof.
  intros s sc. split.
  - eexists. split; [apply (expr_enough demo_env 14); vm_compute; reflexivity|].
    split; [vm_compute; reflexivity|].
    apply bound_outer; [reflexivity|]. eapply bound_here; reflexivity.
  - intros params s' v. apply (C23_call_of_an_expression_partial demo_env sc 3 "F" s 0); try reflexivity.
    + eapply bound_here; reflexivity.
    + cbn. lia.
Qed.

(** ** C24: defaults *)

(** Parameters written without quotes, or whose default is not a query. *)
Definition keys_ok (ds : list (string * (string * argval))) : Prop :=
  Forall (fun d => default_key (fst d) (fst (snd d)) (snd (snd d)) = fst d) ds.

(** An argument that was passed is used as is. *)
Theorem C24_passed_argument_is_used : forall E sc ds args s s' args' x v,
  keys_ok ds -> defaulted E sc ds args s s' args' -> assoc x args = Some v -> assoc x args' = Some v.
Proof.
  intros E sc ds args s s' args' x v K H. revert K.
  induction H as [|y w a rest args s s' args' u _ _ IH|y w a rest args s s1 s2 u args' HN _ _ IH]; intros K HX.
  - exact HX.
  - inversion K; subst. auto.
  - inversion K as [|? ? K1 K2]; subst. cbn [fst snd] in K1. apply IH; [exact K2|].
    rewrite K1, BaseProofs.assoc_dict_set. destruct (String.eqb_spec x y) as [->|]; [congruence|exact HX].
Qed.

(** Its default is not evaluated: the outcome is the same with the defaults of
    passed arguments left out, whatever they are. *)
Theorem C24_default_of_a_passed_argument_is_not_evaluated : forall E sc ds args s s' args',
  keys_ok ds ->
  (defaulted E sc ds args s s' args' <->
   defaulted E sc (filter (fun d => match assoc (fst d) args with Some _ => false | None => true end) ds)
     args s s' args').
Proof.
  intros E sc ds args s s' args' K.
  assert (G : forall ds, keys_ok ds -> forall args (a0 : list (string * val)) s s' args',
    (forall x v, assoc x a0 = Some v -> assoc x args <> None) ->
    (defaulted E sc ds args s s' args' <->
     defaulted E sc (filter (fun d => match assoc (fst d) a0 with Some _ => false | None => true end) ds)
       args s s' args')).
  { clear. intros ds. induction ds as [|[x [w a]] rest IH]; intros K args a0 s s' args' SUB; cbn [filter fst].
    - reflexivity.
    - inversion K as [|? ? K1 K2]; subst. cbn [fst snd] in K1.
      destruct (assoc x a0) as [v|] eqn:EX.
      + rewrite <- (IH K2 args a0 s s' args' SUB). split; intros H.
        * inversion H; subst; [assumption|]. exfalso. exact (SUB _ _ EX ltac:(assumption)).
        * destruct (assoc x args) eqn:EA; [|now contradiction (SUB _ _ EX)]. eapply defaulted_given; eauto.
      + split; intros H; inversion H; subst.
        * eapply defaulted_given; [eassumption|]. now apply (IH K2 args a0).
        * eapply defaulted_missing; [eassumption|eassumption|]. apply (IH K2 _ a0); [|assumption].
          intros y u HY. rewrite K1, BaseProofs.assoc_dict_set.
          destruct (String.eqb_spec y x); [discriminate|eapply SUB; eauto].
        * eapply defaulted_given; [eassumption|]. now apply (IH K2 args a0).
        * eapply defaulted_missing; [eassumption|eassumption|]. apply (IH K2 _ a0); [|assumption].
          intros y u HY. rewrite K1, BaseProofs.assoc_dict_set.
          destruct (String.eqb_spec y x); [discriminate|eapply SUB; eauto]. }
  apply G; [exact K|]. intros x v H. congruence.
Qed.

(** An argument that was not passed takes the value of its default in the
    scope of the caller. *)
Lemma defaulted_keeps : forall E sc ds args s s' args' x,
  keys_ok ds -> defaulted E sc ds args s s' args' -> ~ In x (map fst ds) -> assoc x args' = assoc x args.
Proof.
  intros E sc ds args s s' args' x K H. revert K.
  induction H as [|y w a rest args s s' args' u _ _ IH|y w a rest args s s1 s2 u args' HN _ _ IH];
    intros K NI; cbn [map In fst] in NI.
  - reflexivity.
  - inversion K; subst. apply IH; auto.
  - inversion K as [|? ? K1 K2]; subst. cbn [fst snd] in K1. rewrite IH; auto.
    rewrite K1, BaseProofs.assoc_dict_set. destruct (String.eqb_spec x y) as [->|]; [tauto|reflexivity].
Qed.

Theorem C24_missing_argument_takes_its_default : forall E sc ds args s s' args' x w a,
  keys_ok ds -> NoDup (map fst ds) -> defaulted E sc ds args s s' args' ->
  In (x, (w, a)) ds -> assoc x args = None ->
  exists s1 s2 v, arg_value E sc a s1 s2 v /\ assoc x args' = Some v.
Proof.
  intros E sc ds args s s' args' x w a K ND H. revert K ND.
  induction H as [|y w' a' rest args s s' args' u HG _ IH|y w' a' rest args s s1 s2 u args' HN HA HD IH];
    intros K ND IN HX; [contradiction| |];
    inversion K as [|? ? K1 K2]; subst; inversion ND as [|? ? NI ND']; subst; cbn [fst snd] in K1.
  - destruct IN as [EQ|IN]; [injection EQ as -> -> ->; congruence|]. eauto.
  - destruct IN as [EQ|IN].
    + injection EQ as -> -> ->. exists s, s1, u. split; [exact HA|].
      rewrite (defaulted_keeps _ _ _ _ _ _ _ x K2 HD NI). rewrite K1, BaseProofs.assoc_dict_set, String.eqb_refl.
      reflexivity.
    + apply IH; auto. rewrite K1, BaseProofs.assoc_dict_set.
      destruct (String.eqb_spec x y) as [->|]; [|exact HX].
      exfalso. apply NI. change y with (fst (y, (w, a))). now apply in_map.
Qed.

(** Nothing else is bound. *)
Theorem C24_only_parameters_get_defaults : forall E sc ds args s s' args' x,
  keys_ok ds -> defaulted E sc ds args s s' args' -> ~ In x (map fst ds) -> assoc x args' = assoc x args.
Proof. exact defaulted_keeps. Qed.

(** The defaults of a definition have distinct names. *)
Lemma nodup_dict_set : forall A k (v : A) d, NoDup (map fst d) -> NoDup (map fst (dict_set k v d)).
Proof.
  intros A k v d ND. unfold dict_set. rewrite map_app. cbn [map fst].
  assert (RK : forall l : list (string * A), NoDup (map fst l) ->
     NoDup (map fst (remove_key k l)) /\ ~ In k (map fst (remove_key k l)) /\
     (forall x, In x (map fst (remove_key k l)) -> In x (map fst l))).
  { induction l as [|[x w] l IH]; cbn; intros H; [repeat split; auto; constructor|].
    inversion H; subst. destruct (IH ltac:(assumption)) as (I1 & I2 & I3).
    destruct (String.eqb_spec k x) as [->|NE]; cbn.
    - repeat split; auto.
    - repeat split; [constructor; auto|intros [->|IN]; auto|intros y [->|IN]; auto]. }
  destruct (RK d ND) as (R1 & R2 & _).
  apply (Permutation.Permutation_NoDup (l := k :: map fst (remove_key k d))); [|now constructor].
  apply Permutation.Permutation_cons_append.
Qed.

Theorem C24_defaults_have_distinct_names : forall params, NoDup (map fst (param_defaults params)).
Proof.
  intros params. unfold param_defaults.
  assert (G : forall (l : list (string * option argval)) (d : list (string * (string * argval))), NoDup (map fst d) -> NoDup (map fst (fold_left (fun ds p =>
    match p with
    | (name, Some a) => dict_set (unquoted name) (name, a) ds
    | (_, None) => ds
    end) l d)) ).
  { clear. intros l. induction l as [|[x [a|]] l IH]; intros d ND; cbn [fold_left]; auto.
    apply IH. apply (nodup_dict_set _ _ _ _ ND). }
  apply G. constructor.
Qed.

(** A default that is a query, of a parameter in backquotes, is bound under
    the name with the backquotes: LET F(`a`={SELECT ...}) = a. *)
Theorem C24_quoted_parameter_refuted : exists sc s1 s2 q,
  executes demo_env demo_scope (SLet "F" [("`a`", Some (ASelect q))] true (LExpr (sym 1 "a"))) st0 s1 (sc, []) /\
  reads demo_env sc (call 2 "F" []) s1 s2 VNull /\
  (exists s3 n, reads demo_env sc (call 3 "F" [("a", ASelect q)]) s1 s3 (VOpaque n)).
Proof.
  do 3 eexists. exists (Select true [] (from_var "t") None None None None).
  split; [exists 0; intros; reflexivity|]. split.
  - apply (expr_enough demo_env 14). vm_compute. reflexivity.
  - do 2 eexists. apply (expr_enough demo_env 14). vm_compute. reflexivity.
Qed.

(** A query called in an expression without any argument is not called at
    all, defaults or not: LET F(a=5) = SELECT a FROM range(end=1), then F(). *)
Theorem C24_no_arguments_refuted : exists sc s1 s2 q,
  executes demo_env demo_scope (SLet "F" [("a", Some (AExpr (lit 5)))] true (LSelect q)) st0 s1 (sc, []) /\
  reads demo_env sc (call 2 "F" []) s1 s2 VNull /\
  exists s3 s4 n, reads demo_env sc (call 3 "F" [("b", AExpr (lit 0))]) s1 s3 (VOpaque n) /\
    evaluates (fun m => r_query (ev demo_env m) sc (VOpaque n)) s3 s4 [VDict [("a", i 5)]].
Proof.
  do 3 eexists. exists (Select false [("a", CExpr (sym 1 "a"))]
                          (Plugin ["range"] true [("end", AExpr (lit 1))]) None None None None).
  split; [exists 0; intros; reflexivity|]. split; [apply (expr_enough demo_env 14); vm_compute; reflexivity|].
  do 3 eexists. split; [apply (expr_enough demo_env 14); vm_compute; reflexivity|].
  exists 20. intros m Hm.
  rewrite (re_query _ _ _ (fuel_enough_is_enough demo_env 20 m Hm)); vm_compute; [reflexivity|discriminate].
Qed.

(** LET F(a=hit(x=1), b=hit(x=2)) = a + b; F(a=5): only the second default is
    evaluated. *)
Example C24_demo :
  demo_run 20 [SLet "F" [("a", Some (AExpr (call 1 "hit" [("x", AExpr (lit 1))])));
                         ("b", Some (AExpr (call 2 "hit" [("x", AExpr (lit 2))])))] true
                 (LExpr (EAdd (sym 3 "a") [("+", sym 4 "b")]));
               SQuery "" (Select false [("r", CExpr (call 5 "F" [("a", AExpr (lit 5))]))]
                            (Plugin ["range"] true [("end", AExpr (lit 1))]) None None None None)] =
  Some ([[VDict [("r", i 7)]]], [i 2]).
Proof. vm_compute. reflexivity. Qed.

Example C24_hypotheses : forall s s1 v, 
  arg_value demo_env demo_scope (AExpr (call 2 "hit" [("x", AExpr (lit 2))])) s s1 v ->
  let ds := param_defaults [("a", Some (AExpr (call 1 "hit" [("x", AExpr (lit 1))])));
                            ("`b`", Some (AExpr (call 2 "hit" [("x", AExpr (lit 2))])))] in
  keys_ok ds /\ defaulted demo_env demo_scope ds [("a", i 5)] s s1 [("a", i 5); ("b", v)].
Proof.
  intros s s1 v H ds. split; [repeat constructor|].
  eapply defaulted_given; [reflexivity|].
  eapply (defaulted_missing demo_env demo_scope "b" "`b`"); [reflexivity|exact H|]. constructor.
Qed.

(** ** C13: negated symbols *)

Definition minus (v : val) : val :=
  match v with
  | VF64 f => VF64 (f_opp f)
  | VF32 f => VF32 (f_opp f)
  | _ => match to_int64 v with Some z => vint (wrap64 (- z)) | None => VNull end
  end.
Definition number (v : val) : bool :=
  match v with VInt _ _ | VF64 _ | VF32 _ => true | _ => false end.

Lemma negated_symbol : forall E s sc node x v,
  bound s x v (sc_vars sc) -> sc_depth sc < 1000 -> number v = true ->
  reads E sc (ESym node true [x] false []) s (touched node s)
    (if existsb (Nat.eqb node) (split_nodes s) then v else minus v).
Proof.
  intros E s sc node x v B DP NV. apply ev_expr. cbn [expr_step]. unfold sym_reduce.
  eapply ev_bind; [apply (ev_now _ (split_symbol node true) s (touched node s)
     (negb (existsb (Nat.eqb node) (split_nodes s))))|].
  { unfold touched, split_symbol. destruct (existsb _ _); reflexivity. }
  cbv beta iota.
  apply (proj2 (ev_prefix _ _ (fun m => lookup_path (ev E m) sc [x]) _ _ (touched node s) _ (v, true) _
    ltac:(intros m Hm; destruct m as [|m]; [lia|]; apply bound_lookup; [now apply bound_touched|exact DP]))).
  cbv beta iota. cbn [negb].
  destruct (existsb (Nat.eqb node) (split_nodes s)); cbn [negb];
    destruct v; try discriminate; (eapply ev_bind; [apply ev_now; reflexivity|]);
    cbv beta iota; cbn [maybe_negate]; try apply ev_ret;
    apply ev_negate; unfold negate_step; (eapply ev_bind; [apply ev_now; reflexivity|]); cbv beta; cbn [is_lazy]; unfold minus;
    try apply ev_ret.
  destruct (to_int64 (VInt k z)); apply ev_ret.
Qed.

(** The first time a node is evaluated, -x is minus x. *)
Theorem C13_first_evaluation_partial : forall E s sc node x v,
  bound s x v (sc_vars sc) -> sc_depth sc < 1000 -> number v = true ->
  existsb (Nat.eqb node) (split_nodes s) = false ->
  exists s', reads E sc (ESym node true [x] false []) s s' (minus v).
Proof.
  intros E s sc node x v B DP NV F. exists (touched node s).
  pose proof (negated_symbol E s sc node x v B DP NV) as H. now rewrite F in H.
Qed.

(** Every time after that it is x: for all numbers, scopes and histories. *)
Theorem C13_every_later_evaluation_ignores_the_sign : forall E s sc node x v s1 w,
  bound s x v (sc_vars sc) -> sc_depth sc < 1000 -> number v = true ->
  reads E sc (ESym node true [x] false []) s s1 w ->
  forall s2 sc2 y u, later E s1 s2 -> bound s2 y u (sc_vars sc2) -> sc_depth sc2 < 1000 -> number u = true ->
  reads E sc2 (ESym node true [y] false []) s2 s2 u.
Proof.
  intros E s sc node x v s1 w B DP NV H1 s2 sc2 y u L B2 DP2 NU.
  pose proof (negated_symbol E s sc node x v B DP NV) as H.
  unfold reads in H, H1. destruct (evaluates_unique _ _ _ _ _ _ _ H H1) as [<- _].
  pose proof (negated_symbol E s2 sc2 node y u B2 DP2 NU) as K.
  assert (IN : existsb (Nat.eqb node) (split_nodes s2) = true).
  { apply later_evolves in L. apply existsb_exists. exists node. split; [|apply Nat.eqb_refl].
    apply (evo_split _ _ L). unfold touched, split_symbol.
    destruct (existsb (Nat.eqb node) (split_nodes s)) eqn:EE; cbn; [|now left].
    apply existsb_exists in EE as (m & IN & EQ). apply Nat.eqb_eq in EQ as ->. exact IN. }
  rewrite IN in K. replace (touched node s2) with s2 in K; [exact K|].
  unfold touched, split_symbol. now rewrite IN.
Qed.

(** SELECT -n AS m FROM t: only the first row is negated. *)
Theorem C13_second_row_refuted : exists s',
  evaluates (fun n => r_select (ev demo_env n) demo_scope
    (Select false [("m", CExpr (ESym 1 true ["n"] false []))] (from_var "t")
       (Some (ECmp (sym 2 "n") OpGt (lit 0))) None None None)) st0 s'
    [VDict [("m", i (-3))]; VDict [("m", i 1)]; VDict [("m", i 2)]].
Proof. eexists. apply (select_enough demo_env 14). vm_compute. reflexivity. Qed.

Example C13_demo : exists s', reads demo_env demo_scope (ESym 1 true ["base"] false []) st0 s' (i (-10)).
Proof.
  apply (C13_first_evaluation_partial demo_env st0 demo_scope 1 "base" (i 10)); try reflexivity.
  - eapply bound_here; reflexivity.
  - cbn. lia.
Qed.

(** ** C53: lambdas *)

(** The wrong number of arguments: NULL, nothing evaluated. *)
Theorem C53_wrong_arity : forall R l sc args s,
  List.length (l_params l) <> List.length args -> lambda_reduce R l sc args s = (s, RVal VNull).
Proof.
  intros R l sc args s H. unfold lambda_reduce. apply Nat.eqb_neq in H. rewrite H. reflexivity.
Qed.

(** The right number: the body with a frame that binds exactly the parameters,
    to the arguments (of parameters of the same name, the last). *)
Theorem C53_right_arity : forall R l sc args, List.length (l_params l) = List.length args ->
  exists frame,
    (forall s, lambda_reduce R l sc args s = r_expr R (append_vars (VDict frame) (copy sc)) (l_body l) s) /\
    forall x, assoc x frame = assoc x (rev (combine (l_params l) args)).
Proof.
  intros R l sc args H.
  exists (fold_left (fun d kv => dict_set (fst kv) (snd kv) d) (combine (l_params l) args) []). split.
  - intros s. unfold lambda_reduce. rewrite H, Nat.eqb_refl. reflexivity.
  - intros x. generalize (combine (l_params l) args). clear. intros kvs.
    induction kvs as [|[k v] kvs IH] using rev_ind; [reflexivity|].
    rewrite fold_left_app, rev_app_distr. cbn [fold_left rev app assoc fst snd].
    rewrite BaseProofs.assoc_dict_set, IH. reflexivity.
Qed.

(** Distinct parameters: each is bound to its argument, and nothing else is
    bound. *)
Theorem C53_distinct_parameters : forall R l sc args,
  NoDup (l_params l) -> List.length (l_params l) = List.length args ->
  exists frame,
    (forall s, lambda_reduce R l sc args s = r_expr R (append_vars (VDict frame) (copy sc)) (l_body l) s) /\
    (forall k x v, nth_error (l_params l) k = Some x -> nth_error args k = Some v -> assoc x frame = Some v) /\
    (forall x, ~ In x (l_params l) -> assoc x frame = None).
Proof.
  intros R l sc args ND LEN. destruct (C53_right_arity R l sc args LEN) as (frame & HE & HF).
  exists frame. split; [exact HE|]. clear HE. split.
  - intros k x v HX HV. rewrite HF. clear HF frame. revert args k LEN HX HV ND.
    induction (l_params l) as [|p ps IH];
      intros [|a args] k LEN HX HV ND; destruct k as [|k]; cbn in *; try discriminate.
    + injection HX as ->. injection HV as ->. inversion ND as [|? ? NI ND']; subst.
      rewrite assoc_app. cbn. rewrite String.eqb_refl.
      replace (assoc x (rev (combine ps args))) with (@None val); [reflexivity|].
      symmetry. apply BaseProofs.assoc_none. intros IN. apply NI. unfold keys in IN. rewrite map_rev in IN.
      apply in_rev in IN. clear - IN. revert args IN. induction ps as [|p ps IH]; intros [|a args]; cbn; try tauto.
      intros [H|H]; [now left|right; eapply IH; eauto].
    + inversion ND; subst. rewrite assoc_app. rewrite (IH args k); auto.
  - intros x NI. rewrite HF. apply BaseProofs.assoc_none. intros IN. apply NI. unfold keys in IN.
    rewrite map_rev in IN. apply in_rev in IN. clear - IN. revert args IN.
    induction (l_params l) as [|p ps IH]; intros [|a args]; cbn; try tauto.
    intros [H|H]; [now left|right; eapply IH; eauto].
Qed.

(** Parameters are not unquoted, symbols are: (`a b`) => `a b` is NULL. *)
Theorem C53_quoted_parameter_refuted : exists s',
  evaluates (fun n => lambda_reduce (ev demo_env n)
     {| l_params := ["`a b`"]; l_body := sym 1 "a b" |} demo_scope [i 1]) st0 s' VNull.
Proof.
  eexists. exists 12. intros n Hn. unfold lambda_reduce. cbn [l_params l_body List.length Nat.eqb negb].
  rewrite (re_expr _ _ _ (fuel_enough_is_enough demo_env 12 n Hn)); vm_compute; [reflexivity|discriminate].
Qed.

Example C53_demo : exists s', 
  lambda_reduce (ev demo_env 12) {| l_params := ["x"; "y"]; l_body := EAdd (sym 1 "x") [("-", sym 2 "y")] |}
    demo_scope [i 3; i 1] st0 = (s', RVal (i 2)).
Proof. eexists. vm_compute. reflexivity. Qed.

(** ** C55: materialised queries *)

(** Materialising yields exactly the rows of the query. *)
Theorem C55_materialised_rows : forall E sc q s s' v,
  evaluates (fun n => materialize (ev E n) sc q) s s' v <->
  exists rows, v = VQuery rows /\ evaluates (fun n => r_query (ev E n) (copy sc) q) s s' rows.
Proof.
  intros E sc q s s' v. unfold materialize, materialize_rows.
  rewrite ev_bind_iff by (intros a b L; apply (re_query _ _ _ (fuel_enough_is_enough E a b L))). split.
  - intros (s3 & rows' & H1 & H2). apply evaluates_ret in H2 as [-> ->]. eauto.
  - intros (rows' & -> & H). do 2 eexists. split; [exact H|apply ev_ret].
Qed.

(** Running it, iterating over it, reading it in a FROM clause, its truth: the
    same rows at any time, in any scope, and nothing happens. *)
Theorem C55_running : forall E n sc s rows, r_query (ev E (S n)) sc (VQuery rows) s = (s, RVal rows).
Proof. reflexivity. Qed.

Theorem C55_iterating : forall E n sc s rows,
  iterate_val E (ev E (S n)) sc (VQuery rows) s = (s, RVal rows).
Proof. reflexivity. Qed.

Theorem C55_from : forall E s sc x rows,
  bound s x (VQuery rows) (sc_vars sc) -> sc_depth sc < 1000 ->
  yields E sc (Plugin [x] false []) s s rows.
Proof. exact C22_later_references_see_the_rows. Qed.

Theorem C55_again : forall E sc q s s' rows, evaluates (fun n => materialize (ev E n) sc q) s s' (VQuery rows) ->
  forall s2 sc2, evaluates (fun n => r_query (ev E n) sc2 (VQuery rows)) s2 s2 rows.
Proof. intros. exists 1. intros [|n] Hn; [lia|reflexivity]. Qed.

(** Indexing it, unless the host registers something for that; a list of Go has
    fewer than 2^63 elements. *)
Theorem C55_indexing : forall E n sc s rows k,
  first_assoc (p_assoc (env_protos E)) (VQuery rows) (KVal (vint k)) = None ->
  first_assoc (p_assoc (env_protos E)) (VArr rows) (KVal (vint k)) = None ->
  (0 <= k < Z.of_nat (List.length rows))%Z -> (Z.of_nat (List.length rows) < two63)%Z ->
  exists row, nth_error rows (Z.to_nat k) = Some row /\
  r_assoc (ev E (S n)) sc (VQuery rows) (KVal (vint k)) s = (s, RVal (row, true)).
Proof.
  intros E n sc s rows k F1 F2 HK HM.
  destruct (nth_error rows (Z.to_nat k)) as [row|] eqn:EN.
  2:{ apply nth_error_None in EN. lia. }
  exists row. split; [reflexivity|]. cbn [ev step r_assoc]. unfold assoc_step.
  cbn [is_nil key_string to_string vint]. unfold mbind, obj_of. unfold assoc_other.
  change (VInt KInt64 k) with (vint k). rewrite F1. cbn [is_lazy key_string to_string vint].
  unfold mret. do 2 f_equal. change (VInt KInt64 k) with (vint k).
  assert (A : assoc_disp (p_assoc (env_protos E)) (VQuery rows) (KVal (vint k)) =
              recovered (default_assoc_index (VArr rows) k)).
  { cbn [assoc_disp is_nil vint]. change (VInt KInt64 k) with (vint k). rewrite F1, F2.
    replace (to_int64 (vint k)) with (Some k); [reflexivity|]. cbn. rewrite wrap64_id; [reflexivity|]. unfold is_int64, two63 in *. lia. }
  rewrite A. unfold default_assoc_index.
  destruct (Z.ltb_spec k 0); [lia|]. destruct (Z.ltb_spec (Z.of_nat (List.length rows)) k); [lia|].
  destruct (Z.ltb_spec k 0); [lia|]. cbn [orb]. rewrite EN. reflexivity.
Qed.

(** A column of it. *)
Theorem C55_column : forall E n sc s rows f,
  r_assoc (ev E (S (S n))) sc (VQuery (map VDict rows)) (KVal (VStr f)) s =
  (s, RVal (VArr (map (fun d => match assoc f d with Some v => seen v | None => VNull end) rows), true)).
Proof.
  intros E n sc s rows f. change (ev E (S (S n))) with (step E (ev E (S n)) (S n)). cbn [step r_assoc].
  unfold assoc_step at 1. cbn [is_nil key_string to_string].
  unfold mbind at 1, obj_of. cbn [is_query]. unfold mbind at 1.
  change (r_query (ev E (S n)) sc (VQuery (map VDict rows)) s) with (s, RVal (map VDict rows)).
  cbv iota. unfold mbind at 1.
  assert (G : mmap (fun row => '(v, pres) <- r_assoc (ev E (S n)) sc row (KVal (VStr f));;
                               mret (if pres then v else VNull)) (map VDict rows) s =
    (s, RVal (map (fun d => match assoc f d with Some v => seen v | None => VNull end) rows))).
  { induction rows as [|d rows IH]; [reflexivity|]. cbn [map mmap]. unfold mbind at 1 2.
    rewrite dict_lookup. destruct (assoc f d); cbv iota beta; unfold mbind at 1; unfold mbind at 1 in IH;
      unfold mret at 1; unfold mbind; rewrite IH; reflexivity. }
  rewrite G. reflexivity.
Qed.

(** LET x <= SELECT ... then FROM x, twice. *)
Example C55_demo :
  demo_run 20 [SLet "X" [] false (LSelect (Select false [("h", CExpr (call 1 "hit" [("x", AExpr (sym 2 "n"))]))]
                                             (from_var "t") None None None None));
               SQuery "" (Select true [] (from_var "X") None None None None);
               SQuery "" (Select true [] (from_var "X") (Some (ECmp (sym 3 "h") OpGt (lit 1))) None None None)] =
  Some ([[VDict [("h", i 3)]; VDict [("h", i 1)]; VDict [("h", VNull)]; VDict [("h", i 2)]];
         [VDict [("h", i 3)]; VDict [("h", i 2)]]], [i 3; i 1; VNull; i 2]).
Proof. vm_compute. reflexivity. Qed.

Print Assumptions C23_call_of_a_query_in_an_expression_partial.
Print Assumptions C23_called_query_runs_at_the_call.
Print Assumptions C08_not_of_a_stored_query_partial.
Print Assumptions C08_where_a_stored_query_partial.
Print Assumptions C13_first_evaluation_partial.
Print Assumptions C13_every_later_evaluation_ignores_the_sign.
Print Assumptions C22_let_evaluates_nothing.
Print Assumptions C22_every_reference_evaluates_the_body.
Print Assumptions C22_every_reference_runs_the_query.
Print Assumptions C22_materialised_at_definition.
Print Assumptions C22_query_materialised_at_definition.
Print Assumptions C22_later_references_see_the_value_partial.
Print Assumptions C22_later_references_see_the_rows.
Print Assumptions C22_stored_expression_refuted.
Print Assumptions C23_call_of_an_expression_partial.
Print Assumptions C23_call_of_a_query_partial.
Print Assumptions C23_parameters_have_the_values_passed.
Print Assumptions C23_callers_variables_unchanged.
Print Assumptions C24_passed_argument_is_used.
Print Assumptions C24_default_of_a_passed_argument_is_not_evaluated.
Print Assumptions C24_missing_argument_takes_its_default.
Print Assumptions C53_right_arity.
Print Assumptions C53_distinct_parameters.
Print Assumptions C55_materialised_rows.
Print Assumptions C55_indexing.
Print Assumptions C55_column.

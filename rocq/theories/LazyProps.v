(** What is evaluated, and how often: C21 (columns), C38 (if), C54 (lazily
    passed arguments).

    Effects are what functions and plugins of the host show ([PObserve]); the
    statements about accesses hold for expressions of any kind. *)

From Coq Require Import ZArith List String Bool Lia PeanoNat.
From Verif Require Import Base BaseProofs F64 Value Protocols Monad Chains Range Flatten ArgParser Syntax
  Eval Runs Para Evolve PureSpec PureEval PureSelect SelectProps Effects Demo.
Import ListNotations.
Open Scope nat_scope.
Open Scope string_scope.
Open Scope list_scope.

(** ** Histories

    One use of the evaluator, with any outcome: evaluating an expression, a
    query, a stored query, statements; accessing a field of an object; forcing
    a lazy argument. *)
Inductive use (E : env) : st -> st -> Prop :=
| use_expr : forall n sc e s, use E s (fst (r_expr (ev E n) sc e s))
| use_select : forall n sc q s, use E s (fst (r_select (ev E n) sc q s))
| use_query : forall n sc v s, use E s (fst (r_query (ev E n) sc v s))
| use_field : forall n sc v k s, use E s (fst (r_assoc (ev E n) sc v k s))
| use_reduce : forall n v s, use E s (fst (r_reduce (ev E n) v s))
| use_reduce_ws : forall n sc v s, use E s (fst (r_reduce_ws (ev E n) sc v s))
| use_stmts : forall n sc qs s, use E s (fst (run_stmts (ev E n) sc qs s)).

Inductive later (E : env) : st -> st -> Prop :=
| later_now : forall s, later E s s
| later_use : forall s s1 s2, later E s s1 -> use E s1 s2 -> later E s s2.

Lemma later_evolves : forall E s s', later E s s' -> evolves s s'.
Proof.
  intros E s s' H. induction H as [s|s s1 s2 _ IH U]; [apply evolves_refl|].
  eapply evolves_trans; [exact IH|]. destruct U.
  - apply (re_expr _ _ _ (evaluation_evolves E n)).
  - apply (re_select _ _ _ (evaluation_evolves E n)).
  - apply (re_query _ _ _ (evaluation_evolves E n)).
  - apply (re_assoc _ _ _ (evaluation_evolves E n)).
  - apply (re_reduce _ _ _ (evaluation_evolves E n)).
  - apply (re_reduce_ws _ _ _ (evaluation_evolves E n)).
  - apply (pa_run_stmts _ grows_closed _ _ (evaluation_evolves E n)).
Qed.

(** ** C54: lazily passed arguments *)

(** A lazy argument: an expression to be evaluated in the scope of the
    caller. *)
Definition lazy_argument (s : st) (n : nat) (e : expr) (sc : scope) : Prop :=
  exists cache, nth_error (heap s) n = Some (OLazy e sc cache).

(** Once Reduce has returned a value that is not nil, every later Reduce
    returns that value and nothing at all happens, whatever was evaluated in
    between. *)
Theorem C54_evaluated_at_most_once_partial : forall E n s s1 x e sc v,
  lazy_argument s x e sc -> r_reduce (ev E n) (VOpaque x) s = (s1, RVal v) -> v <> VNil ->
  forall s2, later E s1 s2 ->
  forall m, r_reduce (ev E (S m)) (VOpaque x) s2 = (s2, RVal v).
Proof.
  intros E n s s1 x e sc v [cache Hx] H NV s2 L m. destruct n as [|n]; [discriminate|].
  assert (C1 : nth_error (heap s1) x = Some (OLazy e sc (Some v))).
  { cbn [ev step r_reduce] in H. unfold reduce_step, mbind, obj_of in H. rewrite Hx in H.
    destruct cache as [y|].
    - injection H as <- <-. exact Hx.
    - pose proof (re_reduce_ws _ _ _ (evaluation_evolves E n) sc (VOpaque x) s) as EV.
      destruct (r_reduce_ws (ev E n) sc (VOpaque x) s) as [s0 [y| |]]; try discriminate.
      unfold update_obj, mret in H. injection H as <- <-. cbn [fst] in EV.
      destruct (evo_heap _ _ EV _ _ Hx) as (o' & Ho' & _).
      cbn [heap set_heap]. rewrite (set_nth_same _ _ _ _ _ Ho'). destruct y; congruence. }
  apply later_evolves in L. destruct (evo_heap _ _ L _ _ C1) as (o2 & Ho2 & SO).
  inversion SO; subst. cbn [ev step r_reduce]. unfold reduce_step, mbind, obj_of. rewrite Ho2. reflexivity.
Qed.

(** The first Reduce evaluates the expression once, in the caller's scope. *)
Theorem C54_first_access : forall E s x e sc s1 v,
  nth_error (heap s) x = Some (OLazy e sc None) ->
  evaluates (fun n => r_expr (ev E n) sc e) s s1 v -> plain v = true ->
  evaluates (fun n => r_reduce (ev E n) (VOpaque x)) s
    (set_heap (set_nth x (OLazy e sc (match expand v with VNil => None | y => Some y end)) (heap s1)) s1)
    (expand v).
Proof.
  intros E s x e sc s1 v Hx EV PV.
  assert (WS : evaluates (fun n => r_reduce_ws (ev E n) sc (VOpaque x)) s s1 (expand v)).
  { apply ev_reduce_ws. unfold reduce_ws_step. eapply ev_bind; [apply ev_now; reflexivity|].
    cbv beta. rewrite Hx. eapply ev_bind; [exact EV|].
    eapply ev_bind; [apply ev_now; reflexivity|]. cbv beta.
    destruct v; try discriminate; apply ev_ret. }
  apply ev_reduce. unfold reduce_step. eapply ev_bind; [apply ev_now; reflexivity|]. cbv beta. rewrite Hx.
  eapply ev_bind; [exact WS|]. apply ev_now. unfold mbind, update_obj, mret. destruct (expand v); reflexivity.
Qed.

(** ReduceWithScope evaluates the expression each time: a function of the
    host that reads its argument twice that way runs the argument twice. *)
Definition again_host (args : list (string * val)) : prog val :=
  PReduceWS (arg args "x") (fun _ => PReduceWS (arg args "x") (fun v => PRet v)).
Definition again_env : env :=
  {| env_protos := no_protos; env_iter := [];
     env_funs := [("hit", FHost hit_host); ("again", FHost again_host)];
     env_plugs := []; env_match := fun _ _ => false; env_sprint := demo_sprint;
     env_sort := fun less l => GoSort.insertion_sort less l; env_go := demo_go |}.

Theorem C54_reduce_with_scope_refuted : exists sc e s',
  evaluates (fun n => r_expr (ev again_env n) sc
               (call 1 "again" [("x", AExpr (call 2 "hit" [("x", AExpr e)]))])) st0 s' (i 1) /\
  trace s' = [i 1; i 1].
Proof.
  exists demo_scope, (lit 1). eexists. split.
  - apply (expr_enough again_env 12). vm_compute. reflexivity.
  - vm_compute. reflexivity.
Qed.

(** A lazy argument whose value has been read. *)
Example C54_demo : exists s1, 
  let s := set_heap [OLazy (call 1 "hit" [("x", AExpr (lit 1))]) demo_scope None] st0 in
  r_reduce (ev demo_env 12) (VOpaque 0) s = (s1, RVal (i 1)) /\ trace s1 = [i 1] /\
  forall s2, later demo_env s1 s2 -> forall m,
    r_reduce (ev demo_env (S m)) (VOpaque 0) s2 = (s2, RVal (i 1)).
Proof.
  eexists. cbv zeta. split; [vm_compute; reflexivity|]. split; [vm_compute; reflexivity|].
  intros s2 L m.
  eapply (C54_evaluated_at_most_once_partial demo_env 12
            (set_heap [OLazy (call 1 "hit" [("x", AExpr (lit 1))]) demo_scope None] st0)); [| |discriminate|exact L].
  - exists None. reflexivity.
  - vm_compute. reflexivity.
Qed.

(** ** C21: columns *)

(** A row of a query, not yet read out. *)
Definition query_row (s : st) (n : nat) (columns : list string) : Prop :=
  exists getters cache, nth_error (heap s) n = Some (ORow columns getters cache).

Lemma row_cached : forall E n s s1 r cs k sc v,
  query_row s r cs -> r_assoc (ev E n) sc (VOpaque r) (KVal (VStr k)) s = (s1, RVal (v, true)) ->
  exists g ca, nth_error (heap s1) r = Some (ORow cs g ca) /\ assoc k ca = Some v.
Proof.
  intros E n s s1 r cs k sc v (g & ca & Hr) H. destruct n as [|n]; [discriminate|].
  cbn [ev step r_assoc] in H. unfold assoc_step in H. cbn [is_nil key_string to_string] in H.
  unfold mbind at 1, obj_of at 1 in H. rewrite Hr in H.
  unfold row_get in H. unfold mbind at 1, obj_of at 1 in H. rewrite Hr in H.
  destruct (assoc k ca) as [y|] eqn:EC.
  - injection H as <- <-. eauto.
  - destruct (assoc k g) as [gt|] eqn:EG; [|discriminate].
    pose proof (pa_run_getter _ grows_closed _ _ (evaluation_evolves E n) gt s) as EV.
    unfold mbind at 1 in H. destruct (run_getter (ev E n) gt s) as [s0 [y| |]]; try discriminate.
    cbn [fst] in EV. destruct (evo_heap _ _ EV _ _ Hr) as (o' & Ho' & SO).
    unfold mbind, obj_of, update_obj, mret in H. rewrite Ho' in H.
    inversion SO; subst; injection H as <- <-; cbn [heap set_heap];
      rewrite (set_nth_same _ _ _ _ _ Ho'); eexists _, _; (split; [reflexivity|]);
      rewrite PureEval.assoc_dict_set, String.eqb_refl; reflexivity.
Qed.

(** Once a column of a row has been accessed, every later access returns the
    same value and nothing at all happens, whatever was evaluated in
    between. *)
Theorem C21_accessed_column_is_not_evaluated_again : forall E n s s1 r cs k sc v,
  query_row s r cs -> r_assoc (ev E n) sc (VOpaque r) (KVal (VStr k)) s = (s1, RVal (v, true)) ->
  forall s2, later E s1 s2 ->
  forall m sc', r_assoc (ev E (S m)) sc' (VOpaque r) (KVal (VStr k)) s2 = (s2, RVal (v, true)).
Proof.
  intros E n s s1 r cs k sc v HR H s2 L m sc'.
  destruct (row_cached _ _ _ _ _ _ _ _ _ HR H) as (g & ca & H1 & HC).
  apply later_evolves in L. destruct (evo_heap _ _ L _ _ H1) as (o2 & Ho2 & SO).
  assert (EX : exists ca', o2 = ORow cs g ca' /\ assoc k ca' = Some v).
  { inversion SO; subst; eauto. }
  destruct EX as (ca' & -> & HC').
  cbn [ev step r_assoc]. unfold assoc_step. cbn [is_nil key_string to_string].
  unfold mbind at 1, obj_of at 1. rewrite Ho2. unfold row_get, mbind, obj_of. rewrite Ho2, HC'. reflexivity.
Qed.

(** And when the row is emitted, a column accessed before contributes the
    value it had then, and is not evaluated: reading out the columns is
    reading out those before it, then those after it. *)
Theorem C21_accessed_column_is_reused : forall E n s s1 r cs k sc v,
  query_row s r cs -> r_assoc (ev E n) sc (VOpaque r) (KVal (VStr k)) s = (s1, RVal (v, true)) ->
  forall s2, later E s1 s2 ->
  forall m before after d,
    materialize_columns (ev E m) r (before ++ k :: after) d s2 =
    (d' <- materialize_columns (ev E m) r before d ;;
     materialize_columns (ev E m) r after (dict_set k v d')) s2.
Proof.
  intros E n s s1 r cs k sc v HR H s2 L m before after.
  destruct (row_cached _ _ _ _ _ _ _ _ _ HR H) as (g & ca & H1 & HC).
  apply later_evolves in L. destruct (evo_heap _ _ L _ _ H1) as (o2 & Ho2 & SO).
  assert (EX : exists ca', o2 = ORow cs g ca' /\ assoc k ca' = Some v).
  { inversion SO; subst; eauto. }
  destruct EX as (ca' & -> & HC'). clear L H1 HC SO H HR.
  revert s2 ca' Ho2 HC'. induction before as [|c before IH]; intros s2 ca' Ho2 HC' d;
    cbn [app materialize_columns].
  - unfold mbind, mret, obj_of. rewrite Ho2, HC'. reflexivity.
  - unfold mbind, obj_of. rewrite Ho2. cbv beta iota.
    set (m0 := match assoc c ca' with
               | Some v0 => mret v0
               | None => match assoc c g with Some g0 => run_getter (ev E m) g0 | None => mpanic end
               end).
    assert (G : evolves s2 (fst (m0 s2))).
    { unfold m0. destruct (assoc c ca'); [apply evolves_refl|]. destruct (assoc c g) as [gt|]; [|apply evolves_refl].
      apply (pa_run_getter _ grows_closed _ _ (evaluation_evolves E m) gt s2). }
    fold m0. destruct (m0 s2) as [s3 [x| |]]; cbn [fst] in G; try reflexivity.
    destruct (evo_heap _ _ G _ _ Ho2) as (o3 & Ho3 & SO3).
    assert (EX : exists ca3, o3 = ORow cs g ca3 /\ assoc k ca3 = Some v).
    { inversion SO3; subst; eauto. }
    destruct EX as (ca3 & -> & HC3). exact (IH s3 ca3 Ho3 HC3 _).
Qed.

Section C21.
  Variables (E : env) (funs : string -> option (dict -> option val)) (owner : nat -> string).
  Hypothesis FOK : funs_ok E funs.

  (** For columns with distinct names and any effects, and a condition that
      refers to columns without effects only: the host sees nothing for a row
      that is rejected, and the effects of every column once, in the order of
      the columns, for a row that is emitted ([events], Effects.v). *)
  Theorem C21_once_per_emitted_row_partial :
    forall W k sc fr star cols from where_ s s1 rows out evs,
    Forall2 (frame_ok E owner W) (sc_vars sc) fr -> sc_depth sc + 2 + k < 1000 ->
    label_cols owner cols -> label_where owner where_ -> no_star cols ->
    from_yields E sc from s s1 (map VDict rows) -> stok E owner W s1 ->
    Forall row_ok rows -> Forall (names_ok star cols) rows ->
    events E funs owner W k fr star cols where_ rows out evs ->
    exists s2, query_yields E sc (Select star cols from where_ None None None) s s2 (map VDict out) /\
               trace s2 = rev evs ++ trace s1.
  Proof.
    intros W k sc fr star cols from where_ s s1 rows out evs FR DP LC LW NS HF HS RO NO HE.
    destruct (rows_emit E funs owner FOK W k sc fr star cols where_ FR DP LC LW NS rows out evs HE RO NO
                W s1 (wle_refl _) HS) as (W2 & s2 & _ & _ & T & EV).
    exists s2. split; [|exact T]. apply ev_select. cbn [select_step].
    eapply ev_bind; [exact HF|]. exact EV.
  Qed.
End C21.

(** Two columns of one name: the first is not evaluated, the second twice. *)
Theorem C21_two_columns_of_one_name_refuted : exists sc cols s',
  cols = [("a", CExpr (call 1 "hit" [("x", AExpr (lit 1))]));
          ("a", CExpr (call 2 "hit" [("x", AExpr (lit 2))]))] /\
  evaluates (fun n => r_select (ev demo_env n) sc
    (Select false cols (Plugin ["range"] true [("end", AExpr (lit 1))]) None None None None)) st0 s'
    [VDict [("a", i 2)]] /\
  trace s' = [i 2; i 2].
Proof.
  exists demo_scope. eexists. eexists. split; [reflexivity|]. split.
  - apply (select_enough demo_env 14). vm_compute. reflexivity.
  - vm_compute. reflexivity.
Qed.

(** SELECT hit(x=n) AS h, k FROM t WHERE n > 1: of the four rows two are
    emitted, and the host sees their n. *)
Definition hit_owner (n : nat) : string := "hit".
Definition hit_cols : list (string * colbody) :=
  [("h", CExpr (call 1 "hit" [("x", AExpr (sym 2 "n"))])); ("k", CExpr (sym 3 "k"))].
Definition hit_where : option expr := Some (ECmp (sym 4 "n") OpGt (lit 1)).

Lemma hit_does : forall W k fr node e x,
  den demo_env demo_funs fr e = Some x -> labelled hit_owner e ->
  does demo_env hit_owner W k fr (call node "hit" [("x", AExpr e)]) [expand x] (or_null (expand x)).
Proof.
  intros W k fr node e x D L. change [expand x] with ([] ++ [expand x]).
  apply (does_shown demo_env hit_owner W k fr node "hit" "x" hit_host); try reflexivity.
  - eapply does_pure; [apply demo_funs_ok|exact D|exact L].
  - eapply den_plain; eauto.
Qed.

Example C21_demo :
  exists s2, query_yields demo_env demo_scope
    (Select false hit_cols (from_var "t") hit_where None None None) st0 s2
    [VDict [("h", i 3); ("k", VStr "b")]; VDict [("h", i 2); ("k", VStr "a")]] /\
  rev (trace s2) = [i 3; i 2].
Proof.
  assert (FROM : exists s1, from_yields demo_env demo_scope (from_var "t") st0 s1 (map VDict table_rows) /\
                            stok demo_env hit_owner no_world s1 /\ trace s1 = []).
  { eexists. split; [apply (from_enough demo_env 6); vm_compute; reflexivity|]. split; [|reflexivity].
    apply calls_stok. intros node f id HN. discriminate. }
  destruct FROM as (s1 & HF & HS & T1).
  destruct (C21_once_per_emitted_row_partial demo_env demo_funs hit_owner demo_funs_ok no_world 0
              demo_scope demo_frames false hit_cols (from_var "t") hit_where st0 s1 table_rows
              [[("h", i 3); ("k", VStr "b")]; [("h", i 2); ("k", VStr "a")]] [i 3; i 2])
    as (s2 & HY & T2).
  - apply (frames_scope demo_env hit_owner no_world demo_scope demo_frames); [reflexivity|cbn; lia].
  - cbn [demo_scope sc_depth]. lia.
  - repeat constructor.
  - repeat constructor.
  - repeat constructor.
  - exact HF.
  - exact HS.
  - repeat constructor; cbn; intuition discriminate.
  - repeat constructor; cbn; intuition discriminate.
  - assert (P : forall row x y, den demo_env demo_funs (row :: demo_frames) (sym 2 "n") = Some x -> plain x = true ->
              den demo_env demo_funs (row :: demo_frames) (sym 3 "k") = Some y -> plain y = true ->
              col_events demo_env hit_owner no_world 0 demo_frames row hit_cols
                ([expand x] ++ [] ++ []) [("h", expand (or_null (expand x))); ("k", expand y)]).
    { intros row x y HX PX HY PY. unfold hit_cols.
      apply ce_cons; [apply hit_does; [exact HX|exact I]|now apply plain_or_null, plain_expand|].
      apply ce_cons; [eapply does_pure; [apply demo_funs_ok|exact HY|exact I]|exact PY|]. apply ce_nil. }
    unfold table_rows.
    apply (evs_emitted demo_env demo_funs hit_owner no_world 0 demo_frames false hit_cols hit_where
             (row [("k", VStr "b"); ("n", i 3)]) _ _ [i 2] [("h", i 3); ("k", VStr "b")] [i 3]);
      [vm_compute; reflexivity|apply (P _ (i 3) (VStr "b")); reflexivity|].
    apply evs_rejected; [vm_compute; reflexivity|].
    apply evs_rejected; [vm_compute; reflexivity|].
    apply (evs_emitted demo_env demo_funs hit_owner no_world 0 demo_frames false hit_cols hit_where
             (row [("k", VStr "a"); ("n", i 2)]) _ _ [] [("h", i 2); ("k", VStr "a")] [i 2]);
      [vm_compute; reflexivity|apply (P _ (i 2) (VStr "a")); reflexivity|].
    apply evs_nil.
  - exists s2. split; [exact HY|]. rewrite T2, T1. reflexivity.
Qed.

(** The condition refers to the column: still once, for the rejected rows
    too. *)
Example C21_where_refers_to_the_column :
  demo_run 16 [SQuery "" (Select false hit_cols (from_var "t")
                 (Some (ECmp (sym 4 "h") OpGt (lit 1))) None None None)] =
  Some ([[VDict [("h", i 3); ("k", VStr "b")]; VDict [("h", i 2); ("k", VStr "a")]]],
        [i 3; i 1; VNull; i 2]).
Proof. vm_compute. reflexivity. Qed.

(** ** C38: if *)

Section C38.
  Variables (E : env) (owner : nat -> string).

  (** The function: the host sees the effects of the condition, once, then
      those of the selected branch, and the value is the branch's.  Nothing is
      assumed of the other branch. *)
  Theorem C38_if_function_partial : forall W k fr node c a b evs1 cv evs2 x,
    assoc "if" (env_funs E) = Some FIf -> owner node = "if" ->
    does E owner W k fr c evs1 cv -> plain cv = true -> cv <> VNil ->
    does E owner W k fr (if truthy E (expand cv) then a else b) evs2 x -> plain x = true ->
    does E owner W k fr
      (ESym node false ["if"] true [("condition", AExpr c); ("then", AExpr a); ("else", AExpr b)])
      (evs1 ++ evs2) (or_null (expand x)).
  Proof. intros. eapply does_if; eauto. Qed.

  (** The plugin, for branches that are queries. *)
  Theorem C38_if_plugin_partial : forall W k fr c q1 q2 evs1 cv evs2 rows,
    assoc "if" (env_plugs E) = Some PlIf ->
    does E owner W k fr c evs1 cv -> plain cv = true -> cv <> VNil ->
    select_does E owner W k fr (if truthy E cv then q1 else q2) evs2 rows ->
    from_does E owner W k fr
      (Plugin ["if"] true [("condition", AExpr c); ("then", ASelect q1); ("else", ASelect q2)])
      (evs1 ++ evs2) rows.
  Proof. intros. eapply from_if; eauto. Qed.

  (** Without else: NULL, or no rows, and no effects besides those of the
      condition when it does not hold. *)
  Theorem C38_if_function_without_else_partial : forall W k fr node c a evs1 cv evs2 x,
    assoc "if" (env_funs E) = Some FIf -> owner node = "if" ->
    does E owner W k fr c evs1 cv -> plain cv = true -> cv <> VNil ->
    (if truthy E (expand cv) then does E owner W k fr a evs2 x else evs2 = [] /\ x = VNull) ->
    plain x = true ->
    does E owner W k fr
      (ESym node false ["if"] true [("condition", AExpr c); ("then", AExpr a)])
      (evs1 ++ evs2) (or_null (expand x)).
  Proof. intros. eapply does_if_no_else; eauto. Qed.

  Theorem C38_if_plugin_without_else_partial : forall W k fr c q evs1 cv evs2 rows,
    assoc "if" (env_plugs E) = Some PlIf ->
    does E owner W k fr c evs1 cv -> plain cv = true -> cv <> VNil ->
    (if truthy E cv then select_does E owner W k fr q evs2 rows else evs2 = [] /\ rows = []) ->
    from_does E owner W k fr
      (Plugin ["if"] true [("condition", AExpr c); ("then", ASelect q)]) (evs1 ++ evs2) rows.
  Proof. intros. eapply from_if_no_else; eauto. Qed.
End C38.

(** Branches of the plugin that are expressions are both evaluated. *)
Theorem C38_plugin_expression_branches_refuted : exists sc s' rows,
  evaluates (fun n => plugin_eval demo_env (ev demo_env n) n sc
    (Plugin ["if"] true [("condition", AExpr (lit 1));
                         ("then", AExpr (call 1 "hit" [("x", AExpr (lit 1))]));
                         ("else", AExpr (call 2 "hit" [("x", AExpr (lit 2))]))])) st0 s' rows /\
  trace s' = [i 2; i 1].
Proof.
  exists demo_scope. do 2 eexists. split.
  - apply (from_enough demo_env 14). vm_compute. reflexivity.
  - vm_compute. reflexivity.
Qed.

(** A list in brackets is evaluated even if it is the branch not taken. *)
Theorem C38_list_branch_refuted : exists sc s',
  evaluates (fun n => r_expr (ev demo_env n) sc
    (ESym 9 false ["if"] true [("condition", AExpr (lit 1)); ("then", AExpr (lit 1));
       ("else", AArray (EComma (call 2 "hit" [("x", AExpr (lit 2))]) [Some (lit 3)]))])) st0 s' (i 1) /\
  trace s' = [i 2].
Proof.
  exists demo_scope. eexists. split.
  - apply (expr_enough demo_env 14). vm_compute. reflexivity.
  - vm_compute. reflexivity.
Qed.

(** if(condition=hit(x=n), then=hit(x=2), else=...) with n = 1 *)
Definition if_owner (n : nat) : string := if Nat.eqb n 9 then "if" else "hit".
Example C38_demo : forall b,
  does demo_env if_owner no_world 0 ([("n", i 1)] :: demo_frames)
    (ESym 9 false ["if"] true [("condition", AExpr (call 1 "hit" [("x", AExpr (sym 2 "n"))]));
       ("then", AExpr (call 3 "hit" [("x", AExpr (lit 2))])); ("else", AExpr b)])
    [i 1; i 2] (i 2).
Proof.
  intros b.
  assert (H : forall node e x, node <> 9 ->
    den demo_env demo_funs ([("n", i 1)] :: demo_frames) e = Some x -> labelled if_owner e ->
    does demo_env if_owner no_world 0 ([("n", i 1)] :: demo_frames)
      (call node "hit" [("x", AExpr e)]) [expand x] (or_null (expand x))).
  { intros node e x NE D L. change [expand x] with ([] ++ [expand x]).
    apply (does_shown demo_env if_owner no_world 0 _ node "hit" "x" hit_host); try reflexivity.
    - unfold if_owner. apply Nat.eqb_neq in NE. now rewrite NE.
    - eapply does_pure; [apply demo_funs_ok|exact D|exact L].
    - eapply den_plain; eauto. }
  apply (C38_if_function_partial demo_env if_owner no_world 0 _ 9 _ _ b [i 1] (i 1) [i 2] (i 2));
    try reflexivity; try discriminate.
  - apply (H 1 (sym 2 "n") (i 1)); [discriminate|reflexivity|exact I].
  - apply (H 3 (lit 2) (i 2)); [discriminate|reflexivity|exact I].
Qed.

(** if(condition=hit(x=n), then=...) with n = 0, for any branch *)
Example C38_demo_without_else : forall a q,
  does demo_env if_owner no_world 0 ([("n", i 0)] :: demo_frames)
    (ESym 9 false ["if"] true [("condition", AExpr (call 1 "hit" [("x", AExpr (sym 2 "n"))]));
       ("then", AExpr a)]) [i 0] VNull /\
  from_does demo_env if_owner no_world 0 ([("n", i 0)] :: demo_frames)
    (Plugin ["if"] true [("condition", AExpr (call 1 "hit" [("x", AExpr (sym 2 "n"))]));
       ("then", ASelect q)]) [i 0] [].
Proof.
  intros a q.
  assert (H : does demo_env if_owner no_world 0 ([("n", i 0)] :: demo_frames)
      (call 1 "hit" [("x", AExpr (sym 2 "n"))]) [i 0] (i 0)).
  { apply (does_shown demo_env if_owner no_world 0 _ 1 "hit" "x" hit_host _ [] (i 0)); try reflexivity.
    eapply does_pure; [apply demo_funs_ok|reflexivity|exact I]. }
  split.
  - apply (C38_if_function_without_else_partial demo_env if_owner no_world 0 _ 9 _ _ [i 0] (i 0) [] VNull);
      try reflexivity; try discriminate; auto. split; reflexivity.
  - apply (C38_if_plugin_without_else_partial demo_env if_owner no_world 0 _ _ _ [i 0] (i 0) [] []);
      try reflexivity; try discriminate; auto. split; reflexivity.
Qed.

Print Assumptions C21_accessed_column_is_not_evaluated_again.
Print Assumptions C21_accessed_column_is_reused.
Print Assumptions C21_once_per_emitted_row_partial.
Print Assumptions C21_two_columns_of_one_name_refuted.
Print Assumptions C38_if_function_partial.
Print Assumptions C38_if_plugin_partial.
Print Assumptions C38_if_function_without_else_partial.
Print Assumptions C38_if_plugin_without_else_partial.
Print Assumptions C38_plugin_expression_branches_refuted.
Print Assumptions C54_evaluated_at_most_once_partial.
Print Assumptions C54_first_access.
Print Assumptions C54_reduce_with_scope_refuted.

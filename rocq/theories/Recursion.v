(** C25: recursion.  The definitions whose evaluation never ends. *)

From Coq Require Import ZArith List String Bool Lia PeanoNat.
From Verif Require Import Base BaseProofs F64 Value Protocols Monad Chains Range Flatten ArgParser Syntax
  Eval Runs Para Evolve LazyProps LetSpec LetProps Demo.
Import ListNotations.
Open Scope nat_scope.
Open Scope string_scope.
Open Scope list_scope.

(** No amount of fuel is enough: the Go code goes on for ever, or until the
    stack or the memory is used up. *)
Definition never_ends (E : env) (sc : scope) (qs : list stmt) (s : st) : Prop :=
  forall n, snd (run_stmts (ev E n) sc qs s) = RFuel.

Lemma fuel_bind : forall A B (m : EM A) (f : A -> EM B) s,
  (exists s1, m s = (s1, RFuel)) \/ (exists s1 a, m s = (s1, RVal a) /\ snd (f a s1) = RFuel) ->
  snd (mbind m f s) = RFuel.
Proof.
  intros A B m f s [[s1 H]|(s1 & a & H & K)]; unfold mbind; rewrite H; [reflexivity|exact K].
Qed.
Lemma fuel_first : forall A B (m : EM A) (f : A -> EM B) s, snd (m s) = RFuel -> snd (mbind m f s) = RFuel.
Proof. intros A B m f s H. unfold mbind. destruct (m s) as [s1 [| |]]; cbn in *; congruence. Qed.
Lemma fuel_then : forall A B (m : EM A) (f : A -> EM B) s s1 a,
  m s = (s1, RVal a) -> snd (f a s1) = RFuel -> snd (mbind m f s) = RFuel.
Proof. intros A B m f s s1 a H K. unfold mbind. now rewrite H. Qed.

Lemma no_fuel_lookup : forall E sc x s f, sc_vars sc = f :: tl (sc_vars sc) -> sc_depth sc < 1000 ->
  snd (lookup_path (ev E 0) sc [x] s) = RFuel.
Proof.
  intros E sc x s f H D. cbn [lookup_path]. apply fuel_first. unfold resolve, overflow.
  rewrite (proj2 (Nat.leb_gt 1000 _) D), H. reflexivity.
Qed.

(** ** A default that calls the function: LET F(x=F()) = x *)

Definition self_call : expr := call 1 "F" [].
Definition self_default : list stmt :=
  [SLet "F" [("x", Some (AExpr self_call))] true (LExpr (sym 2 "x"));
   SLet "z" [] false (LExpr (call 3 "F" []))].

Lemma self_default_call : forall n node sc s,
  bound s "F" (VOpaque 0) (sc_vars sc) -> S (sc_depth sc) < 1000 -> (exists f r, sc_vars sc = f :: r) ->
  nth_error (heap s) 0 = Some (OExprDef {| e_expr := sym 2 "x";
                                           e_defaults := [("x", ("x", AExpr self_call))] |}) ->
  snd (r_expr (ev demo_env n) sc (call node "F" []) s) = RFuel.
Proof.
  induction n as [|n IH]; intros node sc s B D NE H; [reflexivity|].
  cbn [ev step r_expr]. unfold call. cbn [expr_step]. unfold sym_reduce.
  eapply fuel_then; [apply split_symbol_false|]. cbv beta iota. change (assoc "F" (env_funs demo_env)) with (@None func). cbv iota.
  destruct n as [|n].
  { apply fuel_first. destruct NE as (f & r & E1). apply no_fuel_lookup with (f := f); [now rewrite E1|lia]. }
  eapply fuel_then; [apply bound_lookup; [apply bound_touched; exact B|lia]|].
  cbv beta iota. cbn [negb]. eapply fuel_then; [unfold obj_of; now rewrite touched_heap, H|].
  cbv beta iota. eapply fuel_then; [apply fresh_agg_run|].
  unfold overflow at 1. cbn [copy sc_depth]. rewrite (proj2 (Nat.leb_gt 1000 _) D).
  eapply fuel_then; [reflexivity|]. apply fuel_first. cbn [e_defaults apply_defaults assoc].
  apply fuel_first. cbn [arg_eager]. apply (IH 1 sc); auto.
  - eapply bound_heap; [|exact B]. exists []. cbn. rewrite touched_heap. symmetry. apply app_nil_r.
  - cbn. rewrite touched_heap. exact H.
Qed.

Lemma bound_first : forall s x n fr, bound s x (VOpaque n) (VDict [(x, VOpaque n)] :: fr).
Proof. intros s x n fr. eapply bound_here; [cbn; now rewrite String.eqb_refl|reflexivity]. Qed.

Theorem C25_default_that_calls_the_function_refuted : never_ends demo_env demo_scope self_default st0.
Proof.
  intros n. unfold self_default. cbn [run_stmts].
  eapply fuel_then; [reflexivity|]. cbv beta iota. apply fuel_first. apply fuel_first. cbn [stmt_eval].
  apply fuel_first. apply fuel_first. apply self_default_call.
  - apply bound_first.
  - cbn. lia.
  - eexists; eexists; reflexivity.
  - reflexivity.
Qed.

(** ** A definition whose value is itself: LET Y = scope().Y, SELECT * FROM Y *)

Definition own_value : expr := EMember (call 1 "scope" []) [MField "Y"].
Definition self_value : list stmt :=
  [SLet "Y" [] true (LExpr own_value);
   SLet "z" [] false (LSelect (Select true [] (from_var "Y") None None None None))].

Definition only_scope (s : st) : Prop :=
  nth_error (heap s) 0 = Some (OExprDef {| e_expr := own_value; e_defaults := [] |}) /\
  forall f id, nassoc 1 (node_funs s) = Some (f, id) -> f = FScope.

Lemma own_value_is_itself : forall n sc s,
  bound s "Y" (VOpaque 0) (sc_vars sc) -> sc_depth sc < 1000 -> (exists f r, sc_vars sc = f :: r) -> only_scope s ->
  snd (r_expr (ev demo_env n) sc own_value s) = RFuel \/
  exists s', r_expr (ev demo_env n) sc own_value s = (s', RVal (VOpaque 0)) /\
    (exists l, heap s' = heap s ++ l) /\ only_scope s'.
Proof.
  intros n sc s B D NE [H0 HN].
  destruct n as [|n]; [now left|]. change (ev demo_env (S n)) with (step demo_env (ev demo_env n) n).
  cbn [step r_expr]. unfold own_value. cbn [expr_step].
  assert (K : snd (r_expr (ev demo_env n) sc (call 1 "scope" []) s) = RFuel \/
    exists s', r_expr (ev demo_env n) sc (call 1 "scope" []) s = (s', RVal (VOpaque (List.length (heap s)))) /\
      heap s' = heap s ++ [OScope sc] /\ only_scope s').
  { destruct n as [|n]; [now left|]. right.
    change (ev demo_env (S n)) with (step demo_env (ev demo_env n) n). cbn [step r_expr]. unfold call. cbn [expr_step].
    unfold sym_reduce. unfold mbind at 1. rewrite split_symbol_false. cbv beta iota.
    change (assoc "scope" (env_funs demo_env)) with (Some FScope). cbv iota.
    unfold mbind at 1. unfold call_function. cbn [build_lazy_args].
    unfold mbind at 1, mret at 1. unfold mbind at 1, node_function.
    assert (NF : node_funs (touched 1 s) = node_funs s).
    { unfold touched, split_symbol. destruct (existsb _ _); reflexivity. }
    rewrite NF. destruct (nassoc 1 (node_funs s)) as [[f id]|] eqn:EN.
    - rewrite (HN f id eq_refl). cbn [call_func]. unfold mbind, alloc, mret. cbn. rewrite touched_heap.
      eexists. split; [reflexivity|]. cbn [heap]. split; [reflexivity|]. split; [|intros f' id'; cbn; rewrite NF, EN; intros K; injection K as <- <-; exact (HN f id eq_refl)].
      cbn [heap set_heap]; rewrite nth_error_app1; [exact H0|]. apply nth_error_Some. congruence.
    - cbn [call_func]. unfold mbind, alloc, mret. cbn. rewrite touched_heap.
      eexists. split; [reflexivity|]. cbn [heap]. split; [reflexivity|]. split.
      + cbn [heap set_heap]; rewrite nth_error_app1; [exact H0|]. apply nth_error_Some. congruence.
      + intros f' id'. cbn [node_funs set_heap]. rewrite nassoc_nset. cbn. congruence. }
  destruct K as [K|(s1 & K & HH & OS)]; [left; now apply fuel_first|].
  unfold mbind at 1 2. rewrite K.
  destruct n as [|n]; [left; reflexivity|].
  cbn [member_terms]. unfold mbind at 1, mret at 1. unfold mbind at 2, mret at 2.
  change (ev demo_env (S n)) with (step demo_env (ev demo_env n) n). cbn [step r_assoc].
  assert (A : assoc_step demo_env (ev demo_env n) sc (VOpaque (List.length (heap s))) (KVal (VStr "Y")) s1
    = resolve (ev demo_env n) sc "Y" s1).
  { unfold assoc_step. cbn [is_nil key_string]. unfold mbind, obj_of. rewrite HH, nth_error_app2, Nat.sub_diag by lia.
    reflexivity. }
  destruct n as [|n].
  - left. apply fuel_first. rewrite A. unfold resolve, overflow. rewrite (proj2 (Nat.leb_gt 1000 _) D).
    destruct NE as (f & r & ->). reflexivity.
  - right. rewrite (bound_resolve demo_env n sc "Y" s1 (VOpaque 0)) in A; [|eapply bound_heap; [eexists; exact HH|exact B]|exact D].
    unfold mbind, mret. rewrite A. cbv iota beta. exists s1. split; [reflexivity|]. split; [eexists; exact HH|exact OS].
Qed.

Lemma self_value_rows : forall n sc s,
  bound s "Y" (VOpaque 0) (sc_vars sc) -> sc_depth sc < 1000 -> (exists f r, sc_vars sc = f :: r) -> only_scope s ->
  snd (r_evalsym (ev demo_env n) sc (VOpaque 0) s) = RFuel.
Proof.
  induction n as [|n IH]; intros sc s B D NE OS; [reflexivity|].
  cbn [ev step r_evalsym]. unfold evalsym_step, overflow. rewrite (proj2 (Nat.leb_gt 1000 _) D).
  eapply fuel_then; [unfold obj_of; now rewrite (proj1 OS)|]. cbv beta iota. cbn [e_expr].
  destruct (own_value_is_itself n sc s B D NE OS) as [F|(s' & EQ & HH & OS')]; [now apply fuel_first|].
  eapply fuel_then; [exact EQ|]. apply IH; auto. eapply bound_heap; eauto.
Qed.

Theorem C25_definition_equal_to_itself_refuted : never_ends demo_env demo_scope self_value st0.
Proof.
  intros n. unfold self_value. cbn [run_stmts].
  eapply fuel_then; [reflexivity|]. cbv beta iota. apply fuel_first. apply fuel_first. cbn [stmt_eval].
  apply fuel_first. eapply fuel_then; [reflexivity|]. apply fuel_first. unfold materialize_rows.
  destruct n as [|n]; [reflexivity|]. cbn [ev step r_query]. unfold query_step.
  eapply fuel_then; [reflexivity|]. cbv beta iota.
  destruct n as [|n]; [reflexivity|]. cbn [ev step r_select]. unfold select_step.
  apply fuel_first. unfold plugin_eval, from_var.
  destruct n as [|n]; [reflexivity|].
  eapply fuel_then; [apply bound_lookup; [apply bound_first|cbn; lia]|]. cbn [negb].
  apply self_value_rows.
  - apply bound_first.
  - cbn; lia.
  - eexists; eexists; reflexivity.
  - split; [reflexivity|]. discriminate.
Qed.

(** ** A query handed to a parameter of the same name:
    LET F(q) = q.x, F(q={SELECT * FROM q}) *)

Definition the_rows : select := Select true [] (from_var "q") None None None None.
Definition self_argument : list stmt :=
  [SLet "F" [("q", None)] true (LExpr (EMember (sym 2 "q") [MField "x"]));
   SLet "z" [] false (LExpr (call 1 "F" [("q", ASelect the_rows)]))].

Lemma self_argument_rows : forall n sc s m,
  bound s "q" (VOpaque m) (sc_vars sc) -> sc_depth sc < 1000 -> (exists f r, sc_vars sc = f :: r) ->
  nth_error (heap s) m = Some (OSelect the_rows) ->
  snd (r_query (ev demo_env n) sc (VOpaque m) s) = RFuel.
Proof.
  induction n as [n IH] using lt_wf_ind. intros sc s m B D NE H. destruct n as [|n]; [reflexivity|].
  cbn [ev step r_query]. unfold query_step. eapply fuel_then; [unfold obj_of; now rewrite H|]. cbv beta iota.
  destruct n as [|n]; [reflexivity|]. cbn [ev step r_select]. unfold select_step, the_rows.
  apply fuel_first. unfold plugin_eval, from_var.
  destruct n as [|n].
  { apply fuel_first. destruct NE as (f & r & E1). apply no_fuel_lookup with (f := f); [now rewrite E1|lia]. }
  eapply fuel_then; [apply bound_lookup; [exact B|exact D]|]. cbn [negb].
  cbn [ev step r_evalsym]. unfold evalsym_step, overflow. rewrite (proj2 (Nat.leb_gt 1000 _) D).
  eapply fuel_then; [unfold obj_of; now rewrite H|]. cbn [is_query]. cbv iota.
  apply IH; auto.
Qed.

Theorem C25_query_argument_named_like_its_source_refuted :
  never_ends demo_env demo_scope self_argument st0.
Proof.
  intros n. unfold self_argument. cbn [run_stmts].
  eapply fuel_then; [reflexivity|]. cbv beta iota. apply fuel_first. apply fuel_first. cbn [stmt_eval].
  apply fuel_first. apply fuel_first.
  destruct n as [|n]; [reflexivity|]. cbn [ev step r_expr]. unfold call. cbn [expr_step]. unfold sym_reduce.
  eapply fuel_then; [apply split_symbol_false|]. cbv beta iota.
  change (assoc "F" (env_funs demo_env)) with (@None func). cbv iota.
  destruct n as [|n]; [reflexivity|].
  eapply fuel_then; [apply bound_lookup; [apply bound_first|cbn; lia]|]. cbv beta iota. cbn [negb].
  eapply fuel_then; [reflexivity|]. cbv beta iota.
  eapply fuel_then; [apply fresh_agg_run|].
  replace (overflow _) with false by reflexivity. cbn [build_args arg_eager].
  eapply fuel_then; [reflexivity|]. eapply fuel_then; [reflexivity|]. apply fuel_first.
  change (ev demo_env (S n)) with (step demo_env (ev demo_env n) n). cbn [step r_expr e_expr expr_step].
  destruct n as [|n]; [reflexivity|].
  destruct n as [|n]; [reflexivity|].
  eapply fuel_then.
  { change (ev demo_env (S (S n))) with (step demo_env (ev demo_env (S n)) (S n)). cbn [step r_expr].
    unfold sym. cbn [expr_step]. unfold sym_reduce. unfold mbind at 1. rewrite split_symbol_false. cbv beta iota.
    unfold mbind at 1. rewrite (bound_lookup demo_env n _ "q" _ (VOpaque 1)); [|apply bound_first|cbn; lia].
    reflexivity. }
  cbn [member_terms]. eapply fuel_then; [reflexivity|]. cbv beta iota. apply fuel_first.
  change (ev demo_env (S (S n))) with (step demo_env (ev demo_env (S n)) (S n)). cbn [step r_assoc].
  unfold assoc_step. cbn [is_nil key_string]. eapply fuel_then; [reflexivity|]. cbv beta iota. cbn [is_query].
  apply fuel_first. apply self_argument_rows.
  - apply bound_first.
  - cbn; lia.
  - eexists; eexists; reflexivity.
  - reflexivity.
Qed.

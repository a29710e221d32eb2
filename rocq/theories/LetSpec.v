(** LET definitions and calls: the specification.

    How a name is bound, how arguments are passed and defaults filled in, in
    terms of the values of expressions ([evaluates]); and the proof that the
    evaluator does exactly that.  Expressions, definitions and scopes are
    arbitrary. *)

From Coq Require Import ZArith List String Bool Lia PeanoNat.
From Verif Require Import Base BaseProofs F64 Value Protocols Monad Chains Range Flatten ArgParser Syntax
  Eval Runs Para Evolve.
Import ListNotations.
Open Scope nat_scope.
Open Scope string_scope.
Open Scope list_scope.

(** ** Names

    The innermost frame that has the name decides.  A row of a query that has
    no column of that name is looked through.  A nil value is seen as NULL. *)
Definition seen (v : val) : val := if is_nil v then VNull else v.

Inductive bound (s : st) (x : string) (v : val) : list val -> Prop :=
| bound_here : forall d rest v0, assoc x d = Some v0 -> v = seen v0 -> bound s x v (VDict d :: rest)
| bound_outer : forall d rest, assoc x d = None -> bound s x v rest -> bound s x v (VDict d :: rest)
| bound_row : forall n columns getters cache rest,
    nth_error (heap s) n = Some (ORow columns getters cache) ->
    assoc x getters = None -> assoc x cache = None ->
    bound s x v rest -> bound s x v (VOpaque n :: rest).

(** ** Arguments *)

Section Spec.
  Variable E : env.
  Variable sc : scope.          (* the scope of the caller *)

  Definition value_of (e : expr) (s s' : st) (v : val) : Prop :=
    evaluates (fun n => r_expr (ev E n) sc e) s s' v.

  (** One argument; a query in braces is passed without being evaluated. *)
  Inductive arg_value : argval -> st -> st -> val -> Prop :=
  | av_expr : forall e s s' v, value_of e s s' v -> arg_value (AExpr e) s s' v
  | av_array : forall e s s' v, value_of e s s' v -> arg_value (AArray e) s s' v
  | av_empty : forall s, arg_value AEmpty s s (VArr [])
  | av_query : forall q s,
      arg_value (ASelect q) s (set_heap (heap s ++ [OSelect q]) s) (VOpaque (List.length (heap s))).

  (** All arguments of a call, in order; [args] are those passed so far. *)
  Inductive passed : list (string * argval) -> list (string * val) -> st -> st -> list (string * val) -> Prop :=
  | passed_nil : forall args s, passed [] args s s args
  | passed_cons : forall x a rest args s s1 s2 v args',
      arg_value a s s1 v -> passed rest (dict_set x v args) s1 s2 args' ->
      passed ((x, a) :: rest) args s s2 args'.

  (** The key under which the default of a parameter is bound. *)
  Definition default_key (x written : string) (a : argval) : string :=
    match a with ASelect _ => written | _ => x end.

  (** Defaults, evaluated for the missing parameters. *)
  Inductive defaulted : list (string * (string * argval)) -> list (string * val) -> st -> st ->
                        list (string * val) -> Prop :=
  | defaulted_nil : forall args s, defaulted [] args s s args
  | defaulted_given : forall x w a rest args s s' args' v,
      assoc x args = Some v -> defaulted rest args s s' args' ->
      defaulted ((x, (w, a)) :: rest) args s s' args'
  | defaulted_missing : forall x w a rest args s s1 s2 v args',
      assoc x args = None -> arg_value a s s1 v ->
      defaulted rest (dict_set (default_key x w a) v args) s1 s2 args' ->
      defaulted ((x, (w, a)) :: rest) args s s2 args'.

  (** Queries among the arguments of a call in a FROM clause are run. *)
  Inductive expanded : list (string * val) -> list (string * val) -> st -> st -> list (string * val) -> Prop :=
  | expanded_nil : forall vars s, expanded [] vars s s vars
  | expanded_lazy : forall x n rest vars s s1 s2 v vars',
      is_lazy (nth_error (heap s) n) = true ->
      evaluates (fun m => r_reduce (ev E m) (VOpaque n)) s s1 v ->
      expanded rest (dict_set x v vars) s1 s2 vars' ->
      expanded ((x, VOpaque n) :: rest) vars s s2 vars'
  | expanded_rows : forall x rows rest vars s s' vars',
      expanded rest (dict_set x (VArr rows) vars) s s' vars' ->
      expanded ((x, VQuery rows) :: rest) vars s s' vars'
  | expanded_query : forall x n rest vars s s1 s2 rows vars',
      is_lazy (nth_error (heap s) n) = false ->
      is_query (VOpaque n) (nth_error (heap s) n) = true ->
      evaluates (fun m => r_query (ev E m) (copy sc) (VOpaque n)) s s1 rows ->
      expanded rest (dict_set x (VArr rows) vars) s1 s2 vars' ->
      expanded ((x, VOpaque n) :: rest) vars s s2 vars'
  | expanded_value : forall x v rest vars s s' vars',
      match v with VQuery _ => False
                 | VOpaque n => is_lazy (nth_error (heap s) n) = false /\
                                is_query v (nth_error (heap s) n) = false
                 | _ => True end ->
      expanded rest (dict_set x v vars) s s' vars' ->
      expanded ((x, v) :: rest) vars s s' vars'.
End Spec.

(** ** States while a call is set up *)

(** The node of a symbol remembers that it was evaluated. *)
Definition touched (node : nat) (s : st) : st :=
  fst (split_symbol node false s).

(** A call has its own aggregators. *)
Definition fresh_aggregators (s : st) : st := fst (fresh_agg scope0 s).

(** The scope of the body: the parameters over the frames of the caller. *)
Definition body_scope (sc : scope) (args : list (string * val)) (cell : nat) : scope :=
  {| sc_vars := VDict args :: sc_vars sc; sc_depth := S (sc_depth sc); sc_cell := cell |}.

(** ** The evaluator does that *)

Lemma ev_expr_iff : forall E sc e s s' v,
  evaluates (fun n => r_expr (ev E n) sc e) s s' v <->
  evaluates (fun n => expr_step E (ev E n) sc e) s s' v.
Proof.
  intros. split; [|apply ev_expr].
  apply (ev_unshift _ _ (fun n => expr_step E (ev E n) sc e)). reflexivity.
Qed.
Lemma ev_query_iff : forall E sc q s s' v,
  evaluates (fun n => r_query (ev E n) sc q) s s' v <->
  evaluates (fun n => query_step (ev E n) sc q) s s' v.
Proof.
  intros. split; [|apply ev_query].
  apply (ev_unshift _ _ (fun n => query_step (ev E n) sc q)). reflexivity.
Qed.
Lemma ev_evalsym_iff : forall E sc q s s' v,
  evaluates (fun n => r_evalsym (ev E n) sc q) s s' v <->
  evaluates (fun n => evalsym_step (ev E n) sc q) s s' v.
Proof.
  intros. split; [|apply ev_evalsym].
  apply (ev_unshift _ _ (fun n => evalsym_step (ev E n) sc q)). reflexivity.
Qed.

Lemma ev_bind_iff : forall A B (m : nat -> EM A) (f : nat -> A -> EM B) s s2 b,
  (forall n n', n <= n' -> mle A (m n) (m n')) ->
  (evaluates (fun n => mbind (m n) (f n)) s s2 b <->
   exists s1 a, evaluates m s s1 a /\ evaluates (fun n => f n a) s1 s2 b).
Proof.
  intros A B m f s s2 b MONO. split; [now apply ev_bind_inv|].
  intros (s1 & a & H1 & H2). eapply ev_bind; eauto.
Qed.

(** A first part with a known result. *)
Lemma ev_prefix : forall A B (m : nat -> EM A) (f : nat -> A -> EM B) s s1 s2 a b,
  (forall n, 1 <= n -> m n s = (s1, RVal a)) ->
  (evaluates (fun n => mbind (m n) (f n)) s s2 b <-> evaluates (fun n => f n a) s1 s2 b).
Proof.
  intros A B m f s s1 s2 a b H. split; intros [N HN]; exists (max N 1); intros n Hn.
  - specialize (HN n ltac:(lia)). unfold mbind in HN. rewrite H in HN by lia. exact HN.
  - unfold mbind. rewrite H by lia. apply HN. lia.
Qed.

Lemma evaluates_ret : forall A (a b : A) s s', evaluates (fun _ => mret a) s s' b <-> (s' = s /\ b = a).
Proof.
  intros. split.
  - intros [N H]. specialize (H N (le_n N)). injection H as <- <-. auto.
  - intros [-> ->]. apply ev_ret.
Qed.

Lemma mono_expr : forall E sc e n n', n <= n' -> mle val (r_expr (ev E n) sc e) (r_expr (ev E n') sc e).
Proof. intros. apply (re_expr _ _ _ (fuel_enough_is_enough E n n' H)). Qed.

Lemma mono_arg : forall E sc a n n', n <= n' -> mle val (arg_eager (ev E n) sc a) (arg_eager (ev E n') sc a).
Proof. intros. apply (pa_arg_eager _ mle_closed _ _ (fuel_enough_is_enough E n n' H)). Qed.

Lemma mono_build : forall E sc ps a n n', n <= n' -> mle _ (build_args (ev E n) sc ps a) (build_args (ev E n') sc ps a).
Proof. intros. apply (pa_build_args _ mle_closed _ _ (fuel_enough_is_enough E n n' H)). Qed.

Lemma mono_defaults : forall E sc ps a n n', n <= n' ->
  mle _ (apply_defaults (ev E n) sc ps a) (apply_defaults (ev E n') sc ps a).
Proof. intros. apply (pa_apply_defaults _ mle_closed _ _ (fuel_enough_is_enough E n n' H)). Qed.

Lemma mono_expand : forall E sc ps a n n', n <= n' ->
  mle _ (expand_args (ev E n) sc ps a) (expand_args (ev E n') sc ps a).
Proof. intros. apply (pa_expand_args _ mle_closed _ _ (fuel_enough_is_enough E n n' H)). Qed.

Lemma arg_value_iff : forall E sc a s s' v,
  evaluates (fun n => arg_eager (ev E n) sc a) s s' v <-> arg_value E sc a s s' v.
Proof.
  intros E sc a s s' v. destruct a as [e|q|e|]; cbn [arg_eager].
  - split; [intros H; now constructor|intros H; inversion H; assumption].
  - split.
    + intros [N H]. specialize (H N (le_n N)). injection H as <- <-. constructor.
    + intros H. inversion H; subst. apply ev_now. reflexivity.
  - split; [intros H; now constructor|intros H; inversion H; assumption].
  - rewrite evaluates_ret. split; [intros [-> ->]; constructor|intros H; inversion H; auto].
Qed.

Lemma passed_iff : forall E sc params args s s' args',
  evaluates (fun n => build_args (ev E n) sc params args) s s' args' <-> passed E sc params args s s' args'.
Proof.
  intros E sc params. induction params as [|[x a] rest IH]; intros args s s' args'; cbn [build_args].
  - rewrite evaluates_ret. split; [intros [-> ->]; constructor|intros H; inversion H; auto].
  - rewrite ev_bind_iff by (apply mono_arg). split.
    + intros (s1 & v & H1 & H2). apply arg_value_iff in H1. apply IH in H2. econstructor; eauto.
    + intros H. inversion H; subst. do 2 eexists. split; [apply arg_value_iff; eassumption|now apply IH].
Qed.

Lemma defaulted_iff : forall E sc ds args s s' args',
  evaluates (fun n => apply_defaults (ev E n) sc ds args) s s' args' <-> defaulted E sc ds args s s' args'.
Proof.
  intros E sc ds. induction ds as [|[x [w a]] rest IH]; intros args s s' args'; cbn [apply_defaults].
  - rewrite evaluates_ret. split; [intros [-> ->]; constructor|intros H; inversion H; auto].
  - destruct (assoc x args) as [v|] eqn:EA.
    + rewrite IH. split; [intros H; econstructor; eauto|].
      intros H. inversion H; subst; [assumption|congruence].
    + rewrite ev_bind_iff by (apply mono_arg). split.
      * intros (s1 & v & H1 & H2). apply arg_value_iff in H1. apply IH in H2. econstructor 3; eauto.
      * intros H. inversion H; subst; [congruence|].
        do 2 eexists. split; [apply arg_value_iff; eassumption|now apply IH].
Qed.

Lemma expanded_iff : forall E sc args vars s s' vars',
  evaluates (fun n => expand_args (ev E n) sc args vars) s s' vars' <-> expanded E sc args vars s s' vars'.
Proof.
  intros E sc args. induction args as [|[x v] rest IH]; intros vars s s' vars'; cbn [expand_args].
  - rewrite evaluates_ret. split; [intros [-> ->]; constructor|intros H; inversion H; auto].
  - rewrite (ev_prefix _ _ (fun _ => obj_of v) _ s s s' (match v with VOpaque n => nth_error (heap s) n | _ => None end))
      by reflexivity.
    destruct v; cbn [is_lazy is_query];
      try (rewrite (ev_prefix _ _ (fun _ => mret _) _ s s s') by reflexivity; rewrite IH;
           split; [intros H; first [apply expanded_rows; exact H|apply expanded_value; [exact I|exact H]]
                  |intros H; inversion H; subst; first [assumption|contradiction]]).
    destruct (is_lazy (nth_error (heap s) n)) eqn:EL.
    + rewrite ev_bind_iff
        by (intros a b L; apply (re_reduce _ _ _ (fuel_enough_is_enough E a b L))). split.
      * intros (s1 & v & H1 & H2). apply IH in H2. eapply expanded_lazy; eauto.
      * intros H. inversion H; subst; try congruence;
          try (match goal with X : _ /\ _ |- _ => destruct X; congruence end).
        do 2 eexists. split; [eassumption|now apply IH].
    + change (match nth_error (heap s) n with
              | Some (OQuery _) | Some (OSelect _) | Some (OCallSite _ _) | Some (OWrapper _) => true
              | _ => false end) with (is_query (VOpaque n) (nth_error (heap s) n)).
      destruct (is_query (VOpaque n) (nth_error (heap s) n)) eqn:EQ.
      * assert (K : forall w, evaluates (fun m => (rows <- materialize_rows (ev E m) sc (VOpaque n);; mret (VArr rows))) s (fst w) (snd w) <->
           exists rows, snd w = VArr rows /\ evaluates (fun m => r_query (ev E m) (copy sc) (VOpaque n)) s (fst w) rows).
        { intros [s1 w]. unfold materialize_rows. cbn [fst snd]. rewrite ev_bind_iff
            by (intros a b L; apply (re_query _ _ _ (fuel_enough_is_enough E a b L))). split.
          - intros (s2 & rows & H1 & H2). apply evaluates_ret in H2 as [-> ->]. eauto.
          - intros (rows & -> & H). do 2 eexists. split; [exact H|apply ev_ret]. }
        rewrite ev_bind_iff.
        2:{ intros a b L. unfold materialize_rows. apply mle_bind; [|intros; apply mle_refl].
            apply (re_query _ _ _ (fuel_enough_is_enough E a b L)). }
        split.
        -- intros (s1 & v & H1 & H2). apply (K (s1, v)) in H1 as (rows & HR & H1). cbn [fst snd] in *. subst v.
           apply IH in H2. eapply expanded_query; eauto.
        -- intros H. inversion H; subst; try congruence;
             try (match goal with X : _ /\ _ |- _ => destruct X; congruence end).
           exists s1, (VArr rows). split; [|now apply IH]. apply (K (s1, VArr rows)).
           exists rows. split; [reflexivity|assumption].
      * rewrite (ev_prefix _ _ (fun _ => mret _) _ s s s') by reflexivity. rewrite IH.
        split; [intros H; apply expanded_value; [split; assumption|exact H]|].
        intros H. inversion H; subst; try assumption; congruence.
Qed.

(** Finding a name has no effect. *)
Lemma dict_lookup : forall E n sc d x s,
  r_assoc (ev E (S n)) sc (VDict d) (KVal (VStr x)) s =
  (s, RVal (match assoc x d with Some v => (seen v, true) | None => (VNil, false) end)).
Proof.
  intros. cbn [ev step r_assoc]. unfold assoc_step. cbn [is_nil key_string to_string].
  unfold mbind, obj_of, mret. cbn. destruct (assoc x d); reflexivity.
Qed.

Lemma row_lookup : forall E n sc m x s columns getters cache,
  nth_error (heap s) m = Some (ORow columns getters cache) ->
  assoc x getters = None -> assoc x cache = None ->
  r_assoc (ev E (S n)) sc (VOpaque m) (KVal (VStr x)) s = (s, RVal (VNull, false)).
Proof.
  intros E n sc m x s cs g ca H HG HC. cbn [ev step r_assoc]. unfold assoc_step.
  cbn [is_nil key_string to_string]. unfold mbind at 1, obj_of at 1. rewrite H.
  unfold row_get, mbind, obj_of. rewrite H, HC, HG. reflexivity.
Qed.

Lemma bound_not_nil : forall s x v fr, bound s x v fr -> v <> VNil.
Proof.
  intros s x v fr H. induction H as [d rest v0 _ ->| |]; auto. unfold seen. destruct v0; cbn; congruence.
Qed.

Lemma bound_resolve : forall E n sc x s v,
  bound s x v (sc_vars sc) -> sc_depth sc < 1000 ->
  resolve (ev E (S n)) sc x s = (s, RVal (v, true)).
Proof.
  intros E n sc x s v H D. unfold resolve, overflow. rewrite (proj2 (Nat.leb_gt 1000 _) D).
  generalize VNil. induction H as [d rest v0 HA HV|d rest HA _ IH|m cs g ca rest HM HG HC _ IH]; intros df;
    cbn [resolve_frames]; unfold mbind.
  - rewrite dict_lookup, HA. subst v. unfold seen. destruct v0; reflexivity.
  - rewrite dict_lookup, HA. apply IH.
  - erewrite row_lookup by eassumption. apply IH.
Qed.

Lemma bound_lookup : forall E n sc x s v,
  bound s x v (sc_vars sc) -> sc_depth sc < 1000 ->
  lookup_path (ev E (S n)) sc [x] s = (s, RVal (v, true)).
Proof.
  intros E n sc x s v H D. cbn [lookup_path]. unfold mbind.
  rewrite (bound_resolve E n sc x s v H D). reflexivity.
Qed.

(** A binding lasts. *)
Lemma bound_evolves : forall s s' x v fr, evolves s s' -> bound s x v fr -> bound s' x v fr.
Proof.
  intros s s' x v fr EV H. induction H as [d rest v0 HA HV|d rest HA _ IH|m cs g ca rest HM HG HC _ IH].
  - eapply bound_here; eauto.
  - apply bound_outer; auto.
  - destruct (evo_heap _ _ EV _ _ HM) as (o & Ho & SO).
    inversion SO as [|? ? ? ca' _ HN|]; subst; eapply bound_row; eauto. rewrite HN; auto.
Qed.

Lemma bound_heap : forall s s' x v fr, (exists l, heap s' = heap s ++ l) -> bound s x v fr -> bound s' x v fr.
Proof.
  intros s s' x v fr [l EH] H. induction H as [d rest v0 HA HV|d rest HA _ IH|m cs g ca rest HM HG HC _ IH].
  - eapply bound_here; eauto.
  - apply bound_outer; auto.
  - eapply bound_row; eauto. rewrite EH, nth_error_app1; [exact HM|]. apply nth_error_Some. congruence.
Qed.

Lemma touched_heap : forall node s, heap (touched node s) = heap s.
Proof. intros. unfold touched, split_symbol. destruct (existsb _ _); reflexivity. Qed.
Lemma touched_trace : forall node s, trace (touched node s) = trace s.
Proof. intros. unfold touched, split_symbol. destruct (existsb _ _); reflexivity. Qed.
Lemma touched_cells : forall node s, cells (touched node s) = cells s.
Proof. intros. unfold touched, split_symbol. destruct (existsb _ _); reflexivity. Qed.

Lemma split_symbol_false : forall node s, split_symbol node false s = (touched node s, RVal false).
Proof. intros. unfold touched, split_symbol. destruct (existsb _ _); reflexivity. Qed.

Lemma bound_touched : forall node s x v fr, bound s x v fr -> bound (touched node s) x v fr.
Proof. intros node s x v fr. apply bound_heap. exists []. rewrite touched_heap. symmetry. apply app_nil_r. Qed.

Lemma fresh_agg_run : forall sc s,
  fresh_agg sc s = (fresh_aggregators s,
    RVal {| sc_vars := sc_vars sc; sc_depth := sc_depth sc; sc_cell := List.length (cells s) |}).
Proof. reflexivity. Qed.

(** ** Reading and calling an expression *)

Section Reference.
  Variables (E : env) (sc : scope) (node : nat) (x : string) (s : st).
  Variables (n : nat) (d : edef).
  Hypothesis BOUND : bound s x (VOpaque n) (sc_vars sc).
  Hypothesis DEF : nth_error (heap s) n = Some (OExprDef d).
  Hypothesis DEPTH : S (sc_depth sc) < 1000.

  Lemma reference_iff : forall s' v,
    evaluates (fun m => r_expr (ev E m) sc (ESym node false [x] false [])) s s' v <->
    exists s1 args, defaulted E sc (e_defaults d) [] (touched node s) s1 args /\
      evaluates (fun m => r_expr (ev E m) (body_scope sc args (sc_cell sc)) (e_expr d)) s1 s' v.
  Proof.
    intros s' v. rewrite ev_expr_iff. cbn [expr_step]. unfold sym_reduce.
    rewrite (ev_prefix _ _ (fun _ => split_symbol node false) _ s (touched node s) s' false)
      by (intros; apply split_symbol_false).
    cbv beta iota.
    rewrite (ev_prefix _ _ (fun m => lookup_path (ev E m) sc [x]) _ _ (touched node s) s' (VOpaque n, true)).
    2:{ intros m Hm. destruct m as [|m]; [lia|]. apply bound_lookup; [now apply bound_touched|lia]. }
    cbv beta iota. cbn [negb].
    rewrite (ev_prefix _ _ (fun _ => obj_of (VOpaque n)) _ _ (touched node s) s' (Some (OExprDef d)))
      by (intros; unfold obj_of; now rewrite touched_heap, DEF).
    cbv beta iota.
    rewrite (ev_prefix _ _ (fun _ => mret (copy sc)) _ _ (touched node s) s' (copy sc)) by reflexivity.
    unfold overflow at 1. cbn [copy sc_depth]. rewrite (proj2 (Nat.leb_gt 1000 _) DEPTH).
    rewrite (ev_prefix _ _ (fun _ => mret []) _ _ (touched node s) s' []) by reflexivity.
    rewrite ev_bind_iff by (apply mono_defaults).
    split; intros (s1 & args & H1 & H2); exists s1, args; (split; [now apply defaulted_iff|]).
    - apply ev_bind_inv in H2 as (s2 & y & H2 & H3); [|apply mono_expr].
      apply evaluates_ret in H3 as [-> ->]. exact H2.
    - eapply ev_bind; [exact H2|apply ev_ret].
  Qed.

  Lemma call_iff : forall params s' v, assoc x (env_funs E) = None ->
    evaluates (fun m => r_expr (ev E m) sc (ESym node false [x] true params)) s s' v <->
    exists s1 args s2 args',
      passed E sc params [] (fresh_aggregators (touched node s)) s1 args /\
      defaulted E sc (e_defaults d) args s1 s2 args' /\
      evaluates (fun m => r_expr (ev E m) (body_scope sc args' (List.length (cells s))) (e_expr d)) s2 s' v.
  Proof.
    intros params s' v NF. rewrite ev_expr_iff. cbn [expr_step]. unfold sym_reduce.
    rewrite (ev_prefix _ _ (fun _ => split_symbol node false) _ s (touched node s) s' false)
      by (intros; apply split_symbol_false).
    cbv beta iota. rewrite NF.
    rewrite (ev_prefix _ _ (fun m => lookup_path (ev E m) sc [x]) _ _ (touched node s) s' (VOpaque n, true)).
    2:{ intros m Hm. destruct m as [|m]; [lia|]. apply bound_lookup; [now apply bound_touched|lia]. }
    cbv beta iota. cbn [negb].
    rewrite (ev_prefix _ _ (fun _ => obj_of (VOpaque n)) _ _ (touched node s) s' (Some (OExprDef d)))
      by (intros; unfold obj_of; now rewrite touched_heap, DEF).
    cbv beta iota.
    rewrite (ev_prefix _ _ (fun _ => fresh_agg (copy sc)) _ _ (fresh_aggregators (touched node s)) s' _)
      by (intros; apply fresh_agg_run).
    unfold overflow at 1. cbn [copy sc_depth sc_vars]. rewrite (proj2 (Nat.leb_gt 1000 _) DEPTH).
    rewrite touched_cells. rewrite ev_bind_iff by (apply mono_build).
    split.
    - intros (s1 & args & H1 & H). apply passed_iff in H1.
      apply ev_bind_inv in H as (s2 & args' & H2 & H); [|apply mono_defaults]. apply defaulted_iff in H2.
      apply ev_bind_inv in H as (s3 & y & H3 & H); [|apply mono_expr].
      apply evaluates_ret in H as [-> ->]. exists s1, args, s2, args'. auto.
    - intros (s1 & args & s2 & args' & H1 & H2 & H3).
      exists s1, args. split; [now apply passed_iff|].
      eapply ev_bind; [apply defaulted_iff; exact H2|]. eapply ev_bind; [exact H3|apply ev_ret].
  Qed.
End Reference.

(** ** Reading and calling a query in a FROM clause *)

Section From.
  Variables (E : env) (sc : scope) (x : string) (s : st).
  Variables (n : nat) (d : qdef).
  Hypothesis BOUND : bound s x (VOpaque n) (sc_vars sc).
  Hypothesis DEF : nth_error (heap s) n = Some (OQuery d).
  Hypothesis DEPTH : sc_depth sc < 1000.

  Lemma mono_select : forall sc q a b, a <= b -> mle _ (r_select (ev E a) sc q) (r_select (ev E b) sc q).
  Proof. intros sc' q a b L. apply (re_select _ _ _ (fuel_enough_is_enough E a b L)). Qed.

  Lemma from_reference_iff : forall s' rows,
    evaluates (fun m => plugin_eval E (ev E m) m sc (Plugin [x] false [])) s s' rows <->
    evaluates (fun m => r_select (ev E m) (copy sc) (q_select d)) s s' rows.
  Proof.
    intros s' rows. unfold plugin_eval.
    rewrite (ev_prefix _ _ (fun m => lookup_path (ev E m) sc [x]) _ s s s' (VOpaque n, true)).
    2:{ intros m Hm. destruct m as [|m]; [lia|]. apply bound_lookup; assumption. }
    cbn [negb]. rewrite ev_evalsym_iff. unfold evalsym_step, overflow.
    rewrite (proj2 (Nat.leb_gt 1000 _) DEPTH).
    rewrite (ev_prefix _ _ (fun _ => obj_of (VOpaque n)) _ s s s' (Some (OQuery d)))
      by (intros; unfold obj_of; now rewrite DEF).
    cbn [is_query]. rewrite ev_query_iff. unfold query_step.
    rewrite (ev_prefix _ _ (fun _ => obj_of (VOpaque n)) _ s s s' (Some (OQuery d)))
      by (intros; unfold obj_of; now rewrite DEF).
    reflexivity.
  Qed.

  Lemma from_call_iff : forall params s' rows, assoc x (env_plugs E) = None ->
    evaluates (fun m => plugin_eval E (ev E m) m sc (Plugin [x] true params)) s s' rows <->
    exists s1 args s2 args' s3 vars,
      passed E sc params [] s s1 args /\
      defaulted E sc (q_defaults d) args s1 s2 args' /\
      expanded E {| sc_vars := sc_vars sc; sc_depth := S (sc_depth sc); sc_cell := List.length (cells s2) |}
        args' [] (fresh_aggregators s2) s3 vars /\
      evaluates (fun m => r_select (ev E m) (copy (body_scope sc vars (List.length (cells s2)))) (q_select d))
        s3 s' rows.
  Proof.
    intros params s' rows NP. unfold plugin_eval. rewrite NP.
    rewrite (ev_prefix _ _ (fun m => lookup_path (ev E m) sc [x]) _ s s s' (VOpaque n, true)).
    2:{ intros m Hm. destruct m as [|m]; [lia|]. apply bound_lookup; assumption. }
    cbn [negb]. unfold overflow. rewrite (proj2 (Nat.leb_gt 1000 _) DEPTH).
    rewrite (ev_prefix _ _ (fun _ => obj_of (VOpaque n)) _ s s s' (Some (OQuery d)))
      by (intros; unfold obj_of; now rewrite DEF).
    assert (RQ : forall s2 s3, evolves s s2 -> evolves s2 s3 -> forall sc' s4 r,
      evaluates (fun m => r_query (ev E m) sc' (VOpaque n)) s3 s4 r <->
      evaluates (fun m => r_select (ev E m) (copy sc') (q_select d)) s3 s4 r).
    { intros s2 s3 V1 V2 sc' s4 r. rewrite ev_query_iff. unfold query_step.
      rewrite (ev_prefix _ _ (fun _ => obj_of (VOpaque n)) _ s3 s3 s4 (Some (OQuery d))); [reflexivity|].
      intros. unfold obj_of. destruct (evo_heap _ _ (evolves_trans _ _ _ V1 V2) _ _ DEF) as (o & -> & SO).
      inversion SO. reflexivity. }
    assert (GA : forall ps s1 s2 a, passed E sc ps [] s1 s2 a -> evolves s1 s2).
    { intros ps s1 s2 a H. apply passed_iff in H.
      refine (evaluates_evolves _ _ _ _ _ _ H). intros m.
      apply (pa_build_args _ grows_closed _ _ (evaluation_evolves E m)). }
    assert (GD : forall ps a0 s1 s2 a, defaulted E sc ps a0 s1 s2 a -> evolves s1 s2).
    { intros ps a0 s1 s2 a H. apply defaulted_iff in H.
      refine (evaluates_evolves _ _ _ _ _ _ H). intros m.
      apply (pa_apply_defaults _ grows_closed _ _ (evaluation_evolves E m)). }
    assert (GE : forall sc' a0 s1 s2 a, expanded E sc' a0 [] s1 s2 a -> evolves s1 s2).
    { intros sc' a0 s1 s2 a H. apply expanded_iff in H.
      refine (evaluates_evolves _ _ _ _ _ _ H). intros m.
      apply (pa_expand_args _ grows_closed _ _ (evaluation_evolves E m)). }
    assert (GF : forall s2, evolves s2 (fresh_aggregators s2)).
    { intros s2. apply (cl_fresh_agg _ grows_closed scope0). }
    rewrite ev_bind_iff by (apply mono_build). split.
    - intros (s1 & args & H1 & H). apply passed_iff in H1.
      apply ev_bind_inv in H as (s2 & args' & H2 & H); [|apply mono_defaults]. apply defaulted_iff in H2.
      unfold call_query in H.
      apply (proj1 (ev_prefix _ _ (fun _ => fresh_agg (copy sc)) _ s2 (fresh_aggregators s2) _ _ _
               ltac:(intros; apply fresh_agg_run))) in H.
      cbn [copy sc_vars sc_depth] in H.
      apply ev_bind_inv in H as (s3 & vars & H3 & H); [|apply mono_expand]. apply expanded_iff in H3.
      exists s1, args, s2, args', s3, vars.
      split; [exact H1|]. split; [exact H2|]. split; [exact H3|].
      apply (RQ s2 s3) in H; [exact H|exact (evolves_trans _ _ _ (GA _ _ _ _ H1) (GD _ _ _ _ _ H2))|].
      exact (evolves_trans _ _ _ (GF s2) (GE _ _ _ _ _ H3)).
    - intros (s1 & args & s2 & args' & s3 & vars & H1 & H2 & H3 & H4).
      exists s1, args. split; [now apply passed_iff|].
      eapply ev_bind; [apply defaulted_iff; exact H2|]. unfold call_query.
      apply (proj2 (ev_prefix _ _ (fun _ => fresh_agg (copy sc)) _ s2 (fresh_aggregators s2) _ _ _
               ltac:(intros; apply fresh_agg_run))).
      cbn [copy sc_vars sc_depth].
      eapply ev_bind; [apply expanded_iff; exact H3|].
      apply (RQ s2 s3); [exact (evolves_trans _ _ _ (GA _ _ _ _ H1) (GD _ _ _ _ _ H2))| |exact H4].
      exact (evolves_trans _ _ _ (GF s2) (GE _ _ _ _ _ H3)).
  Qed.
End From.

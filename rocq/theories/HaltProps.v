(** C25: evaluation of definitions that refer to themselves and to each
    other ends, and what is found at the limit of the depth. *)

From Coq Require Import ZArith List String Bool Lia PeanoNat Permutation.
From Verif Require Import Base BaseProofs F64 Value Protocols Monad Chains Range Flatten ArgParser Syntax
  Eval Runs Para Evolve GoSort LazyProps LetSpec LetProps Demo Recursion Halting HaltEval.
Import ListNotations.
Open Scope nat_scope.
Open Scope string_scope.
Open Scope list_scope.

(** ** Specification *)

(** A statement of the fragment.  A definition may mention any name, so also
    its own and those of later definitions; what is left out: scope(),
    queries as arguments of definitions and of functions, symbols in defaults,
    the functions dict, min, max and enumerate, range with a step. *)
Definition stmt_is (E : env) (owner : nat -> string) (q : stmt) : Prop :=
  match q with
  | SLet _ params _ body =>
      Forall (fun p => match snd p with Some a => arg_is (fun e => exists h, simple E owner false h e) a | None => True end)
        params /\
      match body with
      | LExpr e => exists h, simple E owner true h e
      | LSelect s => exists h, simple_query E owner h s
      end
  | SQuery _ s => exists h, simple_query E owner h s
  end.

(** One outcome, whatever fuel is given above some amount, and it is not
    exhaustion of the fuel. *)
Definition ends {A} (m : nat -> EM A) (s : st) : Prop :=
  exists N s' r, r <> RFuel /\ forall n, N <= n -> m n s = (s', r).

(** ** Statements *)

Section Statements.
  Variable E : env.
  Variable owner : nat -> string.
  Hypothesis CT : contained E.
  Local Notation R := (ev E).

  Lemma exp_any : forall sy h e sc s, scope_ok E owner s sc -> tidy E owner s -> simple E owner sy h e ->
    halts E owner (fun n => r_expr (R n) sc e) s (good E owner).
  Proof.
    intros sy h e sc s SC TD HS. destruct (every_level E owner CT 1000 0 (le_n 1000)) as (ET & EF & _).
    destruct sy; [apply (ET h)|apply (EF h)]; auto; lia.
  Qed.
  Lemma sel_any : forall h q sc s, scope_ok E owner s sc -> tidy E owner s -> simple_query E owner h q ->
    halts E owner (fun n => r_select (R n) sc q) s (rows_data).
  Proof.
    intros h q sc s SC TD HS. destruct (every_level E owner CT 1000 0 (le_n 1000)) as (_ & _ & SA).
    apply (SA h); auto. lia.
  Qed.
  Lemma sel_at_any : forall d, sel_at E owner d.
  Proof. intros d h q sc s _ SC TD HS. now apply sel_any with (h := h). Qed.

  Lemma defaults_of : forall params, Forall (fun p => match snd p with
      Some a => arg_is (fun e => exists h, simple E owner false h e) a | None => True end) params ->
    Forall (default_is E owner) (param_defaults params).
  Proof.
    intros params H. unfold param_defaults.
    assert (K : forall acc, Forall (default_is E owner) acc ->
      Forall (default_is E owner) (fold_left (fun ds p => match p with
        | (name, Some a) => dict_set (unquoted name) (name, a) ds | (_, None) => ds end) params acc)).
    { induction H as [|[name [a|]] params Ha _ IH]; intros acc HA; cbn [fold_left]; auto.
      apply IH. unfold dict_set. apply Forall_app. split; [|repeat constructor; exact Ha].
      clear - HA. induction HA as [|[k' x] d Hx _ IH]; cbn; [constructor|].
      destruct (String.eqb (unquoted name) k'); cbn; auto. }
    apply K. constructor.
  Qed.

  Lemma stmt_halts : forall q sc s, stmt_is E owner q -> scope_ok E owner s sc -> tidy E owner s ->
    halts E owner (fun n => stmt_eval (R n) sc q) s (fun s1 r => scope_ok E owner s1 (fst r)).
  Proof.
    intros q sc s HQ SC TD. destruct q as [name params lazy body|text q]; cbn [stmt_is stmt_eval] in *.
    - destruct HQ as [HP HB].
      eapply (h_bind E owner) with (P := entry E owner).
      + destruct body as [e|q].
        * destruct lazy.
          -- eapply h_ext with (m' := fun _ => mbind (alloc (OExprDef {| e_expr := e; e_defaults := param_defaults params |})) mret).
             { intros n. reflexivity. }
             apply h_alloc; [exact TD|now cbn|]. intros s1 L1 H1. apply h_ret; [apply L1|].
             right. eexists; eexists. split; [reflexivity|]. split; [exact H1|]. split; [exact HB|now apply defaults_of].
          -- destruct HB as (h & HB). eapply h_bind; [now apply (exp_any true h)|]. intros s1 v L1 G1. cbv beta.
             apply h_obj; [apply L1|]. fold (obj_at s1 v).
             destruct (is_query v (obj_at s1 v)) eqn:IQ.
             ++ eapply h_conseq; [apply materialize_halts; [apply sel_at_any|eapply scope_ok_later; eauto|apply L1|exact G1|exact IQ]|].
                intros s2 x _ D. left. left. exact D.
             ++ apply h_ret; [apply L1|]. left. exact G1.
        * destruct HB as (h & HB). destruct lazy.
          -- eapply h_ext with (m' := fun _ => mbind (alloc (OQuery {| q_select := q; q_defaults := param_defaults params |})) mret).
             { intros n. reflexivity. }
             apply h_alloc; [exact TD|now cbn|]. intros s1 L1 H1. apply h_ret; [apply L1|].
             left. right. eexists. split; [reflexivity|]. left. eexists. split; [exact H1|].
             split; [exists h; exact HB|now apply defaults_of].
          -- apply h_alloc; [exact TD|now cbn|]. intros s1 L1 H1. unfold materialize, materialize_rows.
             eapply h_bind.
             { apply h_query. unfold query_step. apply h_obj; [apply L1|]. rewrite H1.
               apply (sel_any h); [apply scope_ok_copy; eapply scope_ok_later; eauto|apply L1|exact HB]. }
             intros s2 rows L2 D2. apply h_ret; [apply L2|]. left. left. exact D2.
      + intros s1 v L1 EN. apply h_ret; [apply L1|]. cbn [fst].
        apply scope_ok_append; [eapply scope_ok_later; eauto|]. right. left. eexists. split; [reflexivity|].
        constructor; [exact EN|constructor].
    - destruct HQ as (h & HQ). eapply h_bind.
      + apply (sel_any h); [|exact TD|exact HQ]. apply scope_ok_append; [now apply scope_ok_copy|]. left. reflexivity.
      + intros s1 rows L1 D1. apply h_ret; [apply L1|]. cbn [fst]. eapply scope_ok_later; eauto.
  Qed.

  Lemma stmts_halt : forall qs sc s, Forall (stmt_is E owner) qs -> scope_ok E owner s sc -> tidy E owner s ->
    halts E owner (fun n => run_stmts (R n) sc qs) s (fun s1 r => scope_ok E owner s1 (fst r)).
  Proof.
    induction qs as [|q qs IH]; intros sc s HQ SC TD; cbn [run_stmts]; [now apply h_ret|].
    inversion HQ as [|? ? HQ1 HQ2]; subst.
    eapply h_bind; [now apply stmt_halts|]. intros s1 [sc1 rows] L1 SC1. cbv beta iota. cbn [fst] in SC1.
    eapply h_bind; [apply IH; [exact HQ2|exact SC1|apply L1]|]. intros s2 [sc2 out] L2 SC2. cbv beta iota.
    apply h_ret; [apply L2|exact SC2].
  Qed.
End Statements.

(** ** Every program of the fragment ends *)

Theorem C25_recursive_definitions_end_partial : forall E owner program sc,
  contained E ->
  Forall (stmt_is E owner) program ->
  Forall (fun frame => data frame = true) (sc_vars sc) ->
  ends (fun n => run_stmts (ev E n) sc program) st0.
Proof.
  intros E owner program sc CT HP HS.
  destruct (stmts_halt E owner CT program sc st0) as (N & s' & r & H & HR).
  - exact HP.
  - eapply Forall_impl; [|exact HS]. intros f D. left. exact D.
  - constructor; [intros n c g ca k v H; destruct n; discriminate|intros n e c v H; destruct n; discriminate|intros node f id H; discriminate].
  - exists N, s', r. split; [|exact H]. intros ->. exact HR.
Qed.

(** ** The limit *)

(** A name that is no function of the host, used or called, is NULL in a
    scope at the limit. *)
Theorem C25_symbol_at_the_limit_is_null : forall E n sc node path called params s,
  1000 <= sc_depth sc -> path <> [] ->
  (called = true -> forall c, path = [c] -> assoc c (env_funs E) = None) ->
  exists s', r_expr (ev E (S n)) sc (ESym node false path called params) s = (s', RVal VNull).
Proof.
  intros E n sc node path called params s D NE NF. cbn [ev step r_expr expr_step]. unfold sym_reduce.
  unfold mbind at 1. rewrite split_symbol_false. cbv beta iota.
  replace (match path with [c] => if called then assoc c (env_funs E) else None | _ => None end) with (@None func).
  2:{ destruct path as [|c [|]]; auto. destruct called; auto. symmetry. now apply NF. }
  destruct path as [|c path]; [congruence|]. cbn [lookup_path]. unfold resolve, overflow.
  rewrite (proj2 (Nat.leb_le 1000 _) D). unfold mbind, mret. cbn. eauto.
Qed.

(** A query has no rows there, whatever its clauses. *)
Theorem C25_query_at_the_limit_is_empty : forall E n sc star cols path call args where_ groupby orderby limit s,
  1000 <= sc_depth sc -> path <> [] -> sort_contract (env_sort E) ->
  r_select (ev E (S (S (S n)))) sc (Select star cols (Plugin path call args) where_ groupby orderby limit) s = (s, RVal []).
Proof.
  intros E n sc star cols path call args where_ groupby orderby limit s D NE SORT.
  assert (OV : overflow sc = true) by (now apply Nat.leb_le).
  assert (FROM : forall m, plugin_eval E (ev E m) m sc (Plugin path call args) s = (s, RVal [])).
  { intros m. unfold plugin_eval.
    destruct (match path with [c] => if call then assoc c (env_plugs E) else None | _ => None end) eqn:P.
    - now rewrite OV.
    - destruct path as [|c path]; [congruence|]. cbn [lookup_path]. unfold resolve. rewrite OV. reflexivity. }
  assert (EMPTY : forall desc, env_sort E (sort_less E desc) (combine (@nil (val * bool)) (@nil val)) = []).
  { intros desc. apply Permutation_nil. symmetry. apply (sc_perm _ SORT). }
  assert (ONE : forall g o m, r_select (ev E (S (S m))) sc (Select star cols (Plugin path call args) where_ g o None) s = (s, RVal [])).
  { intros g o m. change (ev E (S (S m))) with (step E (ev E (S m)) (S m)). cbn [r_select step]. unfold select_step.
    destruct g as [g|].
    - unfold mbind. rewrite FROM. cbn [group_rows]. unfold mret. cbn [map].
      destruct o as [[key desc]|]; [|reflexivity]. unfold sort_rows, mbind, mret. cbn [mmap]. unfold mret.
      now rewrite EMPTY.
    - assert (B : forall m0, mbind (plugin_eval E (ev E m0) m0 sc (Plugin path call args)) (fun rows =>
        out <- mmap (process_row E (ev E m0) sc star cols where_) rows ;; mret (List.concat out)) s = (s, RVal [])).
      { intros m0. unfold mbind. rewrite FROM. reflexivity. }
      destruct o as [[key desc]|]; [|apply B].
      change (ev E (S m)) with (step E (ev E m) m). cbn [r_select step]. unfold select_step.
      unfold mbind at 1. rewrite (B m). unfold sort_rows, mbind, mret. cbn [mmap]. unfold mret.
      now rewrite EMPTY. }
  destruct limit as [l|]; [|apply ONE].
  change (ev E (S (S (S n)))) with (step E (ev E (S (S n))) (S (S n))). cbn [r_select step]. unfold select_step.
  unfold mbind. rewrite ONE. unfold mret. now rewrite firstn_nil.
Qed.

(** Beyond the limit functions of the host are still called, with arguments
    that no longer see any variable. *)

(** ** Examples *)

(** A function of the host that looks at its argument. *)
Definition double_host (args : list (string * val)) : prog val :=
  match assoc "x" args with
  | Some v => PReduceWS v (fun w => PObserve w (PRet (twice_of w)))
  | None => PRet VNull
  end.
(** A plugin of the host that passes on the rows of its argument. *)
Definition rows_host (args : list (string * val)) : prog (list val) :=
  match assoc "query" args with
  | Some v => PIterate v (fun rows => PObserve (VArr rows) (PRet rows))
  | None => PRet []
  end.
Definition halt_env : env :=
  {| env_protos := no_protos; env_iter := [];
     env_funs := builtin_funs ++ [("double", FHost double_host)];
     env_plugs := builtin_plugs ++ [("rows", PlHost rows_host)];
     env_match := fun _ _ => false; env_sprint := demo_sprint;
     env_sort := fun less l => insertion_sort less l; env_go := demo_go |}.

Lemma halt_contained : contained halt_env.
Proof.
  constructor; try (intros; contradiction).
  intros f l x H. apply (Permutation_in _ (sc_perm _ demo_sort f l)). exact H.
Qed.

Definition demo_owner (node : nat) : string := match node with
  | 10 => "if" | 11 => "double" | 30 => "len" | 31 => "format" | 32 => "get" | 33 => "count" | 34 => "sum" | 35 => "split"
  | _ => "" end.

(** LET fact(n) = if(condition=n > 1, then=n * fact(n=n - 1), else=1)
    LET A(n) = B(n=n + 1)
    LET B(n) = A(n=double(x=n))
    LET Q = SELECT * FROM Q
    LET P = SELECT n, { SELECT A(n=n) AS x FROM P } AS sub FROM t WHERE fact(n=n) > B
    LET z <= A(n=1)
    SELECT fact(n=n) AS f FROM t GROUP BY k ORDER BY f LIMIT 10 *)
Definition fact_body : expr :=
  call 10 "if" [("condition", AExpr (ECmp (sym 1 "n") OpGt (lit 1)));
    ("then", AExpr (EMul (sym 2 "n") [("*", call 3 "fact" [("n", AExpr (EAdd (sym 4 "n") [("-", lit 1)]))])]));
    ("else", AExpr (lit 1))].
Definition tangle : list stmt :=
  [SLet "fact" [("n", None)] true (LExpr fact_body);
   SLet "A" [("n", None)] true (LExpr (call 5 "B" [("n", AExpr (EAdd (sym 6 "n") [("+", lit 1)]))]));
   SLet "B" [("n", Some (AExpr (lit 3)))] true (LExpr (call 7 "A" [("n", AExpr (call 11 "double" [("x", AExpr (sym 8 "n"))]))]));
   SLet "Q" [] true (LSelect (Select true [] (from_var "Q") None None None None));
   SLet "P" [] true (LSelect (Select false [("n", CExpr (sym 20 "n"));
      ("sub", CSelect (Select false [("x", CExpr (call 21 "A" [("n", AExpr (sym 22 "n"))]))] (from_var "P") None None None None))]
      (from_var "t") (Some (ECmp (call 23 "fact" [("n", AExpr (sym 24 "n"))]) OpGt (sym 25 "B"))) None None None));
   SLet "z" [] false (LExpr (call 26 "A" [("n", AExpr (lit 1))]));
   SQuery "" (Select false [("f", CExpr (call 27 "fact" [("n", AExpr (sym 28 "n"))]))]
      (from_var "t") None (Some (sym 29 "k")) (Some ("f", false)) (Some 10%Z))].

Lemma double_calm : forall args, calm (map snd args) [] (double_host args).
Proof.
  intros args. unfold double_host. destruct (assoc "x" args) as [v|] eqn:A; [|apply calm_ret; now left].
  apply calm_ws.
  - apply in_map_iff. exists ("x", v). split; [reflexivity|]. now apply assoc_in.
  - intros w. apply calm_observe, calm_ret. left. unfold twice_of. destruct (to_int64 w); reflexivity.
Qed.

Lemma rows_calm : forall args, calm_rows (map snd args) (rows_host args).
Proof.
  intros args. unfold rows_host. destruct (assoc "query" args) as [v|] eqn:A; [|now apply cr_ret].
  apply cr_iterate.
  - apply in_map_iff. exists ("query", v). split; [reflexivity|]. now apply assoc_in.
  - intros rows D. apply cr_observe, cr_ret. exact D.
Qed.

(** Definitions that call themselves in queries that are arguments.
    LET walk(n) = SELECT * FROM if(condition=n > 0, then={
        SELECT * FROM chain(a={ SELECT n AS depth, sub FROM t },
                            b={ SELECT * FROM walk(n=n - 1) }) },
      else={ SELECT * FROM back(n=n) })
    LET back(n) = SELECT * FROM foreach(row={ SELECT * FROM range(end=n) },
        query={ SELECT * FROM rows(query={ SELECT _value, n FROM walk(n=n + 1) }) })
    LET flat = SELECT * FROM flatten(query={ SELECT * FROM flat })
    SELECT * FROM walk(n=3) *)
Definition from (name : string) (args : list (string * argval)) : plugin := Plugin [name] true args.
Definition all_of (p : plugin) : select := Select true [] p None None None None.
Definition walk_body : select :=
  all_of (from "if" [("condition", AExpr (ECmp (sym 1 "n") OpGt (lit 0)));
    ("then", ASelect (all_of (from "chain"
       [("a", ASelect (Select false [("depth", CExpr (sym 2 "n")); ("sub", CExpr (sym 3 "k"))] (from_var "t") None None None None));
        ("b", ASelect (all_of (from "walk" [("n", AExpr (EAdd (sym 4 "n") [("-", lit 1)]))])))])));
    ("else", ASelect (all_of (from "back" [("n", AExpr (sym 5 "n"))])))]).
Definition back_body : select :=
  all_of (from "foreach" [("row", ASelect (all_of (from "range" [("end", AExpr (sym 6 "n"))])));
    ("query", ASelect (all_of (from "rows" [("query",
       ASelect (Select false [("_value", CExpr (sym 7 "_value")); ("n", CExpr (sym 8 "n"))]
         (from "walk" [("n", AExpr (EAdd (sym 9 "n") [("+", lit 1)]))]) None None None None))])))]).
Definition walks : list stmt :=
  [SLet "walk" [("n", None)] true (LSelect walk_body);
   SLet "back" [("n", None)] true (LSelect back_body);
   SLet "flat" [] true (LSelect (all_of (from "flatten" [("query", ASelect (all_of (from_var "flat")))])));
   SQuery "" (all_of (from "walk" [("n", AExpr (lit 3))]))].

(** The same through functions of the library.
    LET measure(n) = len(list=format(format="%v", args=measure(n=n + count())))
    LET part(x) = get(item=part(x=split(string=x, sep=",")), member="a.b")
    SELECT sum(item=measure(n=n)) AS m, part(x=k) AS p FROM t GROUP BY part(x=n) *)
Definition measures : list stmt :=
  [SLet "measure" [("n", None)] true (LExpr (call 30 "len" [("list", AExpr (call 31 "format" [("format", AExpr (ELit (VStr "%v")));
     ("args", AExpr (call 1 "measure" [("n", AExpr (EAdd (sym 2 "n") [("+", call 33 "count" [])]))]))]))]));
   SLet "part" [("x", None)] true (LExpr (call 32 "get" [("item", AExpr (call 3 "part" [("x",
     AExpr (call 35 "split" [("string", AExpr (sym 4 "x")); ("sep", AExpr (ELit (VStr ",")))]))])); ("member", AExpr (ELit (VStr "a.b")))]));
   SQuery "" (Select false [("m", CExpr (call 34 "sum" [("item", AExpr (call 5 "measure" [("n", AExpr (sym 6 "n"))]))]));
     ("p", CExpr (call 7 "part" [("x", AExpr (sym 8 "k"))]))] (from_var "t") None
     (Some (call 9 "part" [("x", AExpr (sym 12 "n"))])) None None)].

(** Membership in the fragment can be checked. *)
Section Check.
  Variable E : env.
  Variable owner : nat -> string.
  Variable calm_names : list string.
  Hypothesis CALM : forall c f, mem_str c calm_names = true -> assoc c (env_funs E) = Some (FHost f) ->
    forall args, calm (map snd args) [] (f args).
  Variable calm_plugins : list string.
  Hypothesis CALMP : forall c f, mem_str c calm_plugins = true -> assoc c (env_plugs E) = Some (PlHost f) ->
    forall args, calm_rows (map snd args) (f args).

  Definition solidb (e : expr) : bool := match e with ELit _ | ECmp _ _ _ | ENot _ => true | _ => false end.
  Definition argb (P : expr -> bool) (a : argval) : bool :=
    match a with AExpr e | AArray e => P e | AEmpty => true | ASelect _ => false end.
  Definition optb {A} (P : A -> bool) (o : option A) : bool := match o with Some x => P x | None => true end.
  Definition ifb (P : expr -> bool) (params : list (string * argval)) : bool :=
    match params with
    | [(c, AExpr ec); (t, AExpr et); (e, AExpr ee)] =>
        String.eqb c "condition" && String.eqb t "then" && String.eqb e "else" && P ec && P et && P ee
    | _ => false
    end.
  Definition getb (P : expr -> bool) (params : list (string * argval)) : bool :=
    match params with
    | [(a, AExpr ea); (m, AExpr em)] => String.eqb a "item" && String.eqb m "member" && P ea && P em
    | _ => false
    end.
  Definition callb (P : expr -> bool) (node : nat) (c : string) (params : list (string * argval)) : bool :=
    match assoc c (env_funs E) with
    | None => forallb (fun p => argb P (snd p)) params
    | Some FIf => String.eqb (owner node) c && ifb P params
    | Some (FHost f) => String.eqb (owner node) c && forallb (fun p => argb P (snd p)) params && mem_str c calm_names
    | Some FGet => String.eqb (owner node) c && getb P params
    | Some f => library f && String.eqb (owner node) c && forallb (fun p => argb P (snd p)) params
    end.
  Fixpoint simpleb (sy : bool) (h : nat) (e : expr) : bool :=
    match h with
    | O => false
    | S h =>
        match e with
        | ELit v => data v
        | ESym node _ path called params =>
            sy && match path with
                  | [] => false
                  | [c] => if called then callb (simpleb sy h) node c params
                           else forallb (fun p => argb (simpleb sy h) (snd p)) params
                  | _ => forallb (fun p => argb (simpleb sy h) (snd p)) params
                  end
        | EComma l rs =>
            simpleb sy h l && (match rs with [] => true | _ => false end ||
              solidb l && forallb (optb (fun e => solidb e && simpleb sy h e)) rs)
        | EAnd l rs | EOr l rs | EAdd l rs | EMul l rs => simpleb sy h l && forallb (fun r => simpleb sy h (snd r)) rs
        | ENot e => simpleb sy h e
        | ECmp l _ r => simpleb sy h l && simpleb sy h r
        | EMember l ts =>
            simpleb sy h l && forallb (fun t => match t with
              | MIndex e => simpleb sy h e
              | MRange a b => optb (simpleb sy h) a && optb (simpleb sy h) b
              | MField _ => true end) ts
        end
    end.
  Definition plug_argb (Q : select -> bool) (P : expr -> bool) (a : argval) : bool :=
    match a with ASelect q => Q q | _ => argb P a end.
  Definition fromb (Q : select -> bool) (P : expr -> bool) (path : list string) (call : bool) (args : list (string * argval)) : bool :=
    match (match path with [c] => if call then assoc c (env_plugs E) else None | _ => None end) with
    | None => negb (match path with [] => true | _ => false end) && forallb (fun p => argb P (snd p)) args
    | Some PlIf | Some PlForeach | Some PlChain | Some PlFlatten => forallb (fun p => plug_argb Q P (snd p)) args
    | Some PlRange =>
        forallb (fun p => plug_argb Q P (snd p)) args &&
        forallb (fun p => negb (String.eqb (fst p) "step") && negb (String.eqb (fst p) "**")) args
    | Some (PlHost f) =>
        forallb (fun p => plug_argb Q P (snd p)) args && match path with [c] => mem_str c calm_plugins | _ => false end
    | Some PlScope => false
    end.
  Fixpoint queryb (k h : nat) (q : select) : bool :=
    match h with
    | O => false
    | S h =>
        match q with
        | Select _ cols (Plugin path call args) where_ groupby _ _ =>
            forallb (fun c => match snd c with CStar => true | CExpr e => simpleb true k e | CSelect s => queryb k h s end) cols &&
            fromb (queryb k h) (simpleb true k) path call args &&
            optb (simpleb true k) where_ && optb (simpleb true k) groupby
        end
    end.
  Definition stmtb (k h : nat) (q : stmt) : bool :=
    match q with
    | SLet _ params _ body =>
        forallb (fun p => match snd p with Some a => argb (simpleb false k) a | None => true end) params &&
        match body with LExpr e => simpleb true k e | LSelect s => queryb k h s end
    | SQuery _ s => queryb k h s
    end.

  Lemma argb_ok : forall (P : expr -> bool) (Q : expr -> Prop) a, (forall e, P e = true -> Q e) -> argb P a = true -> arg_is Q a.
  Proof. intros P Q [e|q|e|] H K; cbn in *; auto. discriminate. Qed.
  Lemma forallb_ok : forall A (P : A -> bool) (Q : A -> Prop) l, (forall x, P x = true -> Q x) -> forallb P l = true -> Forall Q l.
  Proof. intros A P Q l H K. rewrite forallb_forall in K. apply Forall_forall. auto. Qed.
  Lemma optb_ok : forall A (P : A -> bool) (Q : A -> Prop) o, (forall x, P x = true -> Q x) -> optb P o = true -> opt_is Q o.
  Proof. intros A P Q [x|] H K; cbn in *; auto. Qed.
  Lemma solidb_ok : forall e, solidb e = true -> solid e.
  Proof. intros [] H; cbn in *; try discriminate; exact I. Qed.

  Lemma simpleb_ok : forall sy h e, simpleb sy h e = true -> simple E owner sy h e.
  Proof.
    intros sy h. induction h as [|h IH]; intros e H; [discriminate|].
    assert (ARGS : forall params, forallb (fun p : string * argval => argb (simpleb sy h) (snd p)) params = true ->
      Forall (fun p => arg_is (simple E owner sy h) (snd p)) params).
    { intros params. apply forallb_ok. intros p. now apply argb_ok. }
    destruct e as [v|node neg path called params|l rs|l rs|l rs|l rs|l rs|e|l op r|l ts]; cbn [simpleb simple] in *.
    - exact H.
    - apply andb_true_iff in H as [-> H]. split; [reflexivity|].
      destruct path as [|c [|c' path]]; [discriminate| |auto]. destruct called; [|auto].
      unfold callb in H. unfold call_is. destruct (assoc c (env_funs E)) as [f|] eqn:EF; [|auto].
      destruct f; try discriminate;
        try (rewrite !andb_true_iff in H; destruct H as [[H0 H1] H2]; apply String.eqb_eq in H1; split; [exact H0|split; [exact H1|auto]]).
      + apply andb_true_iff in H as [H1 H3]. apply andb_true_iff in H1 as [H1 H2]. apply String.eqb_eq in H1.
        split; [exact H1|]. split; [auto|]. intros args. eapply CALM; eauto.
      + apply andb_true_iff in H as [H1 H2]. apply String.eqb_eq in H1. split; [exact H1|].
        unfold ifb in H2.
        destruct params as [|[c1 [ec| | |]] [|[c2 [et| | |]] [|[c3 [ee| | |]] [|]]]]; try discriminate.
        rewrite !andb_true_iff in H2. destruct H2 as [[[[[A1 A2] A3] A4] A5] A6].
        apply String.eqb_eq in A1, A2, A3. subst. exists ec, et, ee. auto.
      + apply andb_true_iff in H as [H1 H2]. apply String.eqb_eq in H1. split; [exact H1|].
        unfold getb in H2.
        destruct params as [|[c1 [ea| | |]] [|[c2 [em| | |]] [|]]]; try discriminate.
        rewrite !andb_true_iff in H2. destruct H2 as [[[A1 A2] A3] A4].
        apply String.eqb_eq in A1, A2. subst. exists ea, em. auto.
    - apply andb_true_iff in H as [H1 H2]. split; [auto|]. apply orb_true_iff in H2 as [H2|H2].
      + left. destruct rs; [reflexivity|discriminate].
      + right. apply andb_true_iff in H2 as [H2 H3]. split; [now apply solidb_ok|].
        revert H3. apply forallb_ok. intros o. apply optb_ok. intros e K. apply andb_true_iff in K as [K1 K2].
        split; [now apply solidb_ok|auto].
    - apply andb_true_iff in H as [H1 H2]. split; [auto|]. revert H2. apply forallb_ok. auto.
    - apply andb_true_iff in H as [H1 H2]. split; [auto|]. revert H2. apply forallb_ok. auto.
    - apply andb_true_iff in H as [H1 H2]. split; [auto|]. revert H2. apply forallb_ok. auto.
    - apply andb_true_iff in H as [H1 H2]. split; [auto|]. revert H2. apply forallb_ok. auto.
    - auto.
    - apply andb_true_iff in H as [H1 H2]. auto.
    - apply andb_true_iff in H as [H1 H2]. split; [auto|]. revert H2. apply forallb_ok. intros [e|a b|f] K; auto.
      apply andb_true_iff in K as [K1 K2]. split; eapply optb_ok; eauto.
  Qed.

  Lemma queryb_ok : forall k h q, queryb k h q = true -> simple_query E owner h q.
  Proof.
    intros k h. induction h as [|h IH]; intros q H; [discriminate|].
    destruct q as [star cols [path call args] where_ groupby orderby limit]. cbn [queryb simple_query] in *.
    rewrite !andb_true_iff in H. destruct H as [[[H1 H2] H4] H5].
    assert (SB : forall e, simpleb true k e = true -> exists j, simple E owner true j e) by (intros e K; exists k; now apply simpleb_ok).
    split; [|split; [|split]].
    - revert H1. apply forallb_ok. intros [name [|s|e]] K; cbn [snd] in *; auto.
    - unfold fromb in H2. unfold from_is.
      assert (PA : forall l, forallb (fun p : string * argval => plug_argb (queryb k h) (simpleb true k) (snd p)) l = true ->
        Forall (fun p => plug_arg_is (simple_query E owner h) (fun e => exists j, simple E owner true j e) (snd p)) l).
      { intros l. apply forallb_ok. intros [name a]. cbn [snd]. destruct a; cbn [plug_argb plug_arg_is argb arg_is]; auto. }
      destruct (match path with [c] => if call then assoc c (env_plugs E) else None | _ => None end) as [pl|] eqn:PL.
      + destruct pl; try (now apply PA); [| |discriminate].
        * apply andb_true_iff in H2 as [H2 H3]. split; [now apply PA|].
          destruct path as [|c [|]]; try discriminate. destruct call; [|discriminate]. now apply CALMP with (c := c).
        * apply andb_true_iff in H2 as [H2 H3]. split; [now apply PA|]. revert H3. apply forallb_ok.
          intros p K. apply andb_true_iff in K as [K1 K2]. apply negb_true_iff in K1, K2. apply String.eqb_neq in K1, K2. auto.
      + apply andb_true_iff in H2 as [H2 H3]. split; [destruct path; [discriminate|congruence]|].
        revert H3. apply forallb_ok. intros p. now apply argb_ok.
    - revert H4. now apply optb_ok.
    - revert H5. now apply optb_ok.
  Qed.

  Lemma stmtb_ok : forall k h q, stmtb k h q = true -> stmt_is E owner q.
  Proof.
    intros k h [name params lazy body|text s] H; cbn [stmtb stmt_is] in *; [|exists h; now apply (queryb_ok k)].
    apply andb_true_iff in H as [H1 H2]. split.
    - revert H1. apply forallb_ok. intros [n [a|]] K; cbn [snd] in *; [|exact I].
      eapply argb_ok; [|exact K]. intros e Ke. exists k. now apply simpleb_ok.
    - destruct body; [exists k; now apply simpleb_ok|exists h; now apply (queryb_ok k)].
  Qed.
End Check.

Lemma in_fragment : forall program, forallb (stmtb halt_env demo_owner ["double"] ["rows"] 9 9) program = true ->
  Forall (stmt_is halt_env demo_owner) program.
Proof.
  intros program. apply forallb_ok. intros q. apply stmtb_ok.
  - intros c f HC HF. assert (c = "double") as ->.
    { unfold mem_str in HC. cbn [existsb] in HC. rewrite orb_false_r in HC. now apply String.eqb_eq in HC. }
    assert (f = double_host) as -> by (cbn in HF; congruence). apply double_calm.
  - intros c f HC HF. assert (c = "rows") as ->.
    { unfold mem_str in HC. cbn [existsb] in HC. rewrite orb_false_r in HC. now apply String.eqb_eq in HC. }
    assert (f = rows_host) as -> by (cbn in HF; congruence). apply rows_calm.
Qed.
Lemma tangle_in_fragment : Forall (stmt_is halt_env demo_owner) tangle.
Proof. apply in_fragment. vm_compute. reflexivity. Qed.
Lemma walks_in_fragment : Forall (stmt_is halt_env demo_owner) walks.
Proof. apply in_fragment. vm_compute. reflexivity. Qed.

Lemma measures_in_fragment : Forall (stmt_is halt_env demo_owner) measures.
Proof. apply in_fragment. vm_compute. reflexivity. Qed.

Example C25_measures_end : ends (fun n => run_stmts (ev halt_env n) demo_scope measures) st0.
Proof.
  apply (C25_recursive_definitions_end_partial halt_env demo_owner); [apply halt_contained|apply measures_in_fragment|].
  repeat constructor.
Qed.

Example C25_walks_end : ends (fun n => run_stmts (ev halt_env n) demo_scope walks) st0.
Proof.
  apply (C25_recursive_definitions_end_partial halt_env demo_owner); [apply halt_contained|apply walks_in_fragment|].
  repeat constructor.
Qed.

Example C25_tangle_ends : ends (fun n => run_stmts (ev halt_env n) demo_scope tangle) st0.
Proof.
  apply (C25_recursive_definitions_end_partial halt_env demo_owner); [apply halt_contained|apply tangle_in_fragment|].
  repeat constructor.
Qed.

(** What such definitions are worth: factorials within the limit, NULL for a
    recursion that reaches it, no rows for a query that reads itself. *)
Definition halt_run (n : nat) (qs : list stmt) : option (list (list val)) :=
  match run_stmts (ev halt_env n) demo_scope qs st0 with (_, RVal (_, out)) => Some out | _ => None end.
Example C25_factorial : halt_run 60
  [SLet "fact" [("n", None)] true (LExpr fact_body);
   SQuery "" (Select false [("f", CExpr (call 27 "fact" [("n", AExpr (lit 5))]))]
      (Plugin ["t"] false []) None None None (Some 1%Z))]
  = Some [[VDict [("f", i 120)]]].
Proof. vm_compute. reflexivity. Qed.

Example C25_self_reference : halt_run (5 * 1000)
  [SLet "Q" [] true (LSelect (Select true [] (from_var "Q") None None None None));
   SLet "A" [("n", None)] true (LExpr (EAdd (lit 1) [("+", call 5 "B" [("n", AExpr (sym 6 "n"))])]));
   SLet "B" [("n", None)] true (LExpr (call 7 "A" [("n", AExpr (EAdd (sym 8 "n") [("+", lit 1)]))]));
   SQuery "" (Select true [] (from_var "Q") None None None None);
   SQuery "" (Select false [("a", CExpr (call 27 "A" [("n", AExpr (lit 5))]))]
      (Plugin ["t"] false []) None None None (Some 1%Z))]
  = Some [[]; [VDict [("a", VNull)]]].
Proof. vm_compute. reflexivity. Qed.

(** Within the limit such a walk finds what is written in it. *)
Example C25_walk : halt_run 60
  [SLet "walk" [("n", None)] true (LSelect (all_of (from "if" [("condition", AExpr (ECmp (sym 1 "n") OpGt (lit 0)));
     ("then", ASelect (all_of (from "chain"
       [("a", ASelect (Select false [("depth", CExpr (sym 2 "n"))] (from "range" [("end", AExpr (lit 1))]) None None None None));
        ("b", ASelect (all_of (from "walk" [("n", AExpr (EAdd (sym 4 "n") [("-", lit 1)]))])))])))])));
   SQuery "" (all_of (from "walk" [("n", AExpr (lit 3))]))]
  = Some [[VDict [("depth", i 3)]; VDict [("depth", i 2)]; VDict [("depth", i 1)]]].
Proof. vm_compute. reflexivity. Qed.

Print Assumptions C25_default_that_calls_the_function_refuted.
Print Assumptions C25_definition_equal_to_itself_refuted.
Print Assumptions C25_query_argument_named_like_its_source_refuted.
Print Assumptions C25_recursive_definitions_end_partial.
Print Assumptions C25_symbol_at_the_limit_is_null.
Print Assumptions C25_query_at_the_limit_is_empty.

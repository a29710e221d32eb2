(** C92: no query crashes the process of the host.

    A panic of the evaluator is a panic of one of the goroutines that the
    library starts (vfilter.go:415-528), which nobody recovers from: Go then
    ends the process.  In Eval.v it is the outcome [RPanic].  NoPanic.v says
    what is asked of the host ([harmless]: its functions do not panic
    themselves and give no Go nil to the library) and of the statements
    ([calm_stmt]). *)

From Coq Require Import ZArith List String Ascii Bool Lia Permutation.
From Verif Require Import Base F64 Value Protocols Monad Chains Range Flatten ArgParser Syntax Eval.
From Verif Require Import Lexer Grammar Parser Elab GoSort Runs Para Demo HaltProps NoPanic NoPanicEval.
Import ListNotations.
Open Scope nat_scope.
Open Scope string_scope.
Open Scope list_scope.

(** ** Specification *)

(** The evaluation ended in a panic.  No counterpart in /repo. *)
Definition panics {A} (r : st * res A) : Prop := snd r = RPanic.

(** What the host asks of the library in the course of time, in one scope:
    statements (vfilter.go:415-528 Eval) and calls of lambdas
    (lambda.go:41-57 Reduce), each with as many steps as it takes. *)
Inductive request :=
| Run (n : nat) (qs : list stmt)
| Apply (n : nat) (l : lambda) (params : list val).

(** One request; the scope is the one that the statements leave.
    vfilter.go:415-528, lambda.go:41-57 *)
Definition serve (E : env) (sc : scope) (r : request) : EM scope :=
  match r with
  | Run n qs => '(sc', _) <- run_stmts (ev E n) sc qs ;; mret sc'
  | Apply n l params => _ <- lambda_reduce (ev E n) l sc params ;; mret sc
  end.

(** All of them, one after the other.  No counterpart in /repo. *)
Fixpoint serve_all (E : env) (sc : scope) (rs : list request) : EM scope :=
  match rs with
  | [] => mret sc
  | r :: rs => sc' <- serve E sc r ;; serve_all E sc' rs
  end.

(** The condition on requests.  No counterpart in /repo. *)
Definition calm_request (E : env) (sites : nat -> bool) (r : request) : bool :=
  match r with
  | Run _ qs => forallb (calm_stmt E sites) qs
  | Apply _ l params => calm E sites (l_body l) && nonils params
  end.

(** ** Theorems *)

(** Statements do not panic, and their rows and what they leave behind contain
    no nil, so that what comes after them does not panic either. *)
Theorem C92_no_panic_partial : forall E sites n sc qs s,
  harmless E -> ok_scope sc = true -> ok_state E sites s ->
  forallb (calm_stmt E sites) qs = true ->
  match run_stmts (ev E n) sc qs s with
  | (s', RVal (sc', out)) =>
      ok_state E sites s' /\ ok_scope sc' = true /\
      forall rows row, In rows out -> In row rows -> nonil row = true
  | (_, RPanic) => False
  | (_, RFuel) => True
  end.
Proof.
  intros E sites n sc qs s HL HS HI HC.
  pose proof (sf_run E sites (ev E n) (evaluation_safe E sites HL n) qs sc HS HC s HI) as Q.
  destruct (run_stmts (ev E n) sc qs s) as [s' [[sc' out]| |]]; auto.
  destruct Q as [Q1 [Q2 Q3]]. cbn [fst snd] in *. split; [exact Q1|split; [exact Q2|]].
  intros rows row I1 I2. rewrite forallb_forall in Q3. exact (nonils_In _ _ (Q3 _ I1) I2).
Qed.

Theorem C92_lambda_partial : forall E sites n l sc params s,
  harmless E -> ok_scope sc = true -> ok_state E sites s ->
  calm E sites (l_body l) = true -> nonils params = true ->
  match lambda_reduce (ev E n) l sc params s with
  | (s', RVal v) => ok_state E sites s' /\ nonil v = true
  | (_, RPanic) => False
  | (_, RFuel) => True
  end.
Proof.
  intros E sites n l sc params s HL HS HI HC HP.
  exact (sf_lambda E sites (ev E n) (evaluation_safe E sites HL n) l sc params HS HC HP s HI).
Qed.

(** Whatever the host asks for, one request after the other. *)
Theorem C92_history_partial : forall E sites rs sc s,
  harmless E -> ok_scope sc = true -> ok_state E sites s ->
  forallb (calm_request E sites) rs = true ->
  ~ panics (serve_all E sc rs s).
Proof.
  intros E sites rs sc s HL HS HI HC.
  assert (G : forall rs sc, ok_scope sc = true -> forallb (calm_request E sites) rs = true ->
    safe E sites (fun sc' => ok_scope sc' = true) (serve_all E sc rs)).
  { clear rs sc s HS HI HC. intros rs. induction rs as [|r rs IH]; intros sc HS HC; cbn [serve_all]; [now apply safe_ret|].
    cbn in HC. apply andb_true_iff in HC as [H1 H2].
    apply (safe_bind _ _ _ _ (fun sc' => ok_scope sc' = true)); [|intros sc' HS'; now apply IH].
    destruct r as [n qs|n l params]; cbn [serve calm_request] in *.
    - eapply safe_bind; [apply sf_run; auto; now apply evaluation_safe|].
      intros [sc' out] [K _]. now apply safe_ret.
    - apply andb_true_iff in H1 as [H1 H3].
      eapply safe_bind; [apply sf_lambda; auto; now apply evaluation_safe|].
      intros v _. now apply safe_ret. }
  specialize (G rs sc HS HC s HI). unfold panics. intros P.
  destruct (serve_all E sc rs s) as [s' r]. cbn in P. subst r. exact G.
Qed.

Lemma ok_st0 : forall E sites, ok_state E sites st0.
Proof.
  intros. constructor; cbn.
  - intros [|n] o H; discriminate.
  - intros d id v [<-|[]] H. discriminate.
  - discriminate.
Qed.

(** The text of a script, in a new session. *)
Theorem C92_text_partial : forall E sites n text script m,
  harmless E -> parse_multi text = Some script -> forallb (calm_stmt E sites) (elab_script script) = true ->
  run_text (ev E n) scope0 text = Some m -> ~ panics (m st0).
Proof.
  intros E sites n text script m HL HP HC HM. unfold run_text in HM. rewrite HP in HM. injection HM as <-.
  pose proof (C92_no_panic_partial E sites n scope0 (elab_script script) st0 HL eq_refl (ok_st0 E sites) HC) as Q.
  unfold run_script, panics. destruct (run_stmts (ev E n) scope0 (elab_script script) st0) as [s' r].
  intros P. cbn in P. subst r. exact Q.
Qed.

(** ** The conditions are met *)

Lemma assoc_pair : forall A c (l : list (string * A)) x, assoc c l = Some x -> In (c, x) l.
Proof.
  intros A c l x. induction l as [|[k y] l IH]; [discriminate|]. cbn [assoc].
  destruct (String.eqb c k) eqn:Q; intros H; [left|right; auto].
  apply String.eqb_eq in Q. congruence.
Qed.

Lemma halt_harmless : harmless halt_env.
Proof.
  constructor; try (intros i; intros; contradiction).
  - intros c f A. apply assoc_pair in A. unfold halt_env in A. cbn [env_funs] in A. apply in_app_or in A as [A|A].
    + repeat (destruct A as [A|A]; [injection A as _ <-; exact I|]). destruct A.
    + destruct A as [A|[]]. injection A as _ <-. intros args HA. unfold double_host.
      destruct (assoc "x" args) as [v|] eqn:X; [|reflexivity].
      split; [exact (nonild_assoc _ _ _ HA X)|]. intros x HX. cbn. unfold twice_of. destruct (to_int64 x); reflexivity.
  - intros c p A. apply assoc_pair in A. unfold halt_env in A. cbn [env_plugs] in A. apply in_app_or in A as [A|A].
    + repeat (destruct A as [A|A]; [injection A as _ <-; exact I|]). destruct A.
    + destruct A as [A|[]]. injection A as _ <-. intros args HA. unfold rows_host.
      destruct (assoc "query" args) as [v|] eqn:X; [|reflexivity].
      split; [exact (nonild_assoc _ _ _ HA X)|]. intros l HLs. exact HLs.
  - intros less l x H. apply (Permutation_in _ (sc_perm _ demo_sort less l)); exact H.
Qed.

(** A script with most of the syntax.  No counterpart in /repo. *)
Definition busy_text : string :=
  "LET f(x) = x + 1 " ++
  "LET T <= SELECT _value AS n, enumerate(items=_value) AS l FROM range(start=0, end=3) " ++
  "SELECT f(x=2 * n * (1 + n) / 3) AS a, if(condition=n > 1, then=dict(n=n).n, else=format(format='%v', args=n)) AS b, " ++
  "len(list=l) AS c, count() AS d, { SELECT _value FROM foreach(row=[1,2]) } AS e, double(x=n) AS g " ++
  "FROM T WHERE n >= 0 GROUP BY n ORDER BY a DESC LIMIT 2 " ++
  "SELECT *, n / 0 AS z FROM chain(a={ SELECT * FROM T }, b=T) WHERE NOT n =~ 'a'".

(** Parse and run in a new session.  vfilter.go:294-307, 415-528 *)
Definition outcome (E : env) (text : string) : option (res (list (list val))) :=
  match run_text (ev E 60) scope0 text with
  | Some m => Some (match snd (m st0) with RVal (_, out) => RVal out | RPanic => RPanic | RFuel => RFuel end)
  | None => None
  end.

Example busy_runs :
  match parse_multi busy_text with
  | Some script => forallb (calm_stmt halt_env (fun n => Nat.eqb n 2)) (elab_script script) = true
  | None => False
  end /\
  match outcome halt_env busy_text with
  | Some (RVal [[_; _]; rows]) => List.length rows = 6
  | _ => False
  end.
Proof. split; vm_compute; reflexivity. Qed.

(** ** What panics *)

(** The statement without the conditions on the script is false: three scripts
    that use nothing but the built-in functions and plugins end the process. *)
Theorem C92_refuted : exists text script,
  parse_multi text = Some script /\ outcome halt_env text = Some RPanic.
Proof.
  exists "SELECT len(list=enumerate()[0]) AS X FROM scope()". eexists. split; vm_compute; reflexivity.
Qed.

(** Repeating the empty string a negative number of times.
    protocols/protocol_mul.go:25-45 *)
Theorem C92_multiplication_refuted : exists text script,
  parse_multi text = Some script /\ outcome halt_env text = Some RPanic.
Proof.
  exists "SELECT '' * -1 AS X FROM scope()". eexists. split; vm_compute; reflexivity.
Qed.

(** A star with a name is a column without a value, which as the argument of
    a function is a nil.  vfilter.go:864-896, functions/functions.go:240-268 *)
Theorem C92_named_star_refuted : exists text script,
  parse_multi text = Some script /\ outcome halt_env text = Some RPanic.
Proof.
  exists "LET R = SELECT 1 AS A, * AS list FROM scope() SELECT len(`**`=R[0]) AS X FROM scope()".
  eexists. split; vm_compute; reflexivity.
Qed.

(** The condition on the host is needed: a function that returns a list with a
    nil in it is enough.  No counterpart in /repo. *)
Definition nil_env : env :=
  {| env_protos := no_protos; env_iter := [];
     env_funs := builtin_funs ++ [("nils", FHost (fun _ => PRet (VArr [VNil])))]; env_plugs := builtin_plugs;
     env_match := fun _ _ => false; env_sprint := demo_sprint;
     env_sort := fun less l => insertion_sort less l; env_go := demo_go |}.

Theorem C92_host_nil_refuted : exists text script,
  parse_multi text = Some script /\
  forallb (calm_stmt nil_env (fun _ => false)) (elab_script script) = true /\
  outcome nil_env text = Some RPanic.
Proof.
  exists "SELECT len(list=nils()[0]) AS X FROM scope()". eexists.
  split; [vm_compute; reflexivity|]. split; vm_compute; reflexivity.
Qed.

Print Assumptions C92_no_panic_partial.
Print Assumptions C92_lambda_partial.
Print Assumptions C92_history_partial.
Print Assumptions C92_text_partial.
Print Assumptions C92_refuted.
Print Assumptions C92_multiplication_refuted.
Print Assumptions C92_named_star_refuted.
Print Assumptions C92_host_nil_refuted.

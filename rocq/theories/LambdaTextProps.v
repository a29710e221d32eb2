(** C87: what the text of a lambda denotes. *)

From Coq Require Import ZArith List String Ascii Bool Lia.
From Verif Require Import Base F64 Text Lexer Numeral Grammar Parser ParserTotal ParseProofs Value Protocols Monad Chains Syntax Elab LambdaText.
From Verif Require Import Eval Runs Para Evolve Demo.
From Verif Require Import LexProofs Spelling ParserSound GrammarText GrammarTextProofs GrammarTextProps.
Import ListNotations.
Open Scope nat_scope.
Open Scope string_scope.
Open Scope list_scope.

(** Names with commas between them. *)
Inductive parameters : list string -> list token -> Prop :=
| last_parameter p : parameters [p] [Tok T_Ident p]
| next_parameter p c ps ts :
    tv c = "," -> parameters ps ts -> parameters (p :: ps) (Tok T_Ident p :: c :: ts).

(** What tokens are as an expression of a query. *)
Definition expression (ts : list token) : option gand :=
  whole (pand (pvalue (fuel_for ts)) (fuel_for ts) ts).

(** ** Parameters *)

Definition no_name (ts : list token) : Prop := forall x r, ts = x :: r -> tt x <> T_Ident.
Lemma no_name_misses k ts : no_name ts -> 0 < k -> pparams k ts = PFail ts.
Proof.
  intros N K. destruct k as [|k]; [lia|]. cbn [pparams]. unfold pbind, ptok. destruct ts as [|x r]; [reflexivity|].
  destruct (ttype_beq (tt x) T_Ident) eqn:E; [|reflexivity].
  apply internal_ttype_dec_bl in E. now destruct (N x r eq_refl).
Qed.

Lemma params_read : forall k ts, List.length ts < k ->
  (exists ps pre r, ts = pre ++ r /\ parameters ps pre /\ pparams k ts = POk ps r /\
     (forall j, 0 < j -> misses (plit "," ~>> pparams j) r)) \/
  no_name ts.
Proof.
  induction k as [|k IH]; intros ts L; [lia|].
  destruct ts as [|[t p] ts]; [right; discriminate|].
  destruct (ttype_beq t T_Ident) eqn:E.
  2:{ right. intros x r [= <- <-] K. cbn in K. apply internal_ttype_dec_lb in K. congruence. }
  apply internal_ttype_dec_bl in E. subst t. left. cbn [List.length] in L.
  assert (ONE : (forall j, 0 < j -> misses (plit "," ~>> pparams j) ts) ->
          exists ps pre r, Tok T_Ident p :: ts = pre ++ r /\ parameters ps pre /\
            pparams (S k) (Tok T_Ident p :: ts) = POk ps r /\
            (forall j, 0 < j -> misses (plit "," ~>> pparams j) r)).
  { intro M. exists [p], [Tok T_Ident p], ts. repeat split; [constructor| |exact M].
    cbn [pparams]. rewrite (bind_ok _ _ _ p ts) by apply ptok_hit.
    rewrite (bind_ok _ _ _ [] ts); [reflexivity|]. apply pstar_nil, M. lia. }
  destruct ts as [|c ts].
  { apply ONE. intros j _. apply bind_miss, plit_miss_nil. }
  destruct (String.eqb_spec (tv c) ",") as [C|C].
  2:{ apply ONE. intros j _. now apply bind_miss, plit_miss. }
  cbn [List.length] in L. destruct (IH ts ltac:(lia)) as [(ps & pre & r & -> & P & R & M)|N].
  - exists (p :: ps), (Tok T_Ident p :: c :: pre), r. repeat split; [now constructor| |exact M].
    cbn [pparams]. rewrite (bind_ok _ _ _ p (c :: pre ++ r)) by apply ptok_hit.
    rewrite (bind_ok _ _ _ [ps] r); [reflexivity|].
    apply pstar_one; [|apply M; lia|discriminate].
    destruct c as [tc v]. cbn in C. subst v. rewrite (bind_ok _ _ _ "," (pre ++ r)) by apply plit_hit. exact R.
  - apply ONE. intros j J. exists ts. split; [|apply stop_one].
    destruct c as [tc v]. cbn in C. subst v. rewrite (bind_ok _ _ _ "," ts) by apply plit_hit.
    now apply no_name_misses.
Qed.

Lemma params_spelled ps pre : parameters ps pre -> forall k y te,
  List.length pre <= k -> tv y <> "," -> pparams k (pre ++ y :: te) = POk ps (y :: te).
Proof.
  induction 1 as [p|p c ps ts C P IH]; intros k y te L N; (destruct k as [|k]; [cbn in L; lia|]); cbn [pparams app].
  - rewrite (bind_ok _ _ _ p (y :: te)) by apply ptok_hit.
    rewrite (bind_ok _ _ _ [] (y :: te)); [reflexivity|]. now apply pstar_nil, bind_miss, plit_miss.
  - cbn [List.length] in L. rewrite (bind_ok _ _ _ p (c :: ts ++ y :: te)) by apply ptok_hit.
    rewrite (bind_ok _ _ _ [ps] (y :: te)); [reflexivity|].
    apply pstar_one; [|now apply bind_miss, plit_miss|discriminate].
    destruct c as [tc v]. cbn in C. subst v. rewrite (bind_ok _ _ _ "," (ts ++ y :: te)) by apply plit_hit.
    apply IH; [lia|exact N].
Qed.

Lemma and_fuel ts n : fuel_for ts <= n ->
  pand (pvalue n) n ts = pand (pvalue (fuel_for ts)) (fuel_for ts) ts.
Proof.
  intro L. destruct (more_knot _ _ L) as (MV & MS). destruct (knot_total (fuel_for ts)) as (TV & TS & EV & ES).
  apply more_and; [exact MV|exact L|].
  apply (ends_and _ (fuel_for ts) TV EV _ (le_n _)). unfold fuel_for. lia.
Qed.

Lemma lambda_shape ts ps e n : fuel_for ts <= n ->
  (plambda n ts = POk (ps, e) [] <->
   exists pre arrow body, ts = pre ++ arrow :: body /\ parameters ps pre /\ tv arrow = "=>" /\ expression body = Some e).
Proof.
  intro F. unfold fuel_for in F. unfold plambda. split.
  - intro H. destruct (params_read n ts ltac:(lia)) as [(qs & pre & r & -> & P & R & _)|N].
    2:{ unfold pbind in H. rewrite (no_name_misses n ts N) in H by lia. discriminate. }
    rewrite (bind_ok _ _ _ qs r R) in H. destruct r as [|y te]; [discriminate|].
    unfold pbind at 1 in H. unfold plit in H. destruct (String.eqb_spec (tv y) "=>") as [Y|Y]; [|discriminate].
    unfold pbind in H. destruct (pand (pvalue n) n te) as [a r|r|] eqn:A; try discriminate.
    injection H as -> -> ->. exists pre, y, te. repeat split; auto.
    unfold expression. rewrite app_length in F. cbn [List.length] in F.
    rewrite <- (and_fuel te n) by (unfold fuel_for; lia). now rewrite A.
  - intros (pre & y & te & -> & P & Y & X). rewrite app_length in F. cbn [List.length] in F.
    rewrite (bind_ok _ _ _ ps (y :: te)).
    2:{ apply params_spelled; [exact P|lia|rewrite Y; discriminate]. }
    destruct y as [ty v]. cbn in Y. subst v. rewrite (bind_ok _ _ _ "=>" te) by apply plit_hit.
    unfold expression in X. rewrite <- (and_fuel te n) in X by (unfold fuel_for; lia).
    unfold whole in X. destruct (pand (pvalue n) n te) as [a [|]|r|] eqn:A; try discriminate. injection X as ->.
    now rewrite (bind_ok _ _ _ e [] A).
Qed.

(** ** C87 *)

(** A lambda is a list of names, an arrow and an expression; the parameters are
    the names as written, in order. *)
Theorem C87_shape : forall text ps e,
  parse_lambda text = Some (ps, e) <->
  exists pre arrow body, lex text = Some (pre ++ arrow :: body) /\
    parameters ps pre /\ tv arrow = "=>" /\ expression body = Some e.
Proof.
  intros text ps e. unfold parse_lambda. destruct (lex text) as [ts|] eqn:L.
  - transitivity (plambda (fuel_for ts) ts = POk (ps, e) []).
    + unfold whole. destruct (plambda (fuel_for ts) ts) as [a [|]|r|]; split; congruence.
    + rewrite (lambda_shape ts ps e _ (le_n _)). split.
      * intros (pre & y & te & -> & H). eauto.
      * intros (pre & y & te & [= ->] & H). eauto 6.
  - split; [discriminate|]. intros (pre & y & te & K & _). discriminate.
Qed.

(** There is at least one parameter. *)
Theorem C87_some_parameter : forall text ps e, parse_lambda text = Some (ps, e) -> ps <> [].
Proof.
  intros text ps e H. apply C87_shape in H as (pre & y & te & _ & P & _). destruct P; discriminate.
Qed.

Lemma query_word t v : Spelling.reads t v -> t = T_EXPLAIN \/ t = T_SELECT -> nostart [Tok t v].
Proof.
  intros R H. assert (L : lvl (Tok t v) = text_level v) by (destruct H as [-> | ->]; reflexivity).
  cbn [nostart]. rewrite L. unfold text_level.
  destruct (existsb (String.eqb v) ["("; "["; "."]) eqn:E.
  - exfalso. apply existsb_exists in E as (w & I & Q). apply String.eqb_eq in Q. subst w.
    specialize (R "" eq_refl).
    destruct H as [-> | ->]; destruct I as [<-|[<-|[<-|[]]]]; vm_compute in R; discriminate R.
  - repeat match goal with |- context [if ?b then _ else _] => destruct b end; lia.
Qed.

(** The body is the expression that the same tokens are in a query, where IN and
    DESC are written in capitals. *)
Theorem C87_same_expression : forall text body e name,
  lex text = Some body -> map upper_token body = body -> expression body = Some e ->
  forall n, fuel_for body + 3 <= n ->
  pvql n (Tok T_LET "LET" :: Tok T_Ident name :: Tok T_Operators "=" :: map upper_token body) =
  POk (GLet name false [] "=" (inr e)) [].
Proof.
  intros text body e name LX -> X n L. unfold expression in X.
  assert (FL : Forall lexeme body) by (unfold lex in LX; now apply ParserSound.lex_n_lexemes in LX).
  rewrite <- (and_fuel body n) in X by (unfold fuel_for in *; lia).
  unfold whole in X. destruct (pand (pvalue n) n body) as [a [|]|r|] eqn:A; try discriminate. injection X as ->.
  assert (ST : forall t, t = T_EXPLAIN \/ t = T_SELECT -> misses (ptok t) body).
  { intros t T. destruct body as [|[u v] r]; [apply ptok_miss_nil|]. apply ptok_miss. cbn [tt]. intros ->.
    inversion FL as [|? ? (LM & _) _]; subst. cbn [tt tv] in LM.
    assert (R : Spelling.reads t v) by (destruct T as [-> | ->]; exact LM).
    pose proof (query_word t v R T) as N.
    destruct (and_misses n (pvalue n) (value_misses n ltac:(lia)) n (le_n _) ltac:(lia) (Tok t v :: r) N) as (q & Q & _).
    congruence. }
  unfold pvql, pvql_step. apply alt_left.
  rewrite (bind_ok _ _ _ "LET" _) by apply ptok_hit.
  rewrite (bind_ok _ _ _ name _) by apply ptok_hit.
  rewrite (bind_ok _ _ _ None (Tok T_Operators "=" :: body)).
  2:{ apply popt_none, bind_miss, plit_miss. discriminate. }
  rewrite (bind_ok _ _ _ "=" body) by apply alt_left, plit_hit.
  rewrite (bind_ok _ _ _ (inr e) []); [reflexivity|].
  apply alt_right; [|now rewrite (bind_ok _ _ _ e [] A)].
  apply bind_miss, select_misses; [lia|apply ST; auto|apply ST; auto].
Qed.

(** ** The tags *)

Lemma f_params k : follows plain (pparams k) (NStruct "_ParameterList").
Proof. induction k as [|k IH]; [intros ts _; exact I|]. cbn [pparams]. repeat fw plain_ends. Qed.
Lemma f_lambda n : follows plain (plambda n) (NStruct "Lambda").
Proof.
  pose proof (f_params n). pose proof (f_and (pvalue n) (proj1 (f_knot n)) n). unfold plambda. repeat fw plain_ends.
Qed.

Lemma params_total k : takes 1 (pparams k) /\ forall j, j <= k -> ends j (pparams k).
Proof.
  induction k as [|k (T & E)]; split.
  - intros ts a r. discriminate.
  - intros j J. replace j with 0 by lia. apply ends_zero.
  - cbn [pparams]. repeat tk.
  - intros j J. cbn [pparams]. apply (ends_bind 1); [apply ends_ptok|apply takes_ptok|]. intro p.
    pose proof (E (j - 1) ltac:(lia)). repeat en.
Qed.
Lemma lambda_decides ts : plambda (fuel_for ts) ts <> PFuel.
Proof.
  set (n := fuel_for ts). destruct (knot_total n) as (TV & TS & EV & ES). destruct (params_total n) as (TP & EP).
  specialize (EP n (le_n _)). pose proof (takes_and _ TV n). pose proof (ends_and _ n TV EV n (le_n _)).
  assert (E : ends n (plambda n)) by (unfold plambda; repeat en). apply E. unfold n, fuel_for. lia.
Qed.

(** A text without comments is a lambda exactly when the grammar of the tags
    reads all of it. *)
Theorem C87_lambda_grammar : forall text ts, lex text = Some ts -> plain ts ->
  ((exists l, parse_lambda text = Some l) <-> accepts "Lambda" ts).
Proof.
  intros text ts L P. unfold parse_lambda. rewrite L.
  apply (whole_reads plain); [exact P|apply f_lambda|apply lambda_decides].
Qed.

(** ** IN in small letters *)

(** Queries write the operator in capitals before it is looked up, lambdas do
    not: of the spellings of IN they know IN, In and in, and iN is always
    false. *)
Theorem C87_spelling_of_in_refuted :
  tokens "x IN (1, 2)" = tokens "x iN (1, 2)" /\
  exists l m s1 s2, lambda_of "x => x IN (1, 2)" = Some l /\ lambda_of "x => x iN (1, 2)" = Some m /\
    evaluates (fun n => lambda_reduce (ev demo_env n) l demo_scope [i 1]) st0 s1 (VBool true) /\
    evaluates (fun n => lambda_reduce (ev demo_env n) m demo_scope [i 1]) st0 s2 (VBool false).
Proof.
  split; [vm_compute; reflexivity|]. do 4 eexists. split; [vm_compute; reflexivity|].
  split; [vm_compute; reflexivity|].
  split; exists 12; intros n Hn; unfold lambda_reduce; cbn [l_params l_body List.length Nat.eqb negb];
    rewrite (re_expr _ _ _ (fuel_enough_is_enough demo_env 12 n Hn)); vm_compute; first [reflexivity|discriminate].
Qed.

(** ** Cases that meet the hypotheses *)

Example C87_demo : parse_lambda "a, b => a + b" <> None /\
  lambda_of "a, `b c` => a + 1" =
  Some {| l_params := ["a"; "`b c`"]; l_body := EAdd (ESym 0 false ["a"] false []) [("+", ELit (i 1))] |} /\
  lambda_of "=> 1" = None /\ lambda_of "a, => 1" = None.
Proof. repeat split; vm_compute; congruence. Qed.
Example C87_demo_body : exists body e,
  lex "a + b" = Some body /\ map upper_token body = body /\ expression body = Some e.
Proof. do 2 eexists. repeat split; vm_compute; reflexivity. Qed.

Print Assumptions C87_shape.
Print Assumptions C87_some_parameter.
Print Assumptions C87_same_expression.
Print Assumptions C87_lambda_grammar.
Print Assumptions C87_spelling_of_in_refuted.

(** C64: formatting a script does not change what it yields.

    The formatter rewrites the text; the statements that the new text parses
    to are elaborated to the very trees that the old ones were (Elab.v), so
    that every run, in any environment and from any state, does the same.

    [run_text R sc text] is MultiParse and the evaluation of the statements one
    after the other in one scope; [ev E fuel] is the evaluator of Eval.v for an
    environment E (functions, plugins, protocols). *)

From Coq Require Import ZArith List String Ascii Bool Lia.
From Verif Require Import Base F64 Value Protocols Monad Chains Text Syntax Lexer Numeral Grammar Parser Format Spelling Eval.
From Verif Require Import LexProofs NumeralProofs FloatText ParseProofs FormatProofs FormatRuns RoundTrip ParserSound FormatProps.
From Verif Require Import FormatTwice Elab Marshal MarshalProps Reformat ReformatProofs ReformatRuns ReformatTwice ReformatProps GoSort Demo.
Import ListNotations.
Open Scope nat_scope.
Open Scope string_scope.
Open Scope list_scope.

(** ** The trees are the same *)

Section Lists.
  Variables A B : Type.
  Variable f : A -> nat -> B * nat.
  Variable g : A -> A.
  Variable c : A -> bool.
  Hypothesis H : forall a, c a = true -> forall n, f (g a) n = f a n.
  Definition each_el_same : forall l, allb c l = true -> forall n, each_el f (map g l) n = each_el f l n.
  Proof.
    fix IH 1. intros [|a l]; [reflexivity|]. pose proof (IH l) as IHl. cbn [allb fold_right map each_el].
    intros C n. apply andb_true_iff in C as (C1 & C2). rewrite (H a C1). destruct (f a n) as (b, m). now rewrite (IHl C2).
  Defined.
  Definition opt_el_same : forall o, optb c o = true -> forall n, opt_el f (option_map g o) n = opt_el f o n.
  Proof. intros [a|] C n; cbn; [now rewrite (H a C)|reflexivity]. Defined.
  Definition snd_el_same : forall t : string * A, c (snd t) = true ->
    forall n, snd_el f (fst t, g (snd t)) n = snd_el f t n.
  Proof. intros (o, a) C n. unfold snd_el. cbn [fst snd] in *. now rewrite (H a C). Defined.
End Lists.
Arguments each_el_same {A B}.
Arguments opt_el_same {A B}.
Arguments snd_el_same {A B}.

Lemma col_name_same c : clean_col c = true -> col_name (ncol c) = col_name c.
Proof.
  intro C. pose proof (s_col c C visitor0) as F. unfold col_name, format_with. rewrite F.
  destruct c; reflexivity.
Qed.

Fixpoint e_value (x : gvalue) {struct x} : clean_value x = true -> forall n, elab_value (nvalue x) n = elab_value x n
with e_mterm (x : gmterm) {struct x} : clean_mterm x = true -> forall n, elab_mterm (nmterm x) n = elab_mterm x n
with e_member (x : gmember) {struct x} : clean_member x = true -> forall n, elab_member (nmember x) n = elab_member x n
with e_mul (x : gmul) {struct x} : clean_mul x = true -> forall n, elab_mul (nmul x) n = elab_mul x n
with e_add (x : gadd) {struct x} : clean_add x = true -> forall n, elab_add (nadd x) n = elab_add x n
with e_cond (x : gcond) {struct x} : clean_cond x = true -> forall n, elab_cond (ncond x) n = elab_cond x n
with e_or (x : gor) {struct x} : clean_or x = true -> forall n, elab_or (nor x) n = elab_or x n
with e_and (x : gand) {struct x} : clean_and x = true -> forall n, elab_and (nand x) n = elab_and x n
with e_comma (x : gcomma) {struct x} : clean_comma x = true -> forall n, elab_comma (ncomma x) n = elab_comma x n
with e_arg (x : garg) {struct x} : clean_arg x = true -> forall n, elab_arg (narg x) n = elab_arg x n
with e_select (x : gselect) {struct x} : clean_select x = true -> forall n, elab_select (nselect x) n = elab_select x n
with e_col (x : gcol) {struct x} : clean_col x = true -> forall n, elab_col (ncol x) n = elab_col x n
with e_plugin (x : gplugin) {struct x} : clean_plugin x = true -> forall n, elab_plugin (nplugin x) n = elab_plugin x n.
Proof.
  - destruct x as [s called params|c|s|s|s|]; cbn [clean_value nvalue elab_value]; intros C n; try reflexivity.
    + now rewrite (each_el_same elab_arg narg clean_arg e_arg params C).
    + apply (e_comma c C).
    + unfold lit_number. now rewrite (number_kept s C).
  - destruct x as [i|i j| |s]; cbn [clean_mterm nmterm elab_mterm]; intros C n; try reflexivity.
    + now rewrite (e_value i C).
    + apply andb_true_iff in C as (C1 & C2).
      rewrite (opt_el_same elab_value nvalue clean_value e_value i C1). destruct (opt_el elab_value i n) as (i', m).
      now rewrite (opt_el_same elab_value nvalue clean_value e_value j C2).
  - destruct x as [l r]; cbn [clean_member nmember elab_member]. intros C n. apply andb_true_iff in C as (C1 & C2).
    rewrite (e_value l C1). destruct (elab_value l n) as (l', m).
    now rewrite (each_el_same elab_mterm nmterm clean_mterm e_mterm r C2).
  - destruct x as [l r]; cbn [clean_mul nmul elab_mul]. intros C n. apply andb_true_iff in C as (C1 & C2).
    rewrite (e_member l C1). destruct (elab_member l n) as (l', m).
    now rewrite (each_el_same (snd_el elab_value) _ _ (snd_el_same elab_value nvalue clean_value e_value) r C2).
  - destruct x as [l r]; cbn [clean_add nadd elab_add]. intros C n. apply andb_true_iff in C as (C1 & C2).
    rewrite (e_mul l C1). destruct (elab_mul l n) as (l', m).
    now rewrite (each_el_same (snd_el elab_mul) _ _ (snd_el_same elab_mul nmul clean_mul e_mul) r C2).
  - destruct x as [c|l r]; cbn [clean_cond ncond elab_cond]; intros C n.
    + now rewrite (e_cond c C).
    + apply andb_true_iff in C as (C1 & C2). rewrite (e_add l C1). destruct (elab_add l n) as (l', m).
      now rewrite (opt_el_same (snd_el elab_add) _ _ (snd_el_same elab_add nadd clean_add e_add) r C2).
  - destruct x as [l r]; cbn [clean_or nor elab_or]. intros C n. apply andb_true_iff in C as (C1 & C2).
    rewrite (e_cond l C1). destruct (elab_cond l n) as (l', m).
    now rewrite (each_el_same (snd_el elab_cond) _ _ (snd_el_same elab_cond ncond clean_cond e_cond) r C2).
  - destruct x as [l r]; cbn [clean_and nand elab_and]. intros C n. apply andb_true_iff in C as (C1 & C2).
    rewrite (e_or l C1). destruct (elab_or l n) as (l', m).
    now rewrite (each_el_same (snd_el elab_or) _ _ (snd_el_same elab_or nor clean_or e_or) r C2).
  - destruct x as [l r]; cbn [clean_comma ncomma elab_comma]. intros C n. apply andb_true_iff in C as (C1 & C2).
    rewrite (e_and l C1). destruct (elab_and l n) as (l', m).
    now rewrite (each_el_same (opt_el elab_and) _ _ (opt_el_same elab_and nand clean_and e_and) r C2).
  - destruct x as [a e|a s|a [c|]]; cbn [clean_arg narg elab_arg optb option_map]; intros C n.
    + now rewrite (e_and e C).
    + now rewrite (e_select s C).
    + now rewrite (e_comma c C).
    + reflexivity.
  - destruct x as [explain al cols from w g o l]; cbn [clean_select nselect elab_select]. intros C n.
    apply andb_true_iff in C as (C & C4). apply andb_true_iff in C as (C & C3). apply andb_true_iff in C as (C1 & C2).
    rewrite (each_el_same elab_col ncol clean_col e_col cols C1). destruct (each_el elab_col cols n) as (cols', n1).
    rewrite (e_plugin from C2). destruct (elab_plugin from n1) as (from', n2).
    rewrite (opt_el_same elab_comma ncomma clean_comma e_comma w C3). destruct (opt_el elab_comma w n2) as (w', n3).
    now rewrite (opt_el_same elab_comma ncomma clean_comma e_comma g C4).
  - pose proof (col_name_same x) as N. destruct x as [a|s a|e a]; cbn [clean_col ncol elab_col] in *; intros C n.
    + reflexivity.
    + rewrite (N C). now rewrite (e_select s C).
    + rewrite (N C). now rewrite (e_and e C).
  - destruct x as [name call args]; cbn [clean_plugin nplugin elab_plugin]. intros C n.
    now rewrite (each_el_same elab_arg narg clean_arg e_arg args C).
Qed.

Lemma e_param p : clean_param p = true -> forall n, elab_param (nparam p) n = elab_param p n.
Proof.
  destruct p as [a|s]; [|reflexivity]. cbn [clean_param nparam elab_param]. intros C n.
  now rewrite (e_arg a C), narg_name.
Qed.
Lemma e_vql x : clean_vql x = true -> forall n, elab_vql (nvql x) n = elab_vql x n.
Proof.
  intros C n. pose proof (s_vql x C visitor0) as F.
  destruct x as [name called ps o body|s]; cbn [clean_vql nvql elab_vql] in *.
  - apply andb_true_iff in C as (C & C4). apply andb_true_iff in C as (C & C3). apply andb_true_iff in C as (C1 & C2).
    rewrite (each_el_same elab_param nparam clean_param e_param ps C2). destruct (each_el elab_param ps n) as (ps', m).
    destruct body as [s|e]; [now rewrite (e_select s C4)|now rewrite (e_and e C4)].
  - rewrite (e_select s C). destruct (elab_select s n) as (q, m). unfold format_vql, format_with. cbn [fvql] in F |- *.
    now rewrite F.
Qed.
Lemma e_script l : forallb clean_vql l = true -> elab_script (map nvql l) = elab_script l.
Proof.
  intro C. unfold elab_script. f_equal. apply (each_el_same elab_vql nvql clean_vql e_vql).
  clear -C. induction l as [|x l IH]; [reflexivity|]. cbn [forallb allb fold_right] in *.
  apply andb_true_iff in C as (C1 & C2). rewrite C1. now apply IH.
Qed.

(** ** The theorems *)

(** A statement, formatted by FormatToString and parsed again, is evaluated
    to the same rows, from the same state to the same state, and leaves the
    same variables.  Partial: not for the statements that [clean_vql] excludes
    (C49). *)
Theorem C64_formatted_statement_partial text x :
  parse_vql text = Some x -> clean_vql x = true ->
  exists y, parse_vql (format_vql x) = Some y /\
    forall E fuel sc n st,
      stmt_eval (ev E fuel) sc (fst (elab_vql y n)) st = stmt_eval (ev E fuel) sc (fst (elab_vql x n)) st.
Proof.
  intros P C. exists (nvql x). split; [now apply (C49_statement_round_trip_partial text)|].
  intros. now rewrite e_vql.
Qed.

(** A script, reformatted with any options, runs as before.  Partial: not for
    the scripts that [clean_script] excludes (C62), not for comments. *)
Theorem C64_reformatted_script_partial o bl text l :
  parse_multi text = Some l -> clean_script l = true ->
  forall E fuel sc, run_text (ev E fuel) sc (reformat o bl l) = run_text (ev E fuel) sc text.
Proof.
  intros P C E fuel sc. unfold run_text. rewrite (C62_reformat_keeps_statements_partial o bl text l P C), P.
  cbn [option_map]. unfold run_script. rewrite e_script; [reflexivity|].
  now apply andb_true_iff in C as (C & _).
Qed.

(** A definition that is saved and restored (marshal.go) makes the same
    variable as the statement that made it first.  Partial: not for the
    definitions that [plain_def] excludes (C50). *)
Lemma no_defaults_names ps : defaults_of ps = [] -> forall n,
  each_el elab_param ps n = (map (fun p => (match p with GName s => s | GDefault a => arg_name a end, None)) ps, n).
Proof.
  unfold defaults_of. intros D n.
  assert (G : forall p, In p ps -> exists s, p = GName s).
  { intros [a|s] I; [|now exists s]. exfalso.
    assert (Q : exists b, default_for ps (unq (arg_name a)) = Some b).
    { unfold default_for. clear D. generalize (@None garg) as d. revert I.
      induction ps as [|p ps IH]; [intros []|]. intros I d. cbn [fold_left].
      assert (K : forall l e, (exists b, e = Some b) -> exists b,
        fold_left (fun d p => match p with
          | GDefault c => if String.eqb (unq (arg_name c)) (unq (arg_name a)) then Some c else d
          | GName _ => d end) l e = Some b).
      { induction l as [|q l IL]; intros e He; [exact He|]. cbn [fold_left]. apply IL.
        destruct q as [c|]; [|exact He]. destruct (String.eqb _ _); [now eexists|exact He]. }
      destruct I as [->|I]; [|now apply IH]. apply K. rewrite String.eqb_refl. now eexists. }
    destruct Q as (b & Q).
    assert (In (unq (arg_name a), b) (@nil (string * garg))) as []; rewrite <- D.
    apply in_flat_map. exists (GDefault a). split; [exact I|]. rewrite Q. now left. }
  clear D. revert n. induction ps as [|p ps IH]; intro n; [reflexivity|].
  destruct (G p) as (s & ->); [now left|]. cbn [each_el elab_param map].
  rewrite IH; [reflexivity|]. intros q I. apply G. now right.
Qed.
Lemma param_defaults_none l : param_defaults (map (fun s : string => (s, None)) l) = [].
Proof.
  unfold param_defaults. induction l as [|a l IH]; [reflexivity|exact IH].
Qed.

Theorem C64_restored_definition_partial text x d :
  parse_vql text = Some x -> def_of x = Some d -> plain_def d ->
  exists y, parse_vql (def_text d) = Some y /\
    forall E fuel sc n st,
      stmt_eval (ev E fuel) sc (fst (elab_vql y n)) st = stmt_eval (ev E fuel) sc (fst (elab_vql x n)) st.
Proof.
  intros P D PD. destruct (C50_definition_partial d PD) as (y & PY & DY). exists y. split; [exact PY|].
  intros E fuel sc n st.
  destruct x as [name called ps o body|s]; cbn [def_of] in D; [|discriminate].
  destruct (String.eqb_spec o "=") as [->|]; [|discriminate].
  destruct y as [name' called' ps' o' body'|s]; cbn [def_of] in DY; [|discriminate].
  destruct (String.eqb_spec o' "=") as [->|]; [|discriminate].
  pose proof (pd_defaults d PD) as DF. pose proof (pd_clean d PD) as CB.
  destruct d as [fname fparams fdefs fbody]. cbn [f_name f_params f_defaults f_body] in *. subst fdefs.
  injection D as N1 N2 N3 N4. injection DY as M1 M2 M3 M4. subst fname fparams fbody body'.
  cbn [elab_vql].
  assert (G : forall qs, defaults_of qs = [] -> exists names,
    forall n, each_el elab_param qs n = (map (fun s => (s, None)) names, n)).
  { intros qs Q. exists (map (fun p => match p with GName s => s | GDefault a => arg_name a end) qs). intro k.
    rewrite no_defaults_names by exact Q. now rewrite map_map. }
  destruct (G ps N3) as (l1 & ->). destruct (G ps' M3) as (l2 & ->).
  change unquoted with unq. rewrite M1.
  destruct body as [s|e]; cbn [respelled clean_body] in *.
  - rewrite (e_select s CB). destruct (elab_select s n) as (q, m). cbn [fst stmt_eval].
    now rewrite !param_defaults_none.
  - rewrite (e_and e CB). destruct (elab_and e n) as (q, m). cbn [fst stmt_eval].
    now rewrite !param_defaults_none.
Qed.

(** ** Where the full statement fails *)

(** The rows that a script yields in the demonstration program (Demo.v). *)
Definition shown (text : string) : option (list (list val)) :=
  match run_text (ev demo_env 200) demo_scope text with
  | Some m =>
      match ('(_, out) <- m ;; mmap (mmap (row_to_dict (ev demo_env 200) demo_scope)) out) st0 with
      | (_, RVal rows) => Some rows
      | _ => None
      end
  | None => None
  end.

(** A number that does not fit is NULL, and prints as FALSE (C49). *)
Definition big : string := "SELECT 0xffffffffffffffff AS X FROM scope()".
Theorem C64_formatting_changes_value_refuted :
  exists text x y, parse_vql text = Some x /\ parse_vql (format_vql x) = Some y /\
    shown text <> shown (format_vql x) /\ shown text <> None /\ shown (format_vql x) <> None.
Proof.
  exists big.
  destruct (parse_vql big) as [x|] eqn:P; [|vm_compute in P; discriminate].
  exists x. vm_compute in P. injection P as <-.
  eexists. split; [reflexivity|]. split; [vm_compute; reflexivity|].
  repeat split; vm_compute; discriminate.
Qed.

(** A line of a string that ends in spaces loses them (C62). *)
Definition padded : string := ("SELECT '''a " ++ String nl "b''' AS X FROM scope()")%string.
Theorem C64_reformatting_changes_string_refuted :
  exists text l, parse_multi text = Some l /\ forallb clean_vql l = true /\
    shown text <> shown (reformat default_options true l) /\
    shown text <> None /\ shown (reformat default_options true l) <> None.
Proof.
  exists padded.
  destruct (parse_multi padded) as [l|] eqn:P; [|vm_compute in P; discriminate].
  exists l. vm_compute in P. injection P as <-.
  split; [reflexivity|]. split; [vm_compute; reflexivity|].
  repeat split; vm_compute; discriminate.
Qed.

(** ** Examples *)

Definition report : string :=
  ("LET scale(x, by=0x2) = x * by + 1e0 " ++
   "SELECT k, scale(x=n), scale(x=n, by=base) AS `Scaled n`, " ++
   "{ SELECT count() AS C FROM t WHERE k = 'a' GROUP BY 1 } AS Sub " ++
   "FROM t WHERE n AND (k = 'a' OR NOT n < 3) ORDER BY k LIMIT 2")%string.
Example report_shown :
  match parse_multi report with
  | Some l =>
      let text := reformat default_options true l in
      clean_script l && negb (String.eqb text report) &&
      match shown report, shown text with
      | Some [[VDict (("k", VStr "a") :: ("scale(x=n)", _) :: _) as r; _]], Some [[r'; _]] =>
          eq_disp [] r r'
      | _, _ => false
      end
  | None => false
  end = true.
Proof. vm_compute. reflexivity. Qed.
Example report_runs :
  match parse_multi report with
  | Some l => run_text (ev demo_env 200) demo_scope (reformat default_options true l) =
              run_text (ev demo_env 200) demo_scope report
  | None => False
  end.
Proof.
  destruct (parse_multi report) as [l|] eqn:P; [|vm_compute in P; discriminate].
  apply C64_reformatted_script_partial; [exact P|]. vm_compute in P. injection P as <-. vm_compute. reflexivity.
Qed.

Print Assumptions C64_formatted_statement_partial.
Print Assumptions C64_reformatted_script_partial.
Print Assumptions C64_restored_definition_partial.
Print Assumptions C64_formatting_changes_value_refuted.
Print Assumptions C64_reformatting_changes_string_refuted.

(** ** Names of columns *)

Definition alias_of (c : gcol) : string := match c with GStar a | GColSelect _ a | GColExpr _ a => a end.
(** A column is named by its alias, otherwise by its text. *)
Theorem C64_column_names c n :
  (alias_of c <> "" -> fst (fst (elab_col c n)) = unquoted (alias_of c)) /\
  (alias_of c = "" -> fst (fst (elab_col c n)) = unquoted (format_with fcol c)).
Proof.
  assert (N : fst (fst (elab_col c n)) = col_name c).
  { destruct c as [a|s a|e a]; cbn [elab_col]; [reflexivity| |].
    - destruct (elab_select s n). reflexivity.
    - destruct (elab_and e n). reflexivity. }
  rewrite N. unfold col_name. fold (alias_of c). destruct (String.eqb_spec (alias_of c) "") as [E|E]; split; intro; try reflexivity; contradiction.
Qed.
Example column_names_shown :
  match parse_vql "SELECT a + 1 AS `b c`, `x y`, f(a =1) FROM info()" with
  | Some (GQuery (GSelect _ _ cols _ _ _ _ _)) => map (fun c => fst (fst (elab_col c 0))) cols
  | _ => []
  end = ["b c"; "x y"; "f(a=1)"].
Proof. reflexivity. Qed.
Print Assumptions C64_column_names.

(** The words TRUE and FALSE, in any mixture of cases, and NULL. *)
Theorem C64_word_literals n :
  (forall s, keyword_of s = Some T_BOOL ->
     upper s = "TRUE" /\ elab_value (GBool s) n = (ELit (VBool true), n) \/
     upper s = "FALSE" /\ elab_value (GBool s) n = (ELit (VBool false), n)) /\
  elab_value GNull n = (ELit VNull, n).
Proof.
  split; [|reflexivity]. intros s H. unfold keyword_of in H. cbn [elab_value]. unfold lit_bool.
  unfold keywords in H. cbn [find fst] in H.
  repeat match type of H with context [if String.eqb ?a ?b then _ else _] => destruct (String.eqb_spec a b) as [E|?] end;
    try discriminate H; rewrite <- E; auto.
Qed.
Example word_literals_met : keyword_of "tRue" = Some T_BOOL /\ keyword_of "False" = Some T_BOOL.
Proof. now split. Qed.
Print Assumptions C64_word_literals.

(** ** Signs and operators *)

From Verif Require Import TextProps BaseProofs.

(** The names of a symbol, however they are quoted; with a sign in front of the
    first, its value is negated. *)
Theorem C64_symbol_names n called params c w cs ws :
  written c w -> Forall2 written cs ws ->
  (exists ps m, elab_value (GSym (String "-" w :: ws) called params) n =
     (ESym n true (map encode_runes (c :: cs)) called ps, m)) /\
  (hd 0%Z c <> 45%Z -> exists ps m, elab_value (GSym (w :: ws) called params) n =
     (ESym n false (map encode_runes (c :: cs)) called ps, m)).
Proof.
  intros W WS.
  assert (J : forall v l, dotted (v :: l) = join (v :: l)).
  { intros v l. revert v. induction l as [|u l IH]; intro v; [reflexivity|].
    change (dotted (v :: u :: l)) with (v ++ String "." (dotted (u :: l)))%string. now rewrite IH. }
  assert (R : split_ident (dotted (w :: ws)) = map encode_runes (c :: cs)).
  { rewrite J. apply C43_join_split; [discriminate|now constructor]. }
  assert (R' : split_ident (dotted (String "-" w :: ws)) = String "-" (encode_runes c) :: map encode_runes cs).
  { rewrite J. unfold split_ident. destruct WS as [|c' w' cs ws Hw' H].
    - cbn [join]. rewrite runes_ascii by (unfold byte; simpl; lia). replace (byte "-") with 45%Z by reflexivity.
      cbn [split_loop]. change (45 =? 96)%Z with false. change (45 =? 46)%Z with false. cbv iota. cbn [app].
      rewrite <- (str_app_nil_r w), (split_written c w "" [45%Z] W). reflexivity.
    - change (join (String "-" w :: w' :: ws)) with (String "-" (w ++ String "." (join (w' :: ws)))%string).
      rewrite runes_ascii by (unfold byte; simpl; lia). replace (byte "-") with 45%Z by reflexivity.
      cbn [split_loop]. change (45 =? 96)%Z with false. change (45 =? 46)%Z with false. cbv iota. cbn [app].
      rewrite (split_written c w _ [45%Z] W), runes_ascii by (unfold byte; simpl; lia).
      replace (byte ".") with 46%Z by reflexivity.
      cbn [split_loop]. change (46 =? 96)%Z with false. change (46 =? 46)%Z with true. cbv iota.
      f_equal. change (split_ident (join (w' :: ws)) = map encode_runes (c' :: cs)).
      apply C43_join_split; [discriminate|now constructor]. }
  cbn [elab_value]. destruct (each_el elab_arg params (S n)) as (ps, m). unfold sym_parts. split.
  - rewrite R'. exists ps, m. reflexivity.
  - intro N. rewrite R. exists ps, m. cbn [map].
    destruct (encode_runes c) as [|a s] eqn:EC; [reflexivity|].
    destruct (Ascii.ascii_dec a "-") as [->|D].
    + exfalso. apply N.
      assert (V : Forall (fun r => valid_rune r = true) c) by now destruct W as [? [V _]|? [V _]].
      pose proof (runes_encode c "" V) as Q. rewrite str_app_nil_r, EC, runes_ascii in Q by (unfold byte; simpl; lia).
      rewrite app_nil_r in Q. now rewrite <- Q.
    + destruct a as [[] [] [] [] [] [] [] []]; try reflexivity. now contradiction D.
Qed.
Print Assumptions C64_symbol_names.

(** LET with = keeps what is on its right; with <= it evaluates it. *)
Theorem C64_let_operators n name called ps op body : op = "=" \/ op = "<=" ->
  exists ps' body', fst (elab_vql (GLet name called ps op body) n) =
    SLet (unquoted name) ps' (match op with "=" => true | _ => false end) body'.
Proof.
  intro O. unfold elab_vql. destruct (each_el elab_param ps n) as (ps', m).
  destruct body as [s|e]; [destruct (elab_select s m)|destruct (elab_and e m)];
    destruct O as [-> | ->]; eexists; eexists; reflexivity.
Qed.
Example let_operators_met : exists name called ps body name' called' ps' body',
  parse_vql "LET X = 1" = Some (GLet name called ps "=" body) /\
  parse_vql "LET X <= 1" = Some (GLet name' called' ps' "<=" body').
Proof. repeat eexists. Qed.
Example symbol_names_met : written (runes "a.b") "`a.b`" /\ written (runes "c") "c" /\ hd 0%Z (runes "a.b") <> 45%Z.
Proof.
  split; [|split; [|discriminate]].
  - change "`a.b`" with (quote_component (runes "a.b")). constructor. split; [repeat constructor|].
    vm_compute. intuition discriminate.
  - change "c" with (encode_runes (runes "c")) at 2. constructor; [split; [repeat constructor|]|]; vm_compute; intuition discriminate.
Qed.
Print Assumptions C64_let_operators.

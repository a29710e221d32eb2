(** C62 and C72 on texts: ReFormatVQL from the text of a script to the text it
    returns.

    [reformat_text o bl text] is ReFormatVQL with comments (CommentFormat.v);
    [parse_multi] is MultiParse, which drops comments before parsing. *)

From Coq Require Import ZArith List String Ascii Bool Lia.
From Verif Require Import Base F64 Text Lexer Numeral Grammar Parser Format Spelling.
From Verif Require Import LexProofs NumeralProofs FloatText ParseProofs FormatProofs FormatRuns TrimProofs RoundTrip.
From Verif Require Import ParserSound FormatProps Reformat ReformatProofs ReformatRuns ReformatTwice ReformatProps.
From Verif Require Import Comments CommentFormat CommentProofs CommentParse CommentKeep.
Import ListNotations.
Open Scope nat_scope.
Open Scope string_scope.
Open Scope list_scope.

(** ** Scripts without comments *)

(** ReFormatVQL accepts exactly what MultiParse accepts, and writes what
    [reformat] writes for the statements. *)
Theorem C62_text_without_comments_partial o bl text :
  no_comments text ->
  reformat_text o bl text = option_map (reformat o bl) (parse_multi text).
Proof.
  intro N. unfold reformat_text. rewrite parse_without_comments by exact N.
  destruct (parse_multi text) as [l|]; [|reflexivity]. cbn [option_map]. now rewrite reformat_uncommented.
Qed.

Lemma plain_no_comment ts : plains ts -> forallb (fun t => negb (is_comment t)) ts = true.
Proof.
  intro P. apply forallb_forall. intros t I. apply (proj1 (Forall_forall _ _) P) in I.
  now destruct I as (-> & _).
Qed.
Lemma reformatted_no_comments o bl text l :
  parse_multi text = Some l -> clean_script l = true -> no_comments (reformat o bl l).
Proof.
  intros P C. unfold clean_script in C. apply andb_true_iff in C as (C & F).
  unfold no_comments. rewrite (Lexes_lex _ _ (reformat_lexes o bl l (parse_multi_ok _ _ P) C F)).
  apply plain_no_comment, script_plains.
Qed.

(** The text returned parses to the same statements, and ReFormatVQL returns
    it unchanged. *)
Theorem C62_text_keeps_statements_partial o bl text l :
  no_comments text -> parse_multi text = Some l -> clean_script l = true ->
  exists text', reformat_text o bl text = Some text' /\
    parse_multi text' = Some (map nvql l) /\
    reformat_text o bl text' = Some text'.
Proof.
  intros N P C. exists (reformat o bl l).
  assert (R : parse_multi (reformat o bl l) = Some (map nvql l))
    by now apply (C62_reformat_keeps_statements_partial o bl text).
  split; [|split]; [| exact R |].
  - now rewrite C62_text_without_comments_partial, P by exact N.
  - rewrite C62_text_without_comments_partial by now apply (reformatted_no_comments o bl text).
    rewrite R. cbn [option_map]. f_equal.
    apply andb_true_iff in C as (C & _). now apply reformat_numbers.
Qed.

(** ** C72: where comments go wrong *)

Definition line (a b : string) : string := (a ++ String nl b)%string.
(** The comments of a text, in order. *)
Definition comments_in (text : string) : option (list string) :=
  option_map (fun l => map tv (filter is_comment l)) (lex text).

(** *** Comments above statements are kept *)

(** The comments of a script read as statements with the comments above each. *)
Definition comments_of (pl : noted) : list string := flat_map (fun p => map comment_text (fst p)) pl.
(** The parser of ReFormatVQL finds comments above statements only. *)
Definition comments_above (text : string) (pl : noted) : Prop :=
  parse_comments text = Some (map (fun p => (fst p, kvql_of (snd p))) pl).

Lemma tstmt_plain (pl : noted) :
  map upper_token (filter (fun t => negb (is_comment t)) (flat_map tstmt pl)) = flat_map tvql (map snd pl).
Proof.
  induction pl as [|(c, x) pl IH]; [reflexivity|]. cbn [flat_map tstmt map snd].
  rewrite !filter_app, !map_app, IH.
  assert (E : filter (fun t => negb (is_comment t)) (map (fun c => comment_token (trimmed c)) c) = []).
  { induction c as [|a c IHc]; [reflexivity|]. cbn [map filter].
    replace (is_comment (comment_token (trimmed a))) with true by now destruct a. exact IHc. }
  rewrite E. cbn [map app]. f_equal.
  pose proof (p_vql x) as P. now rewrite plains_filter, plains_upper by exact P.
Qed.
Lemma tstmt_comments (pl : noted) :
  map tv (filter is_comment (flat_map tstmt pl)) = map trim_lines (comments_of pl).
Proof.
  unfold comments_of. induction pl as [|(c, x) pl IH]; [reflexivity|]. cbn [flat_map tstmt fst].
  rewrite filter_app, filter_app, !map_app, IH. f_equal.
  assert (E : filter is_comment (tvql x) = []).
  { pose proof (plain_no_comment _ (p_vql x)) as P. induction (tvql x) as [|t ts IHt]; [reflexivity|].
    cbn [forallb] in P. apply andb_true_iff in P as (P1 & P2). cbn [filter].
    destruct (is_comment t); [discriminate P1|auto]. }
  rewrite E, app_nil_r. induction c as [|a c IHc]; [reflexivity|]. cbn [map filter].
  replace (is_comment (comment_token (trimmed a))) with true by now destruct a. cbn [map]. rewrite IHc. now destruct a.
Qed.
Lemma tstmt_upper (pl : noted) : map upper_token (flat_map tstmt pl) = flat_map tstmt pl.
Proof.
  induction pl as [|(c, x) pl IH]; [reflexivity|]. cbn [flat_map tstmt]. rewrite !map_app, IH. do 2 f_equal.
  - induction c as [|a c IHc]; [reflexivity|]. cbn [map]. rewrite IHc. now destruct a.
  - apply plains_upper, p_vql.
Qed.
Lemma tstmt_length (pl : noted) : List.length pl <= List.length (flat_map tstmt pl).
Proof.
  induction pl as [|(c, x) pl IH]; [cbn; lia|]. cbn [flat_map tstmt]. rewrite !app_length.
  destruct (vql_first x) as (t & ts & -> & _). cbn [List.length]. lia.
Qed.

(** ReFormatVQL with line breaks, for scripts whose comments stand above
    statements: the text returned parses to the same statements, has the same
    comments in the same order (but for spaces at the ends of their lines), and
    each above the same statement.

    Partial: [lists_apart] excludes scripts where a comment follows a WHERE or
    GROUP BY list with a comma (C72_valid_script_refused_refuted). *)
Theorem C72_comments_above_statements_partial o text pl :
  comments_above text pl -> parse_multi text = Some (map snd pl) ->
  clean_script (map snd pl) = true -> lists_apart pl = true ->
  exists t, reformat_text o true text = Some t /\
    parse_multi t = Some (map nvql (map snd pl)) /\
    comments_in t = Some (map trim_lines (comments_of pl)) /\
    comments_above t (map (fun p => (map trimmed (fst p), nvql (snd p))) pl).
Proof.
  intros A P C S. unfold clean_script in C. apply andb_true_iff in C as (C & F).
  pose proof (parse_multi_ok _ _ P) as K. unfold no_trailing_space in F.
  assert (FC : Forall (fun p => Forall formed (fst p)) pl).
  { apply parse_comments_formed in A. unfold above_formed in A. rewrite Forall_map in A. exact A. }
  assert (NE : pl <> []) by (intros ->; now apply parse_multi_some in P).
  pose proof (commented_lexes o pl FC K C F) as L. pose proof (Lexes_lex _ _ L) as LX.
  eexists. split; [unfold reformat_text; rewrite A; reflexivity|].
  split; [|split].
  - unfold parse_multi, tokens. rewrite LX, tstmt_plain.
    rewrite multi_parses; auto; unfold fuel_for; try lia.
    + intro E. destruct pl; [contradiction|discriminate].
    + pose proof (script_length (map snd pl)). lia.
  - unfold comments_in. rewrite LX. cbn [option_map]. now rewrite tstmt_comments.
  - unfold comments_above, parse_comments, all_tokens. rewrite LX, tstmt_upper.
    pose proof (tstmt_length pl) as TL. rewrite map_map. cbn [fst snd].
    destruct pl as [|(c, x) pl]; [contradiction|].
    rewrite stmts_parse; auto; unfold fuel_for; cbn [List.length] in TL |- *; lia.
Qed.

Lemma app_inv_len {A} (a : list A) : forall a' b b', List.length a = List.length a' -> a ++ b = a' ++ b' -> a = a' /\ b = b'.
Proof.
  induction a as [|x a IH]; intros [|y a'] b b' L E; try discriminate L; [now split|].
  injection E as -> E. injection L as L. destruct (IH a' b b' L E) as (-> & ->). now split.
Qed.
(** Reformatting it again changes nothing when no line of a comment ends in a
    space. *)
Theorem C72_comments_settle_partial o text pl :
  comments_above text pl -> parse_multi text = Some (map snd pl) ->
  clean_script (map snd pl) = true -> lists_apart pl = true ->
  map trim_lines (comments_of pl) = comments_of pl ->
  exists t, reformat_text o true text = Some t /\ reformat_text o true t = Some t.
Proof.
  intros A P C S T. destruct (C72_comments_above_statements_partial o text pl A P C S) as (t & R & _ & _ & A').
  exists t. split; [exact R|]. unfold reformat_text in *. rewrite A in R. injection R as <-. rewrite A'. f_equal.
  unfold reformat_stmts. do 2 f_equal. f_equal. rewrite map_map. cbn [fst snd].
  apply andb_true_iff in C as (C & _). clear A A' P S.
  assert (G : forall w, vall o (map (fun p => (map trimmed (fst p), kvql_of (nvql (snd p)))) pl) {| out := w; lines := true |} =
                        vall o (map (fun p => (fst p, kvql_of (snd p))) pl) {| out := w; lines := true |}); [|apply G].
  induction pl as [|(c, x) pl IH]; intro w; [reflexivity|].
  cbn [map fst snd forallb] in *. apply andb_true_iff in C as (C1 & C2).
  unfold comments_of in T. cbn [flat_map fst] in T. rewrite map_app in T.
  apply app_inv_len in T as (T1 & T2); [|now rewrite map_length].
  assert (E : map trimmed c = c).
  { clear - T1. induction c as [|a c IH]; [reflexivity|]. cbn [map] in *. injection T1 as T1 T2.
    rewrite (IH T2). f_equal. destruct a; cbn [comment_text trimmed] in *; now rewrite T1. }
  rewrite E.
  assert (LC : exists w', kcomments c {| out := w; lines := true |} = {| out := w'; lines := true |}).
  { clear. revert w. induction c as [|a c IH]; intro w; [eexists; reflexivity|].
    change (kcomments (a :: c) ?v) with (kcomments c (kcomment a v)).
    assert (X : exists w2, kcomment a {| out := w; lines := true |} = {| out := w2; lines := true |})
      by (destruct a; eexists; reflexivity).
    destruct X as (w2 & ->). apply IH. }
  destruct LC as (w' & LC).
  assert (V : forall y l, vall o ((c, kvql_of y) :: l) {| out := w; lines := true |} =
                          vall o l {| out := rline_break true (rvql o true y w'); lines := true |}).
  { intros y l. change (vall o ((c, kvql_of y) :: l) ?v) with (vall o l (kline_break (vvql o (uncommented y) (kcomments c v)))).
    rewrite LC, (w_vql o true y w'). reflexivity. }
  rewrite !V, (t_vql o true x C1). apply IH; auto.
Qed.

(** Spaces at the end of a comment count for the width of the statement below:
    reformatting the result gives another text. *)
Definition note_with_spaces : string :=
  line ("-- note" ++ blanks 80) "LET X = SELECT Name, upper(string=Name) AS U FROM pslist(a=1)".
Theorem C72_comment_spaces_settle_refuted :
  exists pl t t', comments_above note_with_spaces pl /\ parse_multi note_with_spaces = Some (map snd pl) /\
    clean_script (map snd pl) = true /\ lists_apart pl = true /\
    reformat_text default_options true note_with_spaces = Some t /\
    reformat_text default_options true t = Some t' /\ t <> t'.
Proof.
  destruct (parse_multi note_with_spaces) as [[|x l]|] eqn:E; try (vm_compute in E; discriminate).
  destruct (reformat_text default_options true note_with_spaces) as [t|] eqn:T; [|vm_compute in T; discriminate].
  destruct (reformat_text default_options true t) as [t'|] eqn:T'; [|vm_compute in T; injection T as <-; vm_compute in T'; discriminate].
  exists [([CVQL ("-- note" ++ blanks 80)], x)], t, t'. vm_compute in E. injection E as <- <-.
  vm_compute in T. injection T as <-. vm_compute in T'. injection T' as <-.
  repeat split; vm_compute; try reflexivity. discriminate.
Qed.

(** What the theorems above are about. *)
Definition noted_script : string :=
  line "/* Reads  " (line " the processes */" (line "-- twice" (line "LET X = SELECT Name FROM pslist(a=1)"
  (line "// All" (line "SELECT * FROM X WHERE a AND b" "SELECT f(x=1) FROM X GROUP BY a, b"))))).
Example noted_script_meets :
  match parse_multi noted_script with
  | Some [x; y; z] =>
      let pl := [([CMulti (line "/* Reads  " " the processes */"); CVQL "-- twice"], x); ([CLine "// All"], y); ([], z)] in
      comments_above noted_script pl /\ clean_script (map snd pl) = true /\ lists_apart pl = true /\
      comments_in noted_script = Some (comments_of pl) /\
      option_map comments_in (reformat_text default_options true noted_script) =
        Some (Some [line "/* Reads" " the processes */"; "-- twice"; "// All"])
  | _ => False
  end.
Proof. vm_compute. repeat split. Qed.

(** A comment in the middle of an expression is written without the line feed
    after it: it swallows the code that follows, here the rest of the column
    ([a + c] is left). *)
Definition note_in_sum : string := line "SELECT a + -- note" "b AS X, c FROM d()".
Theorem C72_comment_swallows_code_refuted :
  exists l t l', parse_multi note_in_sum = Some l /\ clean_script l = true /\
    reformat_text default_options true note_in_sum = Some t /\
    parse_multi t = Some l' /\ l' <> map nvql l.
Proof.
  destruct (parse_multi note_in_sum) as [l|] eqn:E; [|vm_compute in E; discriminate].
  destruct (reformat_text default_options true note_in_sum) as [t|] eqn:T; [|vm_compute in T; discriminate].
  destruct (parse_multi t) as [l'|] eqn:E'; [|vm_compute in T; injection T as <-; vm_compute in E'; discriminate].
  exists l, t, l'. vm_compute in E. injection E as <-. vm_compute in T. injection T as <-.
  vm_compute in E'. injection E' as <-. repeat split; vm_compute; try reflexivity. discriminate.
Qed.

(** A comment between the name and the arguments of a call inside a list makes
    the parser of ReFormatVQL drop the name: another script is returned. *)
Definition note_in_call : string := line "SELECT (1, f -- note" "(a=1)) AS X FROM d()".
Theorem C72_comment_changes_call_refuted :
  exists l t l', parse_multi note_in_call = Some l /\ clean_script l = true /\
    reformat_text default_options true note_in_call = Some t /\
    parse_multi t = Some l' /\ l' <> map nvql l.
Proof.
  destruct (parse_multi note_in_call) as [l|] eqn:E; [|vm_compute in E; discriminate].
  destruct (reformat_text default_options true note_in_call) as [t|] eqn:T; [|vm_compute in T; discriminate].
  destruct (parse_multi t) as [l'|] eqn:E'; [|vm_compute in T; injection T as <-; vm_compute in E'; discriminate].
  exists l, t, l'. vm_compute in E. injection E as <-. vm_compute in T. injection T as <-.
  vm_compute in E'. injection E' as <-. repeat split; vm_compute; try reflexivity. discriminate.
Qed.

(** The second of two comments after WHERE is lost. *)
Definition two_notes : string := line "SELECT * FROM info() WHERE -- one" (line "-- two" "a AND b").
Theorem C72_comment_lost_refuted :
  exists l t, parse_multi two_notes = Some l /\ clean_script l = true /\
    reformat_text default_options true two_notes = Some t /\
    comments_in two_notes = Some ["-- one"; "-- two"] /\ comments_in t = Some ["-- one"].
Proof.
  destruct (parse_multi two_notes) as [l|] eqn:E; [|vm_compute in E; discriminate].
  destruct (reformat_text default_options true two_notes) as [t|] eqn:T; [|vm_compute in T; discriminate].
  exists l, t. vm_compute in E. injection E as <-. vm_compute in T. injection T as <-.
  repeat split; vm_compute; reflexivity.
Qed.

(** A comment below the last statement is lost. *)
Definition note_at_end : string := line "SELECT * FROM info()" "-- end".
Theorem C72_last_comment_lost_refuted :
  exists l t, parse_multi note_at_end = Some l /\ clean_script l = true /\
    reformat_text default_options true note_at_end = Some t /\
    comments_in note_at_end = Some ["-- end"] /\ comments_in t = Some [].
Proof.
  destruct (parse_multi note_at_end) as [l|] eqn:E; [|vm_compute in E; discriminate].
  destruct (reformat_text default_options true note_at_end) as [t|] eqn:T; [|vm_compute in T; discriminate].
  exists l, t. vm_compute in E. injection E as <-. vm_compute in T. injection T as <-.
  repeat split; vm_compute; reflexivity.
Qed.

(** ReFormatVQL refuses scripts that Parse, MultiParse and so every evaluation
    accept: two comments above an expression, one before WHERE, one before
    AS, two after a list with a comma. *)
Theorem C72_valid_script_refused_refuted :
  Forall (fun text => exists l, parse_multi text = Some l /\ clean_script l = true /\
                                forall o bl, reformat_text o bl text = None)
    [line "LET X = -- one" (line "-- two" "a"); line "SELECT * FROM info() -- where" "WHERE a";
     "SELECT a /* x */ AS B FROM info()";
     line "SELECT * FROM info() GROUP BY a, b" (line "-- one" (line "-- two" "SELECT * FROM info()"))].
Proof.
  assert (W : forall text, match parse_multi text with Some l => clean_script l | None => false end = true ->
     parse_comments text = None -> exists l, parse_multi text = Some l /\ clean_script l = true /\
       forall o bl, reformat_text o bl text = None).
  { intros text P N. destruct (parse_multi text) as [l|]; [|discriminate]. exists l.
    split; [reflexivity|]. split; [exact P|]. intros o bl. unfold reformat_text. now rewrite N. }
  repeat constructor; apply W; vm_compute; reflexivity.
Qed.

(** Without line breaks a comment above a statement swallows the statement. *)
Definition note_above : string := line "-- about" "SELECT * FROM info()".
Theorem C72_comment_without_breaks_refuted :
  exists l t, parse_multi note_above = Some l /\ clean_script l = true /\
    reformat_text default_options false note_above = Some t /\ parse_multi t = None.
Proof.
  destruct (parse_multi note_above) as [l|] eqn:E; [|vm_compute in E; discriminate].
  destruct (reformat_text default_options false note_above) as [t|] eqn:T; [|vm_compute in T; discriminate].
  exists l, t. vm_compute in E. injection E as <-. vm_compute in T. injection T as <-.
  repeat split; vm_compute; reflexivity.
Qed.

(** ** Examples *)

Example script_without_comments :
  no_comments script /\
  match reformat_text default_options true script with
  | Some t => Nat.ltb 10 (List.length (split_lines t))
  | None => false
  end = true.
Proof. split; vm_compute; reflexivity. Qed.

Print Assumptions C62_text_without_comments_partial.
Print Assumptions C62_text_keeps_statements_partial.
Print Assumptions C72_comments_above_statements_partial.
Print Assumptions C72_comments_settle_partial.
Print Assumptions C72_comment_spaces_settle_refuted.
Print Assumptions C72_comment_swallows_code_refuted.
Print Assumptions C72_comment_changes_call_refuted.
Print Assumptions C72_comment_lost_refuted.
Print Assumptions C72_last_comment_lost_refuted.
Print Assumptions C72_valid_script_refused_refuted.
Print Assumptions C72_comment_without_breaks_refuted.

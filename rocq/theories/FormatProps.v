(** C49: what FormatToString writes parses back.

    [parse_vql] is Parse of a whole statement, [format_vql] FormatToString of
    it.  [nvql x] (Spelling.v) is x with every number literal replaced by the
    text its value prints as; nothing else differs, and the value of a number
    is kept ([clean_number]).  [clean_vql] excludes, by name, what the
    formatter gets wrong; each exclusion is a refutation below. *)

From Coq Require Import ZArith List String Ascii Bool Lia.
From Verif Require Import Base F64 Text Lexer Numeral Grammar Parser Format Spelling.
From Verif Require Import LexProofs NumeralProofs FloatText ParseProofs FormatProofs FormatRuns TrimProofs RoundTrip ParserSound.
Import ListNotations.
Open Scope nat_scope.
Open Scope string_scope.
Open Scope list_scope.

(** ** The round trip *)

Lemma reparse x : ok_vql x -> clean_vql x = true -> parse_vql (format_vql x) = Some (nvql x).
Proof.
  intros K C. unfold parse_vql. rewrite (vql_lexes x K C).
  pose proof (vql_parses (fuel_for (tvql x)) x [] K C) as P. rewrite app_nil_r in P.
  rewrite P; [reflexivity|unfold fuel_for; lia|exact I].
Qed.

(** Partial: not for statements [clean_vql] excludes. *)
Theorem C49_statement_round_trip_partial text x :
  parse_vql text = Some x -> clean_vql x = true ->
  parse_vql (format_vql x) = Some (nvql x).
Proof. intros P C. apply reparse; [now apply (parse_vql_ok text)|exact C]. Qed.

(** An expression alone: FormatToString of the expression of a LET, put in any
    LET again, is that expression. *)
Definition define (name body : string) : string := ("LET " ++ name ++ " = " ++ body)%string.

Lemma lexes_define name body ts :
  ok_ident name -> Lexes body ts ->
  Lexes (define name body) (Tok T_LET "LET" :: tident name :: op "=" :: ts).
Proof.
  intros K L. unfold define.
  assert (W : loose "LET " [Tok T_LET "LET"]) by word "LET".
  apply (W _ (tident name :: op "=" :: ts)).
  apply reads_lexes; [exact K|reflexivity|].
  cbn [String.append]. apply Lexes_space.
  apply LTok with (r := String " " body); [reflexivity|cbn; lia|now apply Lexes_space].
Qed.
Theorem C49_expression_round_trip_partial text name called ps o e name' :
  parse_vql text = Some (GLet name called ps o (inr e)) -> clean_and e = true -> ok_ident name' ->
  parse_vql (define name' (format_expr e)) = Some (GLet name' false [] "=" (inr (nand e))).
Proof.
  intros P C N. apply parse_vql_ok in P. cbn [ok_vql] in P. destruct P as (_ & _ & _ & _ & K).
  set (x := GLet name' false [] "=" (inr e)).
  assert (KX : ok_vql x) by (cbn; auto 10).
  assert (CX : clean_vql x = true) by (cbn; exact C).
  assert (T : tokens (define name' (format_expr e)) = Some (tvql x)).
  { assert (R : run Pending (fand e) (tand e) Broken) by now apply and_expr_runs.
    destruct (R visitor0 "" []) as (w & E & H).
    { intros r rs _ L. exact L. }
    cbn [visitor0 out String.append] in E. destruct H as (SP & _).
    specialize (SP "" [] eq_refl LNil). rewrite sapp_nil_r, app_nil_r in SP. cbn [String.append app] in SP.
    assert (L : Lexes (format_expr e) (tand e)).
    { unfold format_expr, format_with. rewrite E. apply Lexes_trim; [exact SP|apply plains_forallb, p_and]. }
    unfold tokens. rewrite (Lexes_lex _ _ (lexes_define name' _ _ N L)).
    pose proof (p_vql x) as PX. change (Tok T_LET "LET" :: tident name' :: op "=" :: tand e) with (tvql x).
    now rewrite plains_filter, plains_upper. }
  unfold parse_vql. rewrite T.
  pose proof (vql_parses (fuel_for (tvql x)) x [] KX CX) as Q. rewrite app_nil_r in Q.
  rewrite Q; [reflexivity|unfold fuel_for; lia|exact I].
Qed.

(** The numbers keep their values. *)
Theorem C49_number_value s : number_value s <> NBad -> number_value (fnumber s) = number_value s.
Proof. intro H. apply number_kept. unfold clean_number. now destruct (number_value s). Qed.

(** ** The hypotheses hold of real statements *)

Definition sample : string :=
  "select *, -a.`b c`(x=1, y={ select A from info() }, z=[1,]) as Q, 0x1F + 2.50 * (b || c[1:2].d) from plug.q(a=1) where not A =~ 'x y' and B in (1,2) group by a, b order by Q desc limit 010".
Example sample_parses_clean :
  match parse_vql sample with Some x => clean_vql x | None => false end = true.
Proof. vm_compute. reflexivity. Qed.
Example sample_formats :
  match parse_vql sample with Some x => format_vql x | None => "" end =
  "SELECT *, -a.`b c`(x=1, y={ SELECT A FROM info() }, z=[1, ]) AS Q, 31 + 2.5 * (b || c[1:2].d) FROM plug.q(a=1) WHERE NOT A =~ 'x y'  and B IN (1, 2) GROUP BY a, b ORDER BY Q DESC LIMIT 8".
Proof. vm_compute. reflexivity. Qed.
Example let_sample_clean :
  match parse_vql "LET F(a, b=3, c={ SELECT * FROM x }) <= SELECT F(a=1) FROM F(b=2)" with
  | Some x => clean_vql x | None => false end = true.
Proof. vm_compute. reflexivity. Qed.

(** ** What FormatToString gets wrong

    The full statement - for every text the parser accepts - is false.  Each
    theorem has a text that is accepted, and what becomes of it. *)

Definition reformatted (text : string) : option (string * option gvql) :=
  match parse_vql text with
  | Some x => Some (format_vql x, parse_vql (format_vql x))
  | None => None
  end.

(** An index without a value is written as a dot, which does not parse. *)
Theorem C49_empty_index_refuted : exists text x,
  parse_vql text = Some x /\ format_vql x = "LET X = x." /\ parse_vql (format_vql x) = None.
Proof. exists "LET X = x[]". eexists. repeat split; vm_compute; reflexivity. Qed.
(** A number out of range is written as FALSE. *)
Theorem C49_bad_number_refuted : exists text x y,
  parse_vql text = Some x /\ format_vql x = "LET X = FALSE" /\
  parse_vql (format_vql x) = Some y /\ nvql x <> y.
Proof.
  exists "LET X = 0xffffffffffffffff". do 2 eexists. repeat split; try (vm_compute; reflexivity).
  vm_compute. discriminate.
Qed.
(** The alias of a star is lost. *)
Theorem C49_star_alias_refuted : exists text x y,
  parse_vql text = Some x /\ format_vql x = "SELECT a, * FROM b" /\
  parse_vql (format_vql x) = Some y /\ x <> y.
Proof.
  exists "SELECT a, * AS X FROM b". do 2 eexists. repeat split; try (vm_compute; reflexivity).
  vm_compute. discriminate.
Qed.
(** A function without parameters becomes a plain definition. *)
Theorem C49_empty_parameters_refuted : exists text x y,
  parse_vql text = Some x /\ format_vql x = "LET X = a" /\
  parse_vql (format_vql x) = Some y /\ x <> y.
Proof.
  exists "LET X() = a". do 2 eexists. repeat split; try (vm_compute; reflexivity).
  vm_compute. discriminate.
Qed.
(** A parameter loses its quotes. *)
Theorem C49_quoted_parameter_refuted : exists text x,
  parse_vql text = Some x /\ format_vql x = "LET X(a b) = 1" /\ parse_vql (format_vql x) = None.
Proof. exists "LET X(`a b`) = 1". eexists. repeat split; vm_compute; reflexivity. Qed.
(** Of two parameters with one name the last default is written twice. *)
Theorem C49_repeated_parameter_refuted : exists text x y,
  parse_vql text = Some x /\ format_vql x = "LET X(a=2, a=2) = a" /\
  parse_vql (format_vql x) = Some y /\ x <> y.
Proof.
  exists "LET X(a=1, a=2) = a". do 2 eexists. repeat split; try (vm_compute; reflexivity).
  vm_compute. discriminate.
Qed.

(** What is in the text but not in the tree is lost before formatting: of
    repeated comparisons the parser keeps the last, and so with two values in
    an index or in a list without a comma between. *)
Theorem parser_drops_operands :
  parse_vql "LET X = 1 = 2 = 3" = parse_vql "LET X = 1 = 3" /\
  parse_vql "LET X = a[1 2:3 4]" = parse_vql "LET X = a[2:4]" /\
  parse_vql "LET X = (1, 2 3)" = parse_vql "LET X = (1, 3)" /\
  parse_vql "LET X = 1 = 3" <> None /\ parse_vql "LET X = a[2:4]" <> None /\ parse_vql "LET X = (1, 3)" <> None.
Proof. repeat split; try (vm_compute; reflexivity); vm_compute; discriminate. Qed.

Print Assumptions C49_statement_round_trip_partial.
Print Assumptions C49_expression_round_trip_partial.

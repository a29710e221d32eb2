(** The grammar of VQL as the source writes it: the struct tags of
    vfilter.go:325-1048, copied, the notation that participle v2 reads them in,
    and what a grammar in that notation accepts.  participle is not part of
    /repo: the notation (grammar.go) and its meaning (nodes.go, context.go) are
    from its documentation and sources.  Nothing here uses the parser of
    Parser.v; GrammarTextProps.v shows that the two accept the same texts. *)

From Coq Require Import ZArith List String Ascii Bool.
From Verif Require Import Base Lexer Numeral.
Import ListNotations.
Open Scope nat_scope.
Open Scope string_scope.
Open Scope list_scope.

(** ** The tags *)

(** A field of a struct of vfilter.go:325-1048: its name, its type, its tag. *)
Definition field : Type := (string * string * string)%type.

(** Every struct of the grammar with its tagged fields in order, copied.
    vfilter.go:325-330 MultiVQL, 349-361 _Comment and LetParameter, 364-394 VQL
    and _ParameterList, 583-597 _Select, 772-825 _From to _AliasedExpression,
    899-1048 _AdditionExpression to _Value, lambda.go:17-21 Lambda. *)
Definition vql_structs : list (string * list field) :=
  [
  (* 325-330 *)
   ("MultiVQL",
    [("Comments", "[]*_Comment", "{ @@ } ");
     ("VQL1", "*VQL", " @@ ");
     ("Comments2", "[]*_Comment", "{ @@ } ");
     ("VQL2", "*MultiVQL", " { @@ } ")]);
  (* 349-353 *)
   ("_Comment",
    [("VQLComment", "*string", "( @VQLComment | ");
     ("Comment", "*string", "@Comment | ");
     ("MultiLine", "*string", "@MLineComment )")]);
  (* 355-361 *)
   ("LetParameter",
    [("DefaultArg", "*_Args", " (  @@ | ");
     ("Name", "*string", " @Ident )")]);
  (* 364-383 *)
   ("VQL",
    [("Let", "string", "LET  @Ident ");
     ("Called", "string", " [ @""("" ");
     ("LetParameters", "[]*LetParameter", " [ @@ { "","" @@ } ] "")"" ] ");
     ("LetOperator", "string", " ( @""="" | @""<="" ) ");
     ("StoredQuery", "*_Select", " ( @@ |  ");
     ("Expression", "*_AndExpression", " @@ ) |");
     ("Query", "*_Select", " @@  ")]);
  (* 385-389 *)
   ("_ParameterList",
    [("Comments", "[]*_Comment", " [ @@ ] ");
     ("Left", "string", " @Ident ");
     ("Right", "*_ParameterListTerm", "{ @@ }")]);
  (* 391-394 *)
   ("_ParameterListTerm",
    [("Operator", "string", "@"",""");
     ("Term", "*_ParameterList", " @@ ")]);
  (* 583-597 *)
   ("_Select",
    [("Comments", "[]*_Comment", " { @@ } ");
     ("Explain", "*bool", " { @EXPLAIN }");
     ("SelectExpression", "*_SelectExpression", "SELECT @@");
     ("From", "*_From", "FROM @@");
     ("Where", "*_CommaExpression", "[ WHERE @@ ]");
     ("GroupBy", "*_CommaExpression", "[ GROUPBY @@ ]");
     ("OrderBy", "*string", "[ ORDERBY @Ident ");
     ("OrderByDesc", "*bool", " [ @DESC ] ]");
     ("Limit", "*int64", "[ LIMIT @Number ]")]);
  (* 772-774 *)
   ("_From",
    [("Plugin", "Plugin", " @@ ")]);
  (* 776-788 *)
   ("Plugin",
    [("Name", "string", "@Ident { @""."" @Ident } ");
     ("Call", "bool", "[ @""(""");
     ("Args", "[]*_Args", " [ @@  { "","" @@ } ] "")"" ]")]);
  (* 790-802 *)
   ("_Args",
    [("Comments", "[]*_Comment", "[ @@ ] ");
     ("Left", "string", "@Ident ""="" ");
     ("SubSelect", "*_Select", "( ""{"" @@ ""}"" | ");
     ("ArrayOpenBrace", "string", " @""["" ");
     ("Array", "*_CommaExpression", " @@? ");
     ("ArrayCloseBrace", "string", "@""]"" | ");
     ("Right", "*_AndExpression", " @@ ) ")]);
  (* 804-807 *)
   ("_SelectExpression",
    [("All", "bool", " [ @""*"" "",""? ] ");
     ("Expressions", "[]*_AliasedExpression", " [ @@ { "","" @@ } ]")]);
  (* 809-825 *)
   ("_AliasedExpression",
    [("Comments", "[]*_Comment", " { @@ } ");
     ("Star", "*bool", " ( @""*"" | ");
     ("SubSelect", "*_Select", " ""{"" @@ ""}"" |");
     ("Expression", "*_AndExpression", " @@ )");
     ("As", "string", "[ AS @Ident ]")]);
  (* 899-903 *)
   ("_AdditionExpression",
    [("Comments", "[]*_Comment", " [ @@ ] ");
     ("Left", "*_MultiplicationExpression", "@@");
     ("Right", "[]*_OpAddTerm", "{ @@ }")]);
  (* 905-908 *)
   ("_OpAddTerm",
    [("Operator", "string", "@(""+"" | ""-"")");
     ("Term", "*_MultiplicationExpression", "@@")]);
  (* 911-915 *)
   ("_MultiplicationExpression",
    [("Comments", "[]*_Comment", " [ @@ ] ");
     ("Left", "*_MemberExpression", "@@");
     ("Right", "[]*_OpFactor", "{ @@ }")]);
  (* 917-920 *)
   ("_OpFactor",
    [("Operator", "string", "@(""*"" | ""/"")");
     ("Factor", "*_Value", "@@")]);
  (* 924-932 *)
   ("_MemberExpression",
    [("Comments", "[]*_Comment", " [ @@ ] ");
     ("Left", "*_Value", "@@");
     ("Right", "[]*_OpMembershipTerm", "[{ @@ }] ")]);
  (* 934-939 *)
   ("_OpMembershipTerm",
    [("Index", "*_Value", " ( ""["" {@@} ");
     ("Range", "*string", " { @"":"" }");
     ("RangeEnd", "*_Value", " { @@ } ""]"" |");
     ("Term", "*string", "  ""."" @Ident )")]);
  (* 953-957 *)
   ("_CommaExpression",
    [("Comments", "[]*_Comment", " [ @@ ] ");
     ("Left", "*_AndExpression", "@@");
     ("Right", "[]*_OpArrayTerm", "{ @@ }")]);
  (* 959-964 *)
   ("_OpArrayTerm",
    [("Comments", "[]*_Comment", " [ @@ ] ");
     ("Operator", "string", "@"",""");
     ("Comment2", "[]*_Comment", " [ @@ ] ");
     ("Term", "*_AndExpression", "{ @@ }")]);
  (* 967-975 *)
   ("_AndExpression",
    [("Comments", "[]*_Comment", " [ @@ ] ");
     ("Left", "*_OrExpression", "( @@ ");
     ("Right", "[]*_OpAndTerm", "{ @@ })")]);
  (* 977-980 *)
   ("_OpAndTerm",
    [("Operator", "string", " ( @AND | @AlternativeAND ) ");
     ("Term", "*_OrExpression", "@@")]);
  (* 983-987 *)
   ("_OrExpression",
    [("Comments", "[]*_Comment", " [ @@ ] ");
     ("Left", "*_ConditionOperand", "@@");
     ("Right", "[]*_OpOrTerm", "{ @@ }")]);
  (* 989-992 *)
   ("_OpOrTerm",
    [("Operator", "string", " (@OR | @AlternativeOR) ");
     ("Term", "*_ConditionOperand", "@@")]);
  (* 995-1000 *)
   ("_ConditionOperand",
    [("Comments", "[]*_Comment", " [ @@ ] ");
     ("Not", "*_ConditionOperand", "(NOT @@ | ");
     ("Left", "*_AdditionExpression", "@@)");
     ("Right", "*_OpComparison", "{ @@ }")]);
  (* 1002-1005 *)
   ("_OpComparison",
    [("Operator", "string", "@( ""<>"" | ""<="" | "">="" | ""="" | ""<"" | "">"" | ""!="" | IN | ""=~"")");
     ("Right", "*_AdditionExpression", "@@")]);
  (* 1007-1013 *)
   ("_Term",
    [("Comments", "[]*_Comment", " [ @@ ] ");
     ("Select", "*_Select", "| @@");
     ("SymbolRef", "*_SymbolRef", "| @@");
     ("Value", "*_Value", "| @@");
     ("SubExpression", "*_CommaExpression", "| ""("" @@ "")""")]);
  (* 1015-1029 *)
   ("_SymbolRef",
    [("Comments", "[]*_Comment", " [ @@ ] ");
     ("Symbol", "string", "(@SymbolIdent | @Ident) { @""."" @Ident }");
     ("Called", "bool", "{ @""("" ");
     ("Parameters", "[]*_Args", " [ @@ { "","" @@ } ] "")"" } ")]);
  (* 1031-1048 *)
   ("_Value",
    [("Comments", "[]*_Comment", " [ @@ ] ");
     ("SymbolRef", "*_SymbolRef", "( @@ ");
     ("Subexpression", "*_CommaExpression", "| ""("" @@ "")""");
     ("String", "*string", " | @( MultilineString | String ) ");
     ("StrNumber", "*string", " | @Number");
     ("Boolean", "*string", " | @BOOL ");
     ("Null", "bool", " | @NULL)")]);
  (* lambda.go:17-21 *)
   ("Lambda",
    [("Parameters", "*_ParameterList", " @@ ");
     ("LetOperator", "string", " @""=>"" ");
     ("Expression", "*_AndExpression", " @@ ")])
  ].

(** ** The notation *)

(** A piece of a tag of vfilter.go:325-1048. *)
Inductive piece : Type :=
| PAt                    (* @ *)
| PName (s : string)     (* a type of token *)
| PQuoted (s : string)   (* a literal *)
| PMark (c : ascii).     (* one of [ ] { } ( ) | ? *)

(** No counterpart in /repo: letters of a name in a tag. *)
Definition tag_letter (c : ascii) : bool :=
  let n := nat_of_ascii c in
  ((65 <=? n) && (n <=? 90) || (97 <=? n) && (n <=? 122))%nat%bool.

(** No counterpart in /repo: the letters in front. *)
Fixpoint tag_word (s : string) : string * string :=
  match s with
  | String c r => if tag_letter c then let (w, t) := tag_word r in (String c w, t) else (EmptyString, s)
  | EmptyString => (EmptyString, EmptyString)
  end.
(** No counterpart in /repo: up to the closing quote. *)
Fixpoint tag_quoted (s : string) : option (string * string) :=
  match s with
  | String c r =>
      if Ascii.eqb c """" then Some (EmptyString, r)
      else match tag_quoted r with Some (w, t) => Some (String c w, t) | None => None end
  | EmptyString => None
  end.
(** participle's scanner of tags, as the tags of vfilter.go:325-1048 need it. *)
Fixpoint pieces (fuel : nat) (s : string) : option (list piece) :=
  match fuel, s with
  | O, _ => None
  | _, EmptyString => Some []
  | S f, String c r =>
      if Ascii.eqb c " " then pieces f r
      else if Ascii.eqb c "@" then option_map (cons PAt) (pieces f r)
      else if Ascii.eqb c """" then
        match tag_quoted r with
        | Some (w, t) => option_map (cons (PQuoted w)) (pieces f t)
        | None => None
        end
      else if tag_letter c then let (w, t) := tag_word s in option_map (cons (PName w)) (pieces f t)
      else option_map (cons (PMark c)) (pieces f r)
  end.

(** No counterpart in /repo: a grammar, as participle builds it from the tags of
    vfilter.go:325-1048. *)
Inductive node : Type :=
| NToken (t : ttype)       (* a token of a type *)
| NText (v : string)       (* a token with a text *)
| NInt64 (t : ttype)       (* a token of a type captured into an int64 *)
| NStruct (s : string)     (* what the struct says *)
| NKeep (f : string) (n : node)  (* @: what n reads goes into the field *)
| NMaybe (n : node)        (* [ n ], n? *)
| NMany (n : node)         (* { n } *)
| NAll (l : list node)     (* one after the other *)
| NAny (l : list node).    (* the first that matches *)

(** The names of the types of token. vfilter.go:149-178 *)
Definition token_names : list (string * ttype) :=
  [("MLineComment", T_MLineComment); ("VQLComment", T_VQLComment); ("Comment", T_Comment);
   ("EXPLAIN", T_EXPLAIN); ("SELECT", T_SELECT); ("WHERE", T_WHERE); ("AND", T_AND); ("OR", T_OR);
   ("AlternativeOR", T_AlternativeOR); ("AlternativeAND", T_AlternativeAND); ("FROM", T_FROM);
   ("NOT", T_NOT); ("AS", T_AS); ("IN", T_IN); ("LIMIT", T_LIMIT); ("NULL", T_NULL); ("DESC", T_DESC);
   ("GROUPBY", T_GROUPBY); ("ORDERBY", T_ORDERBY); ("BOOL", T_BOOL); ("LET", T_LET);
   ("Number", T_Number); ("Ident", T_Ident); ("SymbolIdent", T_SymbolIdent);
   ("Operators", T_Operators); ("MultilineString", T_MultilineString); ("String", T_String)].
(** No counterpart in /repo: the entry of a table. *)
Fixpoint entry {A} (k : string) (l : list (string * A)) : option A :=
  match l with
  | [] => None
  | (n, a) :: r => if String.eqb n k then Some a else entry k r
  end.

(** No counterpart in /repo: the struct that a field holds: the type without *
    and []. *)
Fixpoint base_type (s : string) : string :=
  match s with
  | String c r => if (Ascii.eqb c "*" || Ascii.eqb c "[" || Ascii.eqb c "]")%bool then base_type r else s
  | EmptyString => s
  end.

(** participle's grammar.go: parseDisjunction, parseSequence, parseTerm,
    parseCapture, parseOptional, parseRepetition, parseGroup.  The pieces with
    the name and the type of their field (vfilter.go:325-1048). *)
Definition tagged : Type := list (piece * (string * string)).
(** No counterpart in /repo: participle leaves out a choice of one. *)
Definition any_of (l : list node) : node := match l with [n] => n | _ => NAny l end.
(** No counterpart in /repo: participle leaves out a sequence of one. *)
Definition all_of (l : list node) : node := match l with [n] => n | _ => NAll l end.
(** What a name is when it is captured into a field of a type; the one int64 is
    Limit of vfilter.go:583-597 _Select. *)
Definition captured (ty : string) (n : node) : node :=
  match n with
  | NToken t => if String.eqb ty "*int64" then NInt64 t else n
  | _ => n
  end.

(** No counterpart in /repo: alternatives, sequences and terms of a tag. *)
Fixpoint read_any (fuel : nat) (l : tagged) {struct fuel} : option (list node * tagged) :=
  match fuel with
  | O => None
  | S f =>
      match read_all f l with
      | Some (ns, (PMark "|", _) :: r) =>
          match read_any f r with
          | Some (others, r') => Some (all_of ns :: others, r')
          | None => None
          end
      | Some (ns, r) => Some ([all_of ns], r)
      | None => None
      end
  end
with read_all (fuel : nat) (l : tagged) {struct fuel} : option (list node * tagged) :=
  match fuel with
  | O => None
  | S f =>
      match l with
      | [] | (PMark ("|" | "]" | "}" | ")"), _) :: _ => Some ([], l)
      | _ =>
          match read_term f l with
          | Some (n, r) =>
              let (n, r) := match r with (PMark "?", _) :: r' => (NMaybe n, r') | _ => (n, r) end in
              match read_all f r with
              | Some (ns, r') => Some (n :: ns, r')
              | None => None
              end
          | None => None
          end
      end
  end
with read_term (fuel : nat) (l : tagged) {struct fuel} : option (node * tagged) :=
  match fuel with
  | O => None
  | S f =>
      match l with
      | (PAt, _) :: (PAt, (f, ty)) :: r => Some (NKeep f (NStruct (base_type ty)), r)
      | (PAt, (f0, ty)) :: r =>
          match read_term f r with
          | Some (n, r') => Some (NKeep f0 (captured ty n), r')
          | None => None
          end
      | (PName s, _) :: r => option_map (fun t => (NToken t, r)) (entry s token_names)
      | (PQuoted v, _) :: r => Some (NText v, r)
      | (PMark "(", _) :: r =>
          match read_any f r with
          | Some (ns, (PMark ")", _) :: r') => Some (any_of ns, r')
          | _ => None
          end
      | (PMark "[", _) :: r =>
          match read_any f r with
          | Some (ns, (PMark "]", _) :: r') => Some (NMaybe (any_of ns), r')
          | _ => None
          end
      | (PMark "{", _) :: r =>
          match read_any f r with
          | Some (ns, (PMark "}", _) :: r') => Some (NMany (any_of ns), r')
          | _ => None
          end
      | _ => None
      end
  end.

(** The tags of the fields of a struct of vfilter.go:325-1048, one after the
    other. *)
Fixpoint tags_of (fs : list field) : option tagged :=
  match fs with
  | [] => Some []
  | (name, ty, tag) :: r =>
      match pieces (S (String.length tag)) tag, tags_of r with
      | Some p, Some q => Some (map (fun x => (x, (name, ty))) p ++ q)
      | _, _ => None
      end
  end.

(** The grammar that the tags of a struct of vfilter.go:325-1048 write. *)
Definition grammar_of (s : string) : option node :=
  match entry s vql_structs with
  | Some fs =>
      match tags_of fs with
      | Some l =>
          match read_any (3 * S (List.length l)) l with
          | Some (ns, []) => Some (any_of ns)
          | _ => None
          end
      | None => None
      end
  | None => None
  end.

(** ** What a grammar accepts *)

(** No counterpart in /repo: read up to here, or failed with the cursor here. *)
Inductive outcome : Type :=
| Took (rest : list token)
| Missed (at_ : list token).

(** More than one token (participle's default lookahead) further: the failure
    is final. participle's context.Stop, as built in vfilter.go:180-212. *)
Definition committed (start at_ : list token) : Prop := List.length at_ + 1 < List.length start.

(** participle's nodes.go on the tokens of a text, as the parsers of
    vfilter.go:192-209 use it. *)
Inductive reads : node -> list token -> outcome -> Prop :=
| R_token t x r : tt x = t -> reads (NToken t) (x :: r) (Took r)
| R_no_token t ts : (forall x r, ts = x :: r -> tt x <> t) -> reads (NToken t) ts (Missed ts)
| R_text x r : reads (NText (tv x)) (x :: r) (Took r)
| R_no_text v ts : (forall x r, ts = x :: r -> tv x <> v) -> reads (NText v) ts (Missed ts)
| R_int64 t x r z : tt x = t -> parse_int (tv x) = Some z -> reads (NInt64 t) (x :: r) (Took r)
| R_not_int64 t x r : tt x = t -> parse_int (tv x) = None -> reads (NInt64 t) (x :: r) (Missed r)
| R_no_number t ts : (forall x r, ts = x :: r -> tt x <> t) -> reads (NInt64 t) ts (Missed ts)
| R_struct s n ts o : grammar_of s = Some n -> reads n ts o -> reads (NStruct s) ts o
| R_keep f n ts o : reads n ts o -> reads (NKeep f n) ts o
| R_maybe n ts r : reads n ts (Took r) -> reads (NMaybe n) ts (Took r)
| R_maybe_not n ts r : reads n ts (Missed r) -> ~ committed ts r -> reads (NMaybe n) ts (Took ts)
| R_maybe_fails n ts r : reads n ts (Missed r) -> committed ts r -> reads (NMaybe n) ts (Missed r)
| R_more n ts r o : reads n ts (Took r) -> reads (NMany n) r o -> reads (NMany n) ts o
| R_no_more n ts r : reads n ts (Missed r) -> ~ committed ts r -> reads (NMany n) ts (Took ts)
| R_many_fails n ts r : reads n ts (Missed r) -> committed ts r -> reads (NMany n) ts (Missed r)
| R_all_done ts : reads (NAll []) ts (Took ts)
| R_all n l ts r o : reads n ts (Took r) -> reads (NAll l) r o -> reads (NAll (n :: l)) ts o
| R_all_fails n l ts r : reads n ts (Missed r) -> reads (NAll (n :: l)) ts (Missed r)
| R_none ts : reads (NAny []) ts (Missed ts)
| R_this n l ts r : reads n ts (Took r) -> reads (NAny (n :: l)) ts (Took r)
| R_other n l ts r o : reads n ts (Missed r) -> ~ committed ts r -> reads (NAny l) ts o -> reads (NAny (n :: l)) ts o
| R_any_fails n l ts r : reads n ts (Missed r) -> committed ts r -> reads (NAny (n :: l)) ts (Missed r).

(** The parser of VQL.  participle v2 interprets the struct tags of
    vfilter.go; the dependency is not part of /repo.  Modelled here, from its
    documentation and sources (nodes.go: sequence, disjunction, group,
    capture; context.go: Stop):

    - alternatives are tried in order, each from the same place;
    - a group that may repeat goes on while its body matches;
    - a failure inside an alternative or a group counts as "does not match"
      unless it came more than one token (the default lookahead) further,
      then the whole parse fails;
    - a field captured more than once keeps the last struct, strings are
      concatenated, slices are appended;
    - a literal in quotes matches a token of any type with that text. *)

From Coq Require Import ZArith List String Ascii Bool.
From Verif Require Import Base Lexer Numeral Grammar.
Import ListNotations.
Open Scope nat_scope.
Open Scope string_scope.
Open Scope list_scope.

(** ** participle *)

(** No counterpart in /repo: what a node of participle's grammar returns for
    the struct tags of vfilter.go:325-1045. *)
Inductive presult (A : Type) : Type :=
| POk (a : A) (rest : list token)
| PFail (at_ : list token)      (* the cursor when it failed *)
| PFuel.
Arguments POk {A}. Arguments PFail {A}. Arguments PFuel {A}.

(** No counterpart in /repo: a node of participle's grammar. *)
Definition parser (A : Type) : Type := list token -> presult A.

(** No counterpart in /repo: participle: nothing to read. *)
Definition pret {A} (a : A) : parser A := fun ts => POk a ts.
(** No counterpart in /repo: participle: a sequence. *)
Definition pbind {A B} (p : parser A) (f : A -> parser B) : parser B :=
  fun ts => match p ts with POk a r => f a r | PFail r => PFail r | PFuel => PFuel end.
Notation "x <~ p ;; q" := (pbind p (fun x => q)) (at level 61, p at next level, right associativity).
Notation "p ~>> q" := (pbind p (fun _ => q)) (at level 61, right associativity).

(** A token of a type; its text is captured. As the tags of
    vfilter.go:325-1045 use it. *)
Definition ptok (t : ttype) : parser string := fun ts =>
  match ts with
  | x :: r => if ttype_beq (tt x) t then POk (tv x) r else PFail ts
  | [] => PFail ts
  end.
(** A literal. As the tags of vfilter.go:325-1045 use it. *)
Definition plit (v : string) : parser string := fun ts =>
  match ts with
  | x :: r => if String.eqb (tv x) v then POk v r else PFail ts
  | [] => PFail ts
  end.

(** context.Stop with lookahead 1. participle's context, built with
    vfilter.go:180-212. *)
Definition stop (start at_ : list token) : bool :=
  Nat.ltb 1 (List.length start - List.length at_).

(** p | q. As the tags of vfilter.go:325-1045 use it. *)
Definition alt {A} (p q : parser A) : parser A := fun ts =>
  match p ts with
  | POk a r => POk a r
  | PFail r =>
      if stop ts r then PFail r
      else match q ts with
           | POk a r => POk a r
           | PFail r => if stop ts r then PFail r else PFail ts
           | PFuel => PFuel
           end
  | PFuel => PFuel
  end.

(** [ p ]. As the tags of vfilter.go:325-1045 use it. *)
Definition popt {A} (p : parser A) : parser (option A) := fun ts =>
  match p ts with
  | POk a r => POk (Some a) r
  | PFail r => if stop ts r then PFail r else POk None ts
  | PFuel => PFuel
  end.

(** { p }. As the tags of vfilter.go:325-1045 use it. *)
Fixpoint pstar_n {A} (n : nat) (p : parser A) (ts : list token) : presult (list A) :=
  match n with
  | O => PFuel
  | S m =>
      match p ts with
      | POk a r =>
          match pstar_n m p r with
          | POk l r => POk (a :: l) r
          | PFail r => PFail r
          | PFuel => PFuel
          end
      | PFail r => if stop ts r then PFail r else POk [] ts
      | PFuel => PFuel
      end
  end.
(** As the tags of vfilter.go:325-1045 use it. *)
Definition pstar {A} (p : parser A) : parser (list A) := fun ts =>
  pstar_n (S (List.length ts)) p ts.

(** p, or p with commas: [ p { "," p } ]. As in vfilter.go:776-788 Plugin. *)
Definition plist {A} (p : parser A) : parser (list A) :=
  o <~ popt (a <~ p ;; l <~ pstar (plit "," ~>> p) ;; pret (a :: l)) ;;
  pret (match o with Some l => l | None => [] end).

(** No counterpart in /repo: a pointer field captured again keeps the last
    value. *)
Definition last_opt {A} (l : list A) : option A :=
  match rev l with a :: _ => Some a | [] => None end.
(** No counterpart in /repo: was it there? *)
Definition given {A} (o : option A) : bool := match o with Some _ => true | None => false end.
(** No counterpart in /repo: was it there? *)
Definition nonempty {A} (l : list A) : bool := match l with [] => false | _ => true end.

(** ** Expressions, given how a _Value parses *)

Section Expressions.
  Variable pvalue : parser gvalue.

  (** 934-939: "[" {@@} { @":" } { @@ } "]" | "." @Ident *)
  Definition mterm_of (i j : list gvalue) (range : bool) : gmterm :=
    if range then GRange (last_opt i) (last_opt j)
    else match last_opt i with Some v => GIndex v | None => GNone end.
  (** vfilter.go:934-939 _OpMembershipTerm *)
  Definition pmterm : parser gmterm :=
    alt (plit "[" ~>> i <~ pstar pvalue ;; c <~ pstar (plit ":") ;; j <~ pstar pvalue ;; plit "]" ~>>
         pret (mterm_of i j (nonempty c)))
        (plit "." ~>> n <~ ptok T_Ident ;; pret (GTerm n)).

  (** 924-932 *)
  Definition pmember : parser gmember :=
    l <~ pvalue ;; r <~ pstar pmterm ;; pret (GMember l r).

  (** 911-920 *)
  Definition pmul : parser gmul :=
    l <~ pmember ;;
    r <~ pstar (o <~ alt (plit "*") (plit "/") ;; v <~ pvalue ;; pret (o, v)) ;;
    pret (GMul l r).

  (** 899-908 *)
  Definition padd : parser gadd :=
    l <~ pmul ;;
    r <~ pstar (o <~ alt (plit "+") (plit "-") ;; m <~ pmul ;; pret (o, m)) ;;
    pret (GAdd l r).

  (** 1002-1005 *)
  Fixpoint plits (l : list string) : parser string :=
    match l with
    | [] => fun ts => PFail ts
    | [o] => plit o
    | o :: l' => alt (plit o) (plits l')
    end.
  (** vfilter.go:1002-1005 _OpComparison *)
  Definition pcmpop : parser string :=
    alt (plits ["<>"; "<="; ">="; "="; "<"; ">"; "!="]) (alt (ptok T_IN) (plit "=~")).

  (** 995-1000: (NOT @@ | @@ ) { @@ } *)
  Fixpoint pcond (n : nat) : parser gcond :=
    match n with
    | O => fun _ => PFuel
    | S m =>
        l <~ alt (ptok T_NOT ~>> c <~ pcond m ;; pret (inl c)) (a <~ padd ;; pret (inr a)) ;;
        r <~ pstar (o <~ pcmpop ;; a <~ padd ;; pret (o, a)) ;;
        pret (match l with
              | inl c => GNot c      (* what follows is dropped; see ParserProps *)
              | inr a => GCmp a (last_opt r)
              end)
    end.

  (** 983-992, 967-980 *)
  Definition por (n : nat) : parser gor :=
    l <~ pcond n ;;
    r <~ pstar (o <~ alt (ptok T_OR) (ptok T_AlternativeOR) ;; c <~ pcond n ;; pret (o, c)) ;;
    pret (GOr l r).
  (** vfilter.go:967-975 _AndExpression *)
  Definition pand (n : nat) : parser gand :=
    l <~ por n ;;
    r <~ pstar (o <~ alt (ptok T_AND) (ptok T_AlternativeAND) ;; c <~ por n ;; pret (o, c)) ;;
    pret (GAnd l r).

  (** 953-964 *)
  Definition pcomma (n : nat) : parser gcomma :=
    l <~ pand n ;;
    r <~ pstar (plit "," ~>> t <~ pstar (pand n) ;; pret (last_opt t)) ;;
    pret (GComma l r).
End Expressions.

(** ** Values, arguments, queries *)

(** (@SymbolIdent | @Ident) { @"." @Ident }: 1022, 783. vfilter.go:1015-1029
    _SymbolRef, vfilter.go:776-788 Plugin *)
Definition ppath (first : parser string) : parser (list string) :=
  a <~ first ;; l <~ pstar (plit "." ~>> ptok T_Ident) ;; pret (a :: l).

Section Knot.
  Variable n : nat.                      (* for NOT *)
  Variable pval : parser gvalue.
  Variable psel : parser gselect.

  (** 790-802 *)
  Definition parg : parser garg :=
    a <~ ptok T_Ident ;; plit "=" ~>>
    alt (plit "{" ~>> s <~ psel ;; plit "}" ~>> pret (GArgSelect a s))
     (alt (plit "[" ~>> c <~ popt (pcomma pval n) ;; plit "]" ~>> pret (GArgArray a c))
          (e <~ pand pval n ;; pret (GArgExpr a e))).

  (** 1015-1025: { @"(" [ @@ { "," @@ } ] ")" } *)
  Definition psymref : parser gvalue :=
    p <~ ppath (alt (ptok T_SymbolIdent) (ptok T_Ident)) ;;
    l <~ pstar (plit "(" ~>> a <~ plist parg ;; plit ")" ~>> pret a) ;;
    pret (GSym p (nonempty l) (List.concat l)).

  (** 1031-1045 *)
  Definition pvalue_step : parser gvalue :=
    alt psymref
    (alt (plit "(" ~>> c <~ pcomma pval n ;; plit ")" ~>> pret (GSub c))
    (alt (s <~ alt (ptok T_MultilineString) (ptok T_String) ;; pret (GString s))
    (alt (s <~ ptok T_Number ;; pret (GNumber s))
    (alt (s <~ ptok T_BOOL ;; pret (GBool s))
         (ptok T_NULL ~>> pret GNull))))).

  (** 809-817 *)
  Definition palias : parser string :=
    o <~ popt (ptok T_AS ~>> ptok T_Ident) ;; pret (match o with Some s => s | None => "" end).
  (** vfilter.go:809-825 _AliasedExpression *)
  Definition pcol : parser gcol :=
    f <~ alt (plit "*" ~>> pret GStar)
         (alt (plit "{" ~>> s <~ psel ;; plit "}" ~>> pret (GColSelect s))
              (e <~ pand pval n ;; pret (GColExpr e))) ;;
    a <~ palias ;; pret (f a).

  (** 776-788 *)
  Definition pplugin : parser gplugin :=
    p <~ ppath (ptok T_Ident) ;;
    o <~ popt (plit "(" ~>> a <~ plist parg ;; plit ")" ~>> pret a) ;;
    pret (GPlugin p (given o) (match o with Some a => a | None => [] end)).

  (** LIMIT @Number into an int64: strconv.ParseInt in base 0; what does not fit
      is an error. The field Limit of vfilter.go:583-597 _Select. *)
  Definition plimit : parser Z := fun ts =>
    match (ptok T_LIMIT ~>> ptok T_Number) ts with
    | POk s r => match parse_int s with Some z => POk z r | None => PFail r end
    | PFail r => PFail r
    | PFuel => PFuel
    end.

  (** 583-597, 804-807 *)
  Definition pselect_step : parser gselect :=
    x <~ pstar (ptok T_EXPLAIN) ;;
    ptok T_SELECT ~>>
    all <~ popt (plit "*" ~>> popt (plit ",")) ;;
    cols <~ plist pcol ;;
    ptok T_FROM ~>>
    from <~ pplugin ;;
    w <~ popt (ptok T_WHERE ~>> pcomma pval n) ;;
    g <~ popt (ptok T_GROUPBY ~>> pcomma pval n) ;;
    o <~ popt (ptok T_ORDERBY ~>> k <~ ptok T_Ident ;; d <~ popt (ptok T_DESC) ;; pret (k, given d)) ;;
    l <~ popt plimit ;;
    pret (GSelect (nonempty x) (given all) cols from w g o l).

  (** 355-361 *)
  Definition pparam : parser gparam :=
    alt (a <~ parg ;; pret (GDefault a)) (s <~ ptok T_Ident ;; pret (GName s)).

  (** 364-377 *)
  Definition pvql_step : parser gvql :=
    alt (ptok T_LET ~>>
         name <~ ptok T_Ident ;;
         ps <~ popt (plit "(" ~>> l <~ plist pparam ;; plit ")" ~>> pret l) ;;
         op <~ alt (plit "=") (plit "<=") ;;
         body <~ alt (s <~ psel ;; pret (inl s)) (e <~ pand pval n ;; pret (inr e)) ;;
         pret (GLet name (given ps) (match ps with Some l => l | None => [] end) op body))
        (s <~ psel ;; pret (GQuery s)).
End Knot.

(** Nesting is bounded by the number of tokens. No counterpart in /repo: the
    recursion of the grammar of vfilter.go:325-1045. *)
Fixpoint pknot (n : nat) : parser gvalue * parser gselect :=
  match n with
  | O => (fun _ => PFuel, fun _ => PFuel)
  | S m =>
      let (pval, psel) := pknot m in
      (pvalue_step (S m) pval psel, pselect_step (S m) pval psel)
  end.
(** vfilter.go:1031-1048 _Value *)
Definition pvalue (n : nat) : parser gvalue := fst (pknot n).
(** vfilter.go:583-597 _Select *)
Definition pselect (n : nat) : parser gselect := snd (pknot n).
(** vfilter.go:364-383 VQL *)
Definition pvql (n : nat) : parser gvql := pvql_step n (pvalue n) (pselect n).

(** Parse (281-291); [None] is an error. *)
Definition whole {A} (r : presult A) : option A :=
  match r with POk a [] => Some a | _ => None end.
(** No counterpart in /repo: enough fuel for a text, proved in ParserTotal.v.
    *)
Definition fuel_for (ts : list token) : nat := S (S (List.length ts)).
(** vfilter.go:281-291 Parse *)
Definition parse_vql (text : string) : option gvql :=
  match tokens text with
  | Some ts => whole (pvql (fuel_for ts) ts)
  | None => None
  end.

(** MultiParse (294-307), MultiVQL (325-330), GetStatements (332-347) *)
Fixpoint pmulti (k n : nat) : parser (list gvql) :=
  match k with
  | O => fun _ => PFuel
  | S m =>
      v <~ pvql n ;; l <~ pstar (pmulti m n) ;;
      pret (v :: match last_opt l with Some r => r | None => [] end)
  end.
(** vfilter.go:294-307 MultiParse *)
Definition parse_multi (text : string) : option (list gvql) :=
  match tokens text with
  | Some ts => whole (pmulti (fuel_for ts) (fuel_for ts) ts)
  | None => None
  end.

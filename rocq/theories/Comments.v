(** MultiParseWithComments (vfilter.go:310-323): the parser ReFormatVQL uses.

    The scanner keeps the comments, and the structs of vfilter.go:325-401,
    583-606, 772-823, 899-1048 have fields for them.  Grammar.v and Parser.v
    are the same structs and the same grammar as seen by Parse and MultiParse,
    which drop the comments; positions are left out in both. *)

From Coq Require Import ZArith List String Ascii Bool.
From Verif Require Import Base Lexer Numeral Grammar Parser.
Import ListNotations.
Open Scope nat_scope.
Open Scope string_scope.
Open Scope list_scope.

(** ** Trees *)

(** _Comment (349-353) *)
Inductive comment : Type :=
| CVQL (s : string)      (* -- to the end of the line *)
| CLine (s : string)     (* // to the end of the line *)
| CMulti (s : string).   (* between slash-star and star-slash *)
(** vfilter.go:349-353 _Comment *)
Definition comment_text (c : comment) : string :=
  match c with CVQL s => s | CLine s => s | CMulti s => s end.
(** vfilter.go:349-353 _Comment *)
Definition comment_token (c : comment) : token :=
  match c with
  | CVQL s => Tok T_VQLComment s
  | CLine s => Tok T_Comment s
  | CMulti s => Tok T_MLineComment s
  end.

(** Every node has its Comments; the grammar gives at most one where the tag
    is [ @@ ], any number where it is { @@ } (_Select, _AliasedExpression).
    The fields Comments of vfilter.go:325-1045. *)
Definition cs : Type := list comment.

(** _Value (1031-1048) *)
Inductive kvalue : Type := KValue (c : cs) (a : katom)
with katom : Type :=
| KSym (c : cs) (symbol : list string) (called : bool) (params : list karg)
| KSub (e : kcomma)
| KString (s : string)
| KNumber (s : string)
| KBool (s : string)
| KNull
with kmterm : Type :=
| KIndex (i : kvalue)
| KRange (i j : option kvalue)
| KNone
| KTerm (name : string)
with kmember : Type := KMember (c : cs) (l : kvalue) (r : list kmterm)
with kmul : Type := KMul (c : cs) (l : kmember) (r : list (string * kvalue))
with kadd : Type := KAdd (c : cs) (l : kmul) (r : list (string * kmul))
with kcond : Type :=
| KNot (c : cs) (e : kcond)
| KCmp (c : cs) (l : kadd) (r : option (string * kadd))
with kor : Type := KOr (c : cs) (l : kcond) (r : list (string * kcond))
with kand : Type := KAnd (c : cs) (l : kor) (r : list (string * kor))
(** _CommaExpression, _OpArrayTerm (953-964): Comments before the comma,
    Comment2 after it *)
with kcomma : Type := KComma (c : cs) (l : kand) (r : list kterm)
with kterm : Type := KItem (c1 c2 : cs) (t : option kand)
with karg : Type :=
| KArgExpr (c : cs) (name : string) (e : kand)
| KArgSelect (c : cs) (name : string) (s : kselect)
| KArgArray (c : cs) (name : string) (a : option kcomma)
with kselect : Type :=
| KSelect (c : cs) (explain all : bool) (cols : list kcol) (from : kplugin)
          (where_ group : option kcomma)
          (order : option (string * bool)) (limit : option Z)
with kcol : Type :=
| KStar (c : cs) (as_ : string)
| KColSelect (c : cs) (s : kselect) (as_ : string)
| KColExpr (c : cs) (e : kand) (as_ : string)
with kplugin : Type := KPlugin (name : list string) (call : bool) (args : list karg).

(** vfilter.go:391-394 _ParameterListTerm *)
Inductive kparam : Type :=
| KDefault (a : karg)
| KName (s : string).

(** VQL (364-383); its Comments are set by GetStatements *)
Inductive kvql : Type :=
| KLet (name : string) (called : bool) (params : list kparam) (op : string)
       (body : kselect + kand)
| KQuery (s : kselect).

(** ** The parser *)

(** 349-353 *)
Definition pcomment : parser comment :=
  alt (s <~ ptok T_VQLComment ;; pret (CVQL s))
 (alt (s <~ ptok T_Comment ;; pret (CLine s))
      (s <~ ptok T_MLineComment ;; pret (CMulti s))).
(** [ @@ ] and { @@ } into a slice of comments. The fields Comments of
    vfilter.go:325-1045. *)
Definition pcom1 : parser cs :=
  o <~ popt pcomment ;; pret (match o with Some c => [c] | None => [] end).
(** The fields Comments of vfilter.go:583-597 _Select. *)
Definition pcoms : parser cs := pstar pcomment.

Section Expressions.
  Variable kval : parser kvalue.

  (** vfilter.go:934-939 _OpMembershipTerm *)
  Definition kmterm_of (i j : list kvalue) (range : bool) : kmterm :=
    if range then KRange (last_opt i) (last_opt j)
    else match last_opt i with Some v => KIndex v | None => KNone end.
  (** 945-950 *)
  Definition pkmterm : parser kmterm :=
    alt (plit "[" ~>> i <~ pstar kval ;; c <~ pstar (plit ":") ;; j <~ pstar kval ;; plit "]" ~>>
         pret (kmterm_of i j (nonempty c)))
        (plit "." ~>> n <~ ptok T_Ident ;; pret (KTerm n)).
  (** 924-935 *)
  Definition pkmember : parser kmember :=
    c <~ pcom1 ;; l <~ kval ;; r <~ pstar pkmterm ;; pret (KMember c l r).
  (** 911-920 *)
  Definition pkmul : parser kmul :=
    c <~ pcom1 ;; l <~ pkmember ;;
    r <~ pstar (o <~ alt (plit "*") (plit "/") ;; v <~ kval ;; pret (o, v)) ;;
    pret (KMul c l r).
  (** 899-908 *)
  Definition pkadd : parser kadd :=
    c <~ pcom1 ;; l <~ pkmul ;;
    r <~ pstar (o <~ alt (plit "+") (plit "-") ;; m <~ pkmul ;; pret (o, m)) ;;
    pret (KAdd c l r).
  (** 995-1005 *)
  Fixpoint pkcond (n : nat) : parser kcond :=
    match n with
    | O => fun _ => PFuel
    | S m =>
        c <~ pcom1 ;;
        l <~ alt (ptok T_NOT ~>> e <~ pkcond m ;; pret (inl e)) (a <~ pkadd ;; pret (inr a)) ;;
        r <~ pstar (o <~ pcmpop ;; a <~ pkadd ;; pret (o, a)) ;;
        pret (match l with
              | inl e => KNot c e
              | inr a => KCmp c a (last_opt r)
              end)
    end.
  (** 983-992, 967-980 *)
  Definition pkor (n : nat) : parser kor :=
    c <~ pcom1 ;; l <~ pkcond n ;;
    r <~ pstar (o <~ alt (ptok T_OR) (ptok T_AlternativeOR) ;; c <~ pkcond n ;; pret (o, c)) ;;
    pret (KOr c l r).
  (** vfilter.go:967-975 _AndExpression *)
  Definition pkand (n : nat) : parser kand :=
    c <~ pcom1 ;; l <~ pkor n ;;
    r <~ pstar (o <~ alt (ptok T_AND) (ptok T_AlternativeAND) ;; c <~ pkor n ;; pret (o, c)) ;;
    pret (KAnd c l r).
  (** 953-964 *)
  Definition pkterm (n : nat) : parser kterm :=
    c1 <~ pcom1 ;; plit "," ~>> c2 <~ pcom1 ;; t <~ pstar (pkand n) ;; pret (KItem c1 c2 (last_opt t)).
  (** vfilter.go:953-957 _CommaExpression *)
  Definition pkcomma (n : nat) : parser kcomma :=
    c <~ pcom1 ;; l <~ pkand n ;; r <~ pstar (pkterm n) ;; pret (KComma c l r).
End Expressions.

Section Knot.
  Variable n : nat.
  Variable kval : parser kvalue.
  Variable ksel : parser kselect.

  (** 790-802 *)
  Definition pkarg : parser karg :=
    c <~ pcom1 ;; a <~ ptok T_Ident ;; plit "=" ~>>
    alt (plit "{" ~>> s <~ ksel ;; plit "}" ~>> pret (KArgSelect c a s))
     (alt (plit "[" ~>> e <~ popt (pkcomma kval n) ;; plit "]" ~>> pret (KArgArray c a e))
          (e <~ pkand kval n ;; pret (KArgExpr c a e))).

  (** 1015-1029 *)
  Definition pksymref : parser katom :=
    c <~ pcom1 ;;
    p <~ ppath (alt (ptok T_SymbolIdent) (ptok T_Ident)) ;;
    l <~ pstar (plit "(" ~>> a <~ plist pkarg ;; plit ")" ~>> pret a) ;;
    pret (KSym c p (nonempty l) (List.concat l)).

  (** 1031-1048 *)
  Definition pkvalue_step : parser kvalue :=
    c <~ pcom1 ;;
    a <~ alt pksymref
    (alt (plit "(" ~>> e <~ pkcomma kval n ;; plit ")" ~>> pret (KSub e))
    (alt (s <~ alt (ptok T_MultilineString) (ptok T_String) ;; pret (KString s))
    (alt (s <~ ptok T_Number ;; pret (KNumber s))
    (alt (s <~ ptok T_BOOL ;; pret (KBool s))
         (ptok T_NULL ~>> pret KNull))))) ;;
    pret (KValue c a).

  (** 809-823 *)
  Definition pkcol : parser kcol :=
    c <~ pcoms ;;
    f <~ alt (plit "*" ~>> pret (KStar c))
         (alt (plit "{" ~>> s <~ ksel ;; plit "}" ~>> pret (KColSelect c s))
              (e <~ pkand kval n ;; pret (KColExpr c e))) ;;
    a <~ palias ;; pret (f a).

  (** 776-788 *)
  Definition pkplugin : parser kplugin :=
    p <~ ppath (ptok T_Ident) ;;
    o <~ popt (plit "(" ~>> a <~ plist pkarg ;; plit ")" ~>> pret a) ;;
    pret (KPlugin p (given o) (match o with Some a => a | None => [] end)).

  (** 583-597, 804-807 *)
  Definition pkselect_step : parser kselect :=
    c <~ pcoms ;;
    x <~ pstar (ptok T_EXPLAIN) ;;
    ptok T_SELECT ~>>
    all <~ popt (plit "*" ~>> popt (plit ",")) ;;
    cols <~ plist pkcol ;;
    ptok T_FROM ~>>
    from <~ pkplugin ;;
    w <~ popt (ptok T_WHERE ~>> pkcomma kval n) ;;
    g <~ popt (ptok T_GROUPBY ~>> pkcomma kval n) ;;
    o <~ popt (ptok T_ORDERBY ~>> k <~ ptok T_Ident ;; d <~ popt (ptok T_DESC) ;; pret (k, given d)) ;;
    l <~ popt plimit ;;
    pret (KSelect c (nonempty x) (given all) cols from w g o l).

  (** 355-361 *)
  Definition pkparam : parser kparam :=
    alt (a <~ pkarg ;; pret (KDefault a)) (s <~ ptok T_Ident ;; pret (KName s)).

  (** 364-377 *)
  Definition pkvql_step : parser kvql :=
    alt (ptok T_LET ~>>
         name <~ ptok T_Ident ;;
         ps <~ popt (plit "(" ~>> l <~ plist pkparam ;; plit ")" ~>> pret l) ;;
         op <~ alt (plit "=") (plit "<=") ;;
         body <~ alt (s <~ ksel ;; pret (inl s)) (e <~ pkand kval n ;; pret (inr e)) ;;
         pret (KLet name (given ps) (match ps with Some l => l | None => [] end) op body))
        (s <~ ksel ;; pret (KQuery s)).
End Knot.

(** No counterpart in /repo: the recursion of the grammar of
    vfilter.go:325-1045. *)
Fixpoint pkknot (n : nat) : parser kvalue * parser kselect :=
  match n with
  | O => (fun _ => PFuel, fun _ => PFuel)
  | S m =>
      let (kval, ksel) := pkknot m in
      (pkvalue_step (S m) kval ksel, pkselect_step (S m) kval ksel)
  end.
(** vfilter.go:1031-1048 _Value *)
Definition pkvalue (n : nat) : parser kvalue := fst (pkknot n).
(** vfilter.go:583-597 _Select *)
Definition pkselect (n : nat) : parser kselect := snd (pkknot n).
(** vfilter.go:364-383 VQL *)
Definition pkvql (n : nat) : parser kvql := pkvql_step n (pkvalue n) (pkselect n).

(** ** Scripts *)

(** A statement with the comments GetStatements (332-347) gives it. *)
Definition kstmt : Type := (cs * kvql)%type.

(** MultiVQL (325-330) and GetStatements together: the comments after a
    statement go to the next one; after the last statement they are dropped. *)
Fixpoint pkmulti (k n : nat) : parser (list kstmt) :=
  match k with
  | O => fun _ => PFuel
  | S m =>
      c <~ pcoms ;;
      v <~ pkvql n ;;
      c2 <~ pcoms ;;
      l <~ pstar (pkmulti m n) ;;
      pret ((c, v) :: match last_opt l with
                      | Some ((c3, v3) :: r) => (c2 ++ c3, v3) :: r
                      | _ => []
                      end)
  end.

(** The scanner with comments (145-181) and participle.Upper (207-208) *)
Definition all_tokens (text : string) : option (list token) :=
  match lex text with
  | Some l => Some (map upper_token l)
  | None => None
  end.

(** MultiParseWithComments (310-323); [None] is an error. *)
Definition parse_comments (text : string) : option (list kstmt) :=
  match all_tokens text with
  | Some ts => whole (pkmulti (fuel_for ts) (fuel_for ts) ts)
  | None => None
  end.

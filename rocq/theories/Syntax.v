(** The abstract syntax of VQL after parsing: the structs of vfilter.go
    that carry meaning.  Comments and source positions are left out;
    identifiers are already split and unquoted (Text.v models that; the
    parameters of LET and of lambdas are as written), number
    and string literals already decoded. *)

From Coq Require Import ZArith List String.
From Verif Require Import Base F64 Value Protocols Monad Chains.
Import ListNotations.

(** Each [_SymbolRef] node carries a number: the Go struct holds caches
    (vfilter.go:1024-1026), which the evaluator keeps in its state under
    that number.

    The parser builds one struct per precedence level; a level without
    operators evaluates to its only operand (vfilter.go:1453, 1493, 1422,
    1569), so that such levels are left out here. *)
Inductive expr : Type :=
| ELit (v : val)                                      (* _Value 1029-1048 *)
| ESym (node : nat) (negated : bool) (path : list string)
       (called : bool) (params : list (string * argval)) (* _SymbolRef 1012-1027 *)
| EComma (l : expr) (rs : list (option expr))         (* _CommaExpression 949-960 *)
| EAnd (l : expr) (rs : list (string * expr))         (* _AndExpression 963-976 *)
| EOr (l : expr) (rs : list (string * expr))          (* _OrExpression 979-988 *)
| EAdd (l : expr) (rs : list (string * expr))         (* _AdditionExpression 899-908 *)
| EMul (l : expr) (rs : list (string * expr))         (* _MultiplicationExpression 911-920 *)
| ENot (e : expr)                                     (* _ConditionOperand 991-996 *)
| ECmp (l : expr) (op : cmpop) (r : expr)
| EMember (l : expr) (ts : list mterm)                (* _MemberExpression 924-937 *)
(** _Args (790-802) without the name *)
with argval : Type :=
| AExpr (e : expr)                                    (* x=expr *)
| ASelect (s : select)                                (* x={ SELECT } *)
| AArray (e : expr)                                   (* x=[ 1, 2 ] *)
| AEmpty                                              (* x=[] *)
(** _OpMembershipTerm (932-937) *)
with mterm : Type :=
| MIndex (e : expr)
| MRange (start stop : option expr)
| MField (f : string)
(** _Select (583-597); the column list is _SelectExpression (804-807),
    [star] its leading [*]. *)
with select : Type :=
| Select (star : bool) (cols : list (string * colbody)) (from : plugin)
         (where_ groupby : option expr) (orderby : option (string * bool)) (limit : option Z)
(** _AliasedExpression (809-825); the name of the column is the one GetName
    (828-850) computes: the alias, or the text of the expression. *)
with colbody : Type :=
| CStar
| CSelect (s : select)
| CExpr (e : expr)
(** Plugin (776-788) *)
with plugin : Type :=
| Plugin (path : list string) (call : bool) (args : list (string * argval)).

(** VQL (vfilter.go): a LET (with parameters and their defaults), or a
    query.  [text] is the formatted query, bound to [$Query]. *)
Inductive letbody : Type :=
| LExpr (e : expr)
| LSelect (s : select).

(** vfilter.go:364-383 VQL *)
Inductive stmt : Type :=
| SLet (name : string) (params : list (string * option argval)) (lazy : bool) (body : letbody)
| SQuery (text : string) (s : select).

(** A lambda [(a, b) => expr] (lambda.go:17-21). *)
Record lambda : Type := { l_params : list string; l_body : expr }.

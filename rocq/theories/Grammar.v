(** The concrete syntax of VQL: the structs of vfilter.go:325-401, 583-606,
    772-823, 899-1048 that participle fills, without comments (Parse and
    MultiParse drop them, 186-194) and positions.

    A symbol is kept as the list of its identifiers, as written; the code
    keeps their concatenation with dots.  Literals are kept as written, as in
    the code. *)

From Coq Require Import ZArith List String Ascii Bool.
From Verif Require Import Base.
Import ListNotations.

(** _Value (1031-1048) *)
Inductive gvalue : Type :=
| GSym (symbol : list string) (called : bool) (params : list garg)   (* _SymbolRef 1015-1029 *)
| GSub (c : gcomma)
| GString (s : string)
| GNumber (s : string)
| GBool (s : string)
| GNull
(** _OpMembershipTerm (934-939).  [GNone] is x[], with nothing between the
    brackets. *)
with gmterm : Type :=
| GIndex (i : gvalue)
| GRange (i j : option gvalue)
| GNone
| GTerm (name : string)
(** _MemberExpression (924-932) *)
with gmember : Type := GMember (l : gvalue) (r : list gmterm)
(** _MultiplicationExpression (911-920) *)
with gmul : Type := GMul (l : gmember) (r : list (string * gvalue))
(** _AdditionExpression (899-908) *)
with gadd : Type := GAdd (l : gmul) (r : list (string * gmul))
(** _ConditionOperand, _OpComparison (995-1005) *)
with gcond : Type :=
| GNot (c : gcond)
| GCmp (l : gadd) (r : option (string * gadd))
(** _OrExpression (983-992) *)
with gor : Type := GOr (l : gcond) (r : list (string * gcond))
(** _AndExpression (967-980) *)
with gand : Type := GAnd (l : gor) (r : list (string * gor))
(** _CommaExpression (953-964); a term may be missing *)
with gcomma : Type := GComma (l : gand) (r : list (option gand))
(** _Args (790-802) *)
with garg : Type :=
| GArgExpr (name : string) (e : gand)
| GArgSelect (name : string) (s : gselect)
| GArgArray (name : string) (a : option gcomma)
(** _Select (583-597); the columns are _SelectExpression (804-807), [all] its
    leading star; [from] is Plugin (776-788). *)
with gselect : Type :=
| GSelect (explain all : bool) (cols : list gcol) (from : gplugin)
          (where_ group : option gcomma)
          (order : option (string * bool)) (limit : option Z)
(** _AliasedExpression (809-823); "" is no alias *)
with gcol : Type :=
| GStar (as_ : string)
| GColSelect (s : gselect) (as_ : string)
| GColExpr (e : gand) (as_ : string)
with gplugin : Type :=
| GPlugin (name : list string) (call : bool) (args : list garg).

(** LetParameter (355-361) *)
Inductive gparam : Type :=
| GDefault (a : garg)
| GName (s : string).

(** VQL (364-383) *)
Inductive gvql : Type :=
| GLet (name : string) (called : bool) (params : list gparam) (op : string)
       (body : gselect + gand)
| GQuery (s : gselect).

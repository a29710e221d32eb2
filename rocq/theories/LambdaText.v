(** Lambdas from their text: lambda.go.  participle keeps the comments of a
    lambda in the stream of tokens and steps over them, where they count for the
    lookahead; here a comment is a token that fits nowhere, and the theorems are
    about texts without comments. *)

From Coq Require Import ZArith List String Ascii Bool.
From Verif Require Import Base F64 Text Lexer Numeral Grammar Parser Value Syntax Elab.
Import ListNotations.
Open Scope nat_scope.
Open Scope string_scope.
Open Scope list_scope.

(** vfilter.go:385-394 _ParameterList, _ParameterListTerm; the names as
    lambda.go:23-39 GetParameters lists them. *)
Fixpoint pparams (k : nat) : parser (list string) :=
  match k with
  | O => fun _ => PFuel
  | S m =>
      p <~ ptok T_Ident ;; r <~ pstar (plit "," ~>> pparams m) ;;
      pret (p :: match last_opt r with Some l => l | None => [] end)
  end.

(** lambda.go:17-21 Lambda *)
Definition plambda (n : nat) : parser (list string * gand) :=
  ps <~ pparams n ;; plit "=>" ~>> e <~ pand (pvalue n) n ;; pret (ps, e).

(** lambda.go:59-61 ParseLambda with the parser of lambda.go:11-15: unlike those
    of vfilter.go:192-209 it does not write IN and DESC in capitals. *)
Definition parse_lambda (text : string) : option (list string * gand) :=
  match lex text with
  | Some ts => whole (plambda (fuel_for ts) ts)
  | None => None
  end.

(** The lambda that is evaluated: lambda.go:17-57. *)
Definition lambda_of (text : string) : option lambda :=
  match parse_lambda text with
  | Some (ps, e) => Some {| l_params := ps; l_body := fst (elab_and e 0) |}
  | None => None
  end.

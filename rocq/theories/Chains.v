(** Expression nodes made of a left operand and a chain of further operands:
    vfilter.go Reduce methods of _CommaExpression, _AndExpression,
    _OrExpression, _ConditionOperand, _AdditionExpression and
    _MultiplicationExpression.

    Operands are effectful computations ([M S val]); the operators of the
    scope are parameters so that the same code is used with the pure
    dispatchers of Protocols.v and in the evaluator. *)

From Coq Require Import ZArith List String Bool.
From Verif Require Import Base F64 Value Protocols Monad.
Import ListNotations.

Section Chains.
  Context {S : Type}.
  (** Reduce of an operand, as called by vfilter.go:1451-1476 Reduce. *)
  Definition operand := M S val.

  (** scope.Bool *)
  Variable truth : val -> M S bool.
  (** scope.Add, scope.Sub, scope.Mul, scope.Div *)
  Variables addf subf mulf divf : val -> val -> M S val.

  (** vfilter.go:1462-1475 *)
  Fixpoint and_loop (last : val) (rights : list (string * operand)) : M S val :=
    match rights with
    | [] => mret last
    | (op, term) :: rest =>
        right <- term ;;
        b <- truth right ;;
        if negb b then mret (VBool false)
        else and_loop (if String.eqb op "&&" then right else VBool true) rest
    end.

  (** vfilter.go:1451-1476 _AndExpression.Reduce *)
  Definition and_reduce (left : operand) (rights : list (string * operand)) : M S val :=
    l <- left ;;
    match rights with
    | [] => mret l
    | _ =>
        b <- truth l ;;
        if negb b then mret (VBool false) else and_loop l rights
    end.

  (** vfilter.go:1501-1513 *)
  Fixpoint or_loop (last : val) (rights : list (string * operand)) : M S val :=
    match rights with
    | [] => mret last
    | (op, term) :: rest =>
        right <- term ;;
        b <- truth right ;;
        if b then mret (if String.eqb op "||" then right else VBool true)
        else or_loop right rest
    end.

  (** vfilter.go:1491-1514 _OrExpression.Reduce *)
  Definition or_reduce (left : operand) (rights : list (string * operand)) : M S val :=
    l <- left ;;
    match rights with
    | [] => mret l
    | _ =>
        b <- truth l ;;
        if b then mret l else or_loop l rights
    end.

  (** vfilter.go:1563-1566, NOT *)
  Definition not_reduce (term : operand) : M S val :=
    v <- term ;; b <- truth v ;; mret (VBool (negb b)).

  (** vfilter.go:1529-1542 _AdditionExpression.Reduce; an operator other
      than "+" and "-" leaves the result unchanged. *)
  Fixpoint add_loop (result : val) (rights : list (string * operand)) : M S val :=
    match rights with
    | [] => mret result
    | (op, term) :: rest =>
        v <- term ;;
        r <- (if String.eqb op "+" then addf result v
              else if String.eqb op "-" then subf result v
              else mret result) ;;
        add_loop r rest
    end.

  (** vfilter.go:1529-1542 Reduce *)
  Definition add_reduce (left : operand) (rights : list (string * operand)) : M S val :=
    l <- left ;; add_loop l rights.

  (** vfilter.go:1614-1627 _MultiplicationExpression.Reduce *)
  Fixpoint mul_loop (result : val) (rights : list (string * operand)) : M S val :=
    match rights with
    | [] => mret result
    | (op, term) :: rest =>
        v <- term ;;
        r <- (if String.eqb op "*" then mulf result v
              else if String.eqb op "/" then divf result v
              else mret result) ;;
        mul_loop r rest
    end.

  (** vfilter.go:1614-1627 Reduce *)
  Definition mul_reduce (left : operand) (rights : list (string * operand)) : M S val :=
    l <- left ;; mul_loop l rights.

  (** vfilter.go:1427-1434; a missing term ([x,]) ends the list. *)
  Fixpoint comma_loop (result : list val) (rights : list (option operand)) : M S val :=
    match rights with
    | [] => mret (VArr result)
    | None :: _ => mret (VArr result)
    | Some term :: rest => v <- term ;; comma_loop (result ++ [v]) rest
    end.

  (** vfilter.go:1414-1435 _CommaExpression.Reduce *)
  Definition comma_reduce (left : operand) (rights : list (option operand)) : M S val :=
    l <- left ;;
    match l with
    | VNil => mret VNull
    | _ => match rights with [] => mret l | _ => comma_loop [l] rights end
    end.
End Chains.

(** The operators of the grammar (vfilter.go:1003, after
    participle.Upper("IN"), vfilter.go:194). *)
Inductive cmpop : Type :=
| OpNeAlt                               (* <> *)
| OpLe | OpGe | OpEq | OpLt | OpGt
| OpNe                                  (* != *)
| OpIn
| OpMatch.                              (* =~ *)

(** Registered implementations of every protocol of a scope
    (scope/dispatcher.go:29-41). *)
Record protos : Type := {
  p_bool : list (impl1 bool);
  p_eq : list (impl2 bool);
  p_lt : list (impl2 bool);
  p_gt : list (impl2 bool);
  p_add : list (impl2 val);
  p_sub : list (impl2 val);
  p_mul : list (impl2 val);
  p_div : list (impl2 val);
  p_mem : list (impl2 bool);
  p_assoc : list (val -> akey -> option (val * bool))
}.

(** A fresh scope with only the built in protocols
    (protocols/builtin.go:7-40): the stored query implementations and
    _DictEq are part of the dispatchers of Protocols.v, except
    _StoredQueryBool. *)
Definition no_protos : protos :=
  {| p_bool := [stored_query_bool]; p_eq := []; p_lt := []; p_gt := [];
     p_add := []; p_sub := []; p_mul := []; p_div := []; p_mem := [];
     p_assoc := [] |}.

(** vfilter.go:1577-1594: the switch over the operator.  [matchf pattern
    target] is scope.Match.  "<>" is accepted by the grammar but has no
    case. *)
Definition cond_op (P : protos) (matchf : val -> val -> bool)
  (op : cmpop) (lhs rhs : val) : bool :=
  match op with
  | OpIn => membership_disp (p_eq P) (p_mem P) lhs rhs
  | OpLt => lt_disp (p_lt P) lhs rhs
  | OpEq => eq_disp (p_eq P) lhs rhs
  | OpNe => negb (eq_disp (p_eq P) lhs rhs)
  | OpLe => lt_disp (p_lt P) lhs rhs || eq_disp (p_eq P) lhs rhs
  | OpGt => gt_disp (p_gt P) lhs rhs
  | OpGe => gt_disp (p_gt P) lhs rhs || eq_disp (p_eq P) lhs rhs
  | OpMatch => matchf rhs lhs
  | OpNeAlt => false
  end.

(** vfilter.go:1382-1394: one step of _MemberExpression.Reduce. *)
Definition member_step (P : protos) (a : val) (k : akey) : val :=
  let (v, pres) := assoc_disp (p_assoc P) a k in
  if pres then v else VNull.

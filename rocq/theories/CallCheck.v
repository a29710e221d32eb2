(** The messages about the arguments of a call of a definition.
    /repo/stored.go, /repo/vfilter.go. *)

From Coq Require Import List String Bool PeanoNat.
From Verif Require Import Base Value Syntax Eval.
Import ListNotations.
Open Scope string_scope.
Open Scope list_scope.

(** stored.go:136-137 and stored.go:147-148 *)
Inductive complaint : Type :=
| Extra (arg : string)
| Missing (param : string).

(** The line that is logged. stored.go:136-137, 147-148 *)
Definition complaint_text (callee : string) (c : complaint) : string :=
  match c with
  | Extra k => "ERROR:Extra unrecognized arg " ++ k ++ " when calling " ++ callee
  | Missing k => "ERROR:Missing arg " ++ k ++ " when calling " ++ callee
  end%string.

(** vfilter.go:530-537 getParameterNames, 539-580 getParameters; nil when the
    definition has no parameters. *)
Definition parameter_names (params : list (string * option argval)) : list string :=
  map (fun p => unquoted (fst p)) params.

(** stored.go:132-140: the loop over the arguments; [seen] is seen_map. *)
Fixpoint check_extra (params : list string) (args : list string) (seen : list string)
  : list complaint * list string :=
  match args with
  | [] => ([], seen)
  | k :: rest =>
      let '(out, seen') := check_extra params rest (if mem_str k seen then seen else k :: seen) in
      (if mem_str k params then out else Extra k :: out, seen')
  end.

(** stored.go:144-150: the loop over the parameters *)
Fixpoint check_missing (params : list string) (seen : list string) : list complaint :=
  match params with
  | [] => []
  | k :: rest =>
      if mem_str k seen then check_missing rest seen else Missing k :: check_missing rest seen
  end.

(** stored.go:126-152 _StoredQuery.checkCallingArgs, the same as
    stored.go:238-263 StoredExpression.checkCallingArgs *)
Definition check_calling_args (params : list string) (args : list string) : list complaint :=
  match params with
  | [] => []
  | _ =>
      let '(out, seen) := check_extra params args [] in
      if Nat.ltb (List.length seen) (List.length params) then out ++ check_missing params seen else out
  end.

(** Where a definition is called, and what it is: FROM Q(...) of a query
    (vfilter.go:1283-1289, stored.go:93-124), FROM F(...) of an expression
    (vfilter.go:1270-1280), and Q(...) or F(...) inside of an expression
    (vfilter.go:1838-1901). *)
Inductive call_site : Type :=
| FromQuery | FromExpression | InExpression.

(** Only stored.go:103 checks; [StoredExpression.Call] (stored.go:211-236),
    which checks too, is called from nowhere. *)
Definition call_complaints (at_ : call_site) (params : list (string * option argval))
  (args : list (string * val)) : list complaint :=
  match at_ with
  | FromQuery => check_calling_args (parameter_names params) (keys args)
  | _ => []
  end.

(** What GROUP BY and the aggregate functions mean, written without the
    evaluator: no aggregator contexts, function objects, cells or bins. *)

From Coq Require Import ZArith List String Bool.
From Verif Require Import Base F64 Value Protocols Monad Chains Flatten Syntax Eval PureSpec PureSelect.
Import ListNotations.
Open Scope string_scope.
Open Scope list_scope.

Inductive agg : Type := Count | Sum | Min | Max | Enumerate.

(** The name each aggregate is registered under, and its argument. *)
Definition agg_name (a : agg) : string :=
  match a with
  | Count => "count" | Sum => "sum" | Min => "min" | Max => "max" | Enumerate => "enumerate"
  end.
Definition agg_param (a : agg) : string :=
  match a with Count | Enumerate => "items" | Sum | Min | Max => "item" end.
Definition agg_func (a : agg) : func :=
  match a with
  | Count => FCount | Sum => FSum | Min => FMin | Max => FMax | Enumerate => FEnumerate
  end.

Definition agg_named (f : string) : option agg :=
  find (fun a => String.eqb f (agg_name a)) [Count; Sum; Min; Max; Enumerate].

(** A call of an aggregate: its call node, the aggregate and the expression it
    is applied to ([count()] is applied to nothing). *)
Definition agg_call (e : expr) : option (nat * agg * expr) :=
  match e with
  | ESym node false [f] true [] =>
      match agg_named f with Some Count => Some (node, Count, ELit VNull) | _ => None end
  | ESym node false [f] true [(p, AExpr e)] =>
      match agg_named f with
      | Some a => if String.eqb p (agg_param a) then Some (node, a, e) else None
      | None => None
      end
  | _ => None
  end.

(** The aggregates an expression is computed from, where evaluation always
    reaches them: [sum(item=x) / count()], [enumerate(items=x)[0]],
    [[count(), max(item=x)]], [count() > 1 AND a] and, in a list given to a
    function, [format(format="%v of %v", args=[count(), x])]. *)
Fixpoint aggs (e : expr) : list (nat * agg * expr) :=
  match agg_call e with
  | Some x => [x]
  | None =>
      match e with
      | EAdd l rs | EMul l rs => aggs l ++ flat_map (fun oe => aggs (snd oe)) rs
      | ENot e => aggs e
      | ECmp l _ r => aggs l ++ aggs r
      | EMember l _ => aggs l
      | EAnd l _ | EOr l _ => aggs l
      | EComma l rs =>
          aggs l ++
          (fix go (rs : list (option expr)) : list (nat * agg * expr) :=
             match rs with [] => [] | Some e :: r => aggs e ++ go r | None :: r => go r end) rs
      | ESym _ false [_] true params =>
          (fix go (ps : list (string * argval)) : list (nat * agg * expr) :=
             match ps with [] => [] | (_, AArray e) :: r => aggs e ++ go r | _ :: r => go r end) params
      | _ => []
      end
  end.
(** Those of the arguments of a function. *)
Definition args_aggs (ps : list (string * argval)) : list (nat * agg * expr) :=
  flat_map (fun na => match snd na with AArray e => aggs e | _ => [] end) ps.
(** Those of a list. *)
Definition list_aggs (rs : list (option expr)) : list (nat * agg * expr) :=
  flat_map (fun r => match r with Some e => aggs e | None => [] end) rs.
(** A list with commas between its members and at most one at its end. *)
Fixpoint listed (rs : list (option expr)) : bool :=
  match rs with [] | [None] => true | Some _ :: r => listed r | None :: _ => false end.
Definition col_aggs (b : colbody) : list (nat * agg * expr) :=
  match b with CExpr e => aggs e | _ => [] end.

Section Spec.
  Variable E : env.
  Variable funs : string -> option (dict -> option val).

  (** The items of a sum that are numbers, truncated to integers. *)
  Fixpoint ints (l : list val) : list Z :=
    match l with
    | [] => []
    | v :: r => match to_int64 v with Some z => z :: ints r | None => ints r end
    end.

  Definition zsum (l : list Z) : Z := fold_right Z.add 0%Z l.

  Notation lt := (lt_disp (p_lt (env_protos E))).
  Definition least (v : val) (l : list val) : val := fold_left (fun m x => if lt x m then x else m) l v.
  Definition greatest (v : val) (l : list val) : val := fold_left (fun m x => if lt x m then m else x) l v.

  (** The aggregate of the items of a group. *)
  Definition aggregate (a : agg) (items : list val) : val :=
    match a with
    | Count => VInt KUint64 (wrapu64 (Z.of_nat (List.length items)))
    | Sum => match to_int64 (last items VNull) with
             | Some _ => vint (wrap64 (zsum (ints items)))
             | None => VNull
             end
    | Min => match items with [] => VNull | v :: r => least v r end
    | Max => match items with [] => VNull | v :: r => greatest v r end
    | Enumerate => VArr items
    end.

  (** How the value of the GROUP BY expression prints. *)
  Definition printed (v : val) : string :=
    match expand v with VStr s => s | w => env_sprint E w end.

  Section Query.
    Variables (fr : list dict) (star : bool) (cols : list (string * colbody)) (where_ : option expr)
      (g : expr).

    (** The columns as WHERE and GROUP BY see them; one that is an aggregate
        has no value there. *)
    Definition shown (row : dict) : dict :=
      columns_of (col_value E funs fr row) row cols (if star then fields row else []).

    (** The rows that WHERE accepts, in order, with their groups. *)
    Fixpoint keyed (rows : list dict) : option (list (string * dict)) :=
      match rows with
      | [] => Some []
      | row :: rest =>
          obind (holds E funs fr (shown row) row where_) (fun keep =>
          if keep : bool then
            obind (den E funs (shown row :: row :: fr) g) (fun v =>
            option_map (cons (printed v, row)) (keyed rest))
          else keyed rest)
      end.

    (** The groups in the order in which they first appear. *)
    Fixpoint first_seen (seen ks : list string) : list string :=
      match ks with
      | [] => []
      | k :: r => if mem_str k seen then first_seen seen r else k :: first_seen (k :: seen) r
      end.

    Definition group (k : string) (l : list (string * dict)) : list dict :=
      map snd (filter (fun kr => String.eqb k (fst kr)) l).

    (** What the aggregate is applied to, for one row. *)
    Definition item (e : expr) (row : dict) : option val :=
      obind (den E funs (row :: fr) e) (fun v =>
      match v with VNil => None | _ => Some (expand v) end).

    (** The value of an expression for a group: an aggregate is over all its
        rows, anything else is evaluated for its last row. *)
    Fixpoint over (rows : list dict) (e : expr) {struct e} : option val :=
      match agg_call e with
      | Some (_, a, x) => option_map (aggregate a) (sequence (map (item x) rows))
      | None =>
          match e with
          | EAdd l rs =>
              obind (over rows l) (fun l =>
              obind (sequence (map (fun oe => option_map (pair (fst oe)) (over rows (snd oe))) rs))
                    (add_value E l))
          | EMul l rs =>
              obind (over rows l) (fun l =>
              obind (sequence (map (fun oe => option_map (pair (fst oe)) (over rows (snd oe))) rs))
                    (mul_value E l))
          | ENot e => option_map (fun v => VBool (negb (truthy E v))) (over rows e)
          | ECmp l op r =>
              obind (over rows l) (fun a =>
              option_map (fun b => VBool (cond_op (env_protos E) (env_match E) op a b)) (over rows r))
          | EMember l ts =>
              obind (over rows l) (fun v => den E funs (last rows [] :: fr) (EMember (ELit v) ts))
          | EAnd l rs =>
              obind (over rows l) (fun v => den E funs (last rows [] :: fr) (EAnd (ELit v) rs))
          | EOr l rs =>
              obind (over rows l) (fun v => den E funs (last rows [] :: fr) (EOr (ELit v) rs))
          | EComma l rs =>
              obind (over rows l) (fun v =>
              obind (sequence (map (fun r => match r with
                                             | Some e => option_map Some (over rows e)
                                             | None => Some None
                                             end) rs)) (fun vs =>
              if (negb (is_nil v) && listed rs) || match list_aggs rs with [] => true | _ => false end then
                Some (match v, vs with
                      | VNil, _ => VNull
                      | _, [] => v
                      | _, _ => VArr (v :: items vs)
                      end)
              else None))
          | ESym _ false [f] true params =>
              obind (funs f) (fun F =>
              obind (sequence (map (fun na =>
                       match na with
                       | (name, AExpr e) =>
                           option_map (fun v => (name, expand v)) (den E funs (last rows [] :: fr) e)
                       | (name, AArray e) => option_map (fun v => (name, v)) (over rows e)
                       | (name, AEmpty) => Some (name, VArr [])
                       | (_, ASelect _) => None
                       end) params)) (fun args =>
              obind (F (dict_of args)) (fun v => option_map or_null (check v))))
          | _ => den E funs (last rows [] :: fr) e
          end
      end.

    (** A column of the result row of a group. *)
    Definition group_value (rows : list dict) (b : colbody) : option val :=
      match b with
      | CExpr e => option_map expand (over rows e)
      | _ => None
      end.

    Fixpoint group_columns (rows : list dict) (cols : list (string * colbody)) (acc : dict) : option dict :=
      match cols with
      | [] => Some acc
      | (name, body) :: rest =>
          obind (group_value rows body) (fun v => group_columns rows rest (dict_set name v acc))
      end.

    Definition result_row (rows : list dict) : option dict :=
      group_columns rows cols (if star then fields (last rows []) else []).

    (** After every row the rows of its group so far have a result row. *)
    Fixpoint all_defined (pre l : list (string * dict)) : Prop :=
      match l with
      | [] => True
      | (k, row) :: rest =>
          (exists out, result_row (group k pre ++ [row]) = Some out) /\ all_defined (pre ++ [(k, row)]) rest
      end.

    (** [SELECT cols FROM rows WHERE w GROUP BY g] *)
    Definition group_select (rows : list dict) : option (list dict) :=
      obind (keyed rows) (fun l =>
      sequence (map (fun k => result_row (group k l)) (first_seen [] (map fst l)))).

    (** Without GROUP BY the aggregates are over the rows so far: each row is
        the result row of the accepted rows up to it. *)
    Fixpoint running_select (prev rows : list dict) : option (list dict) :=
      match rows with
      | [] => Some []
      | row :: rest =>
          obind (holds E funs fr (shown row) row where_) (fun keep =>
          if keep : bool then
            obind (result_row (prev ++ [row])) (fun out =>
            option_map (cons out) (running_select (prev ++ [row]) rest))
          else running_select prev rest)
      end.
  End Query.
End Spec.

(** The evaluator: vfilter.go, vfilter_group.go, stored.go, lazy.go,
    lambda.go, the built in functions and plugins.

    Go objects with identity or scopes inside are kept in a heap and seen by
    programs as [VOpaque n]; materialised queries are [VQuery rows].

    Simplifications, all over this file:
    - a query is evaluated to the list of its rows; the goroutines and
      channels that stream them, and cancellation, are modelled in Pipeline.v
      and Foreach.v.  Rows of the FROM clause are all produced before the
      first is processed, and LIMIT cuts the list: a schedule of the real
      program in which the producer is never ahead gives the same rows when
      the columns have no effect on the FROM clause.
    - Scope.Copy followed by AppendVars yields an independent scope (Scope.v
      proves this of the Go code, C26), so scopes are immutable values here.
    - log messages, statistics, EXPLAIN and throttling are left out. *)

From Coq Require Import ZArith List String Bool.
From Verif Require Import Base F64 Value Protocols Monad Chains Range Flatten ArgParser Text Builtins Syntax.
Import ListNotations.
Open Scope nat_scope.
Open Scope string_scope.
Open Scope list_scope.

(** scope/scope.go:84-113, the parts that matter for evaluation: the frames,
    innermost first, the depth, and where the aggregator context is found. *)
Record scope : Type := {
  sc_vars : list val;
  sc_depth : nat;
  sc_cell : nat
}.

(** scope.go:343-385 *)
Definition copy (sc : scope) : scope :=
  {| sc_vars := sc_vars sc; sc_depth := S (sc_depth sc); sc_cell := sc_cell sc |}.

(** scope.go:396-405 *)
Definition append_vars (row : val) (sc : scope) : scope :=
  {| sc_vars := row :: sc_vars sc; sc_depth := sc_depth sc; sc_cell := sc_cell sc |}.

(** scope.go:251-265 *)
Definition overflow (sc : scope) : bool := Nat.leb 1000 (sc_depth sc).

(** stored.go:36-41 _StoredQuery, 164-169 StoredExpression.  The defaults are
    kept in the order of the parameters (in Go a map: the order in which
    missing arguments are filled in is not fixed): the name of the parameter,
    the name as written, and the default. *)
Record qdef : Type := {
  q_select : select;
  q_defaults : list (string * (string * argval))
}.
(** stored.go:164-169 StoredExpression *)
Record edef : Type := {
  e_expr : expr;
  e_defaults : list (string * (string * argval))
}.

(** The closures given to LazyRow.AddColumn (vfilter.go:1063-1066,
    1107-1110, 1128-1144). *)
Inductive getter : Type :=
| GConst (v : val)
| GCol (body : colbody) (sc : scope).

(** Go objects with identity: stored.go:36-41 _StoredQuery, stored.go:164-169
    StoredExpression, lazy.go (rows and expressions),
    arg_parser/args.go:277-279 LazyExpressionWrapper. *)
Inductive obj : Type :=
| OQuery (d : qdef)                       (* *_StoredQuery *)
| OSelect (s : select)                    (* *_Select passed as an argument *)
| OExprDef (d : edef)                     (* *StoredExpression *)
| OCallSite (q : val) (sc : scope)        (* *StoredQueryCallSite, stored.go:264-277 *)
| OWrapper (v : val)                      (* *StoredQueryWrapper, args.go:195-229 *)
| OLazy (e : expr) (sc : scope) (cache : option val)   (* *LazyExprImpl, lazy.go:124-129 *)
| OLazyQuery (q : val)                    (* StoredQueryWrapperLazyExpression, args.go:258-275 *)
| OLazyVal (v : val)                      (* LazyExpressionWrapper, args.go:277-291 *)
| ORow (columns : list string) (getters : list (string * getter))
       (cache : list (string * val))      (* *LazyRowImpl, lazy.go:22-38 *)
| OScope (sc : scope)
| OHost.                                  (* objects of the host *)

(** Where a scope finds its aggregator context (scope.go:120-145): its own,
    or its parent's.  A copy shares the cell of its parent until
    SetAggregatorCtx, so only scopes on which that is called get a cell of
    their own. *)
Inductive cell : Type :=
| CParent (n : nat)
| COwn (ctx : nat).

(** The built in functions that are modelled, and functions of the host as
    programs over their arguments. What the Call of types.FunctionInterface
    may do (types/*.go): read its arguments, call back the scope, return. *)
Inductive prog (A : Type) : Type :=
| PRet (a : A)
| PPanic
| PReduce (v : val) (k : val -> prog A)          (* LazyExpr.Reduce *)
| PReduceWS (v : val) (k : val -> prog A)        (* LazyExpr.ReduceWithScope *)
| PTruth (v : val) (k : bool -> prog A)          (* scope.Bool *)
| PIterate (v : val) (k : list val -> prog A)    (* scope.Iterate *)
| PObserve (v : val) (k : prog A).               (* a visible effect *)
Arguments PRet {A} a.
Arguments PPanic {A}.
Arguments PReduce {A} v k.
Arguments PReduceWS {A} v k.
Arguments PTruth {A} v k.
Arguments PIterate {A} v k.
Arguments PObserve {A} v k.

(** functions/builtin.go and functions of the host. *)
Inductive func : Type :=
| FHost (f : list (string * val) -> prog val)
| FIf | FDict | FLen | FScope
| FGet | FSplit | FEncode | FTimestamp | FFormat
| FCount | FSum | FMin | FMax | FEnumerate.

(** plugins/builtins.go:10-25 GetBuiltinPlugins and plugins of the host. *)
Inductive plug : Type :=
| PlHost (f : list (string * val) -> prog (list val))
| PlIf | PlChain | PlForeach | PlFlatten | PlRange | PlScope.

(** A row to sort with the value found under the key. An element of the slice
    of sort/sort.go:74-100 Less. *)
Definition skey : Type := (val * bool) * val.

(** Functions of the Go library that stay abstract: regexp.Compile followed by
    Split (the first argument is the expression, [None] if it does not
    compile), fmt.Sprintf, and the UTF-16 decoder of golang.org/x/text. Called
    by functions/functions.go and sort/sort.go:12-60 Sort. *)
Record golib : Type := {
  go_split : string -> string -> option (list string);
  go_sprintf : string -> list val -> string;
  go_utf16 : string -> string
}.

(** The registries of the scope's dispatcher (scope/dispatcher.go) and the
    parts of Go that stay abstract: regular expressions, [%v], String() and
    sort.Sort. *)
Record env : Type := {
  env_protos : protos;
  env_iter : list (impl1 (list val));
  env_funs : list (string * func);
  env_plugs : list (string * plug);
  env_match : val -> val -> bool;
  env_sprint : val -> string;
  env_sort : (skey -> skey -> bool) -> list skey -> list skey;
  env_go : golib
}.

(** The mutable state: the heap, the caches of the [_SymbolRef] nodes (the
    nodes already split, the function object of a node with its aggregator
    id), the cells and contexts of aggregators, the next aggregator id, and
    the effects seen by the host, newest first. Fields of vfilter.go:1015-1029
    _SymbolRef and of scope/scope.go:85-113 Scope. *)
Record st : Type := {
  heap : list obj;
  split_nodes : list nat;
  node_funs : list (nat * (func * nat));
  cells : list cell;
  ctxs : list (list (nat * val));
  next_id : nat;
  trace : list val
}.

(** No counterpart in /repo: a Go function over that state. *)
Definition EM := M st.

(** No counterpart in /repo: assignment to a part of the state. *)
Definition set_heap (h : list obj) (s : st) : st :=
  {| heap := h; split_nodes := split_nodes s; node_funs := node_funs s; cells := cells s;
     ctxs := ctxs s; next_id := next_id s; trace := trace s |}.
(** No counterpart in /repo: assignment to a part of the state
    (scope/scope.go:119-128 SetAggregatorCtx). *)
Definition set_cells (c : list cell) (s : st) : st :=
  {| heap := heap s; split_nodes := split_nodes s; node_funs := node_funs s; cells := c;
     ctxs := ctxs s; next_id := next_id s; trace := trace s |}.
(** No counterpart in /repo: assignment to a part of the state
    (functions/aggregates.go:75-80 SetContext). *)
Definition set_ctxs (c : list (list (nat * val))) (s : st) : st :=
  {| heap := heap s; split_nodes := split_nodes s; node_funs := node_funs s; cells := cells s;
     ctxs := c; next_id := next_id s; trace := trace s |}.

(** No counterpart in /repo: assignment to an element of a slice. *)
Fixpoint set_nth {A} (n : nat) (x : A) (l : list A) : list A :=
  match l, n with
  | [], _ => []
  | _ :: r, O => x :: r
  | y :: r, S m => y :: set_nth m x r
  end.

(** No counterpart in /repo: reading a Go map. *)
Fixpoint nassoc {A} (n : nat) (l : list (nat * A)) : option A :=
  match l with
  | [] => None
  | (k, v) :: r => if Nat.eqb n k then Some v else nassoc n r
  end.
(** No counterpart in /repo: assignment to a Go map. *)
Fixpoint nset {A} (n : nat) (v : A) (l : list (nat * A)) : list (nat * A) :=
  match l with
  | [] => [(n, v)]
  | (k, x) :: r => if Nat.eqb n k then (k, v) :: r else (k, x) :: nset n v r
  end.

(** A new object. E.g. lazy.go:134-141 NewLazyExpr. *)
Definition alloc (o : obj) : EM val := fun s =>
  (set_heap (heap s ++ [o]) s, RVal (VOpaque (List.length (heap s)))).

(** No counterpart in /repo: following a Go pointer. *)
Definition obj_of (v : val) : EM (option obj) := fun s =>
  (s, RVal match v with VOpaque n => nth_error (heap s) n | _ => None end).

(** No counterpart in /repo: assignment through a Go pointer. *)
Definition update_obj (n : nat) (o : obj) : EM unit := fun s =>
  (set_heap (set_nth n o (heap s)) s, RVal tt).

(** values that implement types.StoredQuery. The case of types.StoredQuery,
    e.g. in vfilter.go:1964-2025 callFunction. *)
Definition is_query (v : val) (o : option obj) : bool :=
  match v, o with
  | VQuery _, _ => true
  | _, Some (OQuery _) | _, Some (OSelect _) | _, Some (OCallSite _ _) | _, Some (OWrapper _) => true
  | _, _ => false
  end.

(** values that implement types.LazyExpr. The case of types.LazyExpr, e.g. in
    arg_parser/parser.go:161-170 anyParser. *)
Definition is_lazy (o : option obj) : bool :=
  match o with
  | Some (OLazy _ _ _) | Some (OLazyQuery _) | Some (OLazyVal _) => true
  | _ => false
  end.

(** No counterpart in /repo: what host functions see, recorded for the
    statements about evaluation. *)
Definition observe (v : val) : EM unit := fun s =>
  ({| heap := heap s; split_nodes := split_nodes s; node_funs := node_funs s; cells := cells s;
      ctxs := ctxs s; next_id := next_id s; trace := v :: trace s |}, RVal tt).

(** ** Aggregator contexts: scope.go:120-145, aggregators/aggregators.go *)

(** SetAggregatorCtx(nil) on a fresh copy: a cell with a new context.
    scope/scope.go:119-128 SetAggregatorCtx *)
Definition fresh_agg (sc : scope) : EM scope := fun s =>
  ({| heap := heap s; split_nodes := split_nodes s; node_funs := node_funs s;
      cells := cells s ++ [COwn (List.length (ctxs s))];
      ctxs := ctxs s ++ [[]]; next_id := next_id s; trace := trace s |},
   RVal {| sc_vars := sc_vars sc; sc_depth := sc_depth sc; sc_cell := List.length (cells s) |}).

(** A copy on which SetAggregatorCtx may be called later.
    scope/scope.go:343-384 Copy *)
Definition own_cell (sc : scope) : EM scope := fun s =>
  (set_cells (cells s ++ [CParent (sc_cell sc)]) s,
   RVal {| sc_vars := sc_vars sc; sc_depth := sc_depth sc; sc_cell := List.length (cells s) |}).

(** scope/scope.go:119-128 SetAggregatorCtx *)
Definition set_agg (sc : scope) (ctx : nat) : EM unit := fun s =>
  (set_cells (set_nth (sc_cell sc) (COwn ctx) (cells s)) s, RVal tt).

(** A new context, as in vfilter_group.go:26-77 GetNextRow. *)
Definition new_ctx : EM nat := fun s =>
  (set_ctxs (ctxs s ++ [[]]) s, RVal (List.length (ctxs s))).

(** GetAggregatorCtx: parents have smaller numbers. scope/scope.go:131-143
    GetAggregatorCtx *)
Fixpoint find_ctx (fuel : nat) (cs : list cell) (n : nat) : nat :=
  match fuel with
  | O => 0
  | S f =>
      match nth_error cs n with
      | Some (COwn c) => c
      | Some (CParent p) => find_ctx f cs p
      | None => 0
      end
  end.

(** scope/scope.go:131-143 GetAggregatorCtx *)
Definition agg_ctx (sc : scope) (s : st) : nat :=
  find_ctx (S (List.length (cells s))) (cells s) (sc_cell sc).

(** aggregators.go:14-24 Modify *)
Definition modify (sc : scope) (id : nat) (f : option val -> val) : EM val := fun s =>
  let c := agg_ctx sc s in
  let data := match nth_error (ctxs s) c with Some d => d | None => [] end in
  let v := f (nassoc id data) in
  (set_ctxs (set_nth c (nset id v data) (ctxs s)) s, RVal v).

(** ** The knot

    The evaluators call each other without structure (a symbol may evaluate
    any expression in the scope), so every step below is written against the
    record of evaluators and tied with fuel at the end.

    The methods of vfilter.go, stored.go and lazy.go that call each other. *)
Record evals : Type := {
  r_expr : scope -> expr -> EM val;
  r_select : scope -> select -> EM (list val);
  r_query : scope -> val -> EM (list val);          (* StoredQuery.Eval *)
  r_assoc : scope -> val -> akey -> EM (val * bool);
  r_reduce : val -> EM val;                         (* maybeReduce *)
  r_reduce_ws : scope -> val -> EM val;
  r_evalsym : scope -> val -> EM (list val);        (* Plugin.evalSymbol *)
  r_negate : scope -> val -> EM val;
  r_normalize : scope -> nat -> val -> EM val;
  r_tostring : scope -> val -> EM string
}.

Section Step.
  Variable E : env.
  Variable R : evals.

  (** utils.ToString of the key of an Associative call. utils/utils.go:72-83
      ToString, called by protocols/protocol_associative.go:45-119
      Associative. *)
  Definition key_string (k : akey) : option string :=
    match k with KVal v => to_string v | KRange _ _ => None end.

  (** scope.go:650-679 _ResolveVars; nil is the absence of a default. *)
  Fixpoint resolve_frames (sc : scope) (frames : list val) (field : string) (default : val)
    : EM (val * bool) :=
    match frames with
    | [] => mret (default, match default with VNil => false | _ => true end)
    | f :: rest =>
        '(element, pres) <- r_assoc R sc f (KVal (VStr field)) ;;
        if pres then mret (match element with VNil => VNull | _ => element end, true)
        else resolve_frames sc rest field
               (match default with VNil => element | _ => default end)
    end.

  (** scope.go:634-646 Resolve *)
  Definition resolve (sc : scope) (field : string) : EM (val * bool) :=
    if overflow sc then mret (VNull, false)
    else resolve_frames sc (sc_vars sc) field VNil.

  (** types/stored_query.go:14-33 Materialize *)
  Definition materialize_rows (sc : scope) (q : val) : EM (list val) := r_query R (copy sc) q.

  (** materializer/in_memory.go:98-104 through scope.Materialize *)
  Definition materialize (sc : scope) (q : val) : EM val :=
    rows <- materialize_rows sc q ;; mret (VQuery rows).

  (** ** Lazy rows *)

  (** protocols/protocol_associative.go:121-148 GetMembers, 326-360 for the
      first element of a slice; lazy.go:78-80 Columns. *)
  Definition members_of (h : list obj) : val -> list string :=
    fix go (v : val) : list string :=
      match v with
      | VDict d => keys d
      | VArr (x :: _) => go x
      | VQuery (x :: _) => go x
      | VOpaque n =>
          match nth_error h n with
          | Some (ORow columns _ _) => columns
          | _ => []
          end
      | _ => []
      end.

  (** protocols/protocol_associative.go:121-148 GetMembers, with
      DefaultAssociative.GetMembers (326-360) for slices; methods of host
      types are not modelled. *)
  Definition members (v : val) : EM (list string) := fun s =>
    (s, RVal (members_of (heap s) v)).

  (** The subselect of vfilter.go:1665-1715 Reduce: one row as a value. *)
  Definition subselect_item (sc : scope) (item : val) : EM (list val) :=
    ms <- members item ;;
    match ms with
    | [m] =>
        '(v, pres) <- r_assoc R sc item (KVal (VStr m)) ;;
        mret (if pres then [v] else [])
    | _ => mret [item]
    end.

  (** vfilter.go:864-896 Reduce *)
  Definition col_reduce (sc : scope) (body : colbody) : EM val :=
    match body with
    | CExpr e => r_expr R sc e
    | CSelect s =>
        items <- r_select R sc s ;;
        rows <- mmap (subselect_item sc) items ;;
        mret (match List.concat rows with
              | [] => VNilArr
              | [x] => x
              | l => VArr l
              end)
    | CStar => mret VNil
    end.

  (** vfilter.go:1128-1144: a column value that is a query is expanded. *)
  Definition run_getter (g : getter) : EM val :=
    match g with
    | GConst v => mret v
    | GCol body sc =>
        item <- col_reduce sc body ;;
        o <- obj_of item ;;
        match item with
        | VQuery rows => mret (VArr rows)
        | _ => if is_query item o then materialize sc item else mret item
        end
    end.

  (** lazy.go:60-76 Get *)
  Definition row_get (n : nat) (key : string) : EM (val * bool) :=
    o <- obj_of (VOpaque n) ;;
    match o with
    | Some (ORow columns getters cache) =>
        match assoc key cache with
        | Some v => mret (v, true)
        | None =>
            match assoc key getters with
            | None => mret (VNull, false)
            | Some g =>
                v <- run_getter g ;;
                o <- obj_of (VOpaque n) ;;
                match o with
                | Some (ORow columns getters cache) =>
                    update_obj n (ORow columns getters (dict_set key v cache)) ;;;
                    mret (v, true)
                | _ => mret (v, true)
                end
            end
        end
    | _ => mret (VNull, false)
    end.

  (** lazy.go:95-118 MaterializedLazyRow: a value found in the cache is used,
      a computed one is not put there. *)
  Fixpoint materialize_columns (n : nat) (columns : list string) (result : list (string * val))
    : EM (list (string * val)) :=
    match columns with
    | [] => mret result
    | c :: rest =>
        o <- obj_of (VOpaque n) ;;
        v <- (match o with
              | Some (ORow _ getters cache) =>
                  match assoc c cache with
                  | Some v => mret v
                  | None =>
                      match assoc c getters with
                      | Some g => run_getter g
                      | None => mpanic
                      end
                  end
              | _ => mpanic
              end) ;;
        materialize_columns n rest (dict_set c v result)
    end.

  (** lazy.go:95-118 MaterializedLazyRow *)
  Definition materialize_row (row : val) : EM val :=
    o <- obj_of row ;;
    match row, o with
    | VOpaque n, Some (ORow columns _ _) =>
        d <- materialize_columns n columns [] ;; mret (VDict d)
    | _, _ => mret row
    end.

  (** ** Associative *)

  (** protocols/stored_query.go:17-48: a query that is not in memory, indexed
      by something that is not a string. *)
  Fixpoint query_index (sc : scope) (rows : list val) (i : Z) (k : akey) (result : list val)
    : EM (val * bool) :=
    match rows with
    | [] => mret (match result with [] => VNilArr | _ => VArr result end, true)
    | row :: rest =>
        match k with
        | KVal b =>
            match to_int64 b with
            | Some idx =>
                if Z.eqb i idx then mret (row, true)
                else
                  '(item, pres) <- r_assoc R sc row k ;;
                  query_index sc rest (i + 1)%Z k (if pres then result ++ [item] else result)
            | None =>
                '(item, pres) <- r_assoc R sc row k ;;
                query_index sc rest (i + 1)%Z k (if pres then result ++ [item] else result)
            end
        | KRange _ _ =>
            '(item, pres) <- r_assoc R sc row k ;;
            query_index sc rest (i + 1)%Z k (if pres then result ++ [item] else result)
        end
    end.

  (** The loop of protocols/stored_query.go:17-48 Associative. *)
  Fixpoint assoc_elems (sc : scope) (l : list val) (k : akey) : EM (list val) :=
    match l with
    | [] => mret []
    | x :: r =>
        '(v, pres) <- r_assoc R sc x k ;;
        vs <- assoc_elems sc r k ;;
        mret (if pres then v :: vs else vs)
    end.

  (** protocol_associative.go:105-117: the registered implementations, then
      the default.  A lazy value is reduced only by the default (173). *)
  Definition assoc_other (sc : scope) (a : val) (o : option obj) (k : akey) : EM (val * bool) :=
    match first_assoc (p_assoc (env_protos E)) a k with
    | Some r => mret r
    | None =>
        if match a with VQuery _ => false | _ => is_query a o end then
          rows <- r_query R (copy sc) a ;; query_index sc rows 0%Z k []
        else if is_lazy o then
          v <- r_reduce R a ;;
          mret (match v with
                | VArr _ | VNilArr | VStr _ => assoc_disp [] v k
                | _ => (VNull, false)
                end)
        else match a, key_string k with
             | VArr l, Some _ =>
                 items <- assoc_elems sc l k ;;
                 mret (match items with [] => VNilArr | _ => VArr items end, true)
             | _, _ => mret (assoc_disp (p_assoc (env_protos E)) a k)
             end
    end.

  (** protocol_associative.go:45-119 *)
  Definition assoc_step (sc : scope) (a : val) (k : akey) : EM (val * bool) :=
    if is_nil a then mret (VNull, true)
    else
      o <- obj_of a ;;
      match key_string k with
      | None => assoc_other sc a o k
      | Some field =>
          match a, o with
          | VDict _, _ => mret (assoc_disp [] a (KVal (VStr field)))
          | _, Some (OScope sc') => resolve sc' field
          | _, Some (OExprDef d) =>
              v <- r_expr R (copy sc) (e_expr d) ;; r_assoc R sc v k
          | VOpaque n, Some (ORow _ _ _) => row_get n field
          | _, _ =>
              if is_query a o then
                rows <- r_query R sc a ;;
                fields <- mmap (fun row =>
                            '(v, pres) <- r_assoc R sc row (KVal (VStr field)) ;;
                            mret (if pres then v else VNull)) rows ;;
                mret (VArr fields, true)
              else assoc_other sc a o k
          end
      end.

  (** ** Operators *)

  (** protocol_bool.go:20-76 with _StoredQueryBool (stored_query.go:55-77) *)
  Definition truth (sc : scope) (v : val) : EM bool :=
    v <- r_reduce R v ;;
    o <- obj_of v ;;
    match v with
    | VQuery _ => mret (bool_disp (p_bool (env_protos E)) v)
    | _ =>
        if is_query v o then
          rows <- r_query R (copy sc) v ;;
          mret (match rows with [] => false | _ => true end)
        else mret (bool_disp (p_bool (env_protos E)) v)
    end.

  (** Queries as operands of Add are run when the other side is a query
      (stored_query.go:84-97) or an array (protocol_add.go:96-102, 115-135). *)
  Definition addf (sc : scope) (a b : val) : EM val :=
    a <- r_reduce R a ;;
    b <- r_reduce R b ;;
    oa <- obj_of a ;;
    ob <- obj_of b ;;
    if (is_query a oa && (is_query b ob || is_array b)) || (is_array a && is_query b ob) then
      a' <- (if is_query a oa then materialize sc a else mret a) ;;
      b' <- (if is_query b ob then materialize sc b else mret b) ;;
      mret (add_disp (p_add (env_protos E)) a' b')
    else mret (add_disp (p_add (env_protos E)) a b).

  (** protocols/protocol_sub.go:23-67 Sub on reduced operands. *)
  Definition subf (sc : scope) (a b : val) : EM val :=
    a <- r_reduce R a ;; b <- r_reduce R b ;;
    mret (sub_disp (p_sub (env_protos E)) a b).

  (** protocols/protocol_mul.go:25-82 Mul on reduced operands. *)
  Definition mulf (sc : scope) (a b : val) : EM val :=
    a <- r_reduce R a ;; b <- r_reduce R b ;;
    match mul_disp (p_mul (env_protos E)) a b with
    | Ok v => mret v
    | Panic => mpanic
    end.

  (** protocols/protocol_div.go:23-77 Div on reduced operands. *)
  Definition divf (sc : scope) (a b : val) : EM val :=
    a <- r_reduce R a ;; b <- r_reduce R b ;;
    mret (div_disp (p_div (env_protos E)) a b).

  (** vfilter.go:1562-1598 *)
  Definition cmpf (sc : scope) (op : cmpop) (a b : val) : EM val :=
    a <- r_reduce R a ;; b <- r_reduce R b ;;
    mret (VBool (cond_op (env_protos E) (env_match E) op a b)).

  (** ** Arguments of calls *)

  (** Part of vfilter.go:1929-1961 buildArgsFromParameters. *)
  Definition arg_eager (sc : scope) (a : argval) : EM val :=
    match a with
    | AExpr e => r_expr R sc e
    | ASelect s => alloc (OSelect s)
    | AArray e => r_expr R sc e
    | AEmpty => mret (VArr [])
    end.

  (** vfilter.go:1929-1961 buildArgsFromParameters *)
  Fixpoint build_args (sc : scope) (params : list (string * argval)) (args : list (string * val))
    : EM (list (string * val)) :=
    match params with
    | [] => mret args
    | (name, a) :: rest =>
        v <- arg_eager sc a ;; build_args sc rest (dict_set name v args)
    end.

  (** vfilter.go:1974-1992: for a built in function the expression is lazy. *)
  Fixpoint build_lazy_args (sc : scope) (params : list (string * argval))
    (args : list (string * val)) : EM (list (string * val)) :=
    match params with
    | [] => mret args
    | (name, a) :: rest =>
        v <- (match a with
              | AExpr e => alloc (OLazy e sc None)
              | _ => arg_eager sc a
              end) ;;
        build_lazy_args sc rest (dict_set name v args)
    end.

  (** stored.go:186-208 applyDefaults; a default that is a query is stored
      under the name as written. *)
  Fixpoint apply_defaults (sc : scope) (defaults : list (string * (string * argval)))
    (args : list (string * val)) : EM (list (string * val)) :=
    match defaults with
    | [] => mret args
    | (name, (written, a)) :: rest =>
        match assoc name args with
        | Some _ => apply_defaults sc rest args
        | None =>
            v <- arg_eager sc a ;;
            apply_defaults sc rest
              (dict_set (match a with ASelect _ => written | _ => name end) v args)
        end
    end.

  (** ** Functions *)

  (** A function of the host called by vfilter.go:1964-2025 callFunction. *)
  Fixpoint run_prog {A} (sc : scope) (p : prog A) : EM A :=
    match p with
    | PRet a => mret a
    | PPanic => mpanic
    | PReduce v k => v <- r_reduce R v ;; run_prog sc (k v)
    | PReduceWS v k => v <- r_reduce_ws R sc v ;; run_prog sc (k v)
    | PTruth v k => b <- truth sc v ;; run_prog sc (k b)
    | PIterate v k =>
        v <- r_reduce R v ;;
        o <- obj_of v ;;
        rows <- (if is_query v o then r_query R sc v else mret (iterate (env_iter E) v)) ;;
        run_prog sc (k rows)
    | PObserve v k => observe v ;;; run_prog sc k
    end.

  (** arg_parser/args.go:182-193 ToStoredQuery *)
  Definition to_stored_query (arg : val) : EM val :=
    arg <- r_reduce R arg ;;
    o <- obj_of arg ;;
    if is_query arg o then mret arg else alloc (OWrapper arg).

  (** args.go:246-256 ToLazyExpr *)
  Definition to_lazy_expr (arg : val) : EM val :=
    o <- obj_of arg ;;
    if is_lazy o then mret arg
    else if is_query arg o then alloc (OLazyQuery arg)
    else alloc (OLazyVal arg).

  (** utils/dict/dict.go:17-32 RowToDict *)
  Fixpoint row_to_dict_loop (sc : scope) (row : val) (columns : list string)
    (result : list (string * val)) : EM val :=
    match columns with
    | [] => mret (VDict result)
    | c :: rest =>
        '(v, pres) <- r_assoc R sc row (KVal (VStr c)) ;;
        if pres then
          v <- r_normalize R sc 0 v ;; row_to_dict_loop sc row rest (dict_set c v result)
        else row_to_dict_loop sc row rest result
    end.

  (** utils/dict/dict.go:17-32 RowToDict *)
  Definition row_to_dict (sc : scope) (row : val) : EM val :=
    ms <- members row ;; row_to_dict_loop sc row ms [].

  (** dict.go:36-142 normalize_value *)
  Definition normalize_step (sc : scope) (depth : nat) (v : val) : EM val :=
    if Nat.ltb 10 depth then mret VNull
    else
      o <- obj_of v ;;
      if is_lazy o then v' <- r_reduce R v ;; r_normalize R sc (S depth) v'
      else if is_query v o then rows <- materialize_rows sc v ;; mret (VArr rows)
      else match v with
           | VNil => mret VNull
           | VNilArr => mret (VArr [])
           | VArr l => l' <- mmap (r_normalize R sc (S depth)) l ;; mret (VArr l')
           | _ => mret v
           end.

  (** types/string.go:13-50 ToString *)
  Definition tostring_step (sc : scope) (v : val) : EM string :=
    o <- obj_of v ;;
    if is_lazy o then v' <- r_reduce R v ;; r_tostring R sc v'
    else match v with
         | VQuery rows => r_tostring R sc (VArr rows)
         | _ =>
             if is_query v o then rows <- materialize_rows sc v ;; r_tostring R sc (VArr rows)
             else match v with
                  | VStr s => mret s
                  | _ => mret (env_sprint E v)
                  end
         end.

  (** The argument parser (ArgParser.v) with the operations of the scope.
      arg_parser/args.go:58-78 ExtractArgsWithContext *)
  Definition parse_args (sc : scope) (fields : list fieldp) (args : list (string * val))
    (target : list val) : EM (list val * option perr) :=
    extract_args (r_reduce R) (r_reduce_ws R sc) (truth sc) members
      (fun a k => r_assoc R sc a (KVal (VStr k))) (env_sprint E)
      to_stored_query to_lazy_expr (row_to_dict sc) fields args target.

  (** No counterpart in /repo: a field of an argument struct, as
      arg_parser/parser.go:370-490 BuildParser describes it. *)
  Definition field_ (name : string) (idx : nat) (req : bool) (t : ftype) : fieldp :=
    {| fp_name := name; fp_idx := idx; fp_required := req; fp_type := t |}.

  (** functions/if.go:11-15 *)
  Definition if_fields : list fieldp :=
    [field_ "condition" 0 true TAny; field_ "then" 1 false TLazyAny; field_ "else" 2 false TLazyAny].

  (** functions/if.go:27-85.  The fall through from Then to Else happens when
      Then still is a lazy expression after one reduction, and that does not
      reduce to a query. *)
  Definition if_else (sc : scope) (els : val) : EM val :=
    if is_nil els then mret VNull
    else
      o <- obj_of els ;;
      els <- (if is_lazy o then r_reduce_ws R sc els else mret els) ;;
      o <- obj_of els ;;
      if is_lazy o then r_reduce_ws R sc els else mret els.

  (** functions/if.go:27-85 Call *)
  Definition if_function (sc : scope) (args : list (string * val)) : EM val :=
    '(target, err) <- parse_args sc if_fields args [VNil; VNil; VNil] ;;
    match err, target with
    | None, [cond; thn; els] =>
        b <- truth sc cond ;;
        if b then
          if is_nil thn then mret VNull
          else
            o <- obj_of thn ;;
            thn <- (if is_lazy o then r_reduce_ws R sc thn else mret thn) ;;
            o <- obj_of thn ;;
            if is_lazy o then
              e <- r_reduce_ws R sc thn ;;
              oe <- obj_of e ;;
              if is_query e oe then mret e else if_else sc els
            else mret thn
        else if_else sc els
    | _, _ => mret VNull
    end.

  (** functions/functions.go:240-268 *)
  Definition len_function (sc : scope) (args : list (string * val)) : EM val :=
    '(target, err) <- parse_args sc [field_ "list" 0 true TAny] args [VNil] ;;
    match err, target with
    | None, [v] =>
        match v with
        | VNil => mpanic
        | VStr s => mret (VInt KInt (slen s))
        | VArr l => mret (VInt KInt (Z.of_nat (List.length l)))
        | VDict d => mret (VInt KInt (Z.of_nat (List.length d)))
        | _ => mret (VInt KInt 0)
        end
    | _, _ => mret VNull
    end.

  (** functions.go:119-166.  The scope stands for a missing item (134-136). *)
  Fixpoint get_path (sc : scope) (v : val) (path : list string) : EM val :=
    match path with
    | [] => mret v
    | c :: rest =>
        '(x, pres) <- r_assoc R sc v (KVal (member_key c)) ;;
        if pres then get_path sc x rest else mret VNull
    end.

  (** functions/functions.go:128-165 Call *)
  Definition get_function (sc : scope) (args : list (string * val)) : EM val :=
    '(target, err) <- parse_args sc [field_ "item" 0 false TAny; field_ "member" 1 true TString]
                        args [VNil; VStr ""] ;;
    match err, target with
    | None, [item; VStr member] =>
        item <- (match item with VNil => alloc (OScope sc) | _ => mret item end) ;;
        get_path sc item (member_path member)
    | _, _ => mret VNull
    end.

  (** functions.go:75-112 *)
  Definition split_function (sc : scope) (args : list (string * val)) : EM val :=
    '(target, err) <- parse_args sc [field_ "string" 0 true TString; field_ "sep" 1 false TString;
                                     field_ "sep_string" 2 false TString]
                        args [VStr ""; VStr ""; VStr ""] ;;
    match err, target with
    | None, [VStr s; VStr sep; VStr sep_string] =>
        if negb (String.eqb sep "") then
          mret (match go_split (env_go E) sep s with
                | Some l => VArr (map VStr l)
                | None => VNull
                end)
        else if negb (String.eqb sep_string "") then
          mret (VArr (map VStr (split_string s sep_string)))
        else mret VNull
    | _, _ => mret VNull
    end.

  (** functions.go:168-232; of the values of the model only strings have a
      case of their own, for the others String() and [%v] are the same
      ([env_sprint]). *)
  Definition encode_function (sc : scope) (args : list (string * val)) : EM val :=
    '(target, err) <- parse_args sc [field_ "string" 0 true TAny; field_ "type" 1 true TString]
                        args [VNil; VStr ""] ;;
    match err, target with
    | None, [v; VStr type] =>
        let s := match v with VStr s => s | _ => env_sprint E v end in
        if String.eqb type "hex" then mret (VStr (hex_string s))
        else if String.eqb type "string" then mret (VStr s)
        else if String.eqb type "utf16" then mret (VStr (go_utf16 (env_go E) s))
        else mret VNull
    | _, _ => mret VNull
    end.

  (** functions.go:37-69 *)
  Definition timestamp_function (sc : scope) (args : list (string * val)) : EM val :=
    '(target, err) <- parse_args sc [field_ "epoch" 0 false TInt64; field_ "winfiletime" 1 false TInt64]
                        args [vint 0; vint 0] ;;
    match err, target with
    | None, [VInt KInt64 epoch; VInt KInt64 winfiletime] => mret (timestamp_of epoch winfiletime)
    | _, _ => mret VNull
    end.

  (** functions/format.go:13-47: a failure gives FALSE, not NULL. *)
  Definition format_function (sc : scope) (args : list (string * val)) : EM val :=
    '(target, err) <- parse_args sc [field_ "format" 0 true TString; field_ "args" 1 false TAny]
                        args [VStr ""; VNil] ;;
    match err, target with
    | None, [VStr format; v] =>
        let items := match v with
                     | VNil | VNilArr => []
                     | VArr l => l
                     | _ => [v]
                     end in
        mret (VStr (go_sprintf (env_go E) format items))
    | _, _ => mret (VBool false)
    end.

  (** functions/aggregates.go:114-142; a previous value of another type
      cannot occur, the id is private to the function object. *)
  Definition count_function (sc : scope) (id : nat) (args : list (string * val)) : EM val :=
    '(_, err) <- parse_args sc [field_ "items" 0 false TAny] args [VNil] ;;
    match err with
    | Some _ => mret VNull
    | None =>
        modify sc id (fun old =>
          match old with
          | None => VInt KUint64 1
          | Some (VInt KUint64 n) => VInt KUint64 (wrapu64 (n + 1))
          | Some _ => VNull
          end)
    end.

  (** aggregates.go:168-195 *)
  Definition sum_function (sc : scope) (id : nat) (args : list (string * val)) : EM val :=
    '(target, err) <- parse_args sc [field_ "item" 0 true TInt64] args [vint 0] ;;
    match err, target with
    | None, [VInt KInt64 item] =>
        modify sc id (fun old =>
          match old with
          | None => vint (wrap64 (0 + item))
          | Some (VInt KInt64 n) => vint (wrap64 (n + item))
          | Some _ => VNull
          end)
    | _, _ => mret VNull
    end.

  (** aggregates.go:221-243 and 265-286.  The values compared are those the
      expression reduces to; reducing inside Lt has no further effect. *)
  Definition minmax_function (is_min : bool) (sc : scope) (id : nat) (args : list (string * val))
    : EM val :=
    '(target, err) <- parse_args sc [field_ "item" 0 true TLazy] args [VNil] ;;
    match err, target with
    | None, [lazy] =>
        v <- r_reduce R lazy ;;
        modify sc id (fun old =>
          match old with
          | None => v
          | Some p =>
              if is_min
              then if lt_disp (p_lt (env_protos E)) v p then v else p
              else if lt_disp (p_lt (env_protos E)) v p then p else v
          end)
    | _, _ => mret VNull
    end.

  (** aggregates.go:312-337 *)
  Definition enumerate_function (sc : scope) (id : nat) (args : list (string * val)) : EM val :=
    '(target, err) <- parse_args sc [field_ "items" 0 false TAny] args [VNil] ;;
    match err, target with
    | None, [item] =>
        modify sc id (fun old =>
          match old with
          | None => VArr [item]
          | Some (VArr l) => VArr (l ++ [item])
          | Some _ => VNil
          end)
    | _, _ => mret VNull
    end.

  (** The call at the end of vfilter.go:1964-2025 callFunction. *)
  Definition call_func (sc : scope) (f : func) (id : nat) (args : list (string * val)) : EM val :=
    match f with
    | FHost h => run_prog sc (h args)
    | FIf => if_function sc args
    | FDict => row_to_dict sc (VDict args)               (* functions.go:33-35 *)
    | FLen => len_function sc args
    | FScope => alloc (OScope sc)                        (* functions/scope.go *)
    | FGet => get_function sc args
    | FSplit => split_function sc args
    | FEncode => encode_function sc args
    | FTimestamp => timestamp_function sc args
    | FFormat => format_function sc args
    | FCount => count_function sc id args
    | FSum => sum_function sc id args
    | FMin => minmax_function true sc id args
    | FMax => minmax_function false sc id args
    | FEnumerate => enumerate_function sc id args
    end.

  (** The function object of a node: the one made at its first call
      (vfilter.go:1996-2011), whatever the name is bound to later. *)
  Definition node_function (node : nat) (f : func) : EM (func * nat * bool) := fun s =>
    match nassoc node (node_funs s) with
    | Some (f', id) => (s, RVal (f', id, false))
    | None =>
        ({| heap := heap s; split_nodes := split_nodes s;
            node_funs := nset node (f, next_id s) (node_funs s);
            cells := cells s; ctxs := ctxs s; next_id := S (next_id s); trace := trace s |},
         RVal (f, next_id s, true))
    end.

  (** vfilter.go:1964-2025: on the first call of a node nil slices become
      NULL too (2020), later only nil does (1999). *)
  Definition call_function (sc : scope) (node : nat) (f : func) (params : list (string * argval))
    : EM val :=
    args <- build_lazy_args sc params [] ;;
    '(f, id, first) <- node_function node f ;;
    v <- call_func sc f id args ;;
    mret (if (if first : bool then is_nil v else match v with VNil => true | _ => false end)
          then VNull else v).

  (** ** Symbols *)

  (** vfilter.go:1737-1751: the sign is seen only while splitting. *)
  Definition split_symbol (node : nat) (negated : bool) : EM bool := fun s =>
    if existsb (Nat.eqb node) (split_nodes s) then (s, RVal false)
    else ({| heap := heap s; split_nodes := node :: split_nodes s; node_funs := node_funs s;
             cells := cells s; ctxs := ctxs s; next_id := next_id s; trace := trace s |},
          RVal negated).

  (** vfilter.go:1760-1784, 1189-1213 *)
  Fixpoint assoc_path (sc : scope) (v : val) (path : list string) : EM (val * bool) :=
    match path with
    | [] => mret (v, true)
    | c :: rest =>
        '(x, pres) <- r_assoc R sc v (KVal (VStr c)) ;;
        if pres then assoc_path sc x rest else mret (VNil, false)
    end.

  (** vfilter.go:1737-1785 getFunction *)
  Definition lookup_path (sc : scope) (path : list string) : EM (val * bool) :=
    match path with
    | [] => v <- alloc (OScope sc) ;; mret (v, true)
    | c :: rest =>
        '(x, pres) <- resolve sc c ;;
        if pres then assoc_path sc x rest else mret (VNil, false)
    end.

  (** vfilter.go:1787-1818 maybeNegate *)
  Definition negate_step (sc : scope) (v : val) : EM val :=
    o <- obj_of v ;;
    match v, o with
    | _, Some (OExprDef d) => x <- r_expr R sc (e_expr d) ;; r_negate R sc x
    | VBool b, _ => mret (VBool (negb b))
    | VF64 f, _ => mret (VF64 (f_opp f))
    | VF32 f, _ => mret (VF32 (f_opp f))
    | _, _ =>
        if is_lazy o then x <- r_reduce_ws R sc v ;; r_negate R sc x
        else match to_int64 v with
             | Some z => mret (vint (wrap64 (- z)))
             | None => mret VNull
             end
    end.

  (** vfilter.go:1787-1818 maybeNegate *)
  Definition maybe_negate (sc : scope) (negate : bool) (v : val) : EM val :=
    if negate then r_negate R sc v else mret v.

  (** vfilter.go:1820-1910 Reduce of a symbol *)
  Definition sym_reduce (sc : scope) (node : nat) (negated : bool) (path : list string)
    (called : bool) (params : list (string * argval)) : EM val :=
    negate <- split_symbol node negated ;;
    match (match path with [c] => if called then assoc c (env_funs E) else None | _ => None end) with
    | Some f =>
        v <- call_function sc node f params ;; maybe_negate sc negate v
    | None =>
        '(value, pres) <- lookup_path sc path ;;
        if match value with VNil => true | _ => negb pres end then mret VNull
        else
          o <- obj_of value ;;
          match o with
          | Some (OExprDef d) =>
              let subscope := copy sc in
              subscope <- (if called then fresh_agg subscope else mret subscope) ;;
              if overflow subscope then mret VNull
              else
                args <- (if called then build_args sc params [] else mret []) ;;
                args <- apply_defaults sc (e_defaults d) args ;;
                v <- r_expr R (append_vars (VDict args) subscope) (e_expr d) ;;
                maybe_negate sc negate v
          | _ =>
              match params with
              | _ :: _ =>
                  if is_query value o then
                    subscope <- fresh_agg (copy sc) ;;
                    if overflow subscope then mret VNull
                    else
                      vars <- build_args sc params [] ;;
                      vars <- (match o with
                               | Some (OQuery d) => apply_defaults sc (q_defaults d) vars
                               | _ => mret vars
                               end) ;;
                      v <- alloc (OCallSite value (append_vars (VDict vars) subscope)) ;;
                      maybe_negate sc negate v
                  else if called then mret VNull
                  else maybe_negate sc negate value
              | [] =>
                  if called then mret VNull
                  else maybe_negate sc negate value
              end
          end
    end.

  (** ** Expressions *)

  (** Part of vfilter.go:1357-1398 Reduce. *)
  Definition range_bound (sc : scope) (e : option expr) : EM (option (option Z)) :=
    match e with
    | None => mret (Some None)
    | Some e =>
        v <- r_expr R sc e ;;
        mret (match to_int64 v with Some z => Some (Some z) | None => None end)
    end.

  (** vfilter.go:1357-1398 _MemberExpression.Reduce *)
  Fixpoint member_terms (sc : scope) (lhs : val) (ts : list mterm) : EM val :=
    match ts with
    | [] => mret lhs
    | t :: rest =>
        key <- (match t with
                | MRange s e =>
                    s <- range_bound sc s ;;
                    match s with
                    | None => mret None
                    | Some s =>
                        e <- range_bound sc e ;;
                        mret (match e with None => None | Some e => Some (KRange s e) end)
                    end
                | MIndex e => v <- r_expr R sc e ;; mret (Some (KVal v))
                | MField f => mret (Some (KVal (VStr f)))
                end) ;;
        match key with
        | None => mret VNull
        | Some k =>
            '(v, pres) <- r_assoc R sc lhs k ;;
            if pres then member_terms sc v rest else mret VNull
        end
    end.

  (** The operands of vfilter.go:1529-1542 Reduce and the like. *)
  Definition terms (sc : scope) (rs : list (string * expr)) : list (string * EM val) :=
    map (fun oe => (fst oe, r_expr R sc (snd oe))) rs.

  (** The Reduce methods, vfilter.go:1349-1910 *)
  Definition expr_step (sc : scope) (e : expr) : EM val :=
    match e with
    | ELit v => mret v
    | ESym node negated path called params => sym_reduce sc node negated path called params
    | EComma l rs => comma_reduce (r_expr R sc l) (map (option_map (r_expr R sc)) rs)
    | EAnd l rs => and_reduce (truth sc) (r_expr R sc l) (terms sc rs)
    | EOr l rs => or_reduce (truth sc) (r_expr R sc l) (terms sc rs)
    | EAdd l rs => add_reduce (addf sc) (subf sc) (r_expr R sc l) (terms sc rs)
    | EMul l rs => mul_reduce (mulf sc) (divf sc) (r_expr R sc l) (terms sc rs)
    | ENot e => not_reduce (truth sc) (r_expr R sc e)
    | ECmp l op r => a <- r_expr R sc l ;; b <- r_expr R sc r ;; cmpf sc op a b
    | EMember l ts => v <- r_expr R sc l ;; member_terms sc v ts
    end.

  (** ** Lazy expressions: lazy.go:143-178 *)

  Definition reduce_ws_step (sc : scope) (v : val) : EM val :=
    o <- obj_of v ;;
    match o with
    | Some (OLazy e sc0 _) =>
        x <- r_expr R sc0 e ;;
        ox <- obj_of x ;;
        match x with
        | VQuery rows => mret (VArr rows)
        | _ => if is_lazy ox then r_reduce R x else mret x
        end
    | Some (OLazyQuery q) => materialize sc q
    | Some (OLazyVal x) => mret x
    | _ => mret v
    end.

  (** Only a non nil value is kept. lazy.go:172-178 Reduce *)
  Definition reduce_step (v : val) : EM val :=
    o <- obj_of v ;;
    match v, o with
    | VOpaque n, Some (OLazy e sc0 cache) =>
        match cache with
        | Some x => mret x
        | None =>
            x <- r_reduce_ws R sc0 v ;;
            update_obj n (OLazy e sc0 (match x with VNil => None | _ => Some x end)) ;;;
            mret x
        end
    | _, Some (OLazyQuery q) => mret q
    | _, Some (OLazyVal x) => mret x
    | _, _ => mret v
    end.

  (** ** Queries *)

  (** args.go:190-243 StoredQueryWrapper *)
  Definition wrap_row (v : val) : EM (list val) :=
    if is_nil v then mret []
    else ms <- members v ;; mret [match ms with [] => value_row v | _ => v end].

  (** arg_parser/args.go:199-229 Eval *)
  Definition wrapper_rows (v : val) : EM (list val) :=
    match v with
    | VNil => mpanic
    | VNilArr => mret []
    | VArr l => rs <- mmap wrap_row l ;; mret (List.concat rs)
    | _ => wrap_row v
    end.

  (** StoredQuery.Eval: stored.go:65-85, 274-277, in_memory.go:21-38 *)
  Definition query_step (sc : scope) (q : val) : EM (list val) :=
    o <- obj_of q ;;
    match q, o with
    | VQuery rows, _ => mret rows
    | _, Some (OSelect s) => r_select R sc s
    | _, Some (OQuery d) => r_select R (copy sc) (q_select d)
    | _, Some (OCallSite target sc') => r_query R sc' target
    | _, Some (OWrapper v) => wrapper_rows v
    | _, _ => mret []
    end.

  (** stored.go:93-124 _StoredQuery.Call: queries among the arguments are
      expanded. *)
  Fixpoint expand_args (sc : scope) (args : list (string * val)) (vars : list (string * val))
    : EM (list (string * val)) :=
    match args with
    | [] => mret vars
    | (k, v) :: rest =>
        o <- obj_of v ;;
        v <- (if is_lazy o then r_reduce R v
              else match v with
                   | VQuery rows => mret (VArr rows)
                   | _ => if is_query v o then rows <- materialize_rows sc v ;; mret (VArr rows)
                          else mret v
                   end) ;;
        expand_args sc rest (dict_set k v vars)
    end.

  (** stored.go:93-124 Call *)
  Definition call_query (sc : scope) (q : val) (args : list (string * val)) : EM (list val) :=
    sub_scope <- fresh_agg (copy sc) ;;
    vars <- expand_args sub_scope args [] ;;
    r_query R (append_vars (VDict vars) sub_scope) q.

  (** ** Plugins *)

  (** plugins/if.go:11-15 *)
  Definition ifp_fields : list fieldp :=
    [field_ "condition" 0 true TAny; field_ "then" 1 true TStored; field_ "else" 2 false TStored].

  (** plugins/if.go:19-41 Call *)
  Definition if_plugin (sc : scope) (args : list (string * val)) : EM (list val) :=
    '(target, err) <- parse_args sc ifp_fields args [VNil; VNil; VNil] ;;
    match err, target with
    | None, [cond; thn; els] =>
        b <- truth sc cond ;;
        if b then r_query R sc thn
        else match els with VNil => mret [] | _ => r_query R sc els end
    | _, _ => mret []
    end.

  (** plugins/chain.go:25-66 *)
  Definition chain_plugin (sc : scope) (args : list (string * val)) : EM (list val) :=
    queries <- mmap (fun kv => to_stored_query (snd kv)) args ;;
    rows <- mmap (r_query R (copy sc)) queries ;;
    mret (List.concat rows).

  (** plugins/foreach.go:12-18 *)
  Definition foreach_fields : list fieldp :=
    [field_ "row" 0 true TLazy; field_ "query" 1 false TStored; field_ "async" 2 false TBool;
     field_ "workers" 3 false TInt64; field_ "column" 4 false TString].

  (** foreach.go:22-103 with one worker, or any number of workers when the
      order of the output does not matter (C36). *)
  Definition foreach_row (sc : scope) (query : val) (column : string) (row : val) : EM (list val) :=
    row <- (if String.eqb column "" then mret row
            else '(v, pres) <- r_assoc R sc row (KVal (VStr column)) ;;
                 mret (if pres then v else VNull)) ;;
    match query with
    | VNil => mret [row]
    | _ => r_query R (append_vars row (copy sc)) query
    end.

  (** protocols/protocol_iterate.go:21-78 Iterate *)
  Definition iterate_val (sc : scope) (v : val) : EM (list val) :=
    v <- r_reduce R v ;;
    o <- obj_of v ;;
    if is_query v o then r_query R sc v else mret (iterate (env_iter E) v).

  (** plugins/foreach.go:22-99 Call *)
  Definition foreach_plugin (sc : scope) (args : list (string * val)) : EM (list val) :=
    '(target, err) <- parse_args sc foreach_fields args [VNil; VNil; VBool false; vint 0; VStr ""] ;;
    match err, target with
    | None, [row; query; _; _; VStr column] =>
        rows <- iterate_val sc row ;;
        out <- mmap (foreach_row sc query column) rows ;;
        mret (List.concat out)
    | _, _ => mret []
    end.

  (** plugins/flatten.go:16-101; cells are not queries: columns are
      materialised. *)
  Definition make_dict (sc : scope) (item : val) : EM (list (string * val)) :=
    match item with
    | VDict d => mret d
    | _ =>
        ms <- members item ;;
        kvs <- mmap (fun m => '(v, pres) <- r_assoc R sc item (KVal (VStr m)) ;;
                              mret (if pres then [(m, v)] else [])) ms ;;
        mret (fold_left (fun d kv => dict_set (fst kv) (snd kv) d) (List.concat kvs) [])
    end.

  (** plugins/flatten.go:17-54 Call *)
  Definition flatten_plugin (sc : scope) (args : list (string * val)) : EM (list val) :=
    '(target, err) <- parse_args sc [field_ "query" 0 true TStored] args [VNil] ;;
    match err, target with
    | None, [q] =>
        rows <- r_query R sc q ;;
        out <- mmap (fun row => d <- make_dict sc row ;;
                                mret (map VDict (flatten_row (env_iter E) d))) rows ;;
        mret (List.concat out)
    | _, _ => mret []
    end.

  (** plugins/range.go:13-50; the loop that does not end is out of fuel. *)
  Definition range_fields : list fieldp :=
    [field_ "start" 0 false TInt64; field_ "end" 1 true TInt64; field_ "step" 2 false TInt64].

  (** plugins/range.go:19-50 Call *)
  Definition range_plugin (fuel : nat) (sc : scope) (args : list (string * val)) : EM (list val) :=
    '(target, err) <- parse_args sc range_fields args [vint 0; vint 0; vint 0] ;;
    match err, target with
    | None, [VInt _ start; VInt _ stop; VInt _ step] =>
        match range_rows fuel start stop step with
        | Some l => mret (map (fun z => value_row (vint z)) l)
        | None => mfuel
        end
    | _, _ => mret []
    end.

  (** The calls of vfilter.go:1257-1298 evalSymbolWithArgs. *)
  Definition call_plugin (fuel : nat) (sc : scope) (p : plug) (args : list (string * val))
    : EM (list val) :=
    match p with
    | PlHost h => run_prog sc (h args)
    | PlIf => if_plugin sc args
    | PlChain => chain_plugin sc args
    | PlForeach => foreach_plugin sc args
    | PlFlatten => flatten_plugin sc args
    | PlRange => range_plugin fuel sc args
    | PlScope => v <- alloc (OScope sc) ;; mret [v]     (* plugins/builtins.go:17-23 *)
    end.

  (** vfilter.go:1301-1347 evalSymbol *)
  Definition evalsym_step (sc : scope) (symbol : val) : EM (list val) :=
    if overflow sc then mret []
    else
      o <- obj_of symbol ;;
      match o with
      | Some (OExprDef d) => v <- r_expr R sc (e_expr d) ;; r_evalsym R sc v
      | _ =>
          if is_query symbol o then r_query R sc symbol
          else match arr_elems symbol with
               | Some l => mret l
               | None => mret [symbol]
               end
      end.

  (** vfilter.go:1175-1298 Eval of the FROM clause.  A registered plugin is
      found only for a call with a single name. *)
  Definition plugin_eval (fuel : nat) (sc : scope) (p : plugin) : EM (list val) :=
    match p with
    | Plugin path call args =>
        match (match path with [c] => if call then assoc c (env_plugs E) else None | _ => None end) with
        | Some pl =>
            if overflow sc then mret []
            else a <- build_args sc args [] ;; call_plugin fuel sc pl a
        | None =>
            '(symbol, pres) <- lookup_path sc path ;;
            if negb pres then mret []
            else if negb call then r_evalsym R sc symbol
            else if overflow sc then mret []
            else
              o <- obj_of symbol ;;
              match o with
              | Some (OExprDef d) =>
                  a <- build_args sc args [] ;;
                  a <- apply_defaults sc (e_defaults d) a ;;
                  v <- r_expr R (append_vars (VDict a) (copy sc)) (e_expr d) ;;
                  r_evalsym R sc v
              | Some (OQuery d) =>
                  a <- build_args sc args [] ;;
                  a <- apply_defaults sc (q_defaults d) a ;;
                  call_query sc symbol a
              | _ => mret []
              end
        end
    end.

  (** ** SELECT *)

  (** A lazy row under construction: columns and getters
      (lazy.go:40-45 AddColumn). *)
  Definition lrow : Type := list string * list (string * getter).

  (** lazy.go:39-44 AddColumn *)
  Definition add_column (name : string) (g : getter) (r : lrow) : lrow :=
    (fst r ++ [name], dict_set name g (snd r)).

  (** vfilter.go:1101-1112: a leading star. *)
  Fixpoint star_columns (sc : scope) (row : val) (ms : list string) (r : lrow) : EM lrow :=
    match ms with
    | [] => mret r
    | m :: rest =>
        '(v, pres) <- r_assoc R sc row (KVal (VStr m)) ;;
        star_columns sc row rest (if pres then add_column m (GConst v) r else r)
    end.

  (** vfilter.go:1054-1069 mergeStarRow *)
  Fixpoint merge_star (sc : scope) (row : val) (ms : list string) (r : lrow) : EM lrow :=
    match ms with
    | [] => mret r
    | m :: rest =>
        if mem_str m (keys (snd r)) then merge_star sc row rest r
        else
          '(v, pres) <- r_assoc R sc row (KVal (VStr m)) ;;
          merge_star sc row rest (if pres then add_column m (GConst v) r else r)
    end.

  (** The loop over columns of vfilter.go:1080-1148 Transform. *)
  Fixpoint expr_columns (sc new_scope : scope) (row : val) (cols : list (string * colbody)) (r : lrow)
    : EM lrow :=
    match cols with
    | [] => mret r
    | (name, body) :: rest =>
        if String.eqb name "*" then
          ms <- members row ;;
          r <- merge_star sc row ms r ;;
          expr_columns sc new_scope row rest r
        else expr_columns sc new_scope row rest (add_column name (GCol body new_scope) r)
    end.

  (** vfilter.go:1080-1148 Transform *)
  Definition transform (sc : scope) (star : bool) (cols : list (string * colbody)) (row : val)
    : EM val :=
    r <- (if star then ms <- members row ;; star_columns sc row ms ([], []) else mret ([], [])) ;;
    r <- expr_columns sc (append_vars row (copy sc)) row cols r ;;
    alloc (ORow (fst r) (snd r) []).

  (** The value of a WHERE clause as a decision (vfilter.go:750-754,
      vfilter_group.go:54-58). *)
  Definition accepts (sc : scope) (v : val) : EM bool :=
    match v with VNil => mret false | _ => truth sc v end.

  (** vfilter.go:718-770 processSingleRow *)
  Definition process_row (sc : scope) (star : bool) (cols : list (string * colbody))
    (where_ : option expr) (row : val) : EM (list val) :=
    let subscope := copy sc in
    t <- transform subscope star cols row ;;
    match where_ with
    | None => r <- materialize_row t ;; mret [r]
    | Some w =>
        v <- r_expr R (append_vars t (append_vars row (copy subscope))) w ;;
        b <- accepts sc v ;;
        if b then r <- materialize_row t ;; mret [r] else mret []
    end.

  (** sort/sort.go:74-100 *)
  Definition sort_elem (k : val * bool) : val := if is_nil (fst k) then VStr "" else fst k.

  (** sort/sort.go:74-100 Less *)
  Definition sort_less (desc : bool) (a b : skey) : bool :=
    if snd (fst a) && snd (fst b) then
      let lt := lt_disp (p_lt (env_protos E)) (sort_elem (fst a)) (sort_elem (fst b)) in
      if desc then negb lt else lt
    else false.

  (** sort/sort.go:12-60 Sort *)
  Definition sort_rows (sc : scope) (key : string) (desc : bool) (rows : list val) : EM (list val) :=
    ks <- mmap (fun r => r_assoc R sc r (KVal (VStr key))) rows ;;
    mret (map snd (env_sort E (sort_less desc) (combine ks rows))).

  (** grouper/grouper.go:46-82 with vfilter_group.go:26-82; a bin is its key,
      its aggregator context and its last row. *)
  Definition bin : Type := string * (nat * val).

  (** The map of bins of grouper/grouper.go:15-96 Group. *)
  Fixpoint bin_set (key : string) (ctx : nat) (row : val) (bins : list bin) : list bin :=
    match bins with
    | [] => [(key, (ctx, row))]
    | (k, b) :: rest =>
        if String.eqb key k then (k, (ctx, row)) :: rest else (k, b) :: bin_set key ctx row rest
    end.

  (** vfilter_group.go:26-77 GetNextRow and the body of the loop of
      grouper/grouper.go:15-96 Group. *)
  Definition group_row (outer : scope) (star : bool) (cols : list (string * colbody))
    (where_ : option expr) (groupby : expr) (row : val) (bins : list bin) : EM (list bin) :=
    row_scope <- own_cell (copy outer) ;;
    t <- transform row_scope star cols row ;;
    let new_scope := append_vars t (append_vars row row_scope) in
    ok <- (match where_ with
           | None => mret true
           | Some w => v <- r_expr R new_scope w ;; accepts outer v
           end) ;;
    if negb ok then mret bins
    else
      g <- r_expr R new_scope groupby ;;
      key <- r_tostring R new_scope g ;;
      ctx <- (match assoc key bins with Some (c, _) => mret c | None => new_ctx end) ;;
      set_agg row_scope ctx ;;;
      r <- materialize_row t ;;
      mret (bin_set key ctx r bins).

  (** The loop of grouper/grouper.go:15-96 Group. *)
  Fixpoint group_rows (outer : scope) (star : bool) (cols : list (string * colbody))
    (where_ : option expr) (groupby : expr) (rows : list val) (bins : list bin) : EM (list bin) :=
    match rows with
    | [] => mret bins
    | row :: rest =>
        bins <- group_row outer star cols where_ groupby row bins ;;
        group_rows outer star cols where_ groupby rest bins
    end.

  (** vfilter.go:604-716 _Select.Eval, vfilter_group.go:84-122 *)
  Definition select_step (fuel : nat) (sc : scope) (q : select) : EM (list val) :=
    match q with
    | Select star cols from where_ groupby orderby limit =>
        match limit with
        | Some n =>
            rows <- r_select R sc (Select star cols from where_ groupby orderby None) ;;
            mret (firstn (Z.to_nat (Z.max 1 n)) rows)
        | None =>
            match groupby with
            | Some g =>
                rows <- plugin_eval fuel sc from ;;
                bins <- group_rows (copy sc) star cols where_ g rows [] ;;
                let out := map (fun b => snd (snd b)) bins in
                match orderby with
                | None => mret out
                | Some (key, desc) => sort_rows sc key desc out
                end
            | None =>
                match orderby with
                | Some (key, desc) =>
                    rows <- r_select R sc (Select star cols from where_ None None None) ;;
                    sort_rows sc key desc rows
                | None =>
                    rows <- plugin_eval fuel sc from ;;
                    out <- mmap (process_row sc star cols where_) rows ;;
                    mret (List.concat out)
                end
            end
        end
    end.

  (** No counterpart in /repo: all the evaluators above, each written against
      the evaluators it calls. *)
  Definition step (fuel : nat) : evals :=
    {| r_expr := expr_step;
       r_select := select_step fuel;
       r_query := query_step;
       r_assoc := assoc_step;
       r_reduce := reduce_step;
       r_reduce_ws := reduce_ws_step;
       r_evalsym := evalsym_step;
       r_negate := negate_step;
       r_normalize := normalize_step;
       r_tostring := tostring_step |}.
End Step.

(** Out of fuel. No counterpart in /repo: the evaluators without fuel. *)
Definition ev0 : evals :=
  {| r_expr := fun _ _ => mfuel; r_select := fun _ _ => mfuel; r_query := fun _ _ => mfuel;
     r_assoc := fun _ _ _ => mfuel; r_reduce := fun _ => mfuel; r_reduce_ws := fun _ _ => mfuel;
     r_evalsym := fun _ _ => mfuel; r_negate := fun _ _ => mfuel;
     r_normalize := fun _ _ _ => mfuel; r_tostring := fun _ _ => mfuel |}.

(** No counterpart in /repo: the evaluators with fuel: calls nest at most that
    deep. *)
Fixpoint ev (E : env) (fuel : nat) : evals :=
  match fuel with
  | O => ev0
  | S f => step E (ev E f) f
  end.

(** ** Statements: vfilter.go:415-528 VQL.Eval; the scope of the session is
    changed by LET. *)

(** vfilter.go:539-580 getParameters: the map of defaults.  Only
    Unquote_ident of a lone backquote panics, and that is no identifier. *)
Definition unquoted (name : string) : string :=
  match unquote_ident name with Ok n => n | Panic => name end.

(** vfilter.go:539-581 getParameters *)
Definition param_defaults (params : list (string * option argval))
  : list (string * (string * argval)) :=
  fold_left (fun ds p =>
    match p with
    | (name, Some a) => dict_set (unquoted name) (name, a) ds
    | (_, None) => ds
    end) params [].

Section Statements.
  Variable R : evals.

  (** vfilter.go:415-528 Eval *)
  Definition stmt_eval (sc : scope) (q : stmt) : EM (scope * list val) :=
    match q with
    | SLet name params lazy body =>
        v <- (match body with
              | LExpr e =>
                  if lazy then
                    alloc (OExprDef {| e_expr := e; e_defaults := param_defaults params |})
                  else
                    x <- r_expr R sc e ;;
                    o <- obj_of x ;;
                    if is_query x o then materialize R sc x else mret x
              | LSelect s =>
                  if lazy then
                    alloc (OQuery {| q_select := s; q_defaults := param_defaults params |})
                  else q <- alloc (OSelect s) ;; materialize R sc q
              end) ;;
        mret (append_vars (VDict [(name, v)]) sc, [])
    | SQuery text s =>
        rows <- r_select R (append_vars (VDict [("$Query", VStr text)]) (copy sc)) s ;;
        mret (sc, rows)
    end.

  (** No counterpart in /repo: a host that evaluates statements one after the
      other in one scope. *)
  Fixpoint run_stmts (sc : scope) (qs : list stmt) : EM (scope * list (list val)) :=
    match qs with
    | [] => mret (sc, [])
    | q :: rest =>
        '(sc, rows) <- stmt_eval sc q ;;
        '(sc, out) <- run_stmts sc rest ;;
        mret (sc, match q with SQuery _ _ => rows :: out | _ => out end)
    end.

  (** lambda.go:41-57 Reduce *)
  Definition lambda_reduce (l : lambda) (sc : scope) (params : list val) : EM val :=
    if negb (Nat.eqb (List.length (l_params l)) (List.length params)) then mret VNull
    else
      let vars := fold_left (fun d kv => dict_set (fst kv) (snd kv) d)
                            (combine (l_params l) params) [] in
      r_expr R (append_vars (VDict vars) (copy sc)) (l_body l).
End Statements.

(** A new scope and a fresh state (scope.go:565-597). *)
Definition scope0 : scope := {| sc_vars := [VDict [("NULL", VNull)]]; sc_depth := 0; sc_cell := 0 |}.
Definition st0 : st :=
  {| heap := []; split_nodes := []; node_funs := []; cells := [COwn 0]; ctxs := [[]];
     next_id := 0; trace := [] |}.

(** functions/builtin.go, plugins/builtins.go: those that are modelled. *)
Definition builtin_funs : list (string * func) :=
  [("dict", FDict); ("if", FIf); ("len", FLen); ("scope", FScope); ("get", FGet);
   ("split", FSplit); ("encode", FEncode); ("timestamp", FTimestamp); ("format", FFormat);
   ("count", FCount);
   ("sum", FSum); ("min", FMin); ("max", FMax); ("enumerate", FEnumerate)].
(** plugins/builtins.go:10-25 GetBuiltinPlugins *)
Definition builtin_plugs : list (string * plug) :=
  [("if", PlIf); ("flatten", PlFlatten); ("chain", PlChain); ("foreach", PlForeach);
   ("range", PlRange); ("scope", PlScope)].

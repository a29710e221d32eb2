(** Which mutexes the calls of the API lock, in which order, and goroutines
    that make such calls.  /repo/scope, /repo/vfilter.go, /repo/visitor.go,
    /repo/aggregators, /repo/arg_parser, /repo/protocols.

    Simplified: what a call computes is left out; atomic counters, sync.Map,
    channels and the locks of libraries (ordereddict, log) are left out;
    stack_depth, plugins, functions and throttler are read without a lock
    where the code does so. *)

From Coq Require Import List Bool PeanoNat.
Import ListNotations.
Open Scope nat_scope.

(** The mutexes. *)
Inductive lock : Type :=
| LDispatcher (d : nat)     (* scope/dispatcher.go:22 protocolDispatcher *)
| LDestructors (s : nat)    (* scope/scope.go:32 _destructors *)
| LScope (s : nat)          (* scope/scope.go:86 Scope *)
| LNode (n : nat)           (* vfilter.go: mu of VQL, _AliasedExpression, Plugin, _Value, _SymbolRef *)
| LParsers                  (* arg_parser/cache.go:12 and parser_mu of arg_parser/parser.go *)
| LAggregator (a : nat)     (* aggregators/aggregators.go:10 AggregatorCtx *)
| LWrapper (w : nat).       (* protocols/lazy_wrapper.go:111 LazyFunctionWrapper *)

(** The steps of a call that matter to others: Lock and Unlock of a sync.Mutex,
    for example scope/scope.go:343-384. *)
Inductive act : Type := Acquire (l : lock) | Release (l : lock).

(** The scopes: scope/scope.go:343-384 Copy links a scope to its parent, which
    exists before it; scopes are numbered by NextId (scope.go:725-727). *)
Record scopes : Type := {
  parent : nat -> option nat;
  dispatcher_of : nat -> nat
}.

(** A part of the tree of a query as visitor.go walks over it: a node whose
    lock is held while its parts are visited (visitor.go:446-520
    visitAliasedExpression, visitor.go:532-640 visitSymbolRef), or is released
    before (visitor.go:719-780 visitValue, whose maybeParseStrNumber may log
    a message); the parts may be visited several times
    (visitor.go:1230-1277 abTest). *)
Inductive tree : Type := Tree (n : nat) (held : bool) (logs : bool) (parts : list tree).

(** A scope that is closed with its children, and how many rounds of
    destructors it takes. scope/scope.go:489-560 Close *)
Inductive closing : Type := Closing (s : nat) (children : list closing) (rounds : nat).

(** The calls.  [cb] is what the host's code, called back while a lock is
    held, calls itself. *)
Inductive call : Type :=
| CScope (s : nat)
    (* scope/scope.go: SetAggregatorCtx 119-128, NewScope 154-171, ClearContext 181-190,
       SetContext 192-197, CheckForOverflow 251-266 and Resolve 634-646 (their locks), StackDepth,
       Copy 343-384, AppendVars 395-404, EnableExplain 616-621;
       scope/internal.go:6-22 *)
| CFindAggregator (s : nat) (up : nat)
    (* scope/scope.go:131-143 GetAggregatorCtx, found [up] scopes further up *)
| CAddDestructor (s : nat) (closed : bool)     (* scope/scope.go:465-480 *)
| CIsClosed (s : nat)                          (* scope/scope.go:482-487 *)
| CClose (t : closing)                         (* scope/scope.go:492-560 *)
| CSetThrottler (s : nat) (closed : bool)      (* scope/scope.go:238-243 *)
| CExplainer (s : nat) (on : bool)             (* scope/scope.go:623-631 *)
| CPrintVars (s : nat) (cb : list call)        (* scope/scope.go:199-212: members of host objects *)
| CDispatcher (d : nat)
    (* scope/dispatcher.go: SetSorter, SetGrouper, SetMaterializer, SetExplainer, Explainer,
       GetLogger 66-119, Log 254-263, AddProtocolImpl 275-311, GetSimilarPlugins 314-332;
       scope/version.go:42-57 *)
| CInfo (d : nat) (cb : list call)
    (* scope/dispatcher.go: Describe 125-139, AppendPlugins 213-222, AppendFunctions 224-233,
       Info 242-252: the host's Info methods *)
| CModify (a : nat) (cb : list call)
    (* aggregators/aggregators.go:14-23: the modifier compares values or logs a message *)
| CNode (n : nat)
    (* vfilter.go:539-580, 827-849, 1216-1224, 1717-1750, 1914-1927, 1967-1972, 2008-2011 *)
| CReduceValue (n : nat) (logs : bool) (s : nat)   (* vfilter.go:1665-1714 *)
| CVisit (t : tree) (s : nat)                  (* visitor.go *)
| CParsers                                     (* arg_parser/cache.go:16-34, parser.go:502-508 *)
| CWrapper (w : nat) (cb : list call).         (* protocols/lazy_wrapper.go:121-142 *)

Section Script.
  Variable W : scopes.

  (** No counterpart in /repo: Lock, the body, and Unlock. *)
  Definition locked (l : lock) (body : list act) : list act := Acquire l :: body ++ [Release l].

  (** scope/scope.go:131-143 GetAggregatorCtx: the lock of a scope is held
      while the parent is asked. *)
  Fixpoint find_aggregator (up s : nat) : list act :=
    locked (LScope s)
      match up, parent W s with
      | S up, Some p => find_aggregator up p
      | _, _ => []
      end.

  (** scope/scope.go:465-480 AddDestructor *)
  Definition add_destructor (s : nat) (closed : bool) : list act :=
    locked (LScope s)
      (locked (LDestructors s) [] ++
       if closed then locked (LDispatcher (dispatcher_of W s)) []
       else locked (LDestructors s) []).

  (** scope/scope.go:492-560 Close.  The destructors are functions of the host
      that run in goroutines of their own, without a lock. *)
  Fixpoint close_scope (t : closing) : list act :=
    match t with
    | Closing s children rounds =>
        locked (LScope s) [] ++
        flat_map close_scope children ++
        match parent W s with Some p => locked (LScope p) [] | None => [] end ++
        concat (repeat (locked (LDestructors s) []) rounds) ++
        locked (LDestructors s) []
    end.

  (** visitor.go:446-520, 532-640, 719-780 *)
  Fixpoint visit (d : nat) (t : tree) : list act :=
    match t with
    | Tree n held logs parts =>
        let log := if logs then locked (LDispatcher d) [] else [] in
        if held then locked (LNode n) (log ++ flat_map (visit d) parts)
        else locked (LNode n) log ++ flat_map (visit d) parts
    end.

  (** The locks of a call, in the order in which they are taken and released.
      The lines are with the constructors of [call]. *)
  Fixpoint script (c : call) : list act :=
    match c with
    | CScope s => locked (LScope s) []
    | CFindAggregator s up => find_aggregator up s
    | CAddDestructor s closed => add_destructor s closed
    | CIsClosed s => locked (LScope s) (locked (LDestructors s) [])
    | CClose t => close_scope t
    | CSetThrottler s closed => locked (LScope s) [] ++ add_destructor s closed
    | CExplainer s on => locked (LScope s) (if on then locked (LDispatcher (dispatcher_of W s)) [] else [])
    | CPrintVars s cb => locked (LScope s) (flat_map script cb)
    | CDispatcher d => locked (LDispatcher d) []
    | CInfo d cb => locked (LDispatcher d) (flat_map script cb)
    | CModify a cb => locked (LAggregator a) (flat_map script cb)
    | CNode n => locked (LNode n) []
    | CReduceValue n logs s =>
        locked (LNode n) (if logs then locked (LDispatcher (dispatcher_of W s)) [] else [])
    | CVisit t s => visit (dispatcher_of W s) t
    | CParsers => locked LParsers []
    | CWrapper w cb => locked (LWrapper w) (flat_map script cb)
    end.
End Script.

(** ** Goroutines *)

(** sync.Mutex: who holds it, and what every goroutine has still to do. *)
Record locks_state : Type := {
  holder : lock -> option nat;
  todo : list (list act)
}.

(** Equality of mutexes. *)
Definition lock_eqb (a b : lock) : bool :=
  match a, b with
  | LDispatcher x, LDispatcher y | LDestructors x, LDestructors y | LScope x, LScope y
  | LNode x, LNode y | LAggregator x, LAggregator y | LWrapper x, LWrapper y => Nat.eqb x y
  | LParsers, LParsers => true
  | _, _ => false
  end.

(** No counterpart in /repo: goroutine [t] has [r] left to do. *)
Definition goes_on {A} (t : nat) (r : A) (l : list A) : list A :=
  firstn t l ++ r :: skipn (S t) l.

(** The semantics of sync.Mutex: Lock waits until the mutex is free.  Go's
    mutexes are not reentrant. *)
Definition lock_step (s : locks_state) (t : nat) : option locks_state :=
  match nth_error (todo s) t with
  | Some (Acquire l :: r) =>
      match holder s l with
      | None => Some {| holder := fun l' => if lock_eqb l l' then Some t else holder s l';
                        todo := goes_on t r (todo s) |}
      | Some _ => None
      end
  | Some (Release l :: r) =>
      Some {| holder := fun l' => if lock_eqb l l' then None else holder s l';
              todo := goes_on t r (todo s) |}
  | _ => None
  end.

(** Goroutines that make these calls, one after the other. *)
Definition goroutines (W : scopes) (calls : list (list call)) : locks_state :=
  {| holder := fun _ => None; todo := map (flat_map (script W)) calls |}.

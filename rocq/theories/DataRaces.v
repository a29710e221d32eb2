(** Which memory the calls on scopes read and write, and which locks they hold
    while they do it (scope/scope.go, scope/dispatcher.go).  Values behind the
    pointers that are read (rows, functions, plugins, loggers) are not part of
    this; neither are fields that never change after a scope is made (id,
    parent, stack_depth, the pointers of a dispatcher to its maps), sync.Map
    (the context) and the counters, which are atomic. [append] on the variables
    writes beyond the length of the slices that others have read, so only the
    field itself is a place. *)

From Coq Require Import List Bool Arith.
Import ListNotations.

(** ** Memory *)

(** The locks: of a scope (scope.go:85-86 Scope), of its destructors (32-37),
    of a dispatcher (dispatcher.go:21-22 protocolDispatcher). *)
Inductive lock : Type := LScope (s : nat) | LDestructors (s : nat) | LDispatcher (d : nat).

(** The fields of scope.go:85-113 Scope and dispatcher.go:21-56
    protocolDispatcher that change, and the contents of its maps. The twelve
    lists of implementations (30-41) are taken as one place. *)
Inductive place : Type :=
| PVars (s : nat)
| PDispatcher (s : nat)
| PAggregator (s : nat)
| PChildren (s : nat)
| PEnableExplain (s : nat)
| PDestructors (s : nat)
| PThrottler (s : nat)
| PFunctions (m : nat)
| PPlugins (m : nat)
| PImpl (d : nat)
| PSorter (d : nat)
| PGrouper (d : nat)
| PMaterializer (d : nat)
| PExplainer (d : nat)
| PLogger (d : nat)
| PTracer (d : nat).

Scheme Equality for lock.
Scheme Equality for place.

(** How scopes are linked: the dispatcher and the parent of a scope (scope.go:85-113),
    the scopes that GetAggregatorCtx visits (scope.go:131-143), and the maps of
    a dispatcher, which WithNewContext (dispatcher.go:141-167) shares. *)
Record layout : Type := {
  disp : nat -> nat;
  up : nat -> option nat;
  lineage : nat -> list nat;
  funs : nat -> nat;
  plugs : nat -> nat
}.

(** ** Calls *)

(** A section: what is done between the first lock and the unlock of all; Go's
    Lock and deferred Unlock (scope.go:119-126). *)
Inductive step : Type := Take (l : lock) | Touch (writes : bool) (p : place).
(** No counterpart in /repo: reading and writing. *)
Definition Rd (p : place) : step := Touch false p.
(** No counterpart in /repo: reading and writing. *)
Definition Wr (p : place) : step := Touch true p.

(** The methods of types/scope.go:21-131 Scope. *)
Inductive call : Type :=
| AppendVars (s : nat) | Resolve (s : nat) | Operator (s : nat) | PrintVars (s : nat) | Marshal (s : nat)
| Copy (s : nat) | NewScope (s : nat) | Close (s : nat) | AddDestructor (s : nat) | AddDestructorLate (s : nat) | IsClosed (s : nat)
| ClearContext (s : nat) | SetContext (s : nat) | GetContext (s : nat)
| AppendFunctions (s : nat) | AppendPlugins (s : nat) | AddProtocolImpl (s : nat)
| GetFunction (s : nat) | GetPlugin (s : nat) | Info (s : nat) | Describe (s : nat) | SimilarPlugins (s : nat)
| VersionOfPlugin (s : nat) | VersionOfFunction (s : nat)
| SetSorter (s : nat) | Sort (s : nat) | SetGrouper (s : nat) | Group (s : nat)
| SetMaterializer (s : nat) | Materialize (s : nat)
| SetExplainer (s : nat) | EnableExplain (s : nat) | Explainer (s : nat)
| SetLogger (s : nat) | GetLogger (s : nat) | Log (s : nat) | SetTracer (s : nat) | Trace (s : nat)
| SetThrottler (s : nat) | ChargeOp (s : nat)
| SetAggregatorCtx (s : nat) | GetAggregatorCtx (s : nat).

Section Calls.
  Variable L : layout.

  (** dispatcher.go:141-167 WithNewContext: the fields, the maps only as
      pointers. *)
  Definition fields (d : nat) : list step :=
    [Rd (PImpl d); Rd (PSorter d); Rd (PGrouper d); Rd (PMaterializer d); Rd (PLogger d); Rd (PTracer d)].

  (** scope.go:465-480 AddDestructor, 39-61 IsDestroyed and AddDestructor: the
      lock of the destructors is taken twice there, here once. *)
  Definition add_destructor (s : nat) : list step :=
    [Take (LScope s); Take (LDestructors s); Rd (PDestructors s); Wr (PDestructors s)].

  (** What each method does; lines of scope/scope.go unless said otherwise. *)
  Definition sections (c : call) : list (list step) :=
    match c with
    | AppendVars s => [[Take (LScope s); Rd (PVars s); Wr (PVars s)]]                           (* 395-404 *)
    | Resolve s =>                                                                             (* 634-647, 251-258 *)
        [[Take (LScope s); Rd (PVars s)]; [Take (LScope s); Rd (PVars s)];
         [Rd (PDispatcher s); Rd (PImpl (disp L s))]]
    | Operator s => [[Rd (PDispatcher s); Rd (PImpl (disp L s))]]                              (* 267-329 *)
    | PrintVars s => [[Take (LScope s); Rd (PVars s); Rd (PDispatcher s); Rd (PImpl (disp L s))]] (* 199-212 *)
    | Marshal s => [[Rd (PVars s)]; [Rd (PDispatcher s); Rd (PImpl (disp L s))]]                (* marshal.go:19-54 *)
    | Copy s =>                                                                                (* 343-384 *)
        [[Take (LScope s); Rd (PDispatcher s); Rd (PVars s); Rd (PEnableExplain s); Rd (PThrottler s);
          Rd (PChildren s); Wr (PChildren s)]]
    | NewScope s =>                                                                            (* 154-171; dispatcher.go:169-206 *)
        [[Take (LScope s); Rd (PDispatcher s); Rd (PFunctions (funs L (disp L s)));
          Rd (PPlugins (plugs L (disp L s)))] ++ fields (disp L s) ++
         [Rd (PExplainer (disp L s)); Rd (PThrottler s)]]
    | Close s =>                                                                               (* 492-559, without the destructors' own calls *)
        [[Take (LScope s); Rd (PChildren s)]] ++
        match up L s with Some p => [[Take (LScope p); Rd (PChildren p); Wr (PChildren p)]] | None => [] end ++
        [[Take (LDestructors s); Rd (PDestructors s); Wr (PDestructors s)]]
    | AddDestructor s => [add_destructor s]                                                    (* 465-480, the scope is open *)
    | AddDestructorLate s =>                                                                   (* 465-480, the scope is closed: it logs *)
        [[Take (LScope s); Take (LDestructors s); Rd (PDestructors s); Rd (PDispatcher s);
          Take (LDispatcher (disp L s)); Rd (PLogger (disp L s))]]
    | IsClosed s => [[Take (LScope s); Take (LDestructors s); Rd (PDestructors s)]]             (* 482-487 *)
    | ClearContext s =>                                                                        (* 181-190 *)
        [[Take (LScope s); Rd (PDispatcher s)] ++ fields (disp L s) ++ [Wr (PDispatcher s)]]
    | SetContext s => [[Take (LScope s); Rd (PDispatcher s)]]                                   (* 192-197 *)
    | GetContext s => [[Rd (PDispatcher s)]]                                                   (* 177-179 *)
    | AppendFunctions s =>                                                                     (* 408-411; dispatcher.go:220-230 *)
        [[Rd (PDispatcher s); Take (LDispatcher (disp L s)); Wr (PFunctions (funs L (disp L s)))]]
    | AppendPlugins s =>                                                                       (* 415-418; dispatcher.go:208-218 *)
        [[Rd (PDispatcher s); Take (LDispatcher (disp L s)); Wr (PPlugins (plugs L (disp L s)))]]
    | AddProtocolImpl s =>                                                                     (* 389-392; dispatcher.go:275-311 *)
        [[Rd (PDispatcher s); Take (LDispatcher (disp L s)); Rd (PImpl (disp L s)); Wr (PImpl (disp L s))]]
    | GetFunction s => [[Rd (PDispatcher s); Rd (PFunctions (funs L (disp L s)))]]              (* dispatcher.go:232-235 *)
    | GetPlugin s => [[Rd (PDispatcher s); Rd (PPlugins (plugs L (disp L s)))]]                 (* dispatcher.go:237-240 *)
    | Info s => [[Rd (PDispatcher s); Take (LDispatcher (disp L s)); Rd (PPlugins (plugs L (disp L s)))]] (* dispatcher.go:242-252 *)
    | Describe s =>                                                                            (* dispatcher.go:125-139 *)
        [[Rd (PDispatcher s); Take (LDispatcher (disp L s)); Rd (PPlugins (plugs L (disp L s)));
          Rd (PFunctions (funs L (disp L s)))]]
    | SimilarPlugins s =>                                                                      (* dispatcher.go:313-331 *)
        [[Rd (PDispatcher s); Take (LDispatcher (disp L s)); Rd (PPlugins (plugs L (disp L s)))]]
    | VersionOfPlugin s =>                                                                     (* version.go:42-45 *)
        [[Rd (PDispatcher s); Take (LDispatcher (disp L s)); Rd (PDispatcher s); Rd (PPlugins (plugs L (disp L s)))]]
    | VersionOfFunction s =>                                                                   (* version.go:51-54 *)
        [[Rd (PDispatcher s); Take (LDispatcher (disp L s)); Rd (PDispatcher s); Rd (PFunctions (funs L (disp L s)))]]
    | SetSorter s => [[Rd (PDispatcher s); Take (LDispatcher (disp L s)); Wr (PSorter (disp L s))]]   (* dispatcher.go:66-70 *)
    | Sort s => [[Rd (PDispatcher s); Rd (PSorter (disp L s))]]                                 (* 452-456 *)
    | SetGrouper s => [[Rd (PDispatcher s); Take (LDispatcher (disp L s)); Wr (PGrouper (disp L s))]] (* dispatcher.go:72-76 *)
    | Group s => [[Rd (PDispatcher s); Rd (PGrouper (disp L s))]]                               (* 458-461 *)
    | SetMaterializer s =>                                                                     (* dispatcher.go:78-82 *)
        [[Rd (PDispatcher s); Take (LDispatcher (disp L s)); Wr (PMaterializer (disp L s))]]
    | Materialize s => [[Rd (PDispatcher s); Rd (PMaterializer (disp L s))]]                    (* 331-334 *)
    | SetExplainer s => [[Rd (PDispatcher s); Take (LDispatcher (disp L s)); Wr (PExplainer (disp L s))]] (* dispatcher.go:84-88 *)
    | EnableExplain s => [[Take (LScope s); Wr (PEnableExplain s)]]                             (* 616-621 *)
    | Explainer s =>                                                                           (* 623-631; dispatcher.go:90-99 *)
        [[Take (LScope s); Rd (PEnableExplain s); Rd (PDispatcher s); Take (LDispatcher (disp L s));
          Rd (PExplainer (disp L s))]]
    | SetLogger s => [[Rd (PDispatcher s); Wr (PLogger (disp L s))]]                            (* 115-117 *)
    | GetLogger s => [[Rd (PDispatcher s); Take (LDispatcher (disp L s)); Rd (PLogger (disp L s))]] (* dispatcher.go:114-119 *)
    | Log s => [[Rd (PDispatcher s); Take (LDispatcher (disp L s)); Rd (PLogger (disp L s))]]   (* 432-446; dispatcher.go:254-263 *)
    | SetTracer s => [[Rd (PDispatcher s); Wr (PTracer (disp L s))]]                            (* 145-147 *)
    | Trace s => [[Rd (PDispatcher s); Rd (PTracer (disp L s))]]                                (* dispatcher.go:265-270 *)
    | SetThrottler s => [[Take (LScope s); Wr (PThrottler s)]; add_destructor s]                (* 238-243 *)
    | ChargeOp s => [[Rd (PThrottler s)]]                                                      (* 245-249 *)
    | SetAggregatorCtx s => [[Take (LScope s); Wr (PAggregator s)]]                             (* 119-128 *)
    | GetAggregatorCtx s =>                                                                    (* 131-143; the lock of a child is kept *)
        [flat_map (fun a => [Take (LScope a); Rd (PAggregator a)]) (lineage L s) ++
         match rev (lineage L s) with a :: _ => [Wr (PAggregator a)] | [] => [] end]
    end.
End Calls.

(** ** Goroutines *)

(** No counterpart in /repo: a goroutine, with what is left of its sections and
    the locks that it holds. *)
Record goroutine : Type := Gor { todo : list (list step); held : list lock }.

(** No counterpart in /repo: Go's sync.Mutex. *)
Definition free (l : lock) (st : list goroutine) : bool :=
  forallb (fun g => negb (existsb (lock_beq l) (held g))) st.

(** No counterpart in /repo: one action of goroutine [t], [None] if it cannot
    go on. *)
Definition act (g : goroutine) (st : list goroutine) : option goroutine :=
  match todo g with
  | [] => None
  | [] :: rest => Some (Gor rest [])
  | (Take l :: r) :: rest => if free l st then Some (Gor (r :: rest) (l :: held g)) else None
  | (Touch _ _ :: r) :: rest => Some (Gor (r :: rest) (held g))
  end.
(** No counterpart in /repo: the list with another element at [t]. *)
Fixpoint put {A} (t : nat) (a : A) (l : list A) : list A :=
  match l, t with
  | [], _ => []
  | _ :: r, O => a :: r
  | x :: r, S t => x :: put t a r
  end.
(** No counterpart in /repo: one action of goroutine [t]. *)
Definition go (st : list goroutine) (t : nat) : option (list goroutine) :=
  match nth_error st t with
  | Some g => match act g st with Some g' => Some (put t g' st) | None => None end
  | None => None
  end.
(** No counterpart in /repo: a schedule names the goroutine that acts next. *)
Fixpoint run (st : list goroutine) (schedule : list nat) : option (list goroutine) :=
  match schedule with
  | [] => Some st
  | t :: r => match go st t with Some st' => run st' r | None => None end
  end.

(** No counterpart in /repo: goroutines that make these calls one after the
    other. *)
Definition start (L : layout) (calls : list (list call)) : list goroutine :=
  map (fun l => Gor (flat_map (sections L) l) []) calls.
